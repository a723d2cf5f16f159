(** * Property C99: which CSV files the Python programs read, and as what. *)

From Coq Require Import Reals ZArith List Bool Ascii Lra Lia Psatz.
From Flocq Require Import Core.
From Verif Require Import Py XReal XFacts ListFacts CsvText CsvFacts PropCsvText.
Import ListNotations.
Local Open Scope R_scope.

(** ** Specification *)
(** a cell: any characters but the separator, the quotation mark and the two line end characters *)
Definition cell (c : text) : Prop := Forall (fun x => x <> comma /\ x <> bar /\ x <> nl /\ x <> cr) c.
(** the cells of one line, separated by commas; the blank line has no cells (a single empty cell would look the same) *)
Definition cells_of (row : list text) : Prop := Forall cell row /\ row <> [[]].
(** the line end of Unix or of Windows *)
Definition line_end (e : text) : Prop := e = [nl] \/ e = [cr; nl].
(** the text of a table: every line has its own kind of line end, the last line needs none *)
Inductive file : list (list text) -> text -> Prop :=
| file_end : file [] []
| file_open row : cells_of row -> row <> [] -> file [row] (join [comma] row)
| file_line row e rows t : cells_of row -> line_end e -> file rows t -> file (row :: rows) (join [comma] row ++ e ++ t).
(** tab, vertical tab, form feed and the space; the line ends cannot occur in a cell *)
Definition blank (c : ascii) : Prop := (nat_of_ascii c = 9 \/ nat_of_ascii c = 11 \/ nat_of_ascii c = 12 \/ nat_of_ascii c = 32)%nat.
(** a decimal number: blanks, sign, digits with or without a point, exponent or none, blanks *)
Inductive decimal : text -> R -> Prop :=
| decimal_integer before sign s int ex e after :
    Forall blank before -> Forall blank after -> (sign = [] \/ sign = [plus]) /\ s = 1 \/ sign = [minus] /\ s = -1 ->
    Forall is_digit int -> int <> [] -> exponent ex e ->
    decimal (before ++ sign ++ int ++ ex ++ after) (s * (IZR (numeral int) * powerRZ 10 e))
| decimal_point before sign s int frac ex e after :
    Forall blank before -> Forall blank after -> (sign = [] \/ sign = [plus]) /\ s = 1 \/ sign = [minus] /\ s = -1 ->
    Forall is_digit int -> Forall is_digit frac -> int ++ frac <> [] -> exponent ex e ->
    decimal (before ++ sign ++ int ++ [dot] ++ frac ++ ex ++ after) (s * (IZR (numeral (int ++ frac)) / 10 ^ length frac * powerRZ 10 e)).

(** ** The cells *)
Lemma cell_plain c : cell c -> Forall plain c.
Proof. apply Forall_impl. intros a (A & B & C & D). now repeat split. Qed.
Definition endings : list (list (option ascii)) := [[None]; [Some nl; None]; [Some cr; Some nl; None]].
Lemma run_cells row : forall s0 pre rest, Forall cell row -> row <> [] -> (s0 = StartRecord /\ row <> [[]] \/ s0 = StartField) -> In rest endings ->
  crun (mkC s0 [] pre) (map Some (join [comma] row) ++ rest) = Ok (mkC StartRecord [] (pre ++ row)).
Proof.
  induction row as [|f row IH]; intros s0 pre rest F NE S0 R; [easy|]. inversion F as [|? ? C F']; subst. apply cell_plain in C.
  destruct row as [|g row].
  - cbn [join]. destruct f as [|c f].
    + destruct S0 as [[_ H]| ->]; [easy|]. destruct R as [<-|[<-|[<-|[]]]]; reflexivity.
    + rewrite run_field; [|tauto|easy]. destruct R as [<-|[<-|[<-|[]]]]; reflexivity.
  - change (join [comma] (f :: g :: row)) with (f ++ comma :: join [comma] (g :: row)). rewrite map_app, <- app_assoc.
    assert (N : crun (mkC StartField [] (pre ++ [f])) (map Some (join [comma] (g :: row)) ++ rest) = Ok (mkC StartRecord [] (pre ++ f :: g :: row))).
    { rewrite IH; [now rewrite <- app_assoc|easy|easy|now right|easy]. }
    destruct f as [|c f].
    + cbn [app map]. cbn [crun]. replace (cstep (mkC s0 [] pre) (Some comma)) with (Ok (mkC StartField [] (pre ++ [[]]))) by (destruct S0 as [[-> _]| ->]; reflexivity).
      cbn [bind]. exact N.
    + rewrite run_field; [|tauto|easy]. cbn [map]. rewrite <- app_comm_cons. cbn [crun].
      replace (cstep (mkC InField (c :: f) pre) (Some comma)) with (Ok (mkC StartField [] (pre ++ [c :: f]))) by reflexivity. cbn [bind]. exact N.
Qed.
Lemma cells_no_nl row : Forall cell row -> Forall (fun c => c <> nl) (join [comma] row).
Proof.
  induction 1 as [|f row C F IH]; [constructor|]. assert (N : Forall (fun c => c <> nl) f) by (eapply Forall_impl; [|exact C]; cbn; tauto).
  destruct row as [|g row]; [exact N|]. change (join [comma] (f :: g :: row)) with (f ++ comma :: join [comma] (g :: row)).
  apply Forall_app. split; [exact N|]. constructor; [easy|exact IH].
Qed.
Lemma lines_open l : l <> [] -> Forall (fun c => c <> nl) l -> lines l = [l].
Proof.
  induction l as [|c l IH]; [easy|]. intros _ F. inversion F; subst. cbn [lines]. rewrite neqb by easy.
  destruct l as [|d l]; [reflexivity|]. now rewrite IH.
Qed.
(** The reader returns exactly the cells of every line, whatever the line ends are. *)
Theorem C99_cells : forall rows t, file rows t -> csv_reader t = Ok rows.
Proof.
  intros rows t F. unfold csv_reader. induction F as [|row [C NB] NE|row e rows t [C NB] E F IH].
  - reflexivity.
  - assert (J : join [comma] row <> []).
    { destruct row as [|f [|g row]]; [easy|cbn [join]; intros ->; now apply NB|]. change (join [comma] (f :: g :: row)) with (f ++ comma :: join [comma] (g :: row)). now destruct f. }
    rewrite lines_open; [|exact J|now apply cells_no_nl]. cbn [records]. unfold cinit. rewrite (run_cells row StartRecord [] [None]); [reflexivity|easy|easy|now left|now left].
  - assert (L : lines (join [comma] row ++ e ++ t) = (join [comma] row ++ e) :: lines t).
    { destruct E as [-> | ->].
      - apply lines_app. now apply cells_no_nl.
      - replace (join [comma] row ++ [cr; nl] ++ t) with ((join [comma] row ++ [cr]) ++ nl :: t) by (rewrite <- app_assoc; reflexivity).
        rewrite lines_app; [now rewrite <- app_assoc|]. apply Forall_app. split; [now apply cells_no_nl|]. constructor; [easy|constructor]. }
    rewrite L. cbn [records].
    assert (R : crun cinit (map Some (join [comma] row ++ e) ++ [None]) = Ok (mkC StartRecord [] row)).
    { unfold cinit. rewrite map_app, <- app_assoc. destruct row as [|f row].
      - destruct E as [-> | ->]; reflexivity.
      - rewrite (run_cells (f :: row) StartRecord []); [reflexivity|easy|easy|now left|]. destruct E as [-> | ->]; [right; now left|right; right; now left]. }
    rewrite R. cbn [bind st fields]. now rewrite IH.
Qed.

(** ** The numbers *)
Lemma blank_space c : blank c -> is_space c = true.
Proof.
  unfold blank, is_space. intros H. rewrite orb_true_iff, andb_true_iff, !Nat.leb_le, Nat.eqb_eq. lia.
Qed.
Lemma digit_parts c : is_digit c -> is_space c = false /\ Ascii.eqb c minus = false /\ Ascii.eqb c plus = false /\ Ascii.eqb c dot = false /\ digit_val c <> None.
Proof.
  unfold is_digit. intros D. split; [|split; [|split; [|split]]].
  - unfold is_space. set (n := nat_of_ascii c) in *. destruct (Nat.leb_spec 9 n), (Nat.leb_spec n 13), (Nat.eqb_spec n 32); cbn; try lia; easy.
  - destruct (Ascii.eqb_spec c minus) as [-> |]; [cbn in D; lia|easy].
  - destruct (Ascii.eqb_spec c plus) as [-> |]; [cbn in D; lia|easy].
  - destruct (Ascii.eqb_spec c dot) as [-> |]; [cbn in D; lia|easy].
  - unfold digit_val. destruct (Nat.leb_spec 48 (nat_of_ascii c)); [|lia]. destruct (Nat.leb_spec (nat_of_ascii c) 57); [|lia]. easy.
Qed.
Lemma lstrip_blanks b t : Forall blank b -> lstrip (b ++ t) = lstrip t.
Proof. induction 1 as [|c b B F IH]; [easy|]. cbn [app lstrip]. now rewrite (blank_space c B). Qed.
(** text that begins and ends with a character other than white space *)
Definition solid (t : text) : Prop := (exists c u, t = c :: u /\ is_space c = false) /\ (exists c u, t = u ++ [c] /\ is_space c = false).
Lemma strip_solid b t a : Forall blank b -> Forall blank a -> solid t -> strip (b ++ t ++ a) = t.
Proof.
  intros B A [(c & u & E & C) (d & w & E' & D)]. unfold strip. rewrite lstrip_blanks by easy.
  assert (X : lstrip (t ++ a) = t ++ a) by (rewrite E; cbn [app lstrip]; now rewrite C). rewrite X, rev_app_distr.
  rewrite lstrip_blanks by now apply Forall_rev. rewrite E', rev_app_distr. cbn [rev app lstrip]. rewrite D. cbn [rev].
  now rewrite rev_involutive.
Qed.
Lemma solid_app t u : solid t -> solid u -> solid (t ++ u).
Proof.
  intros [(c & v & E & C) _] [_ (d & w & E' & D)]. split.
  - exists c, (v ++ u). now rewrite E.
  - exists d, (t ++ w). now rewrite E', app_assoc.
Qed.
Lemma digits_solid t : Forall is_digit t -> t <> [] -> solid t.
Proof.
  intros F N. split.
  - destruct t as [|c u]; [easy|]. exists c, u. split; [easy|]. inversion F; subst. now apply digit_parts.
  - destruct (exists_last N) as (u & c & ->). exists c, u. split; [easy|]. apply Forall_app in F as [_ F]. inversion F; subst. now apply digit_parts.
Qed.
Lemma char_solid c : is_space c = false -> solid [c].
Proof. intros H. split; exists c, []; easy. Qed.
Lemma exponent_solid t ex e : solid t -> exponent ex e -> solid (t ++ ex).
Proof.
  intros S X. destruct ex as [|c u]; [now rewrite app_nil_r|]. apply solid_app; [exact S|].
  pose proof (exponent_first (c :: u) e X) as F. cbn in F. split.
  - exists c, u. split; [easy|]. destruct (is_space c); [|easy]. tauto.
  - assert (L : forall pre (ds : text), Forall is_digit ds -> ds <> [] -> exists d w, pre ++ ds = w ++ [d] /\ is_space d = false).
    { intros pre ds D N. destruct (digits_solid ds D N) as [_ (d & w & -> & H)]. exists d, (pre ++ w). split; [now rewrite app_assoc|easy]. }
    inversion X as [|? sign ds M G D NE|? ds M D NE]; subst.
    + now apply (L (c :: sign)).
    + now apply (L [c; minus]).
Qed.
Lemma parse_signed sign s body n d e : (sign = [] \/ sign = [plus]) /\ s = 1 \/ sign = [minus] /\ s = -1 ->
  solid body -> match body with c :: _ => is_digit c \/ c = dot | [] => False end -> parse_unsigned body = Some (n, d, e) ->
  forall b a, Forall blank b -> Forall blank a -> py_float (b ++ sign ++ body ++ a) = Ok (to_double (s * scaled n d e)).
Proof.
  intros G SB FB P b a B A. unfold py_float.
  assert (SS : solid (sign ++ body)).
  { destruct G as [[[-> | ->] _]|[-> _]]; [exact SB|apply solid_app; [now apply char_solid|exact SB]|apply solid_app; [now apply char_solid|exact SB]]. }
  replace (b ++ sign ++ body ++ a) with (b ++ (sign ++ body) ++ a) by now rewrite <- !app_assoc. rewrite strip_solid by easy.
  destruct G as [[[-> | ->] ->]|[-> ->]]; cbn [app].
  - destruct body as [|c body]; [easy|].
    assert (X : Ascii.eqb c minus = false /\ Ascii.eqb c plus = false).
    { destruct FB as [D| ->]; [|easy]. destruct (digit_parts c D) as (_ & X & Y & _). easy. }
    destruct X as [-> ->]. now rewrite P.
  - cbn. now rewrite P.
  - cbn. now rewrite P.
Qed.
(** A decimal number is read as the double nearest to it, whatever blanks surround it. *)
Theorem C99_number : forall t x, decimal t x -> py_float t = Ok (to_double x).
Proof.
  intros t x [b sign s int ex e a B A G D N X|b sign s int frac ex e a B A G D F N X]; pose proof (exponent_first ex e X) as FX.
  - replace (b ++ sign ++ int ++ ex ++ a) with (b ++ sign ++ (int ++ ex) ++ a) by (rewrite <- !app_assoc; reflexivity).
    rewrite (parse_signed sign s (int ++ ex) (numeral int) 0 e); [|exact G|now apply (exponent_solid _ _ e); [apply digits_solid|]| | |exact B|exact A].
    + do 2 f_equal. unfold scaled. cbn [Z.of_nat Z.pow]. f_equal. f_equal. unfold Rdiv. rewrite Rinv_1. now rewrite Rmult_1_r.
    + destruct int; [easy|]. inversion D; now left.
    + unfold parse_unsigned. rewrite (take_stop int); [|easy|destruct ex; cbn in *; tauto]. cbn [Nat.add].
      assert (E : take_fraction (numeral int) ex = (numeral int, O, ex)).
      { unfold take_fraction. destruct ex as [|c ex]; [easy|]. destruct (Ascii.eqb_spec c dot) as [-> |]; [|easy]. exfalso. cbn in FX. tauto. }
      change (fold_left _ int 0%Z) with (numeral int). rewrite E, (exponent_parse ex e X). destruct int; [easy|]. reflexivity.
  - assert (NF : forall f : text, Forall is_digit f -> f = [] \/ solid f) by (intros f FF; destruct f; [now left|right; now apply digits_solid]).
    assert (SD : solid [dot]) by now apply char_solid.
    assert (SB : solid (int ++ [dot] ++ frac)).
    { destruct (NF int D) as [-> |SI], (NF frac F) as [-> |SF]; cbn [app].
      - easy.
      - now apply (solid_app [dot]).
      - now apply solid_app.
      - apply solid_app; [easy|]. now apply (solid_app [dot]). }
    replace (b ++ sign ++ int ++ [dot] ++ frac ++ ex ++ a) with (b ++ sign ++ ((int ++ [dot] ++ frac) ++ ex) ++ a) by (rewrite <- !app_assoc; reflexivity).
    rewrite (parse_signed sign s _ (numeral (int ++ frac)) (length frac) e); [|exact G|now apply (exponent_solid _ _ e)| | |exact B|exact A].
    + do 2 f_equal. unfold scaled. f_equal. f_equal. f_equal. symmetry. apply pow_IZR.
    + destruct int; [now right|]. inversion D; now left.
    + unfold parse_unsigned. rewrite <- !app_assoc. rewrite (take_stop int); [|easy|cbn; unfold is_digit; cbn; lia].
      unfold take_fraction. cbn [app]. rewrite Ascii.eqb_refl. rewrite (take_stop frac); [|easy|destruct ex; cbn in *; tauto]. cbn [Nat.add].
      rewrite (exponent_parse ex e X). destruct (length int + length frac =? 0)%nat eqn:Z0.
      * apply Nat.eqb_eq in Z0. rewrite <- app_length in Z0. now apply length_zero_iff_nil in Z0.
      * unfold numeral. now rewrite fold_left_app.
Qed.
(** Conversely a cell that is read is such a number between white space: no other text made of digits, points, signs, the
    letter e and white space is read. *)
Definition white_space (c : ascii) : Prop := (9 <= nat_of_ascii c <= 13 \/ nat_of_ascii c = 32)%nat.
Lemma white_is c : is_space c = true -> white_space c.
Proof. unfold is_space, white_space. rewrite orb_true_iff, andb_true_iff, !Nat.leb_le, Nat.eqb_eq. tauto. Qed.
Lemma lstrip_inv t : exists b, Forall white_space b /\ t = b ++ lstrip t.
Proof.
  induction t as [|c t (b & B & E)]; [now exists []|]. cbn [lstrip]. destruct (is_space c) eqn:S; [|now exists []].
  exists (c :: b). split; [constructor; [now apply white_is|exact B]|]. cbn. now f_equal.
Qed.
Lemma strip_inv t : exists b a, Forall white_space b /\ Forall white_space a /\ t = b ++ strip t ++ a.
Proof.
  destruct (lstrip_inv t) as (b & B & E). destruct (lstrip_inv (rev (lstrip t))) as (a & A & F). exists b, (rev a).
  split; [exact B|]. split; [now apply Forall_rev|]. rewrite E at 1. f_equal. unfold strip. rewrite <- rev_app_distr, <- F. now rewrite rev_involutive.
Qed.
Lemma take_inv t : forall acc cnt x k rest, take_digits acc cnt t = (x, k, rest) ->
  exists ds, t = ds ++ rest /\ Forall is_digit ds /\ (k = cnt + length ds)%nat /\ x = fold_left (fun a c => 10 * a + (Z.of_nat (nat_of_ascii c) - 48))%Z ds acc.
Proof.
  induction t as [|c t IH]; intros acc cnt x k rest H; cbn [take_digits] in H.
  - injection H as <- <- <-. exists []. split; [easy|]. split; [constructor|]. split; [cbn; lia|easy].
  - destruct (digit_val c) as [d|] eqn:D.
    + destruct (IH _ _ _ _ _ H) as (ds & -> & F & -> & ->). unfold digit_val in D.
      destruct (Nat.leb_spec 48 (nat_of_ascii c)) as [L|]; [|discriminate D]. destruct (Nat.leb_spec (nat_of_ascii c) 57) as [U|]; [|discriminate D].
      injection D as <-. exists (c :: ds). split; [easy|]. split; [now constructor|]. split; [cbn; lia|]. cbn [fold_left]. now rewrite Nat2Z.inj_sub.
    + injection H as <- <- <-. exists []. split; [easy|]. split; [constructor|]. split; [cbn; lia|easy].
Qed.
Lemma exponent_inv t e : parse_exponent t = Some e -> exponent t e.
Proof.
  destruct t as [|c t]; cbn [parse_exponent]; [intros [= <-]; constructor|]. destruct (is_e c) eqn:M; [|discriminate]. apply mark_e in M.
  destruct (exp_digits t) as [[x r]|] eqn:D; [|discriminate]. destruct r; [|discriminate]. intros [= <-]. unfold exp_digits in D.
  assert (G : forall (sg : Z) body, (let '(e, k, rest) := take_digits 0 0 body in if (k =? 0)%nat then None else Some ((sg * e)%Z, rest)) = Some (x, []) ->
    Forall is_digit body /\ body <> [] /\ x = (sg * numeral body)%Z).
  { intros sg body H. destruct (take_digits 0 0 body) as [[y k] r] eqn:T. destruct (take_inv _ _ _ _ _ _ T) as (ds & -> & F & -> & ->).
    destruct ((0 + length ds) =? 0)%nat eqn:K; [discriminate H|]. injection H as <- ->. rewrite app_nil_r. split; [exact F|]. split; [now intros -> |easy]. }
  destruct t as [|c' t]; [discriminate D|].
  destruct (Ascii.eqb_spec c' minus) as [-> |_]; [|destruct (Ascii.eqb_spec c' plus) as [-> |_]]; apply G in D as (F & N & ->).
  - replace (-1 * numeral t)%Z with (- numeral t)%Z by lia. now constructor.
  - rewrite Z.mul_1_l. apply (exponent_plus c [plus]); auto.
  - rewrite Z.mul_1_l. apply (exponent_plus c []); auto.
Qed.
Theorem C99_only_numbers : forall t x, py_float t = Ok x ->
  exists before number after y, t = before ++ number ++ after /\ Forall white_space before /\ Forall white_space after /\ decimal number y /\ x = to_double y.
Proof.
  intros t x H. destruct (strip_inv t) as (b & a & B & A & E). unfold py_float in H. set (u := strip t) in *. clearbody u.
  assert (G : forall sign s body, (sign = [] \/ sign = [plus]) /\ s = 1 \/ sign = [minus] /\ s = -1 -> u = sign ++ body ->
    match parse_unsigned body with Some (n, d, e) => Ok (to_double (s * scaled n d e)) | None => Err ValueError end = Ok x ->
    exists y, decimal u y /\ x = to_double y).
  { intros sign s body G -> K. destruct (parse_unsigned body) as [[[n d] e]|] eqn:P; [|discriminate K]. injection K as <-. unfold parse_unsigned in P.
    destruct (take_digits 0 0 body) as [[int k] rest] eqn:T. destruct (take_inv _ _ _ _ _ _ T) as (ds & -> & F & -> & ->). change (fold_left _ ds 0%Z) with (numeral ds) in *.
    assert (INT : forall r, (0 + length ds + 0 =? 0)%nat = false -> parse_exponent r = Some e -> exists y, decimal (sign ++ ds ++ r) y /\ to_double (s * scaled (numeral ds) 0 e) = to_double y).
    { intros r Z0 X. exists (s * (IZR (numeral ds) * powerRZ 10 e)). split.
      - pose proof (decimal_integer [] sign s ds r e [] ltac:(constructor) ltac:(constructor) G F ltac:(intros ->; discriminate Z0) (exponent_inv r e X)) as Q.
        cbn [app] in Q. rewrite app_nil_r in Q. exact Q.
      - f_equal. unfold scaled, Rdiv. change (IZR (10 ^ Z.of_nat 0)) with 1. rewrite Rinv_1. ring. }
    destruct rest as [|c r]; cbn [take_fraction] in P.
    - destruct (0 + length ds + 0 =? 0)%nat eqn:Z0; [discriminate P|]. destruct (parse_exponent []) as [e'|] eqn:X; [|discriminate P]. injection P as <- <- <-. now apply INT.
    - destruct (Ascii.eqb_spec c dot) as [-> |_].
      + destruct (take_digits (numeral ds) 0 r) as [[n' d'] r'] eqn:T'. destruct (take_inv _ _ _ _ _ _ T') as (fs & -> & F' & -> & ->).
        destruct (0 + length ds + (0 + length fs) =? 0)%nat eqn:Z0; [discriminate P|]. destruct (parse_exponent r') as [e'|] eqn:X; [|discriminate P]. injection P as <- <- <-.
        exists (s * (IZR (numeral (ds ++ fs)) / 10 ^ length fs * powerRZ 10 e')). split.
        * assert (NE : ds ++ fs <> []). { intros Q. apply app_eq_nil in Q as [-> ->]. discriminate Z0. }
          pose proof (decimal_point [] sign s ds fs r' e' [] ltac:(constructor) ltac:(constructor) G F F' NE (exponent_inv r' e' X)) as Q.
          cbn [app] in Q. rewrite app_nil_r in Q. exact Q.
        * f_equal. unfold scaled. f_equal. f_equal. f_equal; [f_equal; unfold numeral; now rewrite fold_left_app|]. f_equal. symmetry. apply pow_IZR.
      + destruct (0 + length ds + 0 =? 0)%nat eqn:Z0; [discriminate P|]. destruct (parse_exponent (c :: r)) as [e'|] eqn:X; [|discriminate P]. injection P as <- <- <-. now apply INT. }
  assert (K : exists y, decimal u y /\ x = to_double y).
  { destruct u as [|c u]; [discriminate H|].
    destruct (Ascii.eqb_spec c minus) as [-> |_]; [|destruct (Ascii.eqb_spec c plus) as [-> |_]].
    - apply (G [minus] (-1) u); [now right|easy|exact H].
    - apply (G [plus] 1 u); [left; split; [now right|easy]|easy|exact H].
    - apply (G [] 1 (c :: u)); [left; split; [now left|easy]|easy|exact H]. }
  destruct K as (y & D & X). exists b, u, a, y. auto.
Qed.
Lemma blanks_raise c : Forall blank c -> py_float c = Err ValueError.
Proof.
  intros B. unfold py_float. replace (strip c) with (@nil ascii); [reflexivity|].
  unfold strip. rewrite <- (app_nil_r c), lstrip_blanks by easy. reflexivity.
Qed.

(** ** The table *)
Lemma Forall2_mapM {A B} (f : A -> res B) l m : Forall2 (fun x y => f x = Ok y) l m -> mapM f l = Ok m.
Proof. induction 1 as [|x y l m E F IH]; [easy|]. cbn [mapM]. rewrite E. cbn [bind]. now rewrite IH. Qed.
(** A file with equally long lines of numbers is read as the table of the nearest doubles: the line ends, the blanks around the numbers,
    plus signs, leading zeros and the number of digits do not matter. *)
Theorem C99_table : forall rows t values w, file rows t -> Forall (fun r => length r = w) rows ->
  Forall2 (Forall2 decimal) rows values -> read_array t = Ok (map (map to_double) values).
Proof.
  intros rows t values w F W D. unfold read_array. rewrite (C99_cells rows t F). cbn [bind]. destruct rows as [|r rows].
  - now inversion D.
  - assert (L : forallb (fun r' => length r' =? length r)%nat (r :: rows) = true).
    { apply forallb_forall. intros r' I. rewrite Forall_forall in W. apply Nat.eqb_eq. rewrite (W r' I), (W r (or_introl eq_refl)). easy. }
    rewrite L. apply Forall2_mapM. clear - D. remember (r :: rows) as l eqn:E. clear E. induction D as [|x y l m H D IH]; [constructor|]. cbn [map]. constructor; [|exact IH].
    apply Forall2_mapM. clear - H. induction H as [|c v l m H D IH]; [constructor|]. cbn [map]. constructor; [now apply C99_number|exact IH].
Qed.
(** Lines of unequal length, a blank line among others and an empty cell raise ValueError. *)
Lemma mapM_raises {A B} (f : A -> res B) l x : (forall y e, In y l -> f y = Err e -> e = ValueError) -> In x l -> f x = Err ValueError -> mapM f l = Err ValueError.
Proof.
  induction l as [|y l IH]; intros H I E; [easy|]. cbn [mapM]. destruct (f y) as [b|e] eqn:Y; cbn [bind].
  - destruct I as [-> |I]; [congruence|]. rewrite IH; [easy| |easy|easy]. intros z e' Z. apply H. now right.
  - f_equal. apply (H y); [now left|exact Y].
Qed.
Lemma float_errors c e : py_float c = Err e -> e = ValueError.
Proof.
  unfold py_float. destruct (match strip c with [] => _ | _ => _ end) as [s b]. destruct (parse_unsigned b) as [[[n d] x]|]; congruence.
Qed.
Lemma mapM_errors {A B} (f : A -> res B) l e : (forall y e, In y l -> f y = Err e -> e = ValueError) -> mapM f l = Err e -> e = ValueError.
Proof.
  induction l as [|y l IH]; intros H E; [discriminate|]. cbn [mapM] in E. destruct (f y) as [b|e'] eqn:Y; cbn [bind] in E.
  - destruct (mapM f l) as [m|e'']; cbn [bind] in E; [discriminate|]. apply IH; [intros z e' Z; apply H; now right|]. congruence.
  - apply (H y); [now left|]. congruence.
Qed.
Theorem C99_raises : forall rows t, file rows t ->
  (exists r r', In r rows /\ In r' rows /\ length r <> length r') \/ (exists r c, In r rows /\ In c r /\ Forall blank c) ->
  read_array t = Err ValueError.
Proof.
  intros rows t F H. unfold read_array. rewrite (C99_cells rows t F). cbn [bind]. destruct rows as [|r0 rows].
  { destruct H as [(r & _ & [] & _)|(r & _ & [] & _)]. }
  destruct (forallb _ _) eqn:L; [|reflexivity]. rewrite forallb_forall in L. destruct H as [(r & r' & I & I' & N)|(r & c & I & J & B)].
  - apply L, Nat.eqb_eq in I, I'. congruence.
  - apply (mapM_raises _ _ r); [|exact I|].
    + intros y e _ E. apply mapM_errors in E; [exact E|]. intros z e' _. apply float_errors.
    + apply (mapM_raises _ _ c); [|exact J|now apply blanks_raise]. intros y e _. apply float_errors.
Qed.

(** 1.5,+2e3 with a line end of Windows and then -03.25 , 7.E-1 without any line end *)
Definition of_codes (l : list nat) : text := map ascii_of_nat l.
Definition text99 : text := of_codes [49; 46; 53; 44; 43; 50; 101; 51; 13; 10; 45; 48; 51; 46; 50; 53; 32; 44; 32; 55; 46; 69; 45; 49]%nat.
Definition rows99 : list (list text) :=
  [[of_codes [49; 46; 53]; of_codes [43; 50; 101; 51]]; [of_codes [45; 48; 51; 46; 50; 53; 32]; of_codes [32; 55; 46; 69; 45; 49]]]%nat.
Lemma cell_codes l : forallb (fun n => (n <? 128)%nat && negb ((n =? 10) || (n =? 13) || (n =? 44) || (n =? 124))%nat) l = true -> cell (of_codes l).
Proof.
  intros H. rewrite forallb_forall in H. apply Forall_forall. intros x I. apply in_map_iff in I as (n & <- & I). specialize (H n I).
  apply andb_true_iff in H as [B H]. apply Nat.ltb_lt in B. apply negb_true_iff in H. rewrite !orb_false_iff, !Nat.eqb_neq in H.
  assert (E : nat_of_ascii (ascii_of_nat n) = n) by (apply nat_ascii_embedding; lia).
  repeat split; intros Q; rewrite Q in E; cbn in E; lia.
Qed.
Ltac value := match goal with |- context [numeral ?t] => let z := eval vm_compute in (numeral t) in change (numeral t) with z end; unfold powerRZ; simpl; lra.
Example C99_example : file rows99 text99 /\ read_array text99 = Ok [[to_double (3 / 2); to_double 2000]; [to_double (- (13 / 4)); to_double (7 / 10)]].
Proof.
  assert (CL : Forall cells_of rows99).
  { constructor; [|constructor; [|constructor]]; (split; [|discriminate]); (constructor; [|constructor; [|constructor]]); apply cell_codes; reflexivity. }
  inversion CL as [|? ? C1 CL']; subst. inversion CL' as [|? ? C2 _]; subst.
  assert (F : file rows99 text99).
  { change text99 with (join [comma] (nth 0 rows99 []) ++ [cr; nl] ++ join [comma] (nth 1 rows99 [])).
    apply file_line; [exact C1|now right|]. apply (file_open (nth 1 rows99 [])); [exact C2|easy]. }
  split; [exact F|].
  rewrite (C99_table rows99 text99 [[3 / 2; 2000]; [- (13 / 4); 7 / 10]] 2 F); [reflexivity|repeat constructor|].
  assert (BK : Forall blank (of_codes [32%nat])) by (repeat constructor; right; right; right; reflexivity).
  assert (DG : forall l, forallb (fun n => (48 <=? n) && (n <=? 57))%nat l = true -> Forall is_digit (of_codes l)).
  { intros l H. rewrite forallb_forall in H. apply Forall_forall. intros x I. apply in_map_iff in I as (n & <- & I). specialize (H n I).
    apply andb_true_iff in H as [H1 H2]. apply Nat.leb_le in H1, H2. unfold is_digit. rewrite nat_ascii_embedding by lia. lia. }
  constructor; [|constructor; [|constructor]]; (constructor; [|constructor; [|constructor]]).
  - replace (3 / 2) with (1 * (IZR (numeral (of_codes [49%nat] ++ of_codes [53%nat])) / 10 ^ length (of_codes [53%nat]) * powerRZ 10 0)) by value.
    apply (decimal_point [] [] 1 (of_codes [49%nat]) (of_codes [53%nat]) [] 0 []); [constructor|constructor|left; split; [now left|easy]|now apply DG|now apply DG|easy|constructor].
  - replace 2000 with (1 * (IZR (numeral (of_codes [50%nat])) * powerRZ 10 (numeral (of_codes [51%nat])))) by (change (numeral (of_codes [51%nat])) with 3%Z; value).
    apply (decimal_integer [] [plus] 1 (of_codes [50%nat]) (of_codes [101; 51]%nat) _ []); [constructor|constructor|left; split; [now right|easy]|now apply DG|easy|].
    apply (exponent_plus (ascii_of_nat 101) [] (of_codes [51%nat])); [now left|now left|now apply DG|easy].
  - replace (- (13 / 4)) with (-1 * (IZR (numeral (of_codes [48; 51]%nat ++ of_codes [50; 53]%nat)) / 10 ^ length (of_codes [50; 53]%nat) * powerRZ 10 0)) by value.
    apply (decimal_point [] [minus] (-1) (of_codes [48; 51]%nat) (of_codes [50; 53]%nat) [] 0 (of_codes [32%nat])); [constructor|exact BK|now right|now apply DG|now apply DG|easy|constructor].
  - replace (7 / 10) with (1 * (IZR (numeral (of_codes [55%nat] ++ [])) / 10 ^ length (@nil ascii) * powerRZ 10 (- numeral (of_codes [49%nat])))) by (change (- numeral (of_codes [49%nat]))%Z with (-1)%Z; value).
    apply (decimal_point (of_codes [32%nat]) [] 1 (of_codes [55%nat]) [] (of_codes [69; 45; 49]%nat) _ []); [exact BK|constructor|left; split; [now left|easy]|now apply DG|constructor|easy|].
    apply (exponent_minus (ascii_of_nat 69) (of_codes [49%nat])); [now right|now apply DG|easy].
Qed.
(** a file with a blank line between two lines *)
Example C99_raises_example : read_array (of_codes [49; 10; 10; 50; 10]%nat) = Err ValueError.
Proof.
  apply (C99_raises [[of_codes [49%nat]]; []; [of_codes [50%nat]]]).
  - change (of_codes [49; 10; 10; 50; 10]%nat) with (join [comma] [of_codes [49%nat]] ++ [nl] ++ (join [comma] [] ++ [nl] ++ (join [comma] [of_codes [50%nat]] ++ [nl] ++ []))).
    apply file_line; [split; [constructor; [now apply cell_codes|constructor]|easy]|now left|].
    apply file_line; [split; [constructor|easy]|now left|].
    apply file_line; [split; [constructor; [now apply cell_codes|constructor]|easy]|now left|constructor].
  - left. exists [of_codes [49%nat]], []. split; [now left|]. split; [right; now left|easy].
Qed.
