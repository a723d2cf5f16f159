(** * Property C75: the files of the batch estimator. *)

From Coq Require Import Reals ZArith String List Bool Ascii Lra Lia.
From Flocq Require Import Core Relative.
From Verif Require Import Py XReal CsvText CsvFacts ListFacts PropCsvText Estimator.
Import ListNotations.
Local Open Scope R_scope.

(** ** Lists of options *)
Lemma all_some_iff {A B} (f : A -> option B) l ys : all_some f l = Some ys <-> Forall2 (fun x y => f x = Some y) l ys.
Proof.
  revert ys; induction l as [|x l IH]; intros ys; cbn [all_some].
  - split; [intros [= <-]; constructor|now inversion 1].
  - destruct (f x) as [y|] eqn:E; cbn [bind_option].
    + destruct (all_some f l) as [zs|] eqn:R; cbn [bind_option].
      * split; [intros [= <-]; constructor; [easy|now apply IH]|].
        inversion 1 as [|? ? ? ? H1 H2]; subst. rewrite E in H1. injection H1 as <-. apply IH in H2. now injection H2 as <-.
      * split; [easy|]. inversion 1 as [|? ? ? ? H1 H2]; subst. now apply IH in H2.
    + split; [easy|]. inversion 1 as [|? ? ? ? H1 H2]; subst. congruence.
Qed.
Lemma all_some_bind {A B C} (f : A -> option B) (g : B -> option C) l ys : all_some f l = Some ys ->
  all_some (fun x => bind_option (f x) g) l = all_some g ys.
Proof.
  revert ys; induction l as [|x l IH]; intros ys; cbn [all_some]; [now intros [= <-]|].
  destruct (f x) as [y|]; [|easy]. cbn [bind_option]. destruct (all_some f l) as [zs|]; [|easy]. cbn [bind_option].
  intros [= <-]. cbn [all_some]. now rewrite (IH zs).
Qed.
Lemma all_some_app {A B} (f : A -> option B) l l' : all_some f l = None -> all_some f (l ++ l') = None.
Proof.
  induction l as [|x l IH]; [easy|]. cbn [all_some app]. destruct (f x); [|easy]. cbn [bind_option].
  destruct (all_some f l); [easy|]. now rewrite IH.
Qed.
Lemma all_some_none {A B} (f : A -> option B) l x : In x l -> f x = None -> all_some f l = None.
Proof.
  induction l as [|y l IH]; intros I E; [easy|]. cbn [all_some]. destruct I as [-> |I]; [now rewrite E|].
  destruct (f y); [|easy]. cbn [bind_option]. now rewrite IH.
Qed.

(** ** Splitting *)
Lemma getlines_last (d : ascii) (l : text) : Forall (fun c => c <> d) l -> l <> [] -> getlines d l = [l].
Proof.
  induction l as [|c l IH]; intros P NE; [easy|]. inversion P; subst. cbn [getlines]. rewrite neqb by easy.
  destruct l as [|c' l]; [easy|]. now rewrite IH.
Qed.
Lemma getlines_app (d : ascii) (l t : text) : Forall (fun c => c <> d) l -> getlines d (l ++ d :: t) = l :: getlines d t.
Proof.
  induction l as [|c l IH]; intros P; cbn [app getlines]; [now rewrite Ascii.eqb_refl|]. inversion P; subst.
  rewrite neqb by easy. now rewrite IH.
Qed.
Lemma lines_last l : Forall (fun c => c <> nl) l -> l <> [] -> lines l = [l].
Proof.
  induction l as [|c l IH]; intros P NE; [easy|]. inversion P; subst. cbn [lines]. rewrite neqb by easy.
  destruct l as [|c' l]; [easy|]. now rewrite IH.
Qed.
Lemma first_piece (d : ascii) (t : text) : Forall (fun c => c <> d) t \/ exists l t', Forall (fun c => c <> d) l /\ t = l ++ d :: t'.
Proof.
  induction t as [|c t IH]; [left; constructor|]. destruct (Ascii.eqb_spec c d) as [-> |N].
  - right. exists [], t. split; [constructor|easy].
  - destruct IH as [IH|(l & t' & P & ->)]; [left; now constructor|right; exists (c :: l), t'; split; [now constructor|easy]].
Qed.
(** all pieces, with the empty one after a final comma *)
Fixpoint split (l : text) : list text :=
  match l with
  | [] => [[]]
  | c :: l' => if Ascii.eqb c comma then [] :: split l' else match split l' with [] => [[c]] | p :: ps => (c :: p) :: ps end
  end.
Lemma split_ne l : split l <> [].
Proof. destruct l as [|c l]; [easy|]. cbn [split]. destruct (Ascii.eqb c comma); [easy|]. now destruct (split l). Qed.
Lemma split_getlines l : l <> [] -> last (split l) [] <> [] -> getlines comma l = split l.
Proof.
  induction l as [|c l IH]; [easy|]. intros _. cbn [split getlines]. destruct (Ascii.eqb c comma) eqn:E.
  - destruct l as [|c' l]; [easy|]. intros L. rewrite IH; [easy|easy|].
    pose proof (split_ne (c' :: l)). destruct (split (c' :: l)); [easy|]. exact L.
  - destruct l as [|c' l]; [easy|]. pose proof (split_ne (c' :: l)) as NE. intros L.
    destruct (split (c' :: l)) as [|p ps] eqn:S; [easy|].
    destruct ps as [|p' ps]; cbn [last] in L.
    + destruct p as [|x p].
      * cbn [split] in S. destruct (Ascii.eqb c' comma); [|destruct (split l); discriminate].
        destruct (split l) eqn:SL; [now apply split_ne in SL|discriminate].
      * rewrite IH; [easy|easy|]. cbn. easy.
    + rewrite IH; [easy|easy|]. exact L.
Qed.
Definition csvc (c : ascii) : Prop := c <> nl /\ c <> cr /\ c <> bar.
Definition line_end (e : list (option ascii)) : Prop := e = [Some nl; None] \/ e = [None].
Lemma run_split l : Forall csvc l -> forall e, line_end e -> forall fs,
  (forall acc, crun (mkC InField acc fs) (map Some l ++ e) =
     Ok (mkC StartRecord [] (fs ++ match split l with [] => [acc] | p :: ps => (acc ++ p) :: ps end))) /\
  (crun (mkC StartField [] fs) (map Some l ++ e) = Ok (mkC StartRecord [] (fs ++ split l))).
Proof.
  induction l as [|c l IH]; intros P e E fs.
  - split; [intros acc|]; destruct E as [-> | ->]; cbn; rewrite ?app_nil_r; reflexivity.
  - inversion P as [|? ? (C1 & C2 & C3) P']; subst. specialize (IH P' e E). cbn [map app crun split].
    destruct (Ascii.eqb c comma) eqn:CE.
    + apply Ascii.eqb_eq in CE. subst c. split; [intros acc|]; unfold cstep, start_field; cbn [st]; unfold is_nl.
      * change (crun (mkC StartField [] (fs ++ [acc])) (map Some l ++ e) = Ok (mkC StartRecord [] (fs ++ (acc ++ []) :: split l))).
        rewrite (proj2 (IH (fs ++ [acc]))), app_nil_r, <- app_assoc. reflexivity.
      * change (crun (mkC StartField [] (fs ++ [[]])) (map Some l ++ e) = Ok (mkC StartRecord [] (fs ++ [] :: split l))).
        rewrite (proj2 (IH (fs ++ [[]]))), <- app_assoc. reflexivity.
    + split; [intros acc|]; unfold cstep, start_field; cbn [st]; unfold is_nl;
        rewrite !(neqb c) by easy; cbn [orb]; rewrite CE; cbn [bind]; unfold addc; cbn [field fields].
      * rewrite (proj1 (IH fs)). pose proof (split_ne l). destruct (split l) as [|p ps]; [easy|]. now rewrite <- app_assoc.
      * rewrite (proj1 (IH fs)). pose proof (split_ne l). destruct (split l) as [|p ps]; [easy|]. reflexivity.
Qed.
Definition psplit (l : text) : list text := match l with [] => [] | _ => split l end.
Lemma run_psplit l e : Forall csvc l -> line_end e -> (l = [] -> e = [Some nl; None]) ->
  crun cinit (map Some l ++ e) = Ok (mkC StartRecord [] (psplit l)).
Proof.
  intros P E N. destruct l as [|c l]; [rewrite N by easy; reflexivity|].
  change (psplit (c :: l)) with ([] ++ split (c :: l)).
  rewrite <- (proj2 (run_split (c :: l) P e E [])). inversion P as [|? ? (C1 & C2 & C3) P']; subst.
  cbn [map app crun]. unfold cinit. f_equal. unfold cstep. cbn [st]. unfold is_nl. now rewrite !(neqb c) by easy.
Qed.
Definition clean (t : text) : Prop := Forall (fun c => c <> cr /\ c <> bar) t.
Lemma csvc_of l : clean l -> Forall (fun c => c <> nl) l -> Forall csvc l.
Proof. unfold clean. intros A B. rewrite Forall_forall in *. intros c I. destruct (A c I). now repeat split; try apply B. Qed.
Lemma csv_clean t : clean t -> csv_reader t = Ok (map psplit (getlines nl t)).
Proof.
  unfold csv_reader. remember (length t) as n eqn:L. revert t L. induction n as [n IH] using lt_wf_ind. intros t L C.
  destruct (first_piece nl t) as [P|(l & t' & P & ->)].
  - destruct t as [|c t]; [reflexivity|]. rewrite lines_last, getlines_last by easy. cbn [records].
    rewrite (run_psplit (c :: t) [None]); [reflexivity|now apply csvc_of|now right|easy].
  - rewrite lines_app, getlines_app by easy. cbn [records]. apply Forall_app in C as [C1 C2]. inversion C2; subst.
    rewrite map_app, <- app_assoc. cbn [map app].
    rewrite (run_psplit l [Some nl; None]); [|now apply csvc_of|now left|easy]. cbn [bind st fields].
    rewrite (IH (length t')); [reflexivity|rewrite app_length; cbn; lia|easy|easy].
Qed.

(** ** Numbers *)
Lemma lstrip_suffix t : exists s, Forall (fun c => is_space c = true) s /\ t = s ++ lstrip t.
Proof.
  induction t as [|c t [s [P E]]]; [now exists []|]. cbn [lstrip]. destruct (is_space c) eqn:S.
  - exists (c :: s). split; [now constructor|]. cbn. now f_equal.
  - now exists [].
Qed.
Lemma strip_prefix t : exists s, Forall (fun c => is_space c = true) s /\ lstrip t = strip t ++ s.
Proof.
  destruct (lstrip_suffix (rev (lstrip t))) as (s & P & E). exists (rev s). split; [now apply Forall_rev|].
  unfold strip. rewrite <- rev_app_distr, <- E. now rewrite rev_involutive.
Qed.
Lemma space_not_digit c : is_space c = true -> digit_val c = None.
Proof.
  unfold is_space, digit_val. set (n := nat_of_ascii c). destruct (Nat.leb_spec 48 n), (Nat.leb_spec n 57); cbn [andb]; try easy.
  destruct (Nat.leb_spec 9 n), (Nat.leb_spec n 13), (Nat.eqb_spec n 32); cbn; try easy; lia.
Qed.
Lemma take_app t s : Forall (fun c => is_space c = true) s -> forall acc cnt,
  take_digits acc cnt (t ++ s) = (fst (take_digits acc cnt t), snd (take_digits acc cnt t) ++ s).
Proof.
  intros P. induction t as [|c t IH]; intros acc cnt; cbn [app take_digits].
  - destruct s as [|c s]; [reflexivity|]. inversion P; subst. cbn [take_digits]. now rewrite space_not_digit.
  - destruct (digit_val c); [apply IH|reflexivity].
Qed.
Definition sign_of (t : text) : R * text :=
  match t with
  | c :: t' => if Ascii.eqb c minus then (-1, t') else if Ascii.eqb c plus then (1, t') else (1, t)
  | [] => (1, [])
  end.
Lemma stod_sign t : stod t =
  let '(sign, body) := sign_of (lstrip t) in
  let '(int, k, rest) := take_digits 0 0 body in
  let '(n, d, rest') := take_fraction int rest in
  let e :=
    match rest' with
    | c :: r => if is_e c then match exp_digits r with Some (e, _) => e | None => 0 end else 0
    | [] => 0
    end%Z in
  if (k + d =? 0)%nat then None else Some (to_double (sign * scaled n d e)).
Proof. reflexivity. Qed.
Lemma float_sign t : py_float t =
  let '(sign, body) := sign_of (strip t) in
  match parse_unsigned body with
  | Some (n, d, e) => Ok (to_double (sign * scaled n d e))
  | None => Err ValueError
  end.
Proof. reflexivity. Qed.
Lemma exp_app t s e : Forall (fun c => is_space c = true) s -> exp_digits t = Some (e, []) -> exp_digits (t ++ s) = Some (e, s).
Proof.
  intros P. unfold exp_digits. destruct t as [|c t]; [cbn; discriminate|]. cbn [app].
  assert (G : forall sg body, (let '(x, k, rest) := take_digits 0 0 body in if (k =? 0)%nat then None else Some ((sg * x)%Z, rest)) = Some (e, []) ->
    (let '(x, k, rest) := take_digits 0 0 (body ++ s) in if (k =? 0)%nat then None else Some ((sg * x)%Z, rest)) = Some (e, s)).
  { intros sg body. rewrite (take_app body s P). destruct (take_digits 0 0 body) as [[x k] rest]. cbn [fst snd].
    destruct (k =? 0)%nat; [discriminate|]. now intros [= <- ->]. }
  destruct (Ascii.eqb c minus); [apply G|]. destruct (Ascii.eqb c plus); [apply G|]. exact (G _ (c :: t)).
Qed.
Lemma space_not_e c : is_space c = true -> is_e c = false.
Proof.
  intros S. unfold is_e. destruct (Ascii.eqb_spec c (ascii_of_nat 101)) as [-> |]; [discriminate|].
  destruct (Ascii.eqb_spec c (ascii_of_nat 69)) as [-> |]; [discriminate|easy].
Qed.
Lemma stod_float t x : py_float t = Ok x -> stod t = Some x.
Proof.
  rewrite stod_sign, float_sign. destruct (strip_prefix t) as (s & P & ->).
  destruct (strip t) as [|c u].
  { cbn [sign_of]. unfold parse_unsigned. cbn [take_digits Nat.add Nat.eqb]. easy. }
  assert (SG : sign_of ((c :: u) ++ s) = (fst (sign_of (c :: u)), snd (sign_of (c :: u)) ++ s)).
  { cbn [app sign_of]. destruct (Ascii.eqb c minus); [easy|]. now destruct (Ascii.eqb c plus). }
  rewrite SG. destruct (sign_of (c :: u)) as [sg body]. cbn [fst snd]. unfold parse_unsigned.
  rewrite (take_app body s P). destruct (take_digits 0 0 body) as [[int k] rest]. cbn [fst snd].
  assert (D : take_fraction int (rest ++ s) = (fst (take_fraction int rest), snd (take_fraction int rest) ++ s)).
  { unfold take_fraction. destruct rest as [|c' rest']; cbn [app].
    - destruct s as [|c0 s]; [easy|]. inversion P; subst. destruct (Ascii.eqb_spec c0 dot) as [-> |]; [discriminate|easy].
    - destruct (Ascii.eqb c' dot); [|easy]. rewrite (take_app rest' s P). now destruct (take_digits int 0 rest') as [[n d] r]. }
  rewrite D. clear D. destruct (take_fraction int rest) as [[n d] r]. cbn [fst snd].
  destruct (k + d =? 0)%nat; [easy|]. destruct (parse_exponent r) as [e|] eqn:X; [|easy]. intros [= <-]. do 4 f_equal.
  destruct r as [|c' r]; cbn [app parse_exponent] in *.
  - destruct s as [|c0 s]; [congruence|]. inversion P; subst. rewrite space_not_e by easy. congruence.
  - destruct (is_e c'); [|easy]. destruct (exp_digits r) as [[e' r']|] eqn:Y; [|easy]. destruct r'; [|easy]. rewrite (exp_app r s e' P Y). congruence.
Qed.
Lemma float_empty x : py_float [] <> Ok x.
Proof. easy. Qed.

(** ** Rows *)
Lemma Forall2_mono {A B} (P Q : A -> B -> Prop) l k : (forall x y, P x y -> Q x y) -> Forall2 P l k -> Forall2 Q l k.
Proof. intros H F. induction F; constructor; auto. Qed.
Lemma Forall2_left {A B} (P : A -> B -> Prop) l k x : Forall2 P l k -> In x l -> exists y, In y k /\ P x y.
Proof.
  intros F. induction F as [|a b l k H F IH]; intros I; [easy|]. destruct I as [-> |I]; [exists b; split; [now left|easy]|].
  destruct (IH I) as (y & J & Y). exists y. split; [now right|easy].
Qed.
Lemma last_in {A} (l : list A) d : l <> [] -> In (last l d) l.
Proof.
  induction l as [|x l IH]; [easy|]. intros _. destruct l as [|y l]; [now left|]. right. now apply IH.
Qed.
Lemma cells_agree l r : Forall2 (fun f x => py_float f = Ok x) (psplit l) r -> all_some stod (getlines comma l) = Some r.
Proof.
  intros F. destruct l as [|c l]; [inversion F; subst; reflexivity|]. cbn [psplit] in F.
  rewrite split_getlines; [|easy|].
  - apply all_some_iff. eapply Forall2_mono; [|exact F]. intros; now apply stod_float.
  - intros E. assert (I := last_in (split (c :: l)) [] (split_ne _)). rewrite E in I.
    destruct (Forall2_left _ _ _ _ F I) as (y & _ & Y). exact (float_empty y Y).
Qed.

Lemma table_agrees t rows : clean t -> read_array t = Ok rows ->
  all_some (fun l => all_some stod (getlines comma l)) (getlines nl t) = Some rows.
Proof.
  intros C. unfold read_array. rewrite csv_clean by easy. cbn [bind]. intros E. apply all_some_iff.
  assert (F : Forall2 (fun r y => mapM py_float r = Ok y) (map psplit (getlines nl t)) rows).
  { destruct (map psplit (getlines nl t)) as [|r rs]; [injection E as <-; constructor|].
    destruct (forallb _ _); [|easy]. now apply mapM_Forall2. }
  clear E. remember (map psplit (getlines nl t)) as k eqn:K. revert K. generalize (getlines nl t).
  induction F as [|r y rs ys H F IH]; intros [|l ls] K; try discriminate K; [constructor|].
  injection K as -> ->. constructor; [apply cells_agree; now apply mapM_Forall2|now apply IH].
Qed.

(** ** What is added for a row of numbers *)
Definition adds {A} (neg : A -> A) (near_one : A * A * A * A -> bool) (use_jpl : bool) (row : list A) (m : measurement A) : Prop :=
  (exists s, row = [s] /\ m = Outlier s) \/
  (exists s x y z a b c d, row = [s; x; y; z; a; b; c; d] /\
     let q := if use_jpl then (a, b, c, d) else (neg a, neg b, neg c, d) in
     near_one q = true /\ m = Pose s q (x, y, z)).
Lemma adds_iff {A} (neg : A -> A) near_one jpl row m : measurement_of neg near_one jpl row = Some m <-> adds neg near_one jpl row m.
Proof.
  unfold adds, measurement_of, to_internal. split.
  - intros H. destruct row as [|v0 [|v1 [|v2 [|v3 [|v4 [|v5 [|v6 [|v7 [|v8 row]]]]]]]]]; try discriminate H.
    + left. injection H as <-. eauto.
    + right. destruct (near_one _) eqn:Q in H; [|discriminate H]. injection H as <-. do 8 eexists. split; [reflexivity|].
      cbv zeta. rewrite Q. easy.
  - intros [(s & -> & ->)|(s & x & y & z & a & b & c & d & -> & Q & ->)]; [easy|]. cbv zeta in Q. now rewrite Q.
Qed.

(** A file that the Python programs can read (without bars and carriage returns, which mean something to the csv
    module only) is read to the same numbers: the measurements are those of the rows. *)
Theorem C75_same_numbers : forall near_one use_jpl t rows,
  Forall (fun c => c <> cr /\ c <> bar) t -> read_array t = Ok rows ->
  forall ms, read_poses near_one use_jpl (Some t) = Some ms <-> Forall2 (adds Ropp near_one use_jpl) rows ms.
Proof.
  intros near jpl t rows C E ms. unfold read_poses, read_line. cbn [bind_option].
  rewrite (all_some_bind _ (measurement_of Ropp near jpl) _ rows (table_agrees t rows C E)), all_some_iff.
  split; apply Forall2_mono; intros; now apply adds_iff.
Qed.

(** The estimator's own format: cells without commas and line feeds, any text that std::stod accepts; a comma at the
    end of a line is ignored, and the last line needs no line feed. *)
Definition line_text (row : list text * bool) : text := join [comma] (fst row) ++ (if snd row then [comma] else []).
Definition cell (c : text) : Prop := Forall (fun x => x <> comma /\ x <> nl) c.
Definition well_formed (row : list text * bool) : Prop :=
  Forall cell (fst row) /\ fst row <> [] /\ (snd row = false -> last (fst row) [] <> []).
Definition numbers (row : list text * bool) (values : list R) : Prop := Forall2 (fun c v => stod c = Some v) (fst row) values.
Lemma getlines_join cells tc : Forall cell cells -> cells <> [] -> (tc = false -> last cells [] <> []) ->
  getlines comma (join [comma] cells ++ (if tc : bool then [comma] else [])) = cells.
Proof.
  assert (NC : forall c, cell c -> Forall (fun x => x <> comma) c) by (intros c; apply Forall_impl; intros a [H _]; exact H).
  induction cells as [|c cells IH]; [easy|]. intros F _ L. inversion F; subst. destruct cells as [|c' cells].
  - cbn [join]. destruct tc.
    + rewrite getlines_app by auto. reflexivity.
    + rewrite app_nil_r. apply getlines_last; [auto|]. now apply L.
  - change (join [comma] (c :: c' :: cells)) with (c ++ comma :: join [comma] (c' :: cells)). rewrite <- app_assoc. cbn [app].
    rewrite getlines_app by auto. f_equal. now apply IH.
Qed.
Lemma line_no_nl row : well_formed row -> Forall (fun x => x <> nl) (line_text row).
Proof.
  intros (F & _ & _). unfold line_text. apply Forall_app. split; [|destruct (snd row); repeat constructor; easy].
  induction (fst row) as [|c cells IH]; [constructor|]. inversion F as [|? ? C F']; subst.
  assert (NC : Forall (fun x => x <> nl) c) by (eapply Forall_impl; [|exact C]; intros a [_ H]; exact H).
  destruct cells as [|c' cells]; [exact NC|]. change (join [comma] (c :: c' :: cells)) with (c ++ comma :: join [comma] (c' :: cells)).
  apply Forall_app. split; [exact NC|]. constructor; [easy|]. now apply IH.
Qed.
Theorem C75_format : forall near_one use_jpl rows values (final_newline : bool),
  Forall well_formed rows -> Forall2 numbers rows values ->
  (rows = [] -> final_newline = true) ->
  let t := if final_newline then concat (map (fun row => line_text row ++ [nl]) rows) else join [nl] (map line_text rows) in
  forall ms, read_poses near_one use_jpl (Some t) = Some ms <-> Forall2 (adds Ropp near_one use_jpl) values ms.
Proof.
  intros near jpl rows values fin W V NE t ms. unfold read_poses, read_line. cbn [bind_option].
  assert (G : getlines nl t = map line_text rows).
  { subst t. destruct fin.
    - clear V NE. induction W as [|row rows W WS IH]; [reflexivity|]. cbn [map concat]. rewrite <- app_assoc. cbn [app].
      rewrite getlines_app by now apply line_no_nl. now rewrite IH.
    - assert (NR : rows <> []) by (intros ->; discriminate NE; easy). clear V NE. induction W as [|row rows W WS IH]; [easy|].
      assert (LN : line_text row <> []).
      { destruct W as (F & N1 & N2). unfold line_text. destruct (fst row) as [|c [|c' cells]]; [easy| |].
        - cbn [join]. destruct (snd row); [now destruct c|]. rewrite app_nil_r. now apply N2.
        - change (join [comma] (c :: c' :: cells)) with (c ++ comma :: join [comma] (c' :: cells)). now destruct c. }
      destruct rows as [|row' rows]; [cbn [map join]; apply getlines_last; [now apply line_no_nl|exact LN]|].
      change (join [nl] (map line_text (row :: row' :: rows))) with (line_text row ++ nl :: join [nl] (map line_text (row' :: rows))).
      rewrite getlines_app by now apply line_no_nl. now rewrite IH. }
  rewrite G. rewrite (all_some_bind _ (measurement_of Ropp near jpl) _ values).
  - rewrite all_some_iff. split; apply Forall2_mono; intros; now apply adds_iff.
  - apply all_some_iff. clear G NE t ms. induction V as [|row v rows values H V IH]; [constructor|]. inversion W as [|? ? (F & N1 & N2) WS]; subst.
    cbn [map]. constructor; [|now apply IH]. unfold line_text. rewrite getlines_join by easy. now apply all_some_iff.
Qed.
(** A blank line ends the process, wherever it is. *)
Theorem C75_blank : forall near_one use_jpl before after,
  (before = [] \/ exists t, before = t ++ [nl]) -> read_poses near_one use_jpl (Some (before ++ nl :: after)) = None.
Proof.
  intros near jpl before after B. unfold read_poses. cbn [bind_option].
  apply (all_some_none _ _ []); [|reflexivity].
  destruct B as [-> |(t & ->)]; [left; cbn [app getlines]; reflexivity|].
  rewrite <- app_assoc. cbn [app]. remember (length t) as n eqn:L. revert t L. induction n as [n IH] using lt_wf_ind. intros t L.
  destruct (first_piece nl t) as [P|(l & t' & P & ->)].
  - rewrite getlines_app by easy. right. left. reflexivity.
  - rewrite <- app_assoc. cbn [app]. rewrite getlines_app by easy. right. apply (IH (length t')); [rewrite L, app_length; cbn; lia|easy].
Qed.
Theorem C75_missing : forall near_one use_jpl, read_poses near_one use_jpl None = None.
Proof. reflexivity. Qed.

(** *** numbers *)
Lemma lstrip_spaces sp t : Forall (fun c => is_space c = true) sp -> not_first (fun c => is_space c = true) t -> lstrip (sp ++ t) = t.
Proof.
  intros S N. induction S as [|c sp H S IH]; cbn [app lstrip]; [|now rewrite H].
  destruct t as [|c t]; [easy|]. cbn [lstrip]. destruct (is_space c) eqn:E; [now destruct N|easy].
Qed.
Definition signed (sign : text) (s : R) : Prop := sign = [] /\ s = 1 \/ sign = [plus] /\ s = 1 \/ sign = [minus] /\ s = -1.
Lemma digit_props c : is_digit c -> is_space c = false /\ Ascii.eqb c minus = false /\ Ascii.eqb c plus = false /\ Ascii.eqb c dot = false.
Proof.
  unfold is_digit. intros D. split.
  - unfold is_space. set (n := nat_of_ascii c) in *.
    destruct (Nat.leb_spec 9 n), (Nat.leb_spec n 13), (Nat.eqb_spec n 32); cbn; try lia; easy.
  - repeat split; match goal with |- Ascii.eqb c ?d = _ => destruct (Ascii.eqb_spec c d) as [-> |]; [cbn in D; lia|easy] end.
Qed.
Lemma sign_split sp sign s body : Forall (fun c => is_space c = true) sp -> signed sign s ->
  match body with [] => True | c :: _ => is_space c = false /\ Ascii.eqb c minus = false /\ Ascii.eqb c plus = false end ->
  sign_of (lstrip (sp ++ sign ++ body)) = (s, body).
Proof.
  intros S G B. destruct G as [[-> ->]|[[-> ->]|[-> ->]]]; cbn [app].
  - rewrite lstrip_spaces; [|easy|destruct body; [easy|destruct B as (B & _); cbn; congruence]].
    destruct body as [|c body]; [easy|]. cbn [sign_of]. destruct B as (_ & -> & ->). reflexivity.
  - rewrite lstrip_spaces; [|easy|easy]. reflexivity.
  - rewrite lstrip_spaces; [|easy|easy]. reflexivity.
Qed.
(** tab, new line, vertical tab, form feed, carriage return and the space *)
Definition white (c : ascii) : Prop := (9 <= nat_of_ascii c <= 13 \/ nat_of_ascii c = 32)%nat.
Lemma white_space c : white c <-> is_space c = true.
Proof.
  unfold white, is_space. set (n := nat_of_ascii c). rewrite orb_true_iff, andb_true_iff, !Nat.leb_le, Nat.eqb_eq. tauto.
Qed.
(** no exponent begins here *)
Definition not_exponent (t : text) : Prop := forall ex e rest, t = ex ++ rest -> exponent ex e -> ex = [].
(** std::stod's reading of what follows the digits *)
Definition stod_exponent (t : text) : Z :=
  match t with
  | c :: r => if is_e c then match exp_digits r with Some (e, _) => e | None => 0 end else 0
  | [] => 0
  end%Z.
Lemma take_digits_all t : forall acc cnt x k rest, take_digits acc cnt t = (x, k, rest) ->
  exists ds, t = ds ++ rest /\ Forall is_digit ds /\ (k = cnt + length ds)%nat.
Proof.
  induction t as [|c t IH]; intros acc cnt x k rest H; cbn [take_digits] in H.
  - injection H as <- <- <-. exists []. repeat split; [constructor|cbn; lia].
  - destruct (digit_val c) as [d|] eqn:D.
    + destruct (IH _ _ _ _ _ H) as (ds & -> & F & ->). exists (c :: ds). repeat split; [|cbn; lia]. constructor; [|easy].
      unfold is_digit. unfold digit_val in D. destruct (Nat.leb_spec 48 (nat_of_ascii c)), (Nat.leb_spec (nat_of_ascii c) 57); try discriminate D. lia.
    + injection H as <- <- <-. exists []. repeat split; [constructor|cbn; lia].
Qed.
Lemma stod_exponent_spec ex e rest : exponent ex e -> not_first is_digit rest -> (ex = [] -> not_exponent rest) -> stod_exponent (ex ++ rest) = e.
Proof.
  intros X N NX. destruct ex as [|c u].
  - inversion X; subst. specialize (NX eq_refl). cbn [app]. destruct rest as [|c r]; [easy|]. cbn [stod_exponent].
    destruct (is_e c) eqn:E; [|easy]. destruct (exp_digits r) as [[e r']|] eqn:D; [|easy]. exfalso.
    assert (G : forall sg body y k r'', take_digits 0 0 body = (y, k, r'') -> (k =? 0)%nat = false ->
      r = sg ++ body -> (forall ds, Forall is_digit ds -> ds <> [] -> exists z, exponent (c :: sg ++ ds) z) -> False).
    { intros sg body y k r'' T K -> H. destruct (take_digits_all _ _ _ _ _ _ T) as (ds & -> & F & ->).
      assert (ds <> []) by (intros ->; discriminate K). destruct (H ds F) as (z & Hz); [easy|].
      specialize (NX (c :: sg ++ ds) z r''). enough (c :: sg ++ ds = []) by discriminate. apply NX; [|easy]. cbn. now rewrite <- app_assoc. }
    apply mark_e in E. unfold exp_digits in D. destruct r as [|c' r]; [discriminate D|].
    destruct (Ascii.eqb_spec c' minus) as [-> |_]; [|destruct (Ascii.eqb_spec c' plus) as [-> |_]].
    + destruct (take_digits 0 0 r) as [[y k] r''] eqn:T. destruct (k =? 0)%nat eqn:K; [discriminate D|].
      apply (G [minus] r y k r''); [exact T|exact K|easy|]. intros ds F NE. exists (- numeral ds)%Z. now constructor.
    + destruct (take_digits 0 0 r) as [[y k] r''] eqn:T. destruct (k =? 0)%nat eqn:K; [discriminate D|].
      apply (G [plus] r y k r''); [exact T|exact K|easy|]. intros ds F NE. exists (numeral ds). constructor; auto.
    + destruct (take_digits 0 0 (c' :: r)) as [[y k] r''] eqn:T. destruct (k =? 0)%nat eqn:K; [discriminate D|].
      apply (G [] (c' :: r) y k r''); [exact T|exact K|easy|]. intros ds F NE. exists (numeral ds). apply (exponent_plus c []); auto.
  - destruct (exponent_digits c u e rest X N) as [E D]. cbn [app stod_exponent]. now rewrite E, D.
Qed.
(** A number is read after white space and a sign, with its exponent if it has one, and whatever follows it is ignored; the
    value is the double nearest to the written number.  Without a digit there is no number. *)
Theorem C75_number : forall space sign s int frac ex e rest,
  Forall white space -> signed sign s ->
  Forall is_digit int -> Forall is_digit frac -> exponent ex e ->
  (int ++ frac <> [] -> not_first is_digit rest -> (ex = [] -> not_exponent rest) ->
     stod (space ++ sign ++ int ++ [dot] ++ frac ++ ex ++ rest) =
       Some (to_double (s * (IZR (numeral (int ++ frac)) / 10 ^ length frac * powerRZ 10 e)))) /\
  (int <> [] -> not_first is_digit rest -> (ex = [] -> not_exponent rest /\ not_first (eq dot) rest) ->
     stod (space ++ sign ++ int ++ ex ++ rest) = Some (to_double (s * (IZR (numeral int) * powerRZ 10 e)))) /\
  (not_first (fun c => is_digit c \/ c = dot \/ c = plus \/ c = minus \/ white c) rest ->
     stod (space ++ sign ++ rest) = None).
Proof.
  intros sp sign s int frac ex e rest S' G DI DF X.
  assert (S : Forall (fun c => is_space c = true) sp) by (clear - S'; induction S' as [|c sp W F IH]; constructor; [now apply white_space|exact IH]). clear S'.
  pose proof (exponent_first ex e X) as FX.
  assert (NF : not_first is_digit rest -> not_first is_digit (ex ++ rest)).
  { intros N. destruct ex as [|c ex]; [exact N|]. cbn in *. tauto. }
  split; [|split].
  - intros NE N NX. rewrite stod_sign, (sign_split sp sign s); [|exact S|exact G|].
    2:{ destruct int as [|c int']; [easy|]. cbn [app]. inversion DI as [|? ? Dc]; subst. destruct (digit_props _ Dc) as (? & ? & ? & ?). easy. }
    rewrite (take_stop int); [|easy|cbn; unfold is_digit; cbn; lia]. cbn [app]. unfold take_fraction. rewrite Ascii.eqb_refl, (take_stop frac) by auto.
    fold (stod_exponent (ex ++ rest)). rewrite (stod_exponent_spec ex e rest) by auto.
    rewrite !Nat.add_0_l, <- app_length.
    destruct (length (int ++ frac) =? 0)%nat eqn:Z0; [apply Nat.eqb_eq, length_zero_iff_nil in Z0; easy|].
    do 3 f_equal. unfold scaled. rewrite <- fold_left_app. unfold numeral. f_equal. f_equal. f_equal. symmetry. apply pow_IZR.
  - intros NE N NX. rewrite stod_sign, (sign_split sp sign s); [|exact S|exact G|].
    2:{ destruct int as [|c int']; [easy|]. cbn [app]. inversion DI as [|? ? Dc]; subst. destruct (digit_props _ Dc) as (? & ? & ? & ?). easy. }
    rewrite (take_stop int) by auto.
    assert (E : take_fraction (numeral int) (ex ++ rest) = (numeral int, O, ex ++ rest)).
    { unfold take_fraction. destruct (ex ++ rest) as [|c r] eqn:Q; [easy|]. destruct (Ascii.eqb_spec c dot) as [-> |]; [|easy]. exfalso. destruct ex as [|c ex].
      - destruct (NX eq_refl) as [_ H]. cbn [app] in Q. rewrite Q in H. now apply H.
      - injection Q as -> _. cbn in FX. tauto. }
    change (fold_left _ int 0%Z) with (numeral int). rewrite E, Nat.add_0_r, Nat.add_0_l.
    fold (stod_exponent (ex ++ rest)). rewrite (stod_exponent_spec ex e rest) by (auto; intros K; now apply NX).
    destruct (length int =? 0)%nat eqn:Z0; [apply Nat.eqb_eq, length_zero_iff_nil in Z0; easy|].
    cbv zeta. assert (V : s * scaled (numeral int) 0 e = s * (IZR (numeral int) * powerRZ 10 e)); [|now rewrite V]. unfold scaled, Rdiv. change (IZR (10 ^ Z.of_nat 0)) with 1. rewrite Rinv_1. ring.
  - intros N. rewrite stod_sign, (sign_split sp sign s).
    + assert (E : take_digits 0 0 rest = (0%Z, O, rest)).
      { destruct rest as [|c rest]; [easy|]. cbn [take_digits]. rewrite (proj2 (digit_val_iff c)); [easy|]. intros K; apply N; now left. }
      rewrite E. unfold take_fraction. destruct rest as [|c rest]; [easy|]. destruct (Ascii.eqb_spec c dot) as [-> |]; [|easy]. destruct N. right. now left.
    + easy.
    + easy.
    + destruct rest as [|c rest]; [easy|]. cbn in N. split; [|split].
      * destruct (is_space c) eqn:W; [|easy]. apply white_space in W. destruct N. tauto.
      * destruct (Ascii.eqb_spec c minus) as [-> |]; [|easy]. destruct N. tauto.
      * destruct (Ascii.eqb_spec c plus) as [-> |]; [|easy]. destruct N. tauto.
Qed.

(** ** The length of the quaternion *)
Definition length4 (q : R * R * R * R) : R := let '(a, b, c, d) := q in sqrt (a * a + b * b + c * c + d * d).
(** CHECK_NEAR(1, q.norm(), 1e-8), up to one percent for the rounding of the sum, the root and the comparison *)
Definition checks_length (near_one : R * R * R * R -> bool) : Prop := forall q,
  (Rabs (length4 q - 1) <= 99 / 10 ^ 10 -> near_one q = true) /\ (101 / 10 ^ 10 <= Rabs (length4 q - 1) -> near_one q = false).
Lemma length_conj (jpl : bool) a b c d : length4 (if jpl then (a, b, c, d) else (-a, -b, -c, d)) = length4 (a, b, c, d).
Proof. destruct jpl; [easy|]. cbn [length4]. f_equal. ring. Qed.

Definition good_row (bound : R) (row : list R) : Prop :=
  (exists s, row = [s]) \/ exists s x y z a b c d, row = [s; x; y; z; a; b; c; d] /\ Rabs (length4 (a, b, c, d) - 1) <= bound.
Definition bad_row (row : list R) : Prop :=
  length row <> 1%nat /\ forall s x y z a b c d, row = [s; x; y; z; a; b; c; d] -> 101 / 10 ^ 10 <= Rabs (length4 (a, b, c, d) - 1).
Lemma good_adds near jpl row : checks_length near -> good_row (99 / 10 ^ 10) row -> exists m, adds Ropp near jpl row m.
Proof.
  intros K [(s & ->)|(s & x & y & z & a & b & c & d & -> & L)]; [exists (Outlier s); left; eauto|].
  eexists. right. do 8 eexists. split; [reflexivity|]. cbv zeta. split; [|reflexivity]. apply K. now rewrite length_conj.
Qed.
Lemma bad_adds near jpl row m : checks_length near -> bad_row row -> ~ adds Ropp near jpl row m.
Proof.
  intros K (L & B) [(s & -> & _)|(s & x & y & z & a & b & c & d & E & Q & _)]; [now apply L|].
  specialize (B _ _ _ _ _ _ _ _ E). cbv zeta in Q. rewrite (proj2 (K _)) in Q; [discriminate Q|]. now rewrite length_conj.
Qed.
Lemma good_all near jpl rows : checks_length near -> Forall (good_row (99 / 10 ^ 10)) rows -> exists ms, Forall2 (adds Ropp near jpl) rows ms.
Proof.
  intros K G. induction G as [|row rows G GS [ms IH]]; [exists []; constructor|].
  destruct (good_adds near jpl row K G) as (m & M). exists (m :: ms). now constructor.
Qed.
(** A file that the Python programs can read is accepted if every row has one number or eight with a quaternion of
    length 1, and ends the process if some row has another number of columns or a quaternion that is not normalised. *)
Theorem C75_accepted : forall near_one use_jpl t rows, checks_length near_one ->
  Forall (fun c => c <> cr /\ c <> bar) t -> read_array t = Ok rows ->
  (Forall (good_row (99 / 10 ^ 10)) rows -> exists ms, read_poses near_one use_jpl (Some t) = Some ms) /\
  (Exists bad_row rows -> read_poses near_one use_jpl (Some t) = None).
Proof.
  intros near jpl t rows K C E. pose proof (C75_same_numbers near jpl t rows C E) as S. split.
  - intros G. destruct (good_all near jpl rows K G) as (ms & M). exists ms. now apply S.
  - intros B. destruct (read_poses near jpl (Some t)) as [ms|]; [|easy]. pose proof (proj1 (S ms) eq_refl) as F.
    apply Exists_exists in B as (row & I & B). destruct (Forall2_left _ _ _ _ F I) as (m & _ & M). now apply bad_adds in M.
Qed.
(** Components within 4e-9 of those of a unit quaternion (nine decimals) are good enough. *)
Lemma abs_sum a b c d : Rabs a + Rabs b + Rabs c + Rabs d <= 2 * length4 (a, b, c, d).
Proof.
  cbn [length4]. set (S := a * a + b * b + c * c + d * d). assert (S0 : 0 <= S) by (unfold S; nra).
  apply Rsqr_incr_0; [|repeat apply Rplus_le_le_0_compat; apply Rabs_pos|pose proof (sqrt_pos S); lra].
  unfold Rsqr. replace (2 * sqrt S * (2 * sqrt S)) with (4 * (sqrt S * sqrt S)) by ring. rewrite sqrt_sqrt by easy. unfold S.
  assert (Q : forall x, x * x = Rabs x * Rabs x) by (intros x; symmetry; exact (eq_sym (Rsqr_abs x))).
  rewrite (Q a), (Q b), (Q c), (Q d). generalize (Rabs a) (Rabs b) (Rabs c) (Rabs d). clear. intros w x y z.
  pose proof (Rle_0_sqr (w - x)). pose proof (Rle_0_sqr (w - y)). pose proof (Rle_0_sqr (w - z)).
  pose proof (Rle_0_sqr (x - y)). pose proof (Rle_0_sqr (x - z)). pose proof (Rle_0_sqr (y - z)). unfold Rsqr in *. lra.
Qed.
Lemma near_half a b c d a' b' c' d' e : 0 <= e ->
  Rabs (a' - a) <= e -> Rabs (b' - b) <= e -> Rabs (c' - c) <= e -> Rabs (d' - d) <= e ->
  length4 (a', b', c', d') <= length4 (a, b, c, d) + 2 * e.
Proof.
  intros E A B C D. pose proof (abs_sum a b c d) as S. cbn [length4] in *. set (n := a * a + b * b + c * c + d * d) in *.
  assert (N0 : 0 <= n) by (unfold n; nra). pose proof (sqrt_pos n) as P. pose proof (sqrt_sqrt n N0) as SS. set (r := sqrt n) in *.
  rewrite <- (sqrt_Rsqr (r + 2 * e)) by lra. apply sqrt_le_1_alt. unfold Rsqr.
  assert (X : forall x x', Rabs (x' - x) <= e -> x' * x' <= x * x + 2 * (e * Rabs x) + e * e).
  { clear - E. intros x x' H. assert (Rabs x' <= Rabs x + e) by (replace x' with (x + (x' - x)) by ring; eapply Rle_trans; [apply Rabs_triang|lra]).
    pose proof (Rabs_pos x'). assert (Q : forall x, x * x = Rabs x * Rabs x) by (intros y; symmetry; exact (eq_sym (Rsqr_abs y))).
    rewrite (Q x'), (Q x). replace (Rabs x * Rabs x + 2 * (e * Rabs x) + e * e) with ((Rabs x + e) * (Rabs x + e)) by ring.
    apply Rmult_le_compat; lra. }
  pose proof (X _ _ A). pose proof (X _ _ B). pose proof (X _ _ C). pose proof (X _ _ D).
  assert (e * (Rabs a + Rabs b + Rabs c + Rabs d) <= e * (2 * r)) by (apply Rmult_le_compat_l; easy).
  replace ((r + 2 * e) * (r + 2 * e)) with (n + 4 * (e * r) + 4 * (e * e)) by (rewrite <- SS; ring). unfold n. lra.
Qed.
Lemma near_unit a b c d a' b' c' d' e : 0 <= e ->
  Rabs (a' - a) <= e -> Rabs (b' - b) <= e -> Rabs (c' - c) <= e -> Rabs (d' - d) <= e ->
  Rabs (length4 (a', b', c', d') - length4 (a, b, c, d)) <= 2 * e.
Proof.
  intros E A B C D. pose proof (near_half a b c d a' b' c' d' e E A B C D).
  rewrite Rabs_minus_sym in A, B, C, D. pose proof (near_half a' b' c' d' a b c d e E A B C D). apply Rabs_le. lra.
Qed.
Theorem C75_nine_decimals : forall a b c d a' b' c' d', a * a + b * b + c * c + d * d = 1 ->
  Rabs (a' - a) <= 4 / 10 ^ 9 -> Rabs (b' - b) <= 4 / 10 ^ 9 -> Rabs (c' - c) <= 4 / 10 ^ 9 -> Rabs (d' - d) <= 4 / 10 ^ 9 ->
  forall s x y z, good_row (99 / 10 ^ 10) [s; x; y; z; a'; b'; c'; d'].
Proof.
  intros a b c d a' b' c' d' U A B C D s x y z. right. do 8 eexists. split; [reflexivity|].
  assert (L : length4 (a, b, c, d) = 1) by (cbn [length4]; rewrite U; apply sqrt_1).
  pose proof (near_unit a b c d a' b' c' d' (4 / 10 ^ 9) ltac:(lra) A B C D) as H. rewrite L in H. lra.
Qed.

(** ** Files written by the Python programs *)
Lemma savetxt_clean rows : clean (savetxt rows).
Proof.
  unfold clean, savetxt. induction rows as [|row rows IH]; [constructor|]. cbn [map concat]. apply Forall_app. split; [|exact IH].
  apply Forall_app. split; [|repeat constructor; easy]. induction row as [|x row IH']; [constructor|].
  assert (X : Forall (fun c => c <> cr /\ c <> bar) (fmt18 x)).
  { eapply Forall_impl; [|apply fmt18_plain]. intros c (_ & P1 & _ & P2). now split. }
  cbn [map]. destruct (map fmt18 row) as [|y ys] eqn:M; [exact X|].
  change (join [comma; space] (fmt18 x :: y :: ys)) with (fmt18 x ++ [comma; space] ++ join [comma; space] (y :: ys)).
  apply Forall_app. split; [exact X|]. apply Forall_app. split; [repeat constructor; easy|exact IH'].
Qed.
(** What the Python programs write with eight columns and quaternions of length 1 (up to 9.8e-9) is accepted; the
    numbers are those that the Python reader gets, within 1e-18 of those written. *)
Theorem C75_written : forall near_one use_jpl rows, checks_length near_one ->
  Forall (fun row => length row = 8%nat) rows -> Forall (Forall double) rows -> Forall (good_row (98 / 10 ^ 10)) rows ->
  exists rows' ms, read_poses near_one use_jpl (Some (savetxt rows)) = Some ms /\
    read_array (savetxt rows) = Ok rows' /\ Forall2 (adds Ropp near_one use_jpl) rows' ms /\
    Forall2 (Forall2 (fun x y => Rabs (y - x) <= / 10 ^ 18)) rows rows'.
Proof.
  intros near jpl rows K W D G. destruct (C45_roundtrip rows 7 W D) as (rows' & E & F).
  assert (F' : Forall2 (Forall2 (fun x y => Rabs (y - x) <= / 10 ^ 18)) rows rows').
  { eapply Forall2_mono; [|exact F]. intros r r'. apply Forall2_mono. tauto. }
  assert (G' : Forall (good_row (99 / 10 ^ 10)) rows').
  { clear E F D. revert W. induction F' as [|r r' rows rows' H F' IH]; intros W; [constructor|]. inversion W; inversion G; subst.
    constructor; [|now apply IH]. match goal with Q : good_row _ r |- _ => destruct Q as [(s & ->)|(s & x & y & z & a & b & c & d & -> & L)] end; [discriminate|].
    inversion H as [|? s' ? l1 Hn1 R1]; subst. inversion R1 as [|? x' ? l2 Hn2 R2]; subst. inversion R2 as [|? y' ? l3 Hn3 R3]; subst.
    inversion R3 as [|? z' ? l4 Hn4 R4]; subst. inversion R4 as [|? a' ? l5 Hn5 R5]; subst. inversion R5 as [|? b' ? l6 Hn6 R6]; subst.
    inversion R6 as [|? c' ? l7 Hn7 R7]; subst. inversion R7 as [|? d' ? l8 Hn8 R8]; subst. inversion R8; subst.
    right. do 8 eexists. split; [reflexivity|].
    pose proof (near_unit a b c d a' b' c' d' (/ 10 ^ 18) ltac:(apply Rlt_le, Rinv_0_lt_compat, pow_lt; lra) Hn5 Hn6 Hn7 Hn8) as N.
    replace (length4 (a', b', c', d') - 1) with ((length4 (a', b', c', d') - length4 (a, b, c, d)) + (length4 (a, b, c, d) - 1)) by ring.
    eapply Rle_trans; [apply Rabs_triang|]. assert (T : / 10 ^ 18 <= / 10 ^ 11) by (apply Rinv_le_contravar; [apply pow_lt; lra|apply Rle_pow; [lra|lia]]).
    lra. }
  destruct (good_all near jpl rows' K G') as (ms & M). exists rows', ms.
  split; [now apply (C75_same_numbers near jpl _ rows' (savetxt_clean rows) E)|]. split; [exact E|]. split; [exact M|exact F'].
Qed.

(** ** Files written by the estimator *)
(** One row for start, start + delta, ... up to stop, in the format of the Python programs; the quaternion is
    converted back. *)
Lemma out_rows_nth pose_at seconds jpl delta stop : (0 < delta)%Z -> forall n t i, (stop - t < Z.of_nat n * delta)%Z ->
  nth_error (out_rows pose_at seconds jpl n t stop delta) i =
    if (t + Z.of_nat i * delta <=? stop)%Z then Some (out_row pose_at seconds jpl (t + Z.of_nat i * delta)) else None.
Proof.
  intros D. induction n as [|n IH]; intros t i L.
  - cbn [out_rows]. destruct (Z.leb_spec (t + Z.of_nat i * delta) stop); [nia|]. now destruct i.
  - cbn [out_rows]. destruct (Z.leb_spec t stop) as [T|T].
    + destruct i as [|i]; cbn [nth_error].
      * change (Z.of_nat 0) with 0%Z. rewrite Z.mul_0_l, Z.add_0_r. destruct (Z.leb_spec t stop); [easy|lia].
      * rewrite IH by nia. replace (t + delta + Z.of_nat i * delta)%Z with (t + Z.of_nat (S i) * delta)%Z by lia. reflexivity.
    + destruct (Z.leb_spec (t + Z.of_nat i * delta) stop); [nia|]. now destruct i.
Qed.
Theorem C75_output : forall pose_at seconds use_jpl start stop delta, (0 < delta)%Z ->
  exists rows, write_poses pose_at seconds use_jpl start stop delta = savetxt rows /\
    forall i row, nth_error rows i = Some row <->
      let t := (start + Z.of_nat i * delta)%Z in
      (t <= stop)%Z /\ exists a b c d x y z, pose_at t = ((a, b, c, d), (x, y, z)) /\
        row = [seconds t; x; y; z] ++ (if use_jpl then [a; b; c; d] else [-a; -b; -c; d]).
Proof.
  intros pose_at seconds jpl start stop delta D.
  exists (out_rows pose_at seconds jpl (Z.to_nat (stop - start + 1)) start stop delta). split; [reflexivity|].
  intros i row. rewrite out_rows_nth by (easy || nia). cbv zeta. destruct (Z.leb_spec (start + Z.of_nat i * delta) stop) as [L|L].
  - unfold out_row, to_internal. destruct (pose_at _) as [[[[a b] c] d] [[x y] z]]. split.
    + intros H. split; [easy|]. exists a, b, c, d, x, y, z. split; [easy|]. destruct jpl; now injection H as <-.
    + intros (_ & a' & b' & c' & d' & x' & y' & z' & E & ->). injection E as -> -> -> -> -> -> ->. now destruct jpl.
  - split; [easy|]. intros (H & _). lia.
Qed.
(** With the same convention, the estimator accepts its own output if the estimated orientations have length 1, and
    gets the estimated poses back up to 1e-18. *)
Definition close3 (p q : R * R * R) : Prop :=
  let '(x, y, z) := p in let '(x', y', z') := q in Rabs (x' - x) <= / 10 ^ 18 /\ Rabs (y' - y) <= / 10 ^ 18 /\ Rabs (z' - z) <= / 10 ^ 18.
Definition close4 (p q : R * R * R * R) : Prop :=
  let '(x, y, z, w) := p in let '(x', y', z', w') := q in
  Rabs (x' - x) <= / 10 ^ 18 /\ Rabs (y' - y) <= / 10 ^ 18 /\ Rabs (z' - z) <= / 10 ^ 18 /\ Rabs (w' - w) <= / 10 ^ 18.
Lemma Forall2_nth {A B} (P : A -> B -> Prop) l k i y : Forall2 P l k -> nth_error k i = Some y -> exists x, nth_error l i = Some x /\ P x y.
Proof.
  intros F. revert i. induction F as [|a b l k H F IH]; intros [|i] E; try discriminate E; cbn [nth_error] in *; [injection E as <-; eauto|now apply IH].
Qed.
Lemma double_opp x : double x -> double (- x).
Proof. apply generic_format_opp. Qed.
Theorem C75_output_accepted : forall near_one pose_at seconds use_jpl start stop delta, checks_length near_one -> (0 < delta)%Z ->
  (forall t, exists a b c d x y z, pose_at t = ((a, b, c, d), (x, y, z)) /\ Forall double [seconds t; x; y; z; a; b; c; d] /\
     Rabs (length4 (a, b, c, d) - 1) <= 98 / 10 ^ 10) ->
  exists ms, read_poses near_one use_jpl (Some (write_poses pose_at seconds use_jpl start stop delta)) = Some ms /\
    (forall i, (i < length ms)%nat <-> (start + Z.of_nat i * delta <= stop)%Z) /\
    forall i m, nth_error ms i = Some m -> let t := (start + Z.of_nat i * delta)%Z in
      exists s q p, m = Pose s q p /\ Rabs (s - seconds t) <= / 10 ^ 18 /\ close4 (fst (pose_at t)) q /\ close3 (snd (pose_at t)) p.
Proof.
  intros near pose_at seconds jpl start stop delta K D H.
  destruct (C75_output pose_at seconds jpl start stop delta D) as (rows & W & N). rewrite W.
  assert (ROW : forall row, In row rows -> exists t a b c d x y z, pose_at t = ((a, b, c, d), (x, y, z)) /\
    row = [seconds t; x; y; z] ++ (if jpl then [a; b; c; d] else [-a; -b; -c; d]) /\ Forall double [seconds t; x; y; z; a; b; c; d] /\
    Rabs (length4 (a, b, c, d) - 1) <= 98 / 10 ^ 10).
  { intros row I. apply In_nth_error in I as (i & I). apply N in I as (_ & a & b & c & d & x & y & z & E & ->).
    destruct (H (start + Z.of_nat i * delta)%Z) as (a' & b' & c' & d' & x' & y' & z' & E' & DD & L). rewrite E in E'.
    injection E' as <- <- <- <- <- <- <-. exists (start + Z.of_nat i * delta)%Z, a, b, c, d, x, y, z. easy. }
  destruct (C75_written near jpl rows K) as (rows' & ms & R & _ & A & C).
  - apply Forall_forall. intros row I. destruct (ROW row I) as (t & a & b & c & d & x & y & z & _ & -> & _). now destruct jpl.
  - apply Forall_forall. intros row I. destruct (ROW row I) as (t & a & b & c & d & x & y & z & _ & -> & DD & _).
    repeat match goal with F : Forall double (_ :: _) |- _ => inversion F; subst; clear F end.
    destruct jpl; repeat constructor; try easy; now apply double_opp.
  - apply Forall_forall. intros row I. destruct (ROW row I) as (t & a & b & c & d & x & y & z & _ & -> & _ & L).
    right. exists (seconds t), x, y, z. destruct jpl; [exists a, b, c, d|exists (-a), (-b), (-c), d]; split; try reflexivity; [exact L|].
    now rewrite <- (length_conj false a b c d) in L.
  - exists ms. split; [exact R|]. pose proof (Forall2_len _ _ _ A) as L1. pose proof (Forall2_len _ _ _ C) as L2. split.
    + intros i. rewrite <- L1, <- L2, <- nth_error_Some. split.
      * intros NS. destruct (nth_error rows i) as [row|] eqn:E; [|easy]. now apply N in E as (T & _).
      * intros T. destruct (H (start + Z.of_nat i * delta)%Z) as (a & b & c & d & x & y & z & E & _ & _).
        enough (X : nth_error rows i = Some ([seconds (start + Z.of_nat i * delta)%Z; x; y; z] ++ (if jpl then [a; b; c; d] else [-a; -b; -c; d]))) by (rewrite X; discriminate).
        apply N. split; [exact T|]. exists a, b, c, d, x, y, z. split; [exact E|reflexivity].
    + intros i m M t. destruct (Forall2_nth _ _ _ _ _ A M) as (row' & R' & AD). destruct (Forall2_nth _ _ _ _ _ C R') as (row & R0 & CL).
      apply N in R0 as (T & a & b & c & d & x & y & z & E & ->). fold t in E. rewrite E. cbn [fst snd].
      destruct AD as [(s & -> & _)|(s & x' & y' & z' & a' & b' & c' & d' & -> & _ & ->)].
      { exfalso. apply Forall2_len in CL. destruct jpl; discriminate CL. }
      do 3 eexists. split; [reflexivity|].
      destruct jpl; cbn [app] in CL; repeat match goal with F : Forall2 _ (_ :: _) _ |- _ => inversion F; subst; clear F end; cbn [close3 close4].
      * repeat split; assumption.
      * assert (OP : forall u v, Rabs (v - - u) <= / 10 ^ 18 -> Rabs (- v - u) <= / 10 ^ 18).
        { intros u v V. rewrite <- Rabs_Ropp. replace (- (- v - u)) with (v - - u) by ring. exact V. }
        repeat split; try assumption; now apply OP.
Qed.

(** ** Non-vacuity: the check in double precision *)
Definition length_double (q : R * R * R * R) : R :=
  let '(a, b, c, d) := q in
  to_double (sqrt (to_double (to_double (to_double (to_double (a * a) + to_double (b * b)) + to_double (c * c)) + to_double (d * d)))).
Definition near_double (q : R * R * R * R) : bool :=
  let m := to_double (1 / 10 ^ 8) in
  Rle_bool 1 (to_double (length_double q + m)) && Rle_bool (to_double (length_double q - m)) 1.
Definition eps : R := 1 / 10 ^ 15.
Lemma to_double_bounds x : 0 <= x -> x * (1 - eps) - eps * eps <= to_double x <= x * (1 + eps) + eps * eps.
Proof.
  intros X. unfold to_double. destruct (error_N_FLT radix2 (-1074) 53 ltac:(reflexivity) (fun z => negb (Z.even z)) x) as (e & t & E1 & E2 & _ & ->).
  assert (A : Rabs e <= eps).
  { eapply Rle_trans; [exact E1|]. unfold eps. cbn. lra. }
  assert (T : Rabs t <= eps * eps).
  { eapply Rle_trans; [exact E2|]. apply Rle_trans with (bpow radix2 (-1074)); [pose proof (bpow_gt_0 radix2 (-1074)); lra|].
    apply Rle_trans with (bpow radix2 (-104)); [apply bpow_le; lia|]. change (bpow radix2 (-104)) with (/ 20282409603651670423947251286016).
    unfold eps. lra. }
  apply Rabs_le_inv in T. apply Rabs_le_inv in A.
  assert (x * - eps <= x * e <= x * eps) by (split; apply Rmult_le_compat_l; lra). lra.
Qed.
Lemma to_double_le x y : x <= y -> to_double x <= to_double y.
Proof. intros H. apply round_le; [apply FLT_exp_valid; reflexivity|apply valid_rnd_N|exact H]. Qed.
Lemma to_double_id x : double x -> to_double x = x.
Proof. intros H. apply round_generic; [apply valid_rnd_N|exact H]. Qed.
Lemma double_1 : double 1.
Proof. apply (generic_format_bpow radix2 _ 0). cbn. lia. Qed.
Lemma double_above : double (1 + / IZR (2 ^ 40)).
Proof. apply generic_format_FLT. exists (Float radix2 (2 ^ 40 + 1) (-40)); [|cbn; lia|cbn; lia]. unfold F2R. cbn. lra. Qed.
Lemma double_below : double (1 - / IZR (2 ^ 40)).
Proof. apply generic_format_FLT. exists (Float radix2 (2 ^ 40 - 1) (-40)); [|cbn; lia|cbn; lia]. unfold F2R. cbn. lra. Qed.
Lemma near_double_checks : checks_length near_double.
Proof.
  intros [[[a b] c] d].
  assert (LB : exists s, length_double (a, b, c, d) = to_double (sqrt s) /\ 0 <= s /\
    let S := a * a + b * b + c * c + d * d in S * (1 - 5 * eps) - 10 * (eps * eps) <= s <= S * (1 + 5 * eps) + 10 * (eps * eps)).
  { cbn [length_double]. set (A := a * a). set (B := b * b). set (C := c * c). set (D := d * d).
    assert (A0 : 0 <= A) by (unfold A; nra). assert (B0 : 0 <= B) by (unfold B; nra). assert (C0 : 0 <= C) by (unfold C; nra). assert (D0 : 0 <= D) by (unfold D; nra).
    assert (P0 : forall x, 0 <= x -> 0 <= to_double x).
    { intros x X. assert (Z : to_double 0 = 0) by (apply round_0; apply valid_rnd_N). rewrite <- Z. now apply to_double_le. }
    pose proof (to_double_bounds A A0) as HA. pose proof (to_double_bounds B B0) as HB. pose proof (to_double_bounds C C0) as HC. pose proof (to_double_bounds D D0) as HD.
    pose proof (P0 A A0) as PA. pose proof (P0 B B0) as PB. pose proof (P0 C C0) as PC. pose proof (P0 D D0) as PD.
    set (a1 := to_double A) in *. set (b1 := to_double B) in *. set (c1 := to_double C) in *. set (d1 := to_double D) in *.
    pose proof (to_double_bounds (a1 + b1) ltac:(lra)) as H1. pose proof (P0 (a1 + b1) ltac:(lra)) as P1. set (s1 := to_double (a1 + b1)) in *.
    pose proof (to_double_bounds (s1 + c1) ltac:(lra)) as H2. pose proof (P0 (s1 + c1) ltac:(lra)) as P2. set (s2 := to_double (s1 + c1)) in *.
    pose proof (to_double_bounds (s2 + d1) ltac:(lra)) as H3. pose proof (P0 (s2 + d1) ltac:(lra)) as P3. set (s3 := to_double (s2 + d1)) in *.
    exists s3. split; [reflexivity|]. split; [exact P3|]. cbv zeta. clearbody A B C D a1 b1 c1 d1 s1 s2 s3. unfold eps in *. lra. }
  destruct LB as (s & E & S0 & L & U). unfold near_double. rewrite E. cbn [length4]. set (S := a * a + b * b + c * c + d * d) in *.
  assert (SP : 0 <= S) by (unfold S; nra). pose proof (sqrt_pos S) as N0. pose proof (sqrt_sqrt S SP) as NN. set (n := sqrt S) in *.
  pose proof (to_double_bounds (sqrt s) (sqrt_pos s)) as DB. pose proof (to_double_bounds (1 / 10 ^ 8) ltac:(lra)) as MB.
  set (v := to_double (sqrt s)) in *. set (m := to_double (1 / 10 ^ 8)) in *. clearbody S n v m.
  assert (LO : forall k, 0 <= k -> k * k <= s -> k <= sqrt s).
  { intros k K H. rewrite <- (sqrt_Rsqr k K). now apply sqrt_le_1_alt. }
  assert (UP : forall k, 0 <= k -> s <= k * k -> sqrt s <= k).
  { intros k K H. rewrite <- (sqrt_Rsqr k K). now apply sqrt_le_1_alt. }
  split; intros H.
  - apply Rabs_le_inv in H.
    assert (NL : (1 - 99 / 10 ^ 10) * (1 - 99 / 10 ^ 10) <= S) by (rewrite <- NN; apply Rmult_le_compat; lra).
    assert (NU : S <= (1 + 99 / 10 ^ 10) * (1 + 99 / 10 ^ 10)) by (rewrite <- NN; apply Rmult_le_compat; lra).
    pose proof (LO (1 - 995 / 10 ^ 11) ltac:(lra) ltac:(unfold eps in *; lra)). pose proof (UP (1 + 995 / 10 ^ 11) ltac:(lra) ltac:(unfold eps in *; lra)).
    apply andb_true_intro. split; apply Rle_bool_true; rewrite <- (to_double_id 1 double_1) at 1; apply to_double_le; unfold eps in *; lra.
  - assert (CASE : n <= 1 - 101 / 10 ^ 10 \/ 1 + 101 / 10 ^ 10 <= n) by (unfold Rabs in H; destruct (Rcase_abs _); lra).
    assert (P40 : 0 < / IZR (2 ^ 40)) by (apply Rinv_0_lt_compat, IZR_lt; reflexivity).
    assert (V40 : / IZR (2 ^ 40) <= 1 / 10 ^ 12) by (change (2 ^ 40)%Z with 1099511627776%Z; lra).
    destruct CASE as [G|G].
    + assert (NU : S <= (1 - 101 / 10 ^ 10) * (1 - 101 / 10 ^ 10)) by (rewrite <- NN; apply Rmult_le_compat; lra).
      pose proof (UP (1 - 1005 / 10 ^ 11) ltac:(lra) ltac:(unfold eps in *; lra)).
      rewrite Rle_bool_false; [reflexivity|]. apply Rle_lt_trans with (1 - / IZR (2 ^ 40)); [|lra].
      rewrite <- (to_double_id _ double_below). apply to_double_le. unfold eps in *; lra.
    + assert (NL : (1 + 101 / 10 ^ 10) * (1 + 101 / 10 ^ 10) <= S) by (rewrite <- NN; apply Rmult_le_compat; lra).
      pose proof (LO (1 + 1005 / 10 ^ 11) ltac:(lra) ltac:(unfold eps in *; lra)).
      rewrite (Rle_bool_false (to_double (v - m)) 1); [apply andb_false_r|]. apply Rlt_le_trans with (1 + / IZR (2 ^ 40)); [lra|].
      rewrite <- (to_double_id _ double_above). apply to_double_le. unfold eps in *; lra.
Qed.

(** *** A recording that the Python programs accept and the estimator does not *)
(** A rotation by 90 degrees with four decimals. *)
Definition four_decimals : text := list_ascii_of_string "0,0,0,0,0.7071,0,0,0.7071
".
Definition d7071 : R := to_double (1 * scaled 7071 4 0).
Lemma d7071_bounds : 7 / 10 <= d7071 <= 7071 / 10000 + 1 / 10 ^ 12.
Proof.
  unfold d7071. rewrite scaled_0. change (10 ^ Z.of_nat 4)%Z with 10000%Z. pose proof (to_double_bounds (1 * (7071 / 10000)) ltac:(lra)). unfold eps in *. lra.
Qed.
Lemma four_decimals_read : read_array four_decimals = Ok [[0; 0; 0; 0; d7071; 0; 0; d7071]].
Proof.
  assert (Z : to_double (1 * scaled 0 0 0) = 0).
  { replace (1 * scaled 0 0 0) with 0 by (unfold scaled; cbn; lra). apply round_0, valid_rnd_N. }
  transitivity (Ok [[to_double (1 * scaled 0 0 0); to_double (1 * scaled 0 0 0); to_double (1 * scaled 0 0 0);
    to_double (1 * scaled 0 0 0); d7071; to_double (1 * scaled 0 0 0); to_double (1 * scaled 0 0 0); d7071]]);
    [reflexivity|now rewrite Z].
Qed.
Theorem C75_same_files_refuted : exists t rows, read_array t = Ok rows /\
  (forall row, In row rows -> exists s x y z a b c d, row = [s; x; y; z; a; b; c; d] /\ 0 < length4 (a, b, c, d)) /\
  forall near_one use_jpl, checks_length near_one -> read_poses near_one use_jpl (Some t) = None.
Proof.
  exists four_decimals. eexists. split; [apply four_decimals_read|].
  pose proof d7071_bounds as (L & U).
  assert (LP : 0 < length4 (d7071, 0, 0, d7071) <= 1 - 101 / 10 ^ 10).
  { cbn [length4]. assert (A : 49 / 100 <= d7071 * d7071) by (replace (49 / 100) with (7 / 10 * (7 / 10)) by lra; apply Rmult_le_compat; lra).
    assert (B : d7071 * d7071 <= (7071 / 10000 + 1 / 10 ^ 12) * (7071 / 10000 + 1 / 10 ^ 12)) by (apply Rmult_le_compat; lra).
    split; [apply sqrt_lt_R0; lra|]. rewrite <- (sqrt_Rsqr (1 - 101 / 10 ^ 10)) by lra. apply sqrt_le_1_alt. unfold Rsqr. lra. }
  split.
  - intros row [<- |[]]. do 8 eexists. split; [reflexivity|apply LP].
  - intros near jpl K. apply (C75_accepted near jpl four_decimals [[0; 0; 0; 0; d7071; 0; 0; d7071]] K); [|apply four_decimals_read|].
    + unfold four_decimals. cbn [list_ascii_of_string]. repeat constructor; discriminate.
    + constructor. split; [discriminate|]. intros s x y z a b c d E. injection E as <- <- <- <- <- <- <- <-.
      rewrite Rabs_left1; lra.
Qed.

(** *** Examples *)
Lemma double_0 : double 0. Proof. apply generic_format_0. Qed.
(** [checks_length] is what the check amounts to in double precision; unit rows in the format of the Python programs
    are accepted. *)
Example C75_example : checks_length near_double /\
  Forall (fun row => length row = 8%nat) [[1; 0; 0; 0; 0; 0; 0; 1]] /\ Forall (Forall double) [[1; 0; 0; 0; 0; 0; 0; 1]] /\
  Forall (good_row (98 / 10 ^ 10)) [[1; 0; 0; 0; 0; 0; 0; 1]].
Proof.
  split; [apply near_double_checks|]. split; [now repeat constructor|]. split; [repeat constructor; apply double_0 || apply double_1|].
  constructor; [|constructor]. right. do 8 eexists. split; [reflexivity|]. cbn [length4].
  replace (0 * 0 + 0 * 0 + 0 * 0 + 1 * 1) with 1 by lra. rewrite sqrt_1, Rminus_diag_eq, Rabs_R0 by easy. lra.
Qed.
(** a line with blanks, a comma at the end and text after a number; an outlier on the next line *)
Example C75_format_example : let row1 := (map list_ascii_of_string ["1"; " 2"; "3m"; "+4"; "-0"; "0"; "0"; "1.0"]%string, true) in
  let row2 := ([list_ascii_of_string "2e1"], false) in
  well_formed row1 /\ well_formed row2 /\ numbers row2 [to_double 20].
Proof.
  cbv zeta. split; [|split].
  - split; [|split; [discriminate|discriminate]]. cbn. repeat constructor; discriminate.
  - split; [|split; [discriminate|cbn; discriminate]]. cbn. repeat constructor; discriminate.
  - assert (V : 1 * scaled 2 0 1 = 20) by (unfold scaled; change (IZR (10 ^ Z.of_nat 0)) with 1; rewrite powerRZ_1; lra).
    constructor; [|constructor]. rewrite <- V. reflexivity.
Qed.
(** estimated poses at rest *)
Example C75_output_example : forall t : Z, exists a b c d x y z,
  (fun _ : Z => ((0, 0, 0, 1), (0, 0, 0))) t = ((a, b, c, d), (x, y, z)) /\ Forall double [(fun _ => 1) t; x; y; z; a; b; c; d] /\
  Rabs (length4 (a, b, c, d) - 1) <= 98 / 10 ^ 10.
Proof.
  intros t. do 7 eexists. split; [reflexivity|]. split; [repeat constructor; apply double_0 || apply double_1|]. cbn [length4].
  replace (0 * 0 + 0 * 0 + 0 * 0 + 1 * 1) with 1 by lra. rewrite sqrt_1, Rminus_diag_eq, Rabs_R0 by easy. lra.
Qed.
