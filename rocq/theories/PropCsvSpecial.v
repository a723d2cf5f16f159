(** * Property C110: infinities, nan, overflow and digit groups in the CSV files. *)

From Coq Require Import Reals ZArith List Bool Ascii Lra Lia Psatz.
From Flocq Require Import Core.
From Verif Require Import Py XReal XFacts ListFacts CsvText CsvFacts PropCsvText PropCsvFiles CsvSpecial.
Import ListNotations.
Local Open Scope R_scope.
#[local] Existing Instance prec53.

(** ** Specification *)
(** the text spells the word (given in lower case) in any mixture of cases *)
Definition spells (word t : text) : Prop := Forall2 (fun c d => d = c \/ (nat_of_ascii d + 32 = nat_of_ascii c)%nat) word t.
Definition nan_word : text := of_codes [110; 97; 110]%nat.
Definition inf_word : text := of_codes [105; 110; 102]%nat.
Definition infinity_word : text := of_codes [105; 110; 102; 105; 110; 105; 116; 121]%nat.
(** the words for the values that are not finite *)
Inductive named : text -> xr -> Prop :=
| named_nan sign t : sign = [] \/ sign = [plus] \/ sign = [minus] -> spells nan_word t -> named (sign ++ t) NaN
| named_plus sign t : sign = [] \/ sign = [plus] -> spells inf_word t \/ spells infinity_word t -> named (sign ++ t) PInf
| named_minus t : spells inf_word t \/ spells infinity_word t -> named (minus :: t) NInf.
(** halfway between the largest double and the next power of two *)
Definition limit : R := bpow radix2 1024 - bpow radix2 970.
(** the double of a real number: the nearest one, or an infinity from the limit on *)
Definition rounded (x : R) (v : xr) : Prop :=
  Rabs x < limit /\ v = Fin (to_double x) \/ limit <= x /\ v = PInf \/ x <= - limit /\ v = NInf.
(** the second text is the first one with underscores between some neighbouring digits *)
Inductive grouped : text -> text -> Prop :=
| grouped_end : grouped [] []
| grouped_next c t u : c <> ascii_of_nat 95 -> grouped t u -> grouped (c :: t) (c :: u)
| grouped_mark c d t u : is_digit c -> is_digit d -> grouped (d :: t) (d :: u) -> grouped (c :: d :: t) (c :: ascii_of_nat 95 :: d :: u).
(** a number in a cell, without white space: a word or a decimal, in Python 3.6 and later with groups *)
Definition number (groups : bool) (t : text) (v : xr) : Prop :=
  Forall (fun c => ~ white_space c) t /\
  exists p, (p = t \/ groups = true /\ grouped p t) /\ (named p v \/ exists x, decimal p x /\ rounded x v).
Definition reads (groups : bool) (t : text) (v : xr) : Prop :=
  exists before body after, t = before ++ body ++ after /\ Forall white_space before /\ Forall white_space after /\ number groups body v.

(** ** Rounding and overflow *)
Lemma bpow_split : bpow radix2 1024 = bpow radix2 53 * bpow radix2 971 /\ bpow radix2 971 = 2 * bpow radix2 970 /\ 0 < bpow radix2 970.
Proof.
  split; [now rewrite <- bpow_plus|]. split; [|apply bpow_gt_0]. change 971%Z with (1 + 970)%Z. rewrite bpow_plus. reflexivity.
Qed.
Lemma p53 : bpow radix2 53 = 9007199254740992.
Proof. cbn. lra. Qed.
Definition biggest : R := 9007199254740991 * bpow radix2 971.
Lemma biggest_double : double biggest.
Proof. apply generic_format_FLT. exists (Float radix2 9007199254740991 971); [easy|cbn; lia|cbn; lia]. Qed.
Lemma limit_mid : limit = biggest + bpow radix2 970 /\ bpow radix2 1024 = limit + bpow radix2 970 /\ 0 < biggest.
Proof.
  unfold limit, biggest. destruct bpow_split as (A & B & C). rewrite p53 in A. repeat split; lra.
Qed.
Lemma double_below x : x < limit -> to_double x < bpow radix2 1024.
Proof.
  intros H. destruct limit_mid as (A & B & C). destruct bpow_split as (D & E & F). destruct (Rle_lt_dec x biggest) as [L|L].
  - apply Rle_lt_trans with biggest; [|lra]. apply round_le_generic; [typeclasses eauto|typeclasses eauto|apply biggest_double|exact L].
  - destruct (round_N_pt radix2 (FLT_exp (-1074) 53) (fun x => negb (Z.even x)) x) as [_ Q]. specialize (Q biggest biggest_double). fold (to_double x) in Q.
    rewrite (Rabs_left (biggest - x)) in Q by lra. destruct (Rlt_le_dec (to_double x) (bpow radix2 1024)) as [G|G]; [exact G|exfalso].
    rewrite Rabs_pos_eq in Q by lra. lra.
Qed.
Lemma double_at_limit : to_double limit = bpow radix2 1024.
Proof.
  destruct limit_mid as (A & B & C). destruct bpow_split as (D & E & F).
  assert (M : mag radix2 limit = 1024%Z :> Z).
  { apply mag_unique_pos. replace (1024 - 1)%Z with 1023%Z by reflexivity. split; [|lra].
    assert (X : bpow radix2 1024 = 2 * bpow radix2 1023) by (change 1024%Z with (1 + 1023)%Z at 1; rewrite bpow_plus; reflexivity).
    rewrite p53 in D. lra. }
  unfold to_double, round, scaled_mantissa, cexp. rewrite M. change (FLT_exp (-1074) 53 1024) with 971%Z.
  assert (S : limit * bpow radix2 (- (971)) = IZR 9007199254740991 + / 2).
  { rewrite A. unfold biggest. rewrite Rmult_plus_distr_r, Rmult_assoc, <- !bpow_plus. change (971 + - (971))%Z with 0%Z. change (970 + - (971))%Z with (-1)%Z.
    change (bpow radix2 0) with 1. change (bpow radix2 (-1)) with (/ IZR 2). lra. }
  rewrite S. assert (FL : Zfloor (IZR 9007199254740991 + / 2) = 9007199254740991%Z).
  { apply Zfloor_imp. rewrite plus_IZR. lra. }
  assert (CE : Zceil (IZR 9007199254740991 + / 2) = 9007199254740992%Z).
  { apply Zceil_imp. change (9007199254740992 - 1)%Z with 9007199254740991%Z. change 9007199254740992%Z with (9007199254740991 + 1)%Z. rewrite plus_IZR. lra. }
  unfold Znearest. rewrite FL, CE. replace (IZR 9007199254740991 + / 2 - IZR 9007199254740991) with (/ 2) by lra.
  rewrite Rcompare_Eq by reflexivity. change (negb (Z.even 9007199254740991)) with true. cbn iota. unfold F2R. cbn [Fnum Fexp]. rewrite D, p53. reflexivity.
Qed.
Lemma double_above x : limit <= x -> bpow radix2 1024 <= to_double x.
Proof. intros H. rewrite <- double_at_limit. apply round_le; [typeclasses eauto|typeclasses eauto|exact H]. Qed.
Lemma double_opp x : to_double (- x) = - to_double x.
Proof. apply round_NE_opp. Qed.
Lemma overflow_spec x v : overflow (to_double x) = v <-> rounded x v.
Proof.
  destruct limit_mid as (A & B & C). destruct bpow_split as (D & E & F). unfold overflow, rounded.
  assert (NEG : x <= - limit -> to_double x <= - bpow radix2 1024).
  { intros H. pose proof (double_above (- x) ltac:(lra)) as Q. rewrite double_opp in Q. lra. }
  assert (LOW : - limit < x -> - bpow radix2 1024 < to_double x).
  { intros H. pose proof (double_below (- x) ltac:(lra)) as Q. rewrite double_opp in Q. lra. }
  destruct (Rlt_le_dec x limit) as [U|U].
  - destruct (Rlt_le_dec (- limit) x) as [L|L].
    + pose proof (double_below x U). pose proof (LOW L). rewrite (proj2 (Rltb_iff _ _)) by (apply Rabs_lt; lra).
      split; [intros <-; left; split; [apply Rabs_lt; lra|easy]|]. intros [[_ ->]|[[H1 _]|[H1 _]]]; [easy|lra|lra].
    + specialize (NEG L). rewrite (proj2 (Rltb_false _ _)) by (rewrite Rabs_left by lra; lra). rewrite (proj2 (Rltb_false _ _)) by lra.
      split; [intros <-; right; right; easy|]. intros [[H1 ->]|[[H1 _]|[H1 ->]]]; [|lra|easy]. apply Rabs_lt_inv in H1. lra.
  - pose proof (double_above x U). rewrite (proj2 (Rltb_false _ _)) by (rewrite Rabs_pos_eq by lra; lra). rewrite (proj2 (Rltb_iff _ _)) by lra.
    split; [intros <-; right; left; easy|]. intros [[H1 ->]|[[H1 ->]|[H1 _]]]; [|easy|lra]. apply Rabs_lt_inv in H1. lra.
Qed.

(** ** The words *)
Lemma text_eqb_eq s : forall t, text_eqb s t = true <-> s = t.
Proof.
  induction s as [|c s IH]; intros [|d t]; cbn [text_eqb]; try easy.
  rewrite andb_true_iff, Ascii.eqb_eq, IH. split; [intros [-> ->]; easy|intros E; now injection E].
Qed.
Lemma lower_code c d : (97 <= nat_of_ascii d <= 122)%nat -> (lower c = d <-> c = d \/ (nat_of_ascii c + 32 = nat_of_ascii d)%nat).
Proof.
  intros R. unfold lower. set (n := nat_of_ascii c). assert (E : c = ascii_of_nat n) by (symmetry; apply ascii_nat_embedding).
  destruct (Nat.leb_spec 65 n), (Nat.leb_spec n 90); cbn [andb].
  - split.
    + intros H1. right. rewrite <- H1. rewrite nat_ascii_embedding by lia. reflexivity.
    + intros [-> |H1]; [subst n; lia|]. rewrite H1. apply ascii_nat_embedding.
  - split; [now left|]. intros [H1|H1]; [exact H1|lia].
  - split; [now left|]. intros [H1|H1]; [exact H1|lia].
  - split; [now left|]. intros [H1|H1]; [exact H1|lia].
Qed.
Definition small_letters (w : text) : Prop := Forall (fun c => 97 <= nat_of_ascii c <= 122)%nat w.
Lemma word_spells w : small_letters w -> forall t, is_word w t = true <-> spells w t.
Proof.
  unfold is_word, spells. intros L t. rewrite text_eqb_eq. revert t. induction L as [|c w C L IH]; intros [|d t]; cbn [map].
  - split; [constructor|easy].
  - split; [discriminate|inversion 1].
  - split; [discriminate|inversion 1].
  - split.
    + intros E. pose proof (f_equal (hd nl) E) as E1. pose proof (f_equal (@tl _) E) as E2. cbn in E1, E2. constructor; [|now apply IH].
      now apply lower_code in E1.
    + intros H. inversion H as [|? ? ? ? D F]; subst. f_equal; [now apply lower_code|now apply IH].
Qed.
Lemma words_small : small_letters nan_word /\ small_letters inf_word /\ small_letters infinity_word.
Proof. repeat split; repeat constructor; cbn; lia. Qed.
Lemma spells_first w t : spells w t -> small_letters w -> match w with [] => True | _ => exists c u, t = c :: u /\ (65 <= nat_of_ascii c <= 122)%nat /\ c <> minus /\ c <> plus end.
Proof.
  intros [|c d w' t' E F] L; [easy|]. inversion L as [|? ? C L']; subst.
  assert (N : (65 <= nat_of_ascii d <= 122)%nat) by (destruct E as [-> |E]; lia).
  exists d, t'. repeat split; try lia; intros ->; cbn in N; lia.
Qed.
Lemma spells_len w t : spells w t -> length t = length w.
Proof. induction 1; cbn; lia. Qed.
Lemma special_spec t v : special t = Some v <-> named t v.
Proof.
  destruct words_small as (SN & SI & SF).
  assert (WN : forall b, is_word word_nan b = true <-> spells nan_word b) by (intros; now apply (word_spells nan_word)).
  assert (WI : forall b, is_word word_inf b || is_word word_infinity b = true <-> spells inf_word b \/ spells infinity_word b).
  { intros b. rewrite orb_true_iff. split; (intros [H1|H1]; [left|right]); [now apply (word_spells inf_word)|now apply (word_spells infinity_word)|now apply (word_spells inf_word)|now apply (word_spells infinity_word)]. }
  assert (XX : forall b, spells nan_word b -> spells inf_word b \/ spells infinity_word b -> False).
  { intros b H1 H2. inversion H1 as [|? ? ? ? E1]; subst. destruct H2 as [H2|H2]; inversion H2 as [|? ? ? ? E2]; subst; cbn in E1, E2;
      (destruct E1 as [-> |E1]; [destruct E2 as [E2|E2]; [discriminate E2|cbn in E2; lia]|destruct E2 as [-> |E2]; [cbn in E1; lia|lia]]). }
  unfold special. split.
  - intros H. destruct t as [|c t]; [cbn in H; discriminate H|].
    assert (G : forall (neg : bool) b, (if is_word word_inf b || is_word word_infinity b then Some (if neg then NInf else PInf) else if is_word word_nan b then Some NaN else None) = Some v ->
      v = (if neg then NInf else PInf) /\ (spells inf_word b \/ spells infinity_word b) \/ v = NaN /\ spells nan_word b).
    { intros neg b K. destruct (is_word word_inf b || is_word word_infinity b) eqn:Q1; [left; apply WI in Q1; split; [congruence|exact Q1]|].
      destruct (is_word word_nan b) eqn:Q2; [right; apply WN in Q2; split; [congruence|exact Q2]|discriminate K]. }
    destruct (Ascii.eqb_spec c minus) as [-> |_]; [apply (G true) in H|destruct (Ascii.eqb_spec c plus) as [-> |_]; apply (G false) in H]; destruct H as [[-> H]|[-> H]].
    + now constructor.
    + apply (named_nan [minus]); auto.
    + apply (named_plus [plus]); auto.
    + apply (named_nan [plus]); auto.
    + apply (named_plus []); auto.
    + apply (named_nan []); auto.
  - assert (NOS : forall t w, spells w t -> w = nan_word \/ w = inf_word \/ w = infinity_word -> match t with
        | c :: t' => if Ascii.eqb c minus then (true, t') else if Ascii.eqb c plus then (false, t') else (false, t) | [] => (false, []) end = (false, t)).
    { intros t0 w S W. assert (L : small_letters w) by (destruct W as [-> |[-> | -> ]]; easy). pose proof (spells_first w t0 S L) as Q.
      destruct w; [destruct W as [W|[W|W]]; discriminate W|]. destruct Q as (c & u & -> & _ & Q1 & Q2). now rewrite !neqb by easy. }
    intros H. destruct H as [sign b G S|sign b G S|b S].
    + assert (NI : is_word word_inf b || is_word word_infinity b = false).
      { destruct (is_word word_inf b || is_word word_infinity b) eqn:Q; [|easy]. exfalso. apply WI in Q. now apply (XX b). }
      destruct G as [-> |[-> | -> ]]; cbn [app].
      * rewrite (NOS b nan_word) by auto. rewrite NI. now rewrite (proj2 (WN b) S).
      * change (Ascii.eqb plus minus) with false. change (Ascii.eqb plus plus) with true. cbn iota. rewrite NI. now rewrite (proj2 (WN b) S).
      * change (Ascii.eqb minus minus) with true. cbn iota. rewrite NI. now rewrite (proj2 (WN b) S).
    + destruct G as [-> | -> ]; cbn [app].
      * rewrite (NOS b (if is_word word_inf b then inf_word else infinity_word)).
        -- now rewrite (proj2 (WI b) S).
        -- destruct (is_word word_inf b) eqn:Q; [now apply (word_spells inf_word)|]. destruct S as [S|S]; [|exact S]. apply (word_spells inf_word) in S; [|easy]. change (is_word word_inf b = true) in S. congruence.
        -- destruct (is_word word_inf b); auto.
      * change (Ascii.eqb plus minus) with false. change (Ascii.eqb plus plus) with true. cbn iota. now rewrite (proj2 (WI b) S).
    + change (Ascii.eqb minus minus) with true. cbn iota. now rewrite (proj2 (WI b) S).
Qed.

(** ** Groups of digits *)
Lemma digitb c : is_digitb c = true <-> is_digit c.
Proof.
  unfold is_digitb. pose proof (digit_val_iff c) as H. destruct (digit_val c).
  - split; [|easy]. intros _. unfold is_digit. unfold is_digit in H. destruct (le_lt_dec 48 (nat_of_ascii c)), (le_lt_dec (nat_of_ascii c) 57); try lia; destruct H as [_ H]; exfalso; (enough (Some z = None) by discriminate); apply H; lia.
  - split; [discriminate|]. intros D. now destruct (proj1 H eq_refl).
Qed.
Lemma digit_no_mark c : is_digit c -> c <> underscore.
Proof. intros D ->. unfold is_digit in D. cbn in D. lia. Qed.
Lemma ungroup_sound t : forall prev u, ungroup prev t = Some u ->
  (prev <> Some underscore -> match prev with Some p => is_digit p | None => False end -> grouped u t \/ exists d r v, t = underscore :: d :: r /\ u = d :: v /\ is_digit d /\ grouped (d :: v) (d :: r)) /\
  (~ match prev with Some p => is_digit p | None => False end -> prev <> Some underscore -> grouped u t) /\
  (prev = Some underscore -> exists d r v, t = d :: r /\ u = d :: v /\ is_digit d /\ grouped (d :: v) (d :: r)).
Proof.
  induction t as [|c t IH]; intros prev u H.
  - cbn [ungroup] in H. assert (M : prev = Some underscore -> False).
    { intros ->. rewrite Ascii.eqb_refl in H. discriminate H. }
    destruct (match prev with Some p => Ascii.eqb p underscore | None => false end); [discriminate H|]. injection H as <-.
    split; [intros; left; constructor|]. split; [intros; constructor|]. intros E. now destruct M.
  - cbn [ungroup] in H. destruct (Ascii.eqb_spec c underscore) as [-> |NC].
    + destruct (match prev with Some p => is_digitb p | None => false end) eqn:DB; [|discriminate H].
      destruct prev as [p|]; [|discriminate DB]. apply digitb in DB. destruct (IH _ _ H) as (_ & _ & K). destruct (K eq_refl) as (d & r & v & -> & -> & D & G).
      split; [intros _ _; right; exists d, r, v; auto|]. split; [easy|]. intros E. injection E as ->. now destruct (digit_no_mark _ DB).
    + destruct ((match prev with Some p => Ascii.eqb p underscore | None => false end) && negb (is_digitb c)) eqn:MB; [discriminate H|].
      destruct (ungroup (Some c) t) as [w|] eqn:U; [|discriminate H]. injection H as <-.
      assert (G : grouped (c :: w) (c :: t)).
      { destruct (IH _ _ U) as (K1 & K2 & _). destruct (is_digitb c) eqn:DC.
        - apply digitb in DC. destruct K1 as [G|(d & r & v & -> & -> & D & G)]; [congruence|exact DC|now constructor|now apply grouped_mark].
        - constructor; [exact NC|]. apply K2; [intros D; apply digitb in D; congruence|congruence]. }
      split; [intros _ _; now left|]. split; [intros _ _; exact G|]. intros ->. rewrite Ascii.eqb_refl in MB. cbn [andb] in MB. apply negb_false_iff, digitb in MB.
      exists c, t, w. auto.
Qed.
Lemma ungroup_complete u t : grouped u t -> forall prev, prev <> Some underscore \/ match t with c :: _ => is_digit c | [] => False end -> ungroup prev t = Some u.
Proof.
  induction 1 as [|c t u NC G IH|c d t u C D G IH]; intros prev P.
  - cbn [ungroup]. destruct prev as [p|]; [|easy]. destruct (Ascii.eqb_spec p underscore) as [-> |]; [|easy]. now destruct P.
  - cbn [ungroup]. rewrite (neqb c underscore) by exact NC. rewrite IH by (left; intros E; injection E; exact NC).
    destruct prev as [p|]; [|easy]. destruct (Ascii.eqb_spec p underscore) as [-> |]; [|easy]. destruct P as [P|P]; [now destruct P|]. now rewrite (proj2 (digitb c) P).
  - assert (E : ungroup (Some underscore) (d :: u) = Some (d :: t)) by (apply IH; now right).
    change (c :: ascii_of_nat 95 :: d :: u) with (c :: underscore :: d :: u).
    assert (S : ungroup (Some c) (underscore :: d :: u) = Some (d :: t)).
    { change (ungroup (Some c) (underscore :: d :: u)) with (if Ascii.eqb underscore underscore then if is_digitb c then ungroup (Some underscore) (d :: u) else None else None).
      rewrite Ascii.eqb_refl, (proj2 (digitb c) C). exact E. }
    remember (underscore :: d :: u) as r eqn:R. cbn [ungroup]. rewrite (neqb c underscore) by now apply digit_no_mark. rewrite S.
    rewrite (proj2 (digitb c) C), andb_false_r. reflexivity.
Qed.
Lemma ungroup_spec t u : ungroup None t = Some u <-> grouped u t.
Proof.
  split.
  - intros H. destruct (ungroup_sound t None u H) as (_ & K & _). now apply K.
  - intros H. apply (ungroup_complete u t H). now left.
Qed.
Lemma grouped_refl t : Forall (fun c => c <> underscore) t -> grouped t t.
Proof. induction 1; constructor; easy. Qed.
Lemma grouped_chars u t c : grouped u t -> (In c u -> In c t) /\ (In c t -> In c u \/ c = underscore).
Proof.
  induction 1 as [|a t u NC G [IH1 IH2]|a d t u C D G [IH1 IH2]]; [easy| |].
  - split.
    + intros [-> |I]; [now left|]. right. now apply IH1.
    + intros [-> |I]; [left; now left|]. destruct (IH2 I) as [J|J]; [left; now right|now right].
  - split.
    + intros [-> |I]; [now left|]. right. right. now apply IH1.
    + intros [-> |[<-|I]]; [left; now left|now right|]. destruct (IH2 I) as [J|J]; [left; now right|now right].
Qed.
Lemma grouped_nil t : grouped [] t -> t = [].
Proof. now inversion 1. Qed.

(** ** White space *)
Lemma white_iff c : is_space c = true <-> white_space c.
Proof. unfold is_space, white_space. rewrite orb_true_iff, andb_true_iff, !Nat.leb_le, Nat.eqb_eq. tauto. Qed.
Lemma lstrip_white b t : Forall white_space b -> lstrip (b ++ t) = lstrip t.
Proof. induction 1 as [|c b B F IH]; [easy|]. cbn [app lstrip]. now rewrite (proj2 (white_iff c) B). Qed.
Definition pure (t : text) : Prop := Forall (fun c => ~ white_space c) t.
Lemma lstrip_pure t u : pure t -> t <> [] -> lstrip (t ++ u) = t ++ u.
Proof.
  intros P N. destruct t as [|c t]; [easy|]. inversion P; subst. cbn [app lstrip]. destruct (is_space c) eqn:E; [|easy]. apply white_iff in E. easy.
Qed.
Lemma strip_pure b t a : Forall white_space b -> Forall white_space a -> pure t -> t <> [] -> strip (b ++ t ++ a) = t.
Proof.
  intros B A P N. unfold strip. rewrite lstrip_white by easy. rewrite lstrip_pure by easy. rewrite rev_app_distr, lstrip_white by now apply Forall_rev.
  assert (E : lstrip (rev t) = rev t).
  { rewrite <- (app_nil_r (rev t)). apply lstrip_pure; [now apply Forall_rev|]. intros E. apply N. now rewrite <- (rev_involutive t), E. }
  rewrite E. apply rev_involutive.
Qed.
Lemma blank_white c : blank c -> white_space c.
Proof. unfold blank, white_space. lia. Qed.
Lemma pure_code c : (33 <= nat_of_ascii c)%nat -> ~ white_space c.
Proof. unfold white_space. lia. Qed.
Lemma exponent_chars t e : exponent t e -> Forall (fun c => is_digit c \/ c = plus \/ c = minus \/ mark c) t.
Proof.
  assert (DG : forall ds, Forall is_digit ds -> Forall (fun c => is_digit c \/ c = plus \/ c = minus \/ mark c) ds).
  { intros ds. apply Forall_impl. auto. }
  intros [|c sign ds M S D NE|c ds M D NE]; [constructor| |].
  - constructor; [auto|]. apply Forall_app. split; [|now apply DG]. destruct S as [-> | -> ]; [constructor|]. constructor; auto.
  - constructor; [auto|]. constructor; [auto|]. now apply DG.
Qed.
(** the characters of a decimal number *)
Definition sign_char (c : ascii) : Prop := is_digit c \/ c = plus \/ c = minus \/ c = dot \/ mark c.
Lemma decimal_core t x : decimal t x -> exists b core a, t = b ++ core ++ a /\ Forall blank b /\ Forall blank a /\ Forall sign_char core /\ decimal core x /\ core <> [].
Proof.
  assert (DG : forall ds, Forall is_digit ds -> Forall sign_char ds) by (intros ds; apply Forall_impl; unfold sign_char; auto).
  assert (EX : forall ex e, exponent ex e -> Forall sign_char ex).
  { intros ex e H. apply exponent_chars in H. revert H. apply Forall_impl. unfold sign_char. tauto. }
  assert (SG : forall sign s, (sign = [] \/ sign = [plus]) /\ s = 1 \/ sign = [minus] /\ s = -1 -> Forall sign_char sign).
  { intros sign s [[[-> | -> ] _]|[-> _]]; [constructor| |]; (constructor; [unfold sign_char; auto|constructor]). }
  intros [b sign s int ex e a B A G D N X|b sign s int frac ex e a B A G D F N X].
  - exists b, (sign ++ int ++ ex), a. split; [now rewrite <- !app_assoc|]. split; [exact B|]. split; [exact A|]. split; [|split].
    + apply Forall_app. split; [now apply (SG sign s)|]. apply Forall_app. split; [now apply DG|now apply (EX ex e)].
    + pose proof (decimal_integer [] sign s int ex e [] ltac:(constructor) ltac:(constructor) G D N X) as Q. rewrite app_nil_r in Q. exact Q.
    + destruct sign; [|easy]. now destruct int.
  - exists b, (sign ++ int ++ [dot] ++ frac ++ ex), a. split; [now rewrite <- !app_assoc|]. split; [exact B|]. split; [exact A|]. split; [|split].
    + apply Forall_app. split; [now apply (SG sign s)|]. apply Forall_app. split; [now apply DG|]. apply Forall_app. split; [constructor; [unfold sign_char; auto|constructor]|].
      apply Forall_app. split; [now apply DG|now apply (EX ex e)].
    + pose proof (decimal_point [] sign s int frac ex e [] ltac:(constructor) ltac:(constructor) G D F N X) as Q. rewrite app_nil_r in Q. exact Q.
    + destruct sign; [|easy]. now destruct int.
Qed.
Lemma sign_char_parts c : sign_char c -> ~ white_space c /\ c <> underscore.
Proof.
  unfold sign_char, is_digit, mark, white_space. intros [D|[-> |[-> |[-> |M]]]]; cbn; split; try lia; try easy; intros ->; cbn in *; lia.
Qed.
Lemma pure_only t b core a : pure t -> t = b ++ core ++ a -> Forall white_space b -> Forall white_space a -> b = [] /\ a = [].
Proof.
  intros P -> B A. apply Forall_app in P as [PB P]. apply Forall_app in P as [_ PA]. split.
  - destruct b as [|c b]; [easy|]. inversion PB; inversion B; subst. easy.
  - destruct a as [|c a]; [easy|]. inversion PA; inversion A; subst. easy.
Qed.
Lemma decimal_pure t x : pure t -> decimal t x -> Forall sign_char t /\ t <> [].
Proof.
  intros P D. destruct (decimal_core t x D) as (b & core & a & E & B & A & S & _ & N).
  assert (B' : Forall white_space b) by (revert B; apply Forall_impl, blank_white). assert (A' : Forall white_space a) by (revert A; apply Forall_impl, blank_white).
  destruct (pure_only t b core a P E B' A') as [-> ->]. cbn [app] in E. rewrite app_nil_r in E. now rewrite E.
Qed.
Lemma named_chars t v : named t v -> Forall (fun c => ~ white_space c /\ c <> underscore) t /\ t <> [].
Proof.
  assert (SP : forall w b, small_letters w -> w <> [] -> spells w b -> Forall (fun c => ~ white_space c /\ c <> underscore) b /\ b <> []).
  { intros w b L N S. split; [|destruct S; [easy|easy]]. clear N. induction S as [|c d w t' E S IH]; [constructor|]. inversion L as [|? ? C L']; subst. constructor; [|now apply IH].
    assert (Q : (65 <= nat_of_ascii d <= 90 \/ 97 <= nat_of_ascii d <= 122)%nat) by (destruct E as [-> |E]; lia).
    split; [unfold white_space; lia|]. intros ->. cbn in Q. lia. }
  destruct words_small as (SN & SI & SF).
  assert (PL : ~ white_space plus /\ plus <> underscore) by (split; [unfold white_space; cbn; lia|easy]).
  assert (MI : ~ white_space minus /\ minus <> underscore) by (split; [unfold white_space; cbn; lia|easy]).
  assert (IW : forall b, spells inf_word b \/ spells infinity_word b -> Forall (fun c => ~ white_space c /\ c <> underscore) b /\ b <> []).
  { intros b [S|S]; [now apply (SP inf_word)|now apply (SP infinity_word)]. }
  intros [sign b G S|sign b G S|b S].
  - destruct (SP nan_word b SN ltac:(discriminate) S) as [F N]. destruct G as [-> |[-> | -> ]]; cbn [app]; (split; [|easy]); [exact F| |]; constructor; auto.
  - destruct (IW b S) as [F N]. destruct G as [-> | -> ]; cbn [app]; (split; [|easy]); [exact F|]; constructor; auto.
  - destruct (IW b S) as [F N]. split; [|easy]. constructor; auto.
Qed.

(** ** A cell *)
(** the value of a text without white space and underscores *)
Lemma value_pure p : pure p -> forall v,
  match special p with Some v => Ok v | None => do r <- py_float p; Ok (overflow r) end = Ok v <-> named p v \/ exists x, decimal p x /\ rounded x v.
Proof.
  intros P v. assert (EXCL : forall w x, named p w -> decimal p x -> False).
  { intros w x W D. destruct (decimal_pure p x P D) as [S N]. destruct words_small as (SN & SI & SF).
    assert (LET : forall c w b, small_letters (c :: w) -> spells (c :: w) b -> Forall sign_char b -> nat_of_ascii c = 101%nat).
    { intros c w0 b L SP F. inversion SP as [|? d ? ? E SP']; subst. inversion L as [|? ? C L']; subst. inversion F as [|? ? H F']; subst.
      unfold sign_char, is_digit, mark in H. destruct E as [-> |E]; destruct H as [H|[-> |[-> |[-> |H]]]]; cbn in *; lia. }
    assert (SP : forall b, (spells nan_word b \/ spells inf_word b \/ spells infinity_word b) -> Forall sign_char b -> False).
    { intros b [H|[H|H]] F; [apply (LET _ _ _ SN H) in F|apply (LET _ _ _ SI H) in F|apply (LET _ _ _ SF H) in F]; cbn in F; lia. }
    destruct W as [sign b G Q|sign b G Q|b Q].
    - apply Forall_app in S as [_ S]. apply (SP b); auto.
    - apply Forall_app in S as [_ S]. apply (SP b); tauto.
    - inversion S; subst. apply (SP b); tauto. }
  destruct (special p) as [w|] eqn:E.
  - apply special_spec in E. split.
    + intros Q. injection Q as <-. now left.
    + intros [Q|(x & Q & _)]; [|now destruct (EXCL w x)]. apply special_spec in E, Q. congruence.
  - split.
    + intros Q. destruct (py_float p) as [r|] eqn:F; cbn [bind] in Q; [|discriminate Q]. injection Q as Q. right.
      destruct (C99_only_numbers p r F) as (b & n & a & y & EQ & B & A & D & ->). destruct (pure_only p b n a P EQ B A) as [-> ->]. cbn [app] in EQ. rewrite app_nil_r in EQ. subst n.
      exists y. split; [exact D|now apply overflow_spec].
    + intros [Q|(x & D & Q)]; [apply special_spec in Q; congruence|]. rewrite (C99_number p x D). cbn [bind]. f_equal. now apply overflow_spec.
Qed.
Lemma strip_ends t : strip t = [] \/ solid (strip t).
Proof.
  unfold strip. assert (H : forall u, lstrip u = [] \/ exists c w, lstrip u = c :: w /\ is_space c = false).
  { induction u as [|c u IH]; [now left|]. cbn [lstrip]. destruct (is_space c) eqn:E; [exact IH|]. right. now exists c, u. }
  destruct (H t) as [-> |(c & w & E & C)]; [left; reflexivity|].
  destruct (H (rev (lstrip t))) as [-> |(d & v & E' & D)]; [left; reflexivity|]. right.
  destruct (lstrip_inv (rev (lstrip t))) as (b & B & Q). rewrite E' in Q |- *. split.
  - rewrite E in Q. apply (f_equal (@rev ascii)) in Q. rewrite rev_involutive, rev_app_distr in Q.
    destruct (rev (d :: v)) as [|c' w'] eqn:R.
    { apply (f_equal (@rev ascii)) in R. rewrite rev_involutive in R. discriminate R. }
    exists c', w'. split; [reflexivity|]. cbn [app] in Q. injection Q as -> _. exact C.
  - exists d, (rev v). split; [reflexivity|exact D].
Qed.
Lemma solid_pure_parts t b core a : solid t -> t = b ++ core ++ a -> Forall white_space b -> Forall white_space a -> core <> [] -> t = core.
Proof.
  intros [(c & u & E & C) (d & w & E' & D)] Q B A N. destruct b as [|c' b].
  - cbn [app] in Q. destruct a as [|a' a] using rev_ind; [now rewrite app_nil_r in Q|exfalso]. rewrite Q, app_assoc in E'. apply app_inj_tail in E' as [_ ->].
    apply Forall_app in A as [_ A]. inversion A as [|? ? W]; subst. apply white_iff in W. congruence.
  - exfalso. rewrite E in Q. cbn [app] in Q. injection Q as -> _. inversion B as [|? ? W]; subst. apply white_iff in W. congruence.
Qed.
Lemma grouped_solid u t : grouped u t -> solid t -> solid u.
Proof.
  intros G [(c & w & -> & C) L]. split.
  - inversion G; subst; eexists _, _; (split; [reflexivity|exact C]).
  - clear C. destruct L as (d & r & E & D). remember (c :: w) as t eqn:T. clear c w T. revert d r E D.
    induction G as [|a p q NC G IH|a e p q A E' G IH]; intros d r E D.
    + now destruct r.
    + destruct r as [|a' r]; cbn [app] in E.
      * injection E as -> ->. inversion G; subst. now exists d, [].
      * injection E as -> ->. destruct (IH d r eq_refl D) as (d' & r' & -> & D'). now exists d', (a' :: r').
    + destruct r as [|a1 [|a2 r]]; cbn [app] in E; [discriminate E|discriminate E|]. injection E as -> <- E. destruct (IH d r E D) as (d' & r' & -> & D'). now exists d', (a1 :: r').
Qed.
(** Which cells are read, and as which value: exactly the decimal numbers and the words inf, infinity and nan in any mixture of cases, with a sign and
    white space around.  Decimal numbers from 2^1024 - 2^970 on are infinite, the others the nearest double.  Underscores between digits are
    passed over in Python 3.6 and later. *)
Theorem C110_cell : forall groups t v, py_floatx groups t = Ok v <-> reads groups t v.
Proof.
  intros g t v. unfold py_floatx. split.
  - intros H. destruct (strip_inv t) as (b & a & B & A & E).
    destruct (if g then ungroup None (strip t) else Some (strip t)) as [p|] eqn:U; [|discriminate H].
    assert (K : (p = strip t \/ g = true /\ grouped p (strip t))).
    { destruct g; [right; split; [easy|now apply ungroup_spec]|left; congruence]. }
    assert (NE : strip t <> []).
    { intros Z. assert (p = []) as ->. { destruct K as [-> |[_ G]]; [exact Z|]. rewrite Z in G. now inversion G. } discriminate H. }
    assert (SP : solid p).
    { destruct (strip_ends t) as [Z|S]; [easy|]. destruct K as [-> |[_ G]]; [exact S|now apply (grouped_solid p (strip t))]. }
    assert (PP : pure p).
    { destruct (special p) as [w|] eqn:Q.
      - apply special_spec in Q. destruct (named_chars p w Q) as [F _]. revert F. apply Forall_impl. tauto.
      - destruct (py_float p) as [r|] eqn:F; [|discriminate H]. destruct (C99_only_numbers p r F) as (b1 & n & a1 & y & EQ & B1 & A1 & D & _).
        destruct (decimal_core n y D) as (b2 & core & a2 & -> & B2 & A2 & S & _ & N).
        assert (p = core) as ->.
        { apply (solid_pure_parts p (b1 ++ b2) core (a2 ++ a1)); [exact SP|rewrite EQ, <- !app_assoc; reflexivity| | |exact N];
            apply Forall_app; (split; [|]); try assumption; eapply Forall_impl; try apply blank_white; assumption. }
        revert S. apply Forall_impl. intros c C. now apply sign_char_parts. }
    exists b, (strip t), a. split; [exact E|]. split; [exact B|]. split; [exact A|]. split.
    + destruct K as [<- |[_ G]]; [exact PP|]. apply Forall_forall. intros c I W. destruct (proj2 (grouped_chars p (strip t) c G) I) as [J|J].
      * unfold pure in PP. rewrite Forall_forall in PP. now apply (PP c).
      * subst c. unfold white_space in W. cbn in W. lia.
    + exists p. split; [exact K|]. now apply (value_pure p PP).
  - intros (b & body & a & -> & B & A & P & p & K & V).
    assert (PP : pure p).
    { destruct K as [-> |[_ G]]; [exact P|]. apply Forall_forall. intros c I. rewrite Forall_forall in P. apply P. now apply (grouped_chars p body c G). }
    assert (CH : Forall (fun c => c <> underscore) p /\ p <> []).
    { destruct V as [V|(x & D & _)].
      - destruct (named_chars p v V) as [F N]. split; [|exact N]. revert F. apply Forall_impl. tauto.
      - destruct (decimal_pure p x PP D) as [F N]. split; [|exact N]. revert F. apply Forall_impl. intros c C. now apply sign_char_parts. }
    destruct CH as [NU NE]. assert (BN : body <> []). { destruct K as [<- |[_ G]]; [exact NE|]. intros ->. inversion G; subst. easy. }
    rewrite strip_pure by easy.
    assert (U : (if g then ungroup None body else @Some text body) = @Some text p).
    { destruct K as [-> |[-> G]]; [|now apply ungroup_spec]. destruct g; [|easy]. apply ungroup_spec. now apply grouped_refl. }
    rewrite U. now apply (value_pure p PP).
Qed.
(** Everything else raises ValueError. *)
Theorem C110_other : forall groups t, (forall v, ~ reads groups t v) -> py_floatx groups t = Err ValueError.
Proof.
  intros g t H. destruct (py_floatx g t) as [v|e] eqn:E; [apply C110_cell in E; now destruct (H v)|]. f_equal. unfold py_floatx in E.
  destruct (if g then ungroup None (strip t) else Some (strip t)) as [p|]; [|congruence]. destruct (special p); [discriminate E|].
  destruct (py_float p) as [r|e'] eqn:F; cbn [bind] in E; [discriminate E|]. injection E as <-. now apply (float_errors p).
Qed.

(** ** Tables *)
Theorem C110_table : forall groups rows t values w, file rows t -> Forall (fun r => length r = w) rows ->
  Forall2 (Forall2 (reads groups)) rows values -> read_arrayx groups t = Ok values.
Proof.
  intros g rows t values w F W D. unfold read_arrayx. rewrite (C99_cells rows t F). cbn [bind]. destruct rows as [|r rows].
  - now inversion D.
  - assert (L : forallb (fun r' => length r' =? length r)%nat (r :: rows) = true).
    { apply forallb_forall. intros r' I. rewrite Forall_forall in W. apply Nat.eqb_eq. rewrite (W r' I), (W r (or_introl eq_refl)). easy. }
    rewrite L. apply Forall2_mapM. clear - D. remember (r :: rows) as l eqn:E. clear E. induction D as [|x y l m H D IH]; [constructor|]. constructor; [|exact IH].
    apply Forall2_mapM. clear - H. induction H as [|c v l m H D IH]; [constructor|]. constructor; [now apply C110_cell|exact IH].
Qed.

(** A file with lines of unequal length or with a cell that is no number raises ValueError. *)
Theorem C110_raises : forall groups rows t, file rows t ->
  (exists r r', In r rows /\ In r' rows /\ length r <> length r') \/ (exists r c, In r rows /\ In c r /\ forall v, ~ reads groups c v) ->
  read_arrayx groups t = Err ValueError.
Proof.
  intros g rows t F H. unfold read_arrayx. rewrite (C99_cells rows t F). cbn [bind]. destruct rows as [|r0 rows].
  { destruct H as [(r & _ & [] & _)|(r & _ & [] & _)]. }
  assert (FE : forall c e, py_floatx g c = Err e -> e = ValueError).
  { intros c e E. rewrite C110_other in E; [congruence|]. intros v V. apply C110_cell in V. congruence. }
  destruct (forallb _ _) eqn:L; [|reflexivity]. rewrite forallb_forall in L. destruct H as [(r & r' & I & I' & N)|(r & c & I & J & B)].
  - apply L, Nat.eqb_eq in I, I'. congruence.
  - apply (mapM_raises _ _ r); [|exact I|].
    + intros y e _ E. apply mapM_errors in E; [exact E|]. intros z e' _. apply FE.
    + apply (mapM_raises _ _ c); [|exact J|now apply C110_other]. intros y e _. apply FE.
Qed.

(** ** Written and read back *)
(** the doubles *)
Definition any_double (v : xr) : Prop := match v with Fin x => double x /\ Rabs x < bpow radix2 1024 | _ => True end.
(** what a double is read back as: infinities and nan as themselves, numbers up to 1e-18 and those of magnitude 2^-7 and more exactly *)
Definition read_back (v w : xr) : Prop :=
  match v with
  | Fin x => exists y, w = Fin y /\ double y /\ Rabs y < bpow radix2 1024 /\ Rabs (y - x) <= / 10 ^ 18 /\ (x = 0 \/ / 2 ^ 7 <= Rabs x -> y = x)
  | _ => w = v
  end.
Definition rereadx (v : xr) : xr := match v with Fin x => Fin (reread x) | _ => v end.
Lemma reread_bounded x : double x -> Rabs x < bpow radix2 1024 -> Rabs (reread x) < bpow radix2 1024.
Proof.
  intros D B. destruct (Rle_lt_dec p7 (Rabs x)) as [L|L]; [now rewrite reread_exact|]. pose proof (reread_near x D) as N.
  assert (T : tiny <= 1). { unfold tiny. rewrite <- Rinv_1. apply Rinv_le; [lra|]. apply IZR_le. lia. }
  assert (P : 2 <= bpow radix2 1024) by (change 2 with (bpow radix2 1); apply bpow_le; lia).
  assert (Q : Rabs (reread x) <= Rabs (reread x - x) + Rabs x) by (replace (reread x) with ((reread x - x) + x) at 1 by ring; apply Rabs_triang).
  rewrite p7_val in L. lra.
Qed.
Lemma fmt18_decimal x : decimal (fmt18 x) (decimal18 x) /\ pure (fmt18 x).
Proof.
  assert (DG : forall ds, Forall is_digit ds -> pure ds).
  { intros ds. apply Forall_impl. intros c C. apply sign_char_parts. now left. }
  unfold fmt18. set (n := Z.abs (ZnearestE (x * IZR (10 ^ 18)))).
  assert (N0 : (0 <= n)%Z) by apply Z.abs_nonneg.
  assert (I0 : (0 <= n / 10 ^ 18)%Z) by (apply Z.div_pos; lia).
  assert (F0 : (0 <= n mod 10 ^ 18 < 10 ^ 18)%Z) by (apply Z.mod_pos_bound; lia).
  set (int := digits (S (Z.to_nat (Z.log2 (n / 10 ^ 18)))) (n / 10 ^ 18)). set (frac := fixed 18 (n mod 10 ^ 18)).
  destruct (digits_digits (S (Z.to_nat (Z.log2 (n / 10 ^ 18)))) _ I0 ltac:(lia)) as [D1 D2]. fold int in D1, D2.
  destruct (fixed_digits 18 (n mod 10 ^ 18)) as [D3 D4]. fold frac in D3, D4.
  assert (V : numeral (int ++ frac) = n).
  { destruct (take_all _ (n / 10 ^ 18) 0 0 (frac ++ []) (conj I0 (fuel_ok _ I0)) ltac:(lia)) as (len & L & E). fold int in E.
    unfold frac in E at 2. rewrite take_fixed in E by lia. cbn [take_digits] in E. rewrite app_nil_r, take_spec in E by now apply Forall_app.
    apply (f_equal (fun x => fst (fst x))) in E. cbn [fst] in E. unfold numeral. etransitivity; [exact E|]. rewrite Z.mod_small by (change (Z.of_nat 18) with 18%Z; lia).
    change (Z.of_nat 18) with 18%Z. pose proof (Z.div_mod n (10 ^ 18) ltac:(lia)). lia. }
  assert (T18 : 10 ^ 18 = IZR (10 ^ 18)) by exact (pow_IZR 10 18).
  destruct (nearest_sign x) as [SN SP]. split.
  - set (sign := if Rltb x 0 then [minus] else []). set (s := if Rltb x 0 then -1 else 1).
    assert (G : (sign = [] \/ sign = [plus]) /\ s = 1 \/ sign = [minus] /\ s = -1) by (unfold sign, s; destruct (Rltb x 0); auto).
    assert (E : decimal18 x = s * (IZR (numeral (int ++ frac)) / 10 ^ length frac * powerRZ 10 0)).
    { rewrite V, D4, T18. unfold decimal18, s, n. change (powerRZ 10 0) with 1. rewrite Rmult_1_r. destruct (Rltb x 0) eqn:C; [apply Rltb_iff in C|apply Rltb_false in C].
      - rewrite Z.abs_neq, opp_IZR by now apply SN. unfold Rdiv. ring.
      - rewrite Z.abs_eq by now apply SP. unfold Rdiv. ring. }
    rewrite E. pose proof (decimal_point [] sign s int frac [] 0 [] ltac:(constructor) ltac:(constructor) G D1 D3 ltac:(now destruct int) ltac:(constructor)) as Q.
    cbn [app] in Q. rewrite app_nil_r in Q. exact Q.
  - unfold pure. apply Forall_app. split; [destruct (Rltb x 0); repeat constructor; unfold white_space; cbn; lia|]. apply Forall_app. split; [now apply DG|].
    apply Forall_app. split; [repeat constructor; unfold white_space; cbn; lia|now apply DG].
Qed.
Lemma spells_self w : spells w w.
Proof. unfold spells. induction w; constructor; auto. Qed.
Lemma fmt18x_reads g v (sp : bool) : any_double v -> reads g ((if sp then [space] else []) ++ fmt18x v) (rereadx v).
Proof.
  intros H. exists (if sp then [space] else []), (fmt18x v), []. rewrite app_nil_r. split; [easy|].
  split; [destruct sp; repeat constructor; right; reflexivity|]. split; [constructor|].
  assert (NM : forall w, named (fmt18x v) w -> number g (fmt18x v) w).
  { intros w N. split; [|exists (fmt18x v); split; [now left|now left]]. destruct (named_chars _ _ N) as [F _]. revert F. apply Forall_impl. tauto. }
  destruct v as [x| | |].
  - destruct H as [D B]. destruct (fmt18_decimal x) as [Q P]. split; [exact P|]. exists (fmt18 x). split; [now left|]. right. exists (decimal18 x). split; [exact Q|].
    apply overflow_spec. fold (reread x). unfold overflow. cbn [rereadx]. rewrite (proj2 (Rltb_iff _ _)); [reflexivity|now apply reread_bounded].
  - apply NM. apply (named_plus []); [now left|]. left. apply spells_self.
  - apply NM. apply named_minus. left. apply spells_self.
  - apply NM. apply (named_nan []); [now left|]. apply spells_self.
Qed.
Lemma fmt18x_plain v : fmt18x v <> [] /\ Forall plain (fmt18x v).
Proof.
  destruct v; [apply fmt18_plain| | |]; (split; [discriminate|]); repeat constructor; intros E; discriminate E.
Qed.
Lemma roundtripx g rows w : Forall (fun r => length r = S w) rows -> Forall (Forall any_double) rows -> read_arrayx g (savetxtx rows) = Ok (map (map rereadx) rows).
Proof.
  intros W DB. unfold read_arrayx, savetxtx.
  assert (E : csv_reader (concat (map (fun row => join [comma; space] (map fmt18x row) ++ [nl]) rows)) = Ok (map as_read (map (map fmt18x) rows))).
  { rewrite <- (map_map (map fmt18x) (fun row => join [comma; space] row ++ [nl])). apply csv_roundtrip.
    apply Forall_forall. intros r I. apply in_map_iff in I as (r0 & <- & I). rewrite Forall_forall in W. specialize (W _ I). split.
    - destruct r0; [discriminate W|easy].
    - apply Forall_forall. intros f J. apply in_map_iff in J as (x & <- & _). apply fmt18x_plain. }
  rewrite E. cbn [bind]. clear E. destruct rows as [|r0 rows]; [easy|].
  assert (LA : forall r, length (as_read (map fmt18x r)) = length r).
  { intros [|x r]; [easy|]. cbn [map as_read length]. now rewrite !map_length. }
  assert (FB : forallb (fun r' => length r' =? length (as_read (map fmt18x r0)))%nat (map as_read (map (map fmt18x) (r0 :: rows))) = true).
  { apply forallb_forall. intros r I. apply in_map_iff in I as (r1 & <- & I). apply in_map_iff in I as (r2 & <- & I).
    rewrite !LA. apply Nat.eqb_eq. rewrite Forall_forall in W. rewrite (W r2 I), (W r0); [easy|now left]. }
  change (map as_read (map (map fmt18x) (r0 :: rows))) with (as_read (map fmt18x r0) :: map as_read (map (map fmt18x) rows)) in *.
  cbn iota. rewrite FB. clear FB W.
  change (as_read (map fmt18x r0) :: map as_read (map (map fmt18x) rows)) with (map as_read (map (map fmt18x) (r0 :: rows))).
  revert DB. generalize (r0 :: rows). clear. intros rows DB. induction DB as [|r rows D DB IH]; [easy|]. cbn [map mapM]. rewrite IH.
  assert (F : forall (sp : bool) v, any_double v -> py_floatx g ((if sp then [space] else []) ++ fmt18x v) = Ok (rereadx v)) by (intros; now apply C110_cell, fmt18x_reads).
  assert (E : mapM (py_floatx g) (as_read (map fmt18x r)) = Ok (map rereadx r)); [|now rewrite E].
  destruct D as [|x r DX D]; [easy|]. cbn [map as_read mapM]. pose proof (F false x DX) as FX. cbn [app] in FX. rewrite FX. cbn [bind].
  assert (E : mapM (py_floatx g) (map (cons space) (map fmt18x r)) = Ok (map rereadx r)); [|now rewrite E].
  clear - D F. induction D as [|x r DX D IH]; [easy|]. cbn [map mapM]. pose proof (F true x DX) as FX. cbn [app] in FX. rewrite FX. cbn [bind]. now rewrite IH.
Qed.
(** Every array of doubles with at least one column is written to a file from which the same table is read, infinities and nan included. *)
Theorem C110_roundtrip : forall groups rows w, Forall (fun r => length r = S w) rows -> Forall (Forall any_double) rows ->
  exists rows', read_arrayx groups (savetxtx rows) = Ok rows' /\ Forall2 (Forall2 read_back) rows rows'.
Proof.
  intros g rows w W D. exists (map (map rereadx) rows). split; [now apply (roundtripx g rows w)|].
  assert (T18 : / 10 ^ 18 = tiny) by (unfold tiny; f_equal; exact (pow_IZR 10 18)).
  assert (P7 : / 2 ^ 7 = p7) by (rewrite p7_val; cbn; lra).
  clear W. induction D as [|r rows D DS IH]; [constructor|]. cbn [map]. constructor; [|exact IH]. clear DS IH.
  induction D as [|v r DX D IH]; [constructor|]. cbn [map]. constructor; [|exact IH]. clear IH D. destruct v as [x| | |]; try reflexivity.
  destruct DX as [DX B]. cbn [read_back rereadx]. rewrite T18, P7. exists (reread x). split; [easy|]. split; [apply reread_double|]. split; [now apply reread_bounded|].
  split; [now apply reread_near|]. intros [-> |M]; [apply reread_zero|now apply reread_exact].
Qed.
(** What finite doubles are written and read as here and in CsvText.v is the same. *)
Theorem C110_finite : forall groups t x, py_float t = Ok x -> Rabs x < bpow radix2 1024 -> py_floatx groups t = Ok (Fin x).
Proof.
  intros g t x H B. destruct (C99_only_numbers t x H) as (b1 & n & a1 & y & EQ & B1 & A1 & D & ->).
  destruct (decimal_core n y D) as (b2 & core & a2 & -> & B2 & A2 & S & DC & N). apply C110_cell. exists (b1 ++ b2), core, (a2 ++ a1).
  split; [rewrite EQ, <- !app_assoc; reflexivity|]. split; [apply Forall_app; split; [exact B1|revert B2; apply Forall_impl, blank_white]|].
  split; [apply Forall_app; split; [revert A2; apply Forall_impl, blank_white|exact A1]|]. split; [revert S; apply Forall_impl; intros c C; now apply sign_char_parts|].
  exists core. split; [now left|]. right. exists y. split; [exact DC|]. apply overflow_spec. unfold overflow. now rewrite (proj2 (Rltb_iff _ _)).
Qed.

(** ** Non-vacuity *)
(** nan, " -Inf", "1_0" and "1e400" *)
Lemma digits_codes l : forallb (fun n => (48 <=? n) && (n <=? 57))%nat l = true -> Forall is_digit (of_codes l).
Proof.
  intros H. rewrite forallb_forall in H. apply Forall_forall. intros x I. apply in_map_iff in I as (n & <- & I). specialize (H n I).
  apply andb_true_iff in H as [H1 H2]. apply Nat.leb_le in H1, H2. unfold is_digit. rewrite nat_ascii_embedding by lia. lia.
Qed.
Example C110_example_words : forall groups,
  py_floatx groups (of_codes [78; 97; 78]%nat) = Ok NaN /\ py_floatx groups (of_codes [32; 45; 73; 110; 102; 9]%nat) = Ok NInf /\
  py_floatx groups (of_codes [43; 105; 110; 102; 105; 110; 105; 116; 89]%nat) = Ok PInf /\ py_floatx groups (of_codes [110; 97]%nat) = Err ValueError.
Proof. intros [|]; repeat split; reflexivity. Qed.
Lemma ten_decimal : decimal (of_codes [49; 48]%nat) 10.
Proof.
  replace 10 with (1 * (IZR (numeral (of_codes [49; 48]%nat)) * powerRZ 10 0)) by value.
  apply (decimal_integer [] [] 1 (of_codes [49; 48]%nat) [] 0 []); [constructor|constructor|left; split; [now left|easy]|now apply digits_codes|easy|constructor].
Qed.
Lemma ten_double : to_double 10 = 10.
Proof. apply round_generic; [typeclasses eauto|]. apply generic_format_FLT. exists (Float radix2 10 0); [unfold F2R; cbn; lra|cbn; lia|cbn; lia]. Qed.
Example C110_example_groups : py_floatx true (of_codes [49; 95; 48]%nat) = Ok (Fin 10) /\ py_floatx false (of_codes [49; 95; 48]%nat) = Err ValueError.
Proof.
  split; [|reflexivity]. apply C110_cell. exists [], (of_codes [49; 95; 48]%nat), []. split; [easy|]. split; [constructor|]. split; [constructor|].
  split; [repeat constructor; unfold white_space; cbn; lia|]. exists (of_codes [49; 48]%nat). split.
  - right. split; [easy|]. apply (grouped_mark (ascii_of_nat 49) (ascii_of_nat 48) [] []); [unfold is_digit; cbn; lia|unfold is_digit; cbn; lia|]. constructor; [easy|constructor].
  - right. exists 10. split; [exact ten_decimal|]. left. split; [|now rewrite ten_double]. rewrite Rabs_pos_eq by lra. destruct limit_mid as (A & B & C).
    assert (16 <= bpow radix2 970) by (change 16 with (bpow radix2 4); apply bpow_le; lia). lra.
Qed.
Example C110_example_overflow : py_floatx true (of_codes [49; 101; 52; 48; 48]%nat) = Ok PInf.
Proof.
  apply C110_cell. exists [], (of_codes [49; 101; 52; 48; 48]%nat), []. split; [easy|]. split; [constructor|]. split; [constructor|].
  split; [repeat constructor; unfold white_space; cbn; lia|]. eexists. split; [now left|]. right.
  exists (1 * (IZR (numeral (of_codes [49%nat])) * powerRZ 10 (numeral (of_codes [52; 48; 48]%nat)))). split.
  - apply (decimal_integer [] [] 1 (of_codes [49%nat]) (of_codes [101; 52; 48; 48]%nat) _ []); [constructor|constructor|left; split; [now left|easy]|now apply digits_codes|easy|].
    apply (exponent_plus (ascii_of_nat 101) [] (of_codes [52; 48; 48]%nat)); [now left|now left|now apply digits_codes|easy].
  - right. left. split; [|easy]. change (numeral (of_codes [52; 48; 48]%nat)) with (Z.of_nat 400). change (numeral (of_codes [49%nat])) with 1%Z.
    rewrite <- pow_powerRZ, !Rmult_1_l. unfold limit. pose proof (bpow_gt_0 radix2 970) as Q.
    apply Rle_trans with (bpow radix2 1024); [lra|]. change (bpow radix2 1024) with (IZR (Z.pow_pos 2 1024)). rewrite pow_IZR. apply IZR_le.
    apply Z.leb_le. vm_compute. reflexivity.
Qed.
Example C110_example : exists rows', read_arrayx false (savetxtx [[Fin 10; NaN]; [NInf; PInf]]) = Ok rows' /\ rows' = [[Fin 10; NaN]; [NInf; PInf]].
Proof.
  assert (D : any_double (Fin 10)).
  { split; [rewrite <- ten_double; apply generic_format_round; typeclasses eauto|]. rewrite Rabs_pos_eq by lra.
    assert (16 <= bpow radix2 1024) by (change 16 with (bpow radix2 4); apply bpow_le; lia). lra. }
  eexists. split; [apply (roundtripx false [[Fin 10; NaN]; [NInf; PInf]] 1); repeat constructor; apply D|]. cbn [map rereadx]. rewrite reread_exact; [reflexivity|apply D|].
  rewrite Rabs_pos_eq, p7_val by lra. lra.
Qed.
