(** * Property C104: the numbers in the files of the target extractor and of the tf export, as the Python programs read them. *)

From Coq Require Import Reals ZArith List Bool Ascii Lra Lia Psatz.
From Flocq Require Import Core Relative.
From Verif Require Import Py XReal XFacts ListFacts CsvText CsvFacts NumberText PropCsvText PropCsvFiles.
Import ListNotations.
Local Open Scope R_scope.

(** ** Specification *)
(** x rounded to P significant decimal digits, ties to even *)
Definition rounded (P : nat) (x : R) : R := round radix10 (FLX_exp (Z.of_nat P)) ZnearestE x.

(** ** Numerals *)
Lemma numeral_snoc t d : (0 <= d < 10)%Z -> numeral (t ++ [digit d]) = (10 * numeral t + d)%Z.
Proof.
  intros D. unfold numeral. rewrite fold_left_app. cbn [fold_left]. rewrite digit_code by easy. rewrite Nat2Z.inj_add, Z2Nat.id by lia. lia.
Qed.
Lemma numeral_fixed k : forall z, (0 <= z < 10 ^ Z.of_nat k)%Z -> numeral (fixed k z) = z.
Proof.
  induction k as [|k IH]; intros z H; [cbn in *; lia|]. cbn [fixed]. rewrite numeral_snoc by apply mod10.
  rewrite Nat2Z.inj_succ, Z.pow_succ_r in H by lia. rewrite IH; [pose proof (Z.div_mod z 10 ltac:(lia)); lia|].
  split; [apply Z.div_pos; lia|]. apply Z.div_lt_upper_bound; lia.
Qed.
Lemma numeral_natural z : (0 <= z)%Z -> numeral (natural z) = z.
Proof.
  intros H. unfold natural. pose proof (fuel_ok z H) as F. assert (P : (0 < S (Z.to_nat (Z.log2 z)))%nat) by lia.
  revert F P H. generalize (S (Z.to_nat (Z.log2 z))). intros f. revert z. induction f as [|f IH]; intros z F P H; [lia|].
  cbn [digits]. destruct (Z.ltb_spec z 10).
  - change [digit z] with ([] ++ [digit z]). rewrite numeral_snoc by lia. reflexivity.
  - rewrite numeral_snoc by apply mod10. rewrite Nat2Z.inj_succ, Z.pow_succ_r in F by lia.
    rewrite IH; [pose proof (Z.div_mod z 10 ltac:(lia)); lia| | |apply Z.div_pos; lia].
    + apply Z.div_lt_upper_bound; lia.
    + destruct f; [cbn in F; lia|lia].
Qed.
Lemma numeral_app a b : Forall is_digit b -> numeral (a ++ b) = (numeral a * 10 ^ Z.of_nat (length b) + numeral b)%Z.
Proof.
  intros D. induction b as [|d b IH] using rev_ind; [rewrite app_nil_r; cbn; lia|]. apply Forall_app in D as [D DD]. inversion DD as [|? ? Dd _]; subst.
  rewrite app_assoc. unfold numeral in *. rewrite fold_left_app, (fold_left_app _ b). cbn [fold_left]. rewrite IH by easy.
  rewrite app_length. cbn [length]. rewrite Nat.add_1_r, Nat2Z.inj_succ, Z.pow_succ_r by lia. lia.
Qed.
Lemma natural_digits z : (0 <= z)%Z -> Forall is_digit (natural z) /\ natural z <> [].
Proof. intros H. apply digits_digits; [easy|lia]. Qed.
Lemma strip_zeros_spec t : exists k, t = strip_zeros t ++ repeat (digit 0) k.
Proof.
  induction t as [|c t (k & E)]; [now exists O|]. cbn [strip_zeros]. destruct (strip_zeros t) as [|u us].
  - destruct (Ascii.eqb_spec c (digit 0)) as [-> |].
    + exists (S k). cbn in *. now f_equal.
    + exists k. cbn in *. now f_equal.
  - exists k. cbn in *. now f_equal.
Qed.
Lemma numeral_zeros a k : numeral (a ++ repeat (digit 0) k) = (numeral a * 10 ^ Z.of_nat k)%Z.
Proof.
  induction k as [|k IH]; [cbn; rewrite app_nil_r; lia|]. replace (S k) with (k + 1)%nat by lia. rewrite repeat_app. cbn [repeat].
  rewrite app_assoc, numeral_snoc, IH by lia. rewrite Nat2Z.inj_add, Z.pow_add_r by lia. change (10 ^ Z.of_nat 1)%Z with 10%Z. lia.
Qed.

(** ** The decimal that is written *)
(** whole numbers may be followed by a point and a zero *)
Definition whole_end (w : text) : Prop := w = [] \/ w = [dot; digit 0].
Lemma pow10_pos k : 0 < IZR (10 ^ Z.of_nat k). Proof. apply IZR_lt. lia. Qed.
Lemma plain_decimal sign s m d w ex e : (sign = [] \/ sign = [plus]) /\ s = 1 \/ sign = [minus] /\ s = -1 -> (0 <= m)%Z -> whole_end w -> exponent ex e ->
  decimal (sign ++ natural (m / 10 ^ Z.of_nat d) ++ point w (fixed d (m mod 10 ^ Z.of_nat d)) ++ ex) (s * (IZR m / IZR (10 ^ Z.of_nat d) * powerRZ 10 e)).
Proof.
  intros G M W X. set (int := (m / 10 ^ Z.of_nat d)%Z). set (fr := (m mod 10 ^ Z.of_nat d)%Z).
  assert (I0 : (0 <= int)%Z) by (apply Z.div_pos; lia). assert (F0 : (0 <= fr < 10 ^ Z.of_nat d)%Z) by (apply Z.mod_pos_bound; lia).
  assert (DM : m = (int * 10 ^ Z.of_nat d + fr)%Z) by (unfold int, fr; pose proof (Z.div_mod m (10 ^ Z.of_nat d) ltac:(lia)); lia).
  destruct (natural_digits int I0) as [ND NN]. destruct (fixed_digits d fr) as [FD FL].
  destruct (strip_zeros_spec (fixed d fr)) as (k & E).
  assert (SD : Forall is_digit (strip_zeros (fixed d fr))) by (rewrite E in FD; now apply Forall_app in FD).
  assert (L : (length (strip_zeros (fixed d fr)) + k = d)%nat) by (pose proof (f_equal (@length _) E) as L0; rewrite FL, app_length, repeat_length in L0; lia).
  assert (V : (numeral (natural int ++ strip_zeros (fixed d fr)) * 10 ^ Z.of_nat k = m)%Z).
  { rewrite <- numeral_zeros, <- app_assoc, <- E, numeral_app by easy. rewrite numeral_natural, numeral_fixed, FL by easy. easy. }
  assert (Q : IZR m / IZR (10 ^ Z.of_nat d) = IZR (numeral (natural int ++ strip_zeros (fixed d fr))) / 10 ^ length (strip_zeros (fixed d fr))).
  { rewrite <- V, mult_IZR. replace d with (length (strip_zeros (fixed d fr)) + k)%nat at 2 by easy. rewrite Nat2Z.inj_add, Z.pow_add_r, mult_IZR by lia.
    rewrite (pow_IZR 10). pose proof (pow10_pos k). pose proof (pow10_pos (length (strip_zeros (fixed d fr)))). field. lra. }
  rewrite Q. unfold point. destruct (strip_zeros (fixed d fr)) as [|c f] eqn:ST.
  - rewrite app_nil_r. cbn [length pow]. unfold Rdiv. rewrite Rinv_1, Rmult_1_r. destruct W as [-> | ->].
    + pose proof (decimal_integer [] sign s (natural int) ex e [] ltac:(constructor) ltac:(constructor) G ND NN X) as H. cbn [app] in H. rewrite app_nil_r in H. exact H.
    + pose proof (decimal_point [] sign s (natural int) [digit 0] ex e [] ltac:(constructor) ltac:(constructor) G ND
        ltac:(constructor; [now apply digit_is|constructor]) ltac:(now destruct (natural int)) X) as H.
      cbn [app] in H. rewrite app_nil_r in H. rewrite numeral_snoc in H by lia. cbn [length pow] in H.
      replace (IZR (numeral (natural int))) with (IZR (10 * numeral (natural int) + 0) / (10 * 1)); [exact H|]. rewrite plus_IZR, mult_IZR. field.
  - pose proof (decimal_point [] sign s (natural int) (c :: f) ex e [] ltac:(constructor) ltac:(constructor) G ND SD ltac:(now destruct (natural int)) X) as H.
    cbn [app] in H. rewrite app_nil_r in H. exact H.
Qed.
Lemma exponent_text_is e : exponent (exponent_text e) e.
Proof.
  unfold exponent_text. match goal with |- exponent (_ :: _ :: ?t) _ => set (ds := t) end.
  assert (D : Forall is_digit ds /\ ds <> [] /\ numeral ds = Z.abs e).
  { unfold ds. destruct (Z.ltb_spec (Z.abs e) 10).
    - destruct (fixed_digits 2 (Z.abs e)) as [A B]. split; [exact A|]. split; [intros Q; rewrite Q in B; discriminate B|]. apply numeral_fixed. change (10 ^ Z.of_nat 2)%Z with 100%Z. lia.
    - destruct (natural_digits (Z.abs e)) as [A B]; [lia|]. split; [exact A|]. split; [exact B|]. apply numeral_natural. lia. }
  destruct D as (D & N & V). clearbody ds. destruct (Z.ltb_spec e 0).
  - replace e with (- numeral ds)%Z by lia. constructor; [now left|exact D|exact N].
  - replace e with (numeral ds) by lia. apply (exponent_plus _ [plus]); [now left|now right|exact D|exact N].
Qed.
Lemma power_bpow e : powerRZ 10 e = bpow radix10 e. Proof. symmetry. apply (bpow_powerRZ radix10 e). Qed.
Lemma rounded_sign P x : rounded P (- x) = - rounded P x. Proof. apply round_NE_opp. Qed.
Lemma significant_spec P x e n : (1 <= P)%nat -> significant P x = (e, n) ->
  (0 <= n < 10 ^ Z.of_nat P)%Z /\ IZR n * powerRZ 10 (e + 1 - Z.of_nat P) = rounded P (Rabs x) /\ (x = 0 -> e = 0%Z).
Proof.
  intros P1 H. unfold significant in H. destruct (Req_bool_spec x 0) as [-> |NZ].
  - injection H as <- <-. split; [lia|]. split; [|easy]. rewrite Rabs_R0. unfold rounded. rewrite round_0 by typeclasses eauto. ring.
  - set (e0 := (mag radix10 x - 1)%Z) in *. set (n0 := ZnearestE (Rabs x * powerRZ 10 (Z.of_nat P - 1 - e0))) in *.
    assert (R0 : IZR n0 * powerRZ 10 (e0 + 1 - Z.of_nat P) = rounded P (Rabs x)).
    { unfold rounded, round, F2R, scaled_mantissa, cexp, FLX_exp. cbn [Fnum Fexp]. rewrite mag_abs, <- !power_bpow.
      unfold n0, e0. f_equal; f_equal; [f_equal; f_equal; f_equal; lia|lia]. }
    assert (B : (10 ^ (Z.of_nat P - 1) <= n0 <= 10 ^ Z.of_nat P)%Z).
    { destruct (mag radix10 x) as [m M]. cbn [mag_val] in *. specialize (M NZ). unfold n0. rewrite power_bpow.
      rewrite <- (Zrnd_IZR ZnearestE (10 ^ (Z.of_nat P - 1))), <- (Zrnd_IZR ZnearestE (10 ^ Z.of_nat P)).
      pose proof (bpow_gt_0 radix10 (Z.of_nat P - 1 - e0)).
      change (10 ^ (Z.of_nat P - 1))%Z with (radix10 ^ (Z.of_nat P - 1))%Z. change (10 ^ Z.of_nat P)%Z with (radix10 ^ Z.of_nat P)%Z.
      rewrite !IZR_Zpower by lia.
      assert (E1 : bpow radix10 (Z.of_nat P - 1) = bpow radix10 (m - 1) * bpow radix10 (Z.of_nat P - 1 - e0)) by (rewrite <- bpow_plus; f_equal; unfold e0; lia).
      assert (E2 : bpow radix10 (Z.of_nat P) = bpow radix10 m * bpow radix10 (Z.of_nat P - 1 - e0)) by (rewrite <- bpow_plus; f_equal; unfold e0; lia).
      rewrite E1, E2.
      split; (apply Zrnd_le; [typeclasses eauto|]); apply Rmult_le_compat_r; lra. }
    destruct (Z.eqb_spec n0 (10 ^ Z.of_nat P)) as [E|E]; injection H as <- <-.
    + split; [split; [lia|apply Z.pow_lt_mono_r; lia]|]. split; [|easy]. rewrite <- R0, E. rewrite !power_bpow.
      change (10 ^ (Z.of_nat P - 1))%Z with (radix10 ^ (Z.of_nat P - 1))%Z. change (10 ^ Z.of_nat P)%Z with (radix10 ^ Z.of_nat P)%Z.
      rewrite !IZR_Zpower by lia. rewrite <- !bpow_plus. f_equal. lia.
    + split; [lia|]. split; [exact R0|easy].
Qed.
(** Every number is written as a decimal number, that of the first P digits. *)
Lemma general_decimal P limit w x : (1 <= P)%nat -> whole_end w -> decimal (general P limit w x) (rounded P x).
Proof.
  intros P1 W. unfold general. destruct (significant P x) as [e n] eqn:S. destruct (significant_spec P x e n P1 S) as ([N0 N1] & V & _).
  set (sign := if Rltb x 0 then [minus] else []). set (s := if Rltb x 0 then -1 else 1).
  assert (G : (sign = [] \/ sign = [plus]) /\ s = 1 \/ sign = [minus] /\ s = -1) by (unfold sign, s; destruct (Rltb x 0); [right|left]; auto).
  assert (RX : rounded P x = s * rounded P (Rabs x)).
  { unfold s. destruct (Rltb x 0) eqn:C; [apply Rltb_iff in C; rewrite Rabs_left, rounded_sign by easy; ring|apply Rltb_false in C; rewrite Rabs_pos_eq by lra; ring]. }
  rewrite RX, <- V. assert (ten : (10 : R) <> 0) by lra. destruct ((-4 <=? e) && (e <? limit))%Z.
  - cbv zeta. set (d := Z.to_nat (Z.of_nat P - 1 - e)). set (m := (n * 10 ^ Z.max 0 (e + 1 - Z.of_nat P))%Z).
    assert (M0 : (0 <= m)%Z) by (unfold m; apply Z.mul_nonneg_nonneg; [easy|apply Z.pow_nonneg; lia]).
    replace (IZR n * powerRZ 10 (e + 1 - Z.of_nat P)) with (IZR m / IZR (10 ^ Z.of_nat d) * powerRZ 10 0).
    + pose proof (plain_decimal sign s m d w [] 0 G M0 W no_exponent) as H. rewrite app_nil_r in H. exact H.
    + cbn [powerRZ]. rewrite Rmult_1_r. unfold m. rewrite mult_IZR.
      change (10 ^ Z.max 0 (e + 1 - Z.of_nat P))%Z with (radix10 ^ Z.max 0 (e + 1 - Z.of_nat P))%Z. change (10 ^ Z.of_nat d)%Z with (radix10 ^ Z.of_nat d)%Z.
      rewrite !IZR_Zpower by lia. rewrite power_bpow. unfold Rdiv. rewrite Rmult_assoc, <- bpow_opp, <- bpow_plus. do 2 f_equal. unfold d. lia.
  - cbv zeta. replace (IZR n * powerRZ 10 (e + 1 - Z.of_nat P)) with (IZR n / IZR (10 ^ Z.of_nat (P - 1)) * powerRZ 10 e).
    + apply (plain_decimal sign s n (P - 1) [] (exponent_text e) e G N0 ltac:(now left) (exponent_text_is e)).
    + change (10 ^ Z.of_nat (P - 1))%Z with (radix10 ^ Z.of_nat (P - 1))%Z. rewrite !IZR_Zpower by lia. rewrite !power_bpow. unfold Rdiv.
      rewrite Rmult_assoc, <- bpow_opp, <- bpow_plus. do 2 f_equal. lia.
Qed.

(** ** What is read *)
Lemma decimal_blank t x c : blank c -> decimal t x -> decimal (c :: t) x.
Proof.
  intros B D. destruct D as [b sign s int ex e a HB A G DI N X|b sign s int frac ex e a HB A G DI F N X].
  - apply (decimal_integer (c :: b)); [now constructor|exact A|exact G|exact DI|exact N|exact X].
  - apply (decimal_point (c :: b)); [now constructor|exact A|exact G|exact DI|exact F|exact N|exact X].
Qed.
Lemma decimal_cell t x : decimal t x -> cell t /\ t <> [].
Proof.
  assert (SEP : forall c, (nat_of_ascii c <> 44 /\ nat_of_ascii c <> 124 /\ nat_of_ascii c <> 10 /\ nat_of_ascii c <> 13)%nat -> c <> comma /\ c <> bar /\ c <> nl /\ c <> cr).
  { intros c (H1 & H2 & H3 & H4). repeat split; intros ->; cbn in *; lia. }
  assert (CB : forall l, Forall blank l -> cell l) by (intros l; apply Forall_impl; intros c B; apply SEP; unfold blank in B; lia).
  assert (CD : forall l, Forall is_digit l -> cell l) by (intros l; apply Forall_impl; intros c B; apply SEP; unfold is_digit in B; lia).
  assert (CS : forall sign s, (sign = [] \/ sign = [plus]) /\ s = 1 \/ sign = [minus] /\ s = -1 -> cell sign).
  { intros sign s [[[-> | ->] _]|[-> _]]; [constructor|constructor; [now apply SEP|constructor]|constructor; [now apply SEP|constructor]]. }
  assert (CX : forall ex e, exponent ex e -> cell ex).
  { intros ex e H. assert (CM : forall c, mark c -> c <> comma /\ c <> bar /\ c <> nl /\ c <> cr) by (intros c M; apply SEP; unfold mark in M; lia).
    destruct H as [|c sign ds M S D N|c ds M D N]; [constructor| |].
    - constructor; [now apply CM|]. apply Forall_app. split; [|now apply CD]. apply (CS sign 1). left. now split.
    - constructor; [now apply CM|]. constructor; [now apply SEP|now apply CD]. }
  intros D. destruct D as [b sign s int ex e a HB A G DI N X|b sign s int frac ex e a HB A G DI F N X]; split.
  - unfold cell. rewrite !Forall_app. split; [now apply CB|]. split; [now apply (CS sign s)|]. split; [now apply CD|]. split; [now apply (CX ex e)|now apply CB].
  - intros E. apply app_eq_nil in E as [_ E]. apply app_eq_nil in E as [_ E]. now apply app_eq_nil in E as [E _].
  - unfold cell. rewrite !Forall_app. split; [now apply CB|]. split; [now apply (CS sign s)|]. split; [now apply CD|]. split; [constructor; [now apply SEP|constructor]|].
    split; [now apply CD|]. split; [now apply (CX ex e)|now apply CB].
  - intros E. apply app_eq_nil in E as [_ E]. apply app_eq_nil in E as [_ E]. apply app_eq_nil in E as [_ E]. discriminate E.
Qed.
Definition spaced (cells : list text) : list text := match cells with [] => [] | c :: cs => c :: map (cons space) cs end.
Lemma join_spaced cells : join [comma; space] cells = join [comma] (spaced cells).
Proof.
  destruct cells as [|c cells]; [easy|]. revert c. induction cells as [|d cells IH]; intros c; [easy|].
  change (join [comma; space] (c :: d :: cells)) with (c ++ [comma; space] ++ join [comma; space] (d :: cells)). rewrite IH.
  destruct cells as [|f cells]; [easy|]. reflexivity.
Qed.
(** A table of decimal numbers, separated by a comma and a space, is read as the table of the nearest doubles. *)
Theorem C104_table : forall number value w rows, (forall x, decimal (number x) (value x)) -> Forall (fun r => length r = w) rows ->
  read_array (table number rows) = Ok (map (map (fun x => to_double (value x))) rows).
Proof.
  intros number value w rows D W. assert (SB : blank space) by (right; right; right; reflexivity).
  assert (F : file (map (fun r => spaced (map number r)) rows) (table number rows)).
  { unfold table. clear W. induction rows as [|r rows IH]; [constructor|]. cbn [map concat]. rewrite join_spaced, <- app_assoc. apply file_line; [|now left|exact IH].
    split.
    - destruct r as [|x r]; [constructor|]. cbn [map spaced]. constructor; [now apply (decimal_cell _ (value x))|].
      apply Forall_map, Forall_map, Forall_forall. intros y _. now apply (decimal_cell _ (value y)), decimal_blank.
    - destruct r as [|x [|y r]]; [easy| |easy]. cbn. intros [= E]. now apply (decimal_cell _ _ (D x)). }
  rewrite (C99_table _ _ (map (map value) rows) w F).
  - now rewrite map_map, (map_ext _ (map (fun x => to_double (value x)))) by (intros r; now rewrite map_map).
  - apply Forall_map. eapply Forall_impl; [|exact W]. intros r E. cbn beta. rewrite <- E. destruct r; [easy|]. cbn. now rewrite !map_length.
  - clear W F. induction rows as [|r rows IH]; [constructor|]. cbn [map]. constructor; [|exact IH].
    destruct r as [|x r]; [constructor|]. cbn [map spaced]. constructor; [apply D|]. induction r as [|y r IHr]; [constructor|]. cbn [map]. constructor; [|exact IHr].
    apply decimal_blank; [exact SB|apply D].
Qed.
(** A number written with P significant digits, in whatever notation, is read as the double nearest to it. *)
Theorem C104_number : forall P limit w x, (1 <= P)%nat -> w = [] \/ w = [dot; digit 0] ->
  py_float (general P limit w x) = Ok (to_double (rounded P x)).
Proof. intros P limit w x P1 W. apply C99_number, general_decimal; easy. Qed.

(** ** Seventeen digits *)
#[local] Existing Instance prec53.
Definition u53 : R := / IZR (2 ^ 53).
Lemma two_doubles x z : double x -> double z -> z <> x -> Rabs z <= Rabs x -> u53 * Rabs z <= Rabs (x - z).
Proof.
  intros X Z NE L. destruct (Req_dec z 0) as [-> |NZ]; [rewrite Rabs_R0, Rmult_0_r; apply Rabs_pos|].
  set (c := cexp radix2 (FLT_exp (-1074) 53) z). set (d := cexp radix2 (FLT_exp (-1074) 53) x).
  assert (CD : (c <= d)%Z).
  { unfold c, d, cexp. pose proof (mag_le_abs radix2 z x NZ L). unfold FLT_exp. lia. }
  assert (EX : exists k, x = IZR k * bpow radix2 c).
  { exists (Ztrunc (scaled_mantissa radix2 (FLT_exp (-1074) 53) x) * 2 ^ (d - c))%Z. rewrite mult_IZR.
    change (2 ^ (d - c))%Z with (radix2 ^ (d - c))%Z. rewrite IZR_Zpower by lia. rewrite Rmult_assoc, <- bpow_plus. replace (d - c + c)%Z with d by lia. exact X. }
  destruct EX as (k & EX). assert (EZ : z = IZR (Ztrunc (scaled_mantissa radix2 (FLT_exp (-1074) 53) z)) * bpow radix2 c) by exact Z.
  set (j := Ztrunc (scaled_mantissa radix2 (FLT_exp (-1074) 53) z)) in EZ.
  assert (KJ : k <> j) by (intros ->; apply NE; now rewrite EX). pose proof (bpow_gt_0 radix2 c) as B.
  apply Rle_trans with (bpow radix2 c).
  - apply Rle_trans with (bpow radix2 (mag radix2 z - 53)).
    + unfold Zminus. rewrite bpow_plus, Rmult_comm. change (bpow radix2 (-53)) with u53. apply Rmult_le_compat_r; [unfold u53; apply Rlt_le, Rinv_0_lt_compat, IZR_lt; reflexivity|].
      apply Rlt_le, bpow_mag_gt.
    + apply bpow_le. unfold c, cexp, FLT_exp. lia.
  - rewrite EX, EZ, <- Rmult_minus_distr_r, <- minus_IZR, Rabs_mult, <- abs_IZR, (Rabs_pos_eq (bpow _ _)) by lra.
    assert (1 <= IZR (Z.abs (k - j))) by (apply IZR_le; lia). nra.
Qed.
Lemma to_double_nearest y g : double g -> Rabs (to_double y - y) <= Rabs (g - y).
Proof. intros G. unfold to_double. destruct (round_N_pt radix2 (FLT_exp (-1074) 53) (fun x => negb (Z.even x)) y) as [_ H]. now apply H. Qed.
Lemma to_double_double y : double (to_double y).
Proof. apply generic_format_round; typeclasses eauto. Qed.
Lemma close_reread x y : double x -> Rabs (y - x) <= 5 / 10 ^ 17 * Rabs x -> to_double y = x.
Proof.
  intros X C. pose proof (to_double_nearest y x X) as N. pose proof (to_double_double y) as Z. set (z := to_double y) in *.
  destruct (Req_dec z x) as [|NE]; [easy|exfalso].
  assert (D : Rabs (z - x) <= 1 / 10 ^ 16 * Rabs x).
  { replace (z - x) with ((z - y) + (y - x)) by ring. eapply Rle_trans; [apply Rabs_triang|]. rewrite (Rabs_minus_sym x y) in N. lra. }
  assert (U : 111 / 10 ^ 18 <= u53).
  { unfold u53. apply Rmult_le_reg_r with (IZR (2 ^ 53)); [apply IZR_lt; reflexivity|]. rewrite Rinv_l by (apply not_eq_sym, Rlt_not_eq, IZR_lt; reflexivity).
    change (2 ^ 53)%Z with 9007199254740992%Z. lra. }
  assert (NX : x <> 0).
  { intros ->. rewrite Rabs_R0, Rmult_0_r in D. pose proof (Rabs_pos (z - 0)). assert (Q : Rabs (z - 0) = 0) by lra. apply NE.
    destruct (Req_dec (z - 0) 0) as [W|W]; [lra|]. now apply Rabs_no_R0 in W. }
  pose proof (Rabs_pos_lt x NX) as XP.
  destruct (Rle_lt_dec (Rabs z) (Rabs x)) as [L|L].
  - pose proof (two_doubles x z X Z NE L) as T. rewrite Rabs_minus_sym in T. pose proof (Rabs_triang_inv x z) as TI. rewrite Rabs_minus_sym in TI.
    assert (ZB : (1 - 1 / 10 ^ 16) * Rabs x <= Rabs z) by lra.
    assert (111 / 10 ^ 18 * ((1 - 1 / 10 ^ 16) * Rabs x) <= u53 * Rabs z) by (apply Rmult_le_compat; lra). lra.
  - pose proof (two_doubles z x Z X (not_eq_sym NE) (Rlt_le _ _ L)) as T. assert (111 / 10 ^ 18 * Rabs x <= u53 * Rabs x) by (apply Rmult_le_compat_r; lra). lra.
Qed.
Lemma rounded_error P x : (1 <= P)%nat -> Rabs (rounded P x - x) <= / 2 * bpow radix10 (- Z.of_nat P + 1) * Rabs x.
Proof. intros P1. apply relative_error_N_FLX. unfold Prec_gt_0. lia. Qed.
Lemma seventeen x : double x -> to_double (rounded 17 x) = x.
Proof.
  intros X. apply close_reread; [exact X|]. eapply Rle_trans; [apply rounded_error; lia|]. apply Rmult_le_compat_r; [apply Rabs_pos|].
  change (- Z.of_nat 17 + 1)%Z with (-16)%Z. change (bpow radix10 (-16)) with (/ IZR (10 ^ 16)). change (10 ^ 16)%Z with 10000000000000000%Z. lra.
Qed.
(** Every double that the target extractor writes is read back exactly, and so is every file of poses. *)
Theorem C104_extractor_number : forall x, double x -> py_float (cpp17 x) = Ok x.
Proof. intros x X. unfold cpp17. rewrite C104_number; [now rewrite seventeen|lia|now left]. Qed.
Lemma map_rows (f : R -> R) rows : Forall (Forall (fun x => f x = x)) rows -> map (map f) rows = rows.
Proof.
  intros H. rewrite <- (map_id rows) at 2. apply map_ext_in. intros r I. rewrite Forall_forall in H. specialize (H r I).
  rewrite <- (map_id r) at 2. apply map_ext_in. rewrite Forall_forall in H. exact H.
Qed.
Lemma Forall2_deep (P Q : R -> Prop) rows : (forall x, P x -> Q x) -> Forall (Forall P) rows -> Forall (Forall Q) rows.
Proof. intros H. apply Forall_impl. intros r. now apply Forall_impl. Qed.
Theorem C104_extractor : forall w rows, Forall (fun r => length r = w) rows -> Forall (Forall double) rows -> read_array (table cpp17 rows) = Ok rows.
Proof.
  intros w rows W D. rewrite (C104_table cpp17 (rounded 17) w); [|intros x; apply general_decimal; [lia|now left]|exact W].
  rewrite map_rows; [easy|]. revert D. apply Forall2_deep. apply seventeen.
Qed.

(** ** The tf export *)
Lemma enough_spec x : double x -> forall k P, (1 <= P)%nat -> (P + k = 17)%nat -> (1 <= enough k P x)%nat /\ to_double (rounded (enough k P x) x) = x.
Proof.
  intros X. induction k as [|k IH]; intros P P1 K; cbn [enough].
  - replace P with 17%nat by lia. split; [lia|now apply seventeen].
  - destruct (Req_bool_spec (to_double (round radix10 (FLX_exp (Z.of_nat P)) ZnearestE x)) x) as [E|E]; [now split|apply IH; lia].
Qed.
(** With Python 3 it is exact as well. *)
Theorem C104_tf_python3 : forall w rows, Forall (fun r => length r = w) rows -> Forall (Forall double) rows -> read_array (table str3 rows) = Ok rows.
Proof.
  intros w rows W D.
  set (value := fun x => rounded (Nat.max 1 (enough 16 1 x)) x).
  assert (DEC : forall x, decimal (str3 x) (value x)).
  { assert (P1 : forall k P x, (1 <= P)%nat -> (1 <= enough k P x)%nat).
    { induction k as [|k IH]; intros P x H; cbn [enough]; [exact H|]. destruct (Req_bool _ _); [exact H|apply IH; lia]. }
    intros x. unfold value, str3. rewrite Nat.max_r by (apply P1; lia). apply general_decimal; [apply P1; lia|now right]. }
  rewrite (C104_table str3 value w rows DEC W). rewrite map_rows; [easy|]. revert D. apply Forall2_deep. intros x X. unfold value.
  destruct (enough_spec x X 16 1 ltac:(lia) ltac:(lia)) as [A B]. now rewrite Nat.max_r.
Qed.
(** With Python 2 every number is read as the double nearest to its twelve digits: the relative error is at most 1e-11, *)
Theorem C104_tf_python2 : forall w rows, Forall (fun r => length r = w) rows ->
  read_array (table str2 rows) = Ok (map (map (fun x => to_double (rounded 12 x))) rows).
Proof. intros w rows W. apply (C104_table str2 (rounded 12) w); [|exact W]. intros x. apply general_decimal; [lia|now right]. Qed.
Theorem C104_tf_python2_error : forall x, double x -> exists r, py_float (str2 x) = Ok r /\ Rabs (r - x) <= 1 / 10 ^ 11 * Rabs x.
Proof.
  intros x X. exists (to_double (rounded 12 x)). split; [apply C104_number; [lia|now right]|]. pose proof (to_double_nearest (rounded 12 x) x X) as N. pose proof (rounded_error 12 x ltac:(lia)) as E.
  change (- Z.of_nat 12 + 1)%Z with (-11)%Z in E. change (bpow radix10 (-11)) with (/ IZR (10 ^ 11)) in E. change (10 ^ 11)%Z with 100000000000%Z in E.
  replace (to_double (rounded 12 x) - x) with ((to_double (rounded 12 x) - rounded 12 x) + (rounded 12 x - x)) by ring.
  eapply Rle_trans; [apply Rabs_triang|]. rewrite (Rabs_minus_sym x) in N. lra.
Qed.
(** the order is kept, but not strictly: *)
Theorem C104_order : forall x y, x <= y -> exists r s, py_float (str2 x) = Ok r /\ py_float (str2 y) = Ok s /\ r <= s.
Proof.
  intros x y H. exists (to_double (rounded 12 x)), (to_double (rounded 12 y)). split; [apply C104_number; [lia|now right]|]. split; [apply C104_number; [lia|now right]|].
  apply round_le; [typeclasses eauto|typeclasses eauto|]. apply round_le; [apply FLX_exp_valid; unfold Prec_gt_0; lia|typeclasses eauto|exact H].
Qed.
(** a time stamp in seconds since 1970 is rounded to hundredths of a second. *)
Lemma stamp_rounded t : 10 ^ 9 <= t < 10 ^ 10 -> rounded 12 t = IZR (ZnearestE (t * 100)) / 100.
Proof.
  intros [L U]. unfold rounded, round, F2R, scaled_mantissa, cexp. cbn [Fnum Fexp].
  assert (M : mag radix10 t = 10%Z :> Z).
  { apply mag_unique_pos. change (bpow radix10 (10 - 1)) with (IZR (10 ^ 9)). change (bpow radix10 10) with (IZR (10 ^ 10)).
    rewrite (pow_IZR 10 9) in L. rewrite (pow_IZR 10 10) in U. easy. }
  rewrite M. change (FLX_exp (Z.of_nat 12) 10) with (-2)%Z. cbn [Z.opp]. change (bpow radix10 2) with 100. change (bpow radix10 (-2)) with (/ 100). reflexivity.
Qed.
Theorem C104_stamp : forall t, 10 ^ 9 <= t < 10 ^ 10 ->
  exists c : Z, Rabs (IZR c / 100 - t) <= 1 / 200 /\ py_float (str2 t) = Ok (to_double (IZR c / 100)).
Proof.
  intros t B. exists (ZnearestE (t * 100)). split.
  - pose proof (nearest_half (t * 100)) as H. replace (IZR (ZnearestE (t * 100)) / 100 - t) with (- ((t * 100 - IZR (ZnearestE (t * 100))) / 100)) by field.
    rewrite Rabs_Ropp. unfold Rdiv at 1. rewrite Rabs_mult, (Rabs_pos_eq (/ 100)) by lra. lra.
  - unfold str2. rewrite C104_number; [|lia|now right]. now rewrite stamp_rounded.
Qed.
(** All stamps less than five milliseconds away from a full hundredth become this hundredth. *)
Theorem C104_stamps_merge : forall (c : Z) t, 10 ^ 9 <= t < 10 ^ 10 -> Rabs (t - IZR c / 100) < 1 / 200 -> py_float (str2 t) = Ok (to_double (IZR c / 100)).
Proof.
  intros c t B H. unfold str2. rewrite C104_number; [|lia|now right]. rewrite stamp_rounded by easy. do 4 f_equal.
  apply Znearest_imp. apply Rabs_def2 in H as [H1 H2]. apply Rabs_def1; lra.
Qed.
(** So two different stamps of a recording can become equal. *)
Theorem C104_stamps_refuted : exists t1 t2 r, double t1 /\ double t2 /\ t1 < t2 /\ py_float (str2 t1) = Ok r /\ py_float (str2 t2) = Ok r.
Proof.
  exists (1500000000 + 1 / 512), (1500000000 + 2 / 512), (to_double (IZR 150000000000 / 100)).
  assert (DD : forall m, (Z.abs m < 2 ^ 53)%Z -> double (IZR m * bpow radix2 (-9))).
  { intros m M. apply generic_format_FLT. exists (Float radix2 m (-9)); [reflexivity|exact M|cbn; lia]. }
  assert (B9 : bpow radix2 (-9) = / 512) by reflexivity.
  split; [|split; [|split; [lra|split]]].
  - replace (1500000000 + 1 / 512) with (IZR 768000000001 * bpow radix2 (-9)) by (rewrite B9; lra). apply DD. reflexivity.
  - replace (1500000000 + 2 / 512) with (IZR 768000000002 * bpow radix2 (-9)) by (rewrite B9; lra). apply DD. reflexivity.
  - apply C104_stamps_merge; [lra|]. apply Rabs_def1; lra.
  - apply C104_stamps_merge; [lra|]. apply Rabs_def1; lra.
Qed.

(** ** Examples *)
Lemma significant_exact P x e n : (0 < n < 10 ^ Z.of_nat P)%Z -> bpow radix10 e <= x < bpow radix10 (e + 1) ->
  ZnearestE (x * powerRZ 10 (Z.of_nat P - 1 - e)) = n -> significant P x = (e, n).
Proof.
  intros N B E. unfold significant. pose proof (bpow_gt_0 radix10 e). rewrite Req_bool_false by lra. rewrite Rabs_pos_eq by lra.
  assert (M : mag radix10 x = (e + 1)%Z :> Z) by (apply mag_unique_pos; replace (e + 1 - 1)%Z with e by lia; exact B).
  rewrite M. replace (e + 1 - 1)%Z with e by lia. rewrite E. destruct (Z.eqb_spec n (10 ^ Z.of_nat P)); [lia|easy].
Qed.
(** the text 9.5367431640625e-07 of the target extractor for 2^-20, and 1500000000.0 of Python 2 for 1500000000 + 1/512 *)
Example C104_extractor_text : cpp17 (bpow radix2 (-20)) = of_codes [57; 46; 53; 51; 54; 55; 52; 51; 49; 54; 52; 48; 54; 50; 53; 101; 45; 48; 55]%nat.
Proof.
  unfold cpp17, general. change (bpow radix2 (-20)) with (/ 1048576).
  rewrite (significant_exact 17 (/ 1048576) (-7) 95367431640625000).
  - unfold Rltb. destruct (Rlt_dec (/ 1048576) 0); [lra|]. vm_compute. reflexivity.
  - now vm_compute.
  - change (bpow radix10 (-7)) with (/ 10000000). change (bpow radix10 (-7 + 1)) with (/ 1000000). lra.
  - change (Z.of_nat 17 - 1 - -7)%Z with 23%Z. rewrite power_bpow. change (bpow radix10 23) with (IZR (10 ^ 23)).
    replace (/ 1048576 * IZR (10 ^ 23)) with (IZR 95367431640625000); [apply (Zrnd_IZR ZnearestE)|].
    change (10 ^ 23)%Z with (95367431640625000 * 1048576)%Z. rewrite mult_IZR. field.
Qed.
Example C104_tf_text : str2 (1500000000 + 1 / 512) = of_codes [49; 53; 48; 48; 48; 48; 48; 48; 48; 48; 46; 48]%nat.
Proof.
  unfold str2, general. rewrite (significant_exact 12 (1500000000 + 1 / 512) 9 150000000000).
  - unfold Rltb. destruct (Rlt_dec (1500000000 + 1 / 512) 0); [lra|]. vm_compute. reflexivity.
  - now vm_compute.
  - change (bpow radix10 9) with (IZR (10 ^ 9)). change (bpow radix10 (9 + 1)) with (IZR (10 ^ 10)). change (10 ^ 9)%Z with 1000000000%Z. change (10 ^ 10)%Z with 10000000000%Z. lra.
  - change (Z.of_nat 12 - 1 - 9)%Z with 2%Z. rewrite power_bpow. change (bpow radix10 2) with 100. apply Znearest_imp. apply Rabs_def1; lra.
Qed.
Example C104_example : Forall (fun r => length r = 2%nat) [[1500000000; bpow radix2 (-20)]] /\ Forall (Forall double) [[1500000000; bpow radix2 (-20)]].
Proof.
  split; [repeat constructor|]. constructor; [|constructor]. constructor; [|constructor; [|constructor]].
  - apply generic_format_FLT. exists (Float radix2 1500000000 0); [unfold F2R; change (bpow radix2 (Fexp (Float radix2 1500000000 0))) with 1; cbn [Fnum]; now rewrite Rmult_1_r|reflexivity|cbn; lia].
  - apply generic_format_bpow. cbn. lia.
Qed.
