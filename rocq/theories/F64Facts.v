(** * Rounding errors of the binary64 operations. *)

From Coq Require Import Reals ZArith Bool Lra Lia Psatz.
From Flocq Require Import Core BinarySingleNaN Relative.
From Verif Require Import Num F64.
Local Open Scope R_scope.

Notation V := (@B2R 53 1024).
Notation fin x := (is_finite x = true).
Notation rnd := (round radix2 (SpecFloat.fexp 53 1024) (round_mode mode_NE)).

(** unit roundoff 2^-53, and a bound for the absolute error of subnormal results (2^-1075) *)
Definition u : R := / 9007199254740992.
Definition eta : R := / 1000000000000000000000000000000000000000000000000000000000000.

Lemma u_pos : 0 < u. Proof. unfold u. lra. Qed.
Lemma eta_pos : 0 < eta. Proof. unfold eta. lra. Qed.
Lemma fexp_FLT : SpecFloat.fexp 53 1024 = FLT_exp (-1074) 53.
Proof. reflexivity. Qed.
Lemma rnd_error r : Rabs (rnd r - r) <= u * Rabs r + eta.
Proof.
  change (round_mode mode_NE) with (Znearest (fun x => negb (Z.even x))). rewrite fexp_FLT.
  destruct (error_N_FLT radix2 (-1074) 53 ltac:(lia) (fun x => negb (Z.even x)) r) as (e & t & E & T & _ & ->).
  replace (r * (1 + e) + t - r) with (r * e + t) by ring.
  eapply Rle_trans; [apply Rabs_triang|]. rewrite Rabs_mult. apply Rplus_le_compat.
  - rewrite Rmult_comm. apply Rmult_le_compat_r; [apply Rabs_pos|]. eapply Rle_trans; [exact E|]. unfold u. cbn. lra.
  - eapply Rle_trans; [exact T|].
    assert (B : bpow radix2 (-1074) <= bpow radix2 (-200)) by (apply bpow_le; lia).
    assert (C : / 2 * bpow radix2 (-200) <= eta).
    { unfold eta. change (bpow radix2 (-200)) with (/ IZR (Z.pow_pos 2 200)).
      assert (P : 0 < IZR (Z.pow_pos 2 200)) by (apply IZR_lt; reflexivity).
      rewrite <- Rinv_mult. apply Rinv_le_contravar; [lra|]. rewrite <- mult_IZR. apply IZR_le. vm_compute. discriminate. }
    lra.
Qed.
#[local] Instance valid_f64 : Valid_exp (SpecFloat.fexp 53 1024).
Proof. rewrite fexp_FLT. apply FLT_exp_valid. easy. Qed.
Lemma rnd_le a b : a <= b -> rnd a <= rnd b.
Proof. apply round_le; [exact valid_f64|apply valid_rnd_round_mode]. Qed.
Lemma rnd_0 : rnd 0 = 0.
Proof. apply round_0. apply valid_rnd_round_mode. Qed.
Lemma rnd_pos a : 0 <= a -> 0 <= rnd a.
Proof. intros H. rewrite <- rnd_0. now apply rnd_le. Qed.
Lemma rnd_self (x : f64) : rnd (V x) = V x.
Proof. apply round_generic; [apply valid_rnd_round_mode|apply generic_format_B2R]. Qed.
Lemma V_bound (x : f64) : Rabs (V x) < bpow radix2 1024.
Proof. apply abs_B2R_lt_emax. Qed.
(** a sum, product, ... that stays below 2^1023 does not overflow *)
Definition big : R := bpow radix2 1023.
Lemma big_rnd r : Rabs r <= big -> Rabs (rnd r) < bpow radix2 1024.
Proof.
  intros H. apply Rle_lt_trans with big; [|unfold big; apply bpow_lt; lia].
  assert (G : rnd big = big).
  { apply round_generic; [apply valid_rnd_round_mode|]. apply generic_format_bpow. rewrite fexp_FLT. unfold FLT_exp. lia. }
  assert (G' : rnd (- big) = - big).
  { apply round_generic; [apply valid_rnd_round_mode|]. apply generic_format_opp, generic_format_bpow. rewrite fexp_FLT. unfold FLT_exp. lia. }
  apply Rabs_le_inv in H. apply Rabs_le. split; [rewrite <- G'|rewrite <- G]; apply rnd_le; lra.
Qed.
Lemma overflow_inf s (x : f64) : B2SF x = binary_overflow 53 1024 mode_NE s -> is_finite x = false.
Proof. intros E. destruct x; cbn in *; try easy; try (destruct s0, s; discriminate E). Qed.

(** ** Results that are finite are correctly rounded *)
Lemma mul_fin (a b : f64) : fin (Bmult mode_NE a b) -> fin a /\ fin b /\ V (Bmult mode_NE a b) = rnd (V a * V b).
Proof.
  intros F. pose proof (Bmult_correct 53 1024 f64_prec f64_emax mode_NE a b) as C. destruct (Rlt_bool _ _).
  - destruct C as (E & G & _). rewrite F in G. symmetry in G. apply andb_true_iff in G as [? ?]. easy.
  - apply overflow_inf in C. congruence.
Qed.
Lemma add_fin (a b : f64) : fin (Bplus mode_NE a b) -> fin a /\ fin b /\ V (Bplus mode_NE a b) = rnd (V a + V b).
Proof.
  intros F.
  assert (fin a /\ fin b) as [FA FB].
  { destruct a as [s|s| |s m e B], b as [s'|s'| |s' m' e' B']; try easy; try (exfalso; cbn in F; destruct s; try destruct s'; discriminate F). }
  split; [easy|]. split; [easy|].
  pose proof (Bplus_correct 53 1024 f64_prec f64_emax mode_NE a b FA FB) as C. destruct (Rlt_bool _ _); [easy|].
  destruct C as [C _]. apply overflow_inf in C. congruence.
Qed.
Lemma sub_fin (a b : f64) : fin (Bminus mode_NE a b) -> fin a /\ fin b /\ V (Bminus mode_NE a b) = rnd (V a - V b).
Proof.
  intros F.
  assert (fin a /\ fin b) as [FA FB].
  { destruct a as [s|s| |s m e B], b as [s'|s'| |s' m' e' B']; try easy; try (exfalso; cbn in F; destruct s; try destruct s'; discriminate F). }
  split; [easy|]. split; [easy|].
  pose proof (Bminus_correct 53 1024 f64_prec f64_emax mode_NE a b FA FB) as C. destruct (Rlt_bool _ _); [easy|].
  destruct C as [C _]. apply overflow_inf in C. congruence.
Qed.
Lemma sqrt_fin (a : f64) : fin (Bsqrt mode_NE a) -> fin a /\ 0 <= V a /\ V (Bsqrt mode_NE a) = rnd (sqrt (V a)).
Proof.
  intros F. destruct (Bsqrt_correct 53 1024 f64_prec f64_emax mode_NE a) as (E & G & _). rewrite F in G.
  destruct a as [s|s| |s m e B]; try discriminate G; [now split; [|split; [cbn; lra|]]|]. destruct s; [discriminate G|].
  split; [easy|]. split; [|easy]. cbn. apply F2R_ge_0. easy.
Qed.
(** ** Results that do not overflow are finite *)
Lemma mul_ok (a b : f64) : fin a -> fin b -> Rabs (V a * V b) <= big -> fin (Bmult mode_NE a b) /\ V (Bmult mode_NE a b) = rnd (V a * V b).
Proof.
  intros FA FB B. pose proof (Bmult_correct 53 1024 f64_prec f64_emax mode_NE a b) as C. rewrite Rlt_bool_true in C by now apply big_rnd.
  destruct C as (E & G & _). now rewrite G, FA, FB.
Qed.
Lemma add_ok (a b : f64) : fin a -> fin b -> Rabs (V a + V b) <= big -> fin (Bplus mode_NE a b) /\ V (Bplus mode_NE a b) = rnd (V a + V b).
Proof.
  intros FA FB B. pose proof (Bplus_correct 53 1024 f64_prec f64_emax mode_NE a b FA FB) as C. rewrite Rlt_bool_true in C by now apply big_rnd.
  destruct C as (E & G & _). now rewrite G.
Qed.
Lemma sub_ok (a b : f64) : fin a -> fin b -> Rabs (V a - V b) <= big -> fin (Bminus mode_NE a b) /\ V (Bminus mode_NE a b) = rnd (V a - V b).
Proof.
  intros FA FB B. pose proof (Bminus_correct 53 1024 f64_prec f64_emax mode_NE a b FA FB) as C. rewrite Rlt_bool_true in C by now apply big_rnd.
  destruct C as (E & G & _). now rewrite G.
Qed.
Lemma div_ok (a b : f64) : fin a -> V b <> 0 -> Rabs (V a / V b) <= big -> fin (Bdiv mode_NE a b) /\ V (Bdiv mode_NE a b) = rnd (V a / V b).
Proof.
  intros FA NZ B. pose proof (Bdiv_correct 53 1024 f64_prec f64_emax mode_NE a b NZ) as C. rewrite Rlt_bool_true in C by now apply big_rnd.
  destruct C as (E & G & _). now rewrite G, FA.
Qed.
Lemma sqrt_ok (a : f64) : fin a -> 0 < V a -> fin (Bsqrt mode_NE a) /\ V (Bsqrt mode_NE a) = rnd (sqrt (V a)).
Proof.
  intros F P. destruct (Bsqrt_correct 53 1024 f64_prec f64_emax mode_NE a) as (E & G & _). split; [|easy]. rewrite G.
  destruct a as [s|s| |s m e B]; try easy; try (cbn in P; lra). destruct s; [|easy]. exfalso.
  assert (V (B754_finite true m e B) < 0); [|lra]. cbn. apply F2R_lt_0. easy.
Qed.
Lemma opp_V (a : f64) : V (Bopp a) = - V a. Proof. apply B2R_Bopp. Qed.
Lemma opp_fin (a : f64) : is_finite (Bopp a) = is_finite a. Proof. apply is_finite_Bopp. Qed.
Lemma abs_V (a : f64) : V (Babs a) = Rabs (V a). Proof. apply B2R_Babs. Qed.
Lemma abs_fin (a : f64) : is_finite (Babs a) = is_finite a. Proof. apply is_finite_Babs. Qed.
Lemma ltb_V (a b : f64) : fin a -> fin b -> Bltb a b = true <-> V a < V b.
Proof. intros A B. rewrite Bltb_correct by easy. destruct (Rlt_bool_spec (V a) (V b)); split; intros; try easy; lra. Qed.
Lemma leb_V (a b : f64) : fin a -> fin b -> Bleb a b = true <-> V a <= V b.
Proof. intros A B. rewrite Bleb_correct by easy. destruct (Rle_bool_spec (V a) (V b)); split; intros; try easy; lra. Qed.
Lemma eqb_V (a b : f64) : fin a -> fin b -> Beqb a b = true <-> V a = V b.
Proof. intros A B. rewrite Beqb_correct by easy. destruct (Req_bool_spec (V a) (V b)); split; intros; try easy; lra. Qed.

(** ** Literals *)
Lemma big_huge : 1000000000000000000000000000000000000000000000000000000000000 <= big.
Proof.
  apply Rle_trans with (bpow radix2 200); [|unfold big; apply bpow_le; lia].
  change (bpow radix2 200) with (IZR (Z.pow_pos 2 200)). apply IZR_le. vm_compute. discriminate.
Qed.
Lemma of_Z_V n : (Z.abs n <= 2 ^ 53)%Z -> fin (f_of_Z n) /\ V (f_of_Z n) = IZR n.
Proof.
  intros B. unfold f_of_Z. pose proof (binary_normalize_correct 53 1024 f64_prec f64_emax mode_NE n 0 false) as C. cbv zeta in C.
  assert (E : F2R (Float radix2 n 0) = IZR n) by (unfold F2R; cbn; lra). rewrite E in C.
  assert (G : rnd (IZR n) = IZR n).
  { apply round_generic; [apply valid_rnd_round_mode|]. rewrite fexp_FLT.
    destruct (Z.eq_dec (Z.abs n) (2 ^ 53)) as [Q|Q].
    - assert (A : n = (2 ^ 53)%Z \/ n = (- 2 ^ 53)%Z) by lia.
      destruct A as [-> | ->]; [|rewrite opp_IZR; apply generic_format_opp]; change (IZR (2 ^ 53)) with (bpow radix2 53); apply generic_format_FLT_bpow; easy.
    - apply generic_format_FLT. exists (Float radix2 n 0); cbn; [lra|lia|easy]. }
  rewrite G in C. rewrite Rlt_bool_true in C; [easy|].
  rewrite <- abs_IZR. apply Rle_lt_trans with (bpow radix2 53); [|apply bpow_lt; lia]. change (bpow radix2 53) with (IZR (2 ^ 53)). now apply IZR_le.
Qed.
Lemma lit_V m e : (Z.abs m <= 2 ^ 53)%Z -> (0 < e)%Z -> (10 ^ e <= 2 ^ 53)%Z ->
  fin (f_lit m (- e)) /\ V (f_lit m (- e)) = rnd (IZR m / IZR (10 ^ e)).
Proof.
  intros M E P. unfold f_lit. replace (- e <? 0)%Z with true by (symmetry; apply Z.ltb_lt; lia). rewrite Z.opp_involutive.
  assert (E0 : (0 < 10 ^ e)%Z) by (apply Z.pow_pos_nonneg; lia).
  destruct (of_Z_V m M) as [FM VM]. destruct (of_Z_V (10 ^ e)) as [FE VE]; [lia|].
  assert (EP : 1 <= IZR (10 ^ e)) by (apply IZR_le; lia).
  destruct (div_ok (f_of_Z m) (f_of_Z (10 ^ e))) as [F W]; try easy.
  - rewrite VE. lra.
  - rewrite VM, VE. eapply Rle_trans; [|apply big_huge]. unfold Rdiv. rewrite Rabs_mult, (Rabs_pos_eq (/ _)) by (left; apply Rinv_0_lt_compat; lra).
    assert (/ IZR (10 ^ e) <= 1) by (rewrite <- Rinv_1; apply Rinv_le_contravar; lra).
    assert (0 < / IZR (10 ^ e)) by (apply Rinv_0_lt_compat; lra).
    assert (Rabs (IZR m) <= IZR (2 ^ 53)) by (rewrite <- abs_IZR; now apply IZR_le).
    assert (0 <= Rabs (IZR m)) by apply Rabs_pos.
    apply Rle_trans with (IZR (2 ^ 53) * 1); [apply Rmult_le_compat; lra|]. rewrite Rmult_1_r. apply IZR_le. vm_compute. discriminate.
  - now rewrite W, VM, VE.
Qed.
