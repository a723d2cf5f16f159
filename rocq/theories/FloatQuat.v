(** * Rounding errors of quaternion products, inverses and normalisation, in the Euclidean norm. *)

From Coq Require Import Reals ZArith Bool List Lra Lia Psatz.
From Flocq Require Import Core BinarySingleNaN.
From Verif Require Import Num Py Quat DualQuat F64 Spec QuatFacts F64Facts FloatFacts.
Import ListNotations.
Local Open Scope R_scope.

(** ** The Euclidean distance of real quaternions *)
Definition dist (p q : rq) : R := hnorm (hsub p q).
Ltac qr := intros; apply rq_eq; unfold hmul, hadd, hsub, hconj, hneg, hscale, hone, hzero, vadd, vsub, vscale, cross3, dot3, vzero; cbn; ring.
Lemma hnorm_triangle p q : hnorm (hadd p q) <= hnorm p + hnorm q.
Proof.
  assert (A := hnorm_pos p). assert (B := hnorm_pos q). assert (C := hnorm_pos (hadd p q)).
  assert (PP := hnorm_sqr p). assert (QQ := hnorm_sqr q). assert (SS := hnorm_sqr (hadd p q)).
  assert (E : hnorm2 (hadd p q) = hnorm2 p + 2 * hdot p q + hnorm2 q) by (destruct p as [[] ?], q as [[] ?]; unfold hnorm2, hdot, dot3, hadd, vadd; cbn; ring).
  assert (D : hdot p q <= hnorm p * hnorm q).
  { pose proof (hdot_cs p q) as H. rewrite <- PP, <- QQ in H. assert (K : 0 <= hnorm p * hnorm q) by (apply Rmult_le_pos; easy).
    destruct (Rle_lt_dec (hdot p q) (hnorm p * hnorm q)) as [|G]; [easy|]. exfalso. assert (hnorm p * hnorm q * (hnorm p * hnorm q) < hdot p q * hdot p q) by (apply Rmult_le_0_lt_compat; easy). lra. }
  destruct (Rle_lt_dec (hnorm (hadd p q)) (hnorm p + hnorm q)) as [|G]; [easy|]. exfalso.
  assert ((hnorm p + hnorm q) * (hnorm p + hnorm q) < hnorm (hadd p q) * hnorm (hadd p q)) by (apply Rmult_le_0_lt_compat; lra). lra.
Qed.
Lemma dist_pos p q : 0 <= dist p q. Proof. apply hnorm_pos. Qed.
Lemma dist_sym p q : dist p q = dist q p.
Proof. unfold dist, hnorm. f_equal. destruct p as [[] ?], q as [[] ?]; unfold hnorm2, hdot, dot3, hsub, vsub; cbn; ring. Qed.
Lemma dist_triangle p q r : dist p r <= dist p q + dist q r.
Proof. unfold dist. replace (hsub p r) with (hadd (hsub p q) (hsub q r)) by qr. apply hnorm_triangle. Qed.
Lemma dist_norm p q : hnorm p <= hnorm q + dist p q.
Proof. unfold dist. replace p with (hadd q (hsub p q)) at 1 by qr. apply hnorm_triangle. Qed.
Lemma dist_mul_l p q r : dist (hmul p q) (hmul p r) = hnorm p * dist q r.
Proof. unfold dist. rewrite <- hnorm_mul. f_equal. qr. Qed.
Lemma dist_mul_r p q r : dist (hmul q p) (hmul r p) = dist q r * hnorm p.
Proof. unfold dist. rewrite <- hnorm_mul. f_equal. qr. Qed.
Lemma dist_add p p' q q' : dist (hadd p q) (hadd p' q') <= dist p p' + dist q q'.
Proof. unfold dist. replace (hsub (hadd p q) (hadd p' q')) with (hadd (hsub p p') (hsub q q')) by qr. apply hnorm_triangle. Qed.
Lemma dist_scale k p q : 0 <= k -> dist (hscale k p) (hscale k q) = k * dist p q.
Proof. intros H. unfold dist. rewrite <- hnorm_scale by easy. f_equal. qr. Qed.
Lemma hnorm_conj p : hnorm (hconj p) = hnorm p. Proof. unfold hnorm. now rewrite hnorm2_conj. Qed.
Lemma hnorm_neg p : hnorm (hneg p) = hnorm p. Proof. unfold hnorm. now rewrite hnorm2_neg. Qed.
Lemma dist_conj p q : dist (hconj p) (hconj q) = dist p q.
Proof. unfold dist. rewrite <- (hnorm_conj (hsub p q)). f_equal. qr. Qed.
Lemma dist_neg p q : dist (hneg p) (hneg q) = dist p q.
Proof. unfold dist. rewrite <- (hnorm_neg (hsub p q)). f_equal. qr. Qed.
Lemma dist_refl p : dist p p = 0.
Proof. unfold dist. replace (hsub p p) with hzero by qr. unfold hnorm. replace (hnorm2 hzero) with 0 by (cbn; unfold hnorm2, hdot, dot3; cbn; ring). apply sqrt_0. Qed.
Lemma norm_components p e : 0 <= e -> Rabs (v1 (qv p)) <= e -> Rabs (v2 (qv p)) <= e -> Rabs (v3 (qv p)) <= e -> Rabs (qs p) <= e -> hnorm p <= 2 * e.
Proof.
  intros E A B C D. unfold hnorm. rewrite <- (sqrt_square (2 * e)) by lra. apply sqrt_le_1_alt. destruct p as [[x y z] w]. unfold hnorm2, hdot, dot3. cbn in *.
  assert (G : forall t, Rabs t <= e -> t * t <= e * e). { intros t H. apply Rabs_le_inv in H. nra. }
  pose proof (G _ A). pose proof (G _ B). pose proof (G _ C). pose proof (G _ D). lra.
Qed.
(** sums of products are bounded by the product of the norms *)
Lemma cs4 a b c d a' b' c' d' :
  Rabs (a * a') + Rabs (b * b') + Rabs (c * c') + Rabs (d * d') <= hnorm (RQ (RV a b c) d) * hnorm (RQ (RV a' b' c') d').
Proof.
  rewrite !Rabs_mult.
  assert (E : forall x y z w, hnorm (RQ (RV x y z) w) = hnorm (RQ (RV (Rabs x) (Rabs y) (Rabs z)) (Rabs w))).
  { intros. unfold hnorm, hnorm2, hdot, dot3. cbn. f_equal. rewrite <- !Rabs_mult, !Rabs_pos_eq by nra. ring. }
  rewrite (E a), (E a'). set (p := RQ (RV (Rabs a) (Rabs b) (Rabs c)) (Rabs d)). set (q := RQ (RV (Rabs a') (Rabs b') (Rabs c')) (Rabs d')).
  change (hdot p q <= hnorm p * hnorm q).
  pose proof (hdot_cs p q) as H. rewrite <- !hnorm_sqr in H. assert (A := hnorm_pos p). assert (B := hnorm_pos q). assert (K : 0 <= hnorm p * hnorm q) by (apply Rmult_le_pos; easy).
  destruct (Rle_lt_dec (hdot p q) (hnorm p * hnorm q)) as [|G]; [easy|]. exfalso. assert (hnorm p * hnorm q * (hnorm p * hnorm q) < hdot p q * hdot p q) by (apply Rmult_le_0_lt_compat; easy). lra.
Qed.

(** ** Signed sums of four products *)
Definition pm (s : bool) : f64 -> f64 -> f64 := if s then Bminus mode_NE else Bplus mode_NE.
Definition sg (s : bool) (x : R) : R := if s then - x else x.
Lemma pm_ok s (a b : f64) : fin a -> fin b -> Rabs (V a + sg s (V b)) <= big -> fin (pm s a b) /\ V (pm s a b) = rnd (V a + sg s (V b)).
Proof. destruct s; intros A B H; [exact (sub_ok a b A B H)|exact (add_ok a b A B H)]. Qed.
Definition M50 : R := 100000000000000000000000000000000000000000000000000.
Lemma sum4 s2 s3 s4 (a1 b1 a2 b2 a3 b3 a4 b4 : f64) :
  fin a1 -> fin b1 -> fin a2 -> fin b2 -> fin a3 -> fin b3 -> fin a4 -> fin b4 ->
  Rabs (V a1 * V b1) + Rabs (V a2 * V b2) + Rabs (V a3 * V b3) + Rabs (V a4 * V b4) <= M50 ->
  let r := pm s4 (pm s3 (pm s2 (Bmult mode_NE a1 b1) (Bmult mode_NE a2 b2)) (Bmult mode_NE a3 b3)) (Bmult mode_NE a4 b4) in
  fin r /\ Rabs (V r - (V a1 * V b1 + sg s2 (V a2 * V b2) + sg s3 (V a3 * V b3) + sg s4 (V a4 * V b4))) <=
    1 / 1000000000000000 * (Rabs (V a1 * V b1) + Rabs (V a2 * V b2) + Rabs (V a3 * V b3) + Rabs (V a4 * V b4)) + 10 * eta.
Proof.
  intros A1 B1 A2 B2 A3 B3 A4 B4 M r. unfold r. clear r. pose proof big_huge as BH.
  pose proof (Rabs_pos (V a1 * V b1)). pose proof (Rabs_pos (V a2 * V b2)). pose proof (Rabs_pos (V a3 * V b3)). pose proof (Rabs_pos (V a4 * V b4)).
  unfold M50 in M.
  destruct (mul_ok a1 b1 A1 B1 ltac:(lra)) as [F1 E1]. destruct (mul_ok a2 b2 A2 B2 ltac:(lra)) as [F2 E2].
  destruct (mul_ok a3 b3 A3 B3 ltac:(lra)) as [F3 E3]. destruct (mul_ok a4 b4 A4 B4 ltac:(lra)) as [F4 E4].
  set (m1 := Bmult mode_NE a1 b1) in *. set (m2 := Bmult mode_NE a2 b2) in *. set (m3 := Bmult mode_NE a3 b3) in *. set (m4 := Bmult mode_NE a4 b4) in *. clearbody m1 m2 m3 m4.
  set (a := V a1 * V b1) in *. set (b := V a2 * V b2) in *. set (c := V a3 * V b3) in *. set (d := V a4 * V b4) in *. clearbody a b c d.
  assert (HA : - Rabs a <= a <= Rabs a) by (apply Rabs_le_inv; lra). assert (HB : - Rabs b <= b <= Rabs b) by (apply Rabs_le_inv; lra).
  assert (HC : - Rabs c <= c <= Rabs c) by (apply Rabs_le_inv; lra). assert (HD : - Rabs d <= d <= Rabs d) by (apply Rabs_le_inv; lra).
  pose proof (rnd_within a _ (Rle_refl _)) as RA. pose proof (rnd_within b _ (Rle_refl _)) as RB.
  pose proof (rnd_within c _ (Rle_refl _)) as RC. pose proof (rnd_within d _ (Rle_refl _)) as RD.
  rewrite <- E1 in RA. rewrite <- E2 in RB. rewrite <- E3 in RC. rewrite <- E4 in RD. clear E1 E2 E3 E4.
  generalize dependent (Rabs a). intros A. generalize dependent (Rabs b). intros B. generalize dependent (Rabs c). intros C. generalize dependent (Rabs d). intros D. intros.
  assert (SB : - B <= sg s2 b <= B) by (destruct s2; cbn; lra).
  assert (SB' : sg s2 b - (u * B + eta) <= sg s2 (V m2) <= sg s2 b + (u * B + eta)) by (destruct s2; cbn; lra).
  assert (SC : - C <= sg s3 c <= C) by (destruct s3; cbn; lra).
  assert (SC' : sg s3 c - (u * C + eta) <= sg s3 (V m3) <= sg s3 c + (u * C + eta)) by (destruct s3; cbn; lra).
  assert (SD : - D <= sg s4 d <= D) by (destruct s4; cbn; lra).
  assert (SD' : sg s4 d - (u * D + eta) <= sg s4 (V m4) <= sg s4 d + (u * D + eta)) by (destruct s4; cbn; lra).
  clear RB RC RD HB HC HD.
  pose proof (rnd_within (V m1 + sg s2 (V m2)) ((1 + u) * (A + B) + 2 * eta)) as R1. specialize (R1 ltac:(absle; nums; lra)).
  destruct (pm_ok s2 m1 m2 F1 F2) as [G1 E1]; [absle; nums; lra|]. rewrite <- E1 in R1. clear E1.
  pose proof (rnd_within (V (pm s2 m1 m2) + sg s3 (V m3)) ((1 + 3 * u) * (A + B + C) + 5 * eta)) as R2. specialize (R2 ltac:(absle; nums; lra)).
  destruct (pm_ok s3 (pm s2 m1 m2) m3 G1 F3) as [G2 E2]; [absle; nums; lra|]. rewrite <- E2 in R2. clear E2.
  pose proof (rnd_within (V (pm s3 (pm s2 m1 m2) m3) + sg s4 (V m4)) ((1 + 5 * u) * (A + B + C + D) + 8 * eta)) as R3. specialize (R3 ltac:(absle; nums; lra)).
  destruct (pm_ok s4 (pm s3 (pm s2 m1 m2) m3) m4 G2 F4) as [G3 E3]; [absle; nums; lra|]. rewrite <- E3 in R3. clear E3.
  split; [exact G3|].
  generalize dependent (V (pm s4 (pm s3 (pm s2 m1 m2) m3) m4)). generalize dependent (V (pm s3 (pm s2 m1 m2) m3)). generalize dependent (V (pm s2 m1 m2)).
  generalize dependent (sg s2 b). generalize dependent (sg s3 c). generalize dependent (sg s4 d). generalize dependent (sg s2 (V m2)). generalize dependent (sg s3 (V m3)). generalize dependent (sg s4 (V m4)).
  generalize dependent (V m1). clear - HA H H0 H1 H2. intros. absle; nums; lra.
Qed.

(** ** Products of quaternions *)
Lemma qmul_near {L} (p q : @quat (F64 L)) : finq p -> finq q -> hnorm (val p) * hnorm (val q) <= M50 ->
  finq (qmul p q) /\ dist (val (qmul p q)) (hmul (val p) (val q)) <= 2 / 1000000000000000 * (hnorm (val p) * hnorm (val q)) + 20 * eta.
Proof.
  intros (P1 & P2 & P3 & P4) (Q1 & Q2 & Q3 & Q4) M.
  set (h := hnorm (val p) * hnorm (val q)) in *.
  assert (H0 : 0 <= h) by (apply Rmult_le_pos; apply hnorm_pos).
  assert (W : forall a b c d a' b' c' d', hnorm (RQ (RV a b c) d) = hnorm (val p) -> hnorm (RQ (RV a' b' c') d') = hnorm (val q) ->
    Rabs (a * a') + Rabs (b * b') + Rabs (c * c') + Rabs (d * d') <= h).
  { intros a b c d a' b' c' d' E1 E2. unfold h. rewrite <- E1, <- E2. apply cs4. }
  assert (PE : forall a b c d a' b' c' d', a * a + b * b + c * c + d * d = a' * a' + b' * b' + c' * c' + d' * d' -> hnorm (RQ (RV a b c) d) = hnorm (RQ (RV a' b' c') d')).
  { intros. unfold hnorm, hnorm2, hdot, dot3. cbn. now f_equal. }
  assert (S1 : Rabs (V (qw p) * V (qx q)) + Rabs (V (qx p) * V (qw q)) + Rabs (V (qy p) * V (qz q)) + Rabs (V (qz p) * V (qy q)) <= h) by (apply W; apply PE; ring).
  assert (S2 : Rabs (V (qw p) * V (qy q)) + Rabs (V (qx p) * V (qz q)) + Rabs (V (qy p) * V (qw q)) + Rabs (V (qz p) * V (qx q)) <= h) by (apply W; apply PE; ring).
  assert (S3 : Rabs (V (qw p) * V (qz q)) + Rabs (V (qx p) * V (qy q)) + Rabs (V (qy p) * V (qx q)) + Rabs (V (qz p) * V (qw q)) <= h) by (apply W; apply PE; ring).
  assert (S4 : Rabs (V (qw p) * V (qw q)) + Rabs (V (qx p) * V (qx q)) + Rabs (V (qy p) * V (qy q)) + Rabs (V (qz p) * V (qz q)) <= h) by (apply W; apply PE; ring).
  clear W PE.
  destruct (sum4 false false true (qw p) (qx q) (qx p) (qw q) (qy p) (qz q) (qz p) (qy q)) as [F1 E1]; try assumption; [eapply Rle_trans; eassumption|].
  destruct (sum4 true false false (qw p) (qy q) (qx p) (qz q) (qy p) (qw q) (qz p) (qx q)) as [F2 E2]; try assumption; [eapply Rle_trans; eassumption|].
  destruct (sum4 false true false (qw p) (qz q) (qx p) (qy q) (qy p) (qx q) (qz p) (qw q)) as [F3 E3]; try assumption; [eapply Rle_trans; eassumption|].
  destruct (sum4 true true true (qw p) (qw q) (qx p) (qx q) (qy p) (qy q) (qz p) (qz q)) as [F4 E4]; try assumption; [eapply Rle_trans; eassumption|].
  split; [exact (conj F1 (conj F2 (conj F3 F4)))|].
  apply Rle_trans with (2 * (1 / 1000000000000000 * h + 10 * eta)); [|lra]. pose proof eta_pos as EP.
  match type of E1 with Rabs (V ?r - _) <= _ => set (r1 := V r) in * end. match type of E2 with Rabs (V ?r - _) <= _ => set (r2 := V r) in * end.
  match type of E3 with Rabs (V ?r - _) <= _ => set (r3 := V r) in * end. match type of E4 with Rabs (V ?r - _) <= _ => set (r4 := V r) in * end.
  assert (VE : val (qmul p q) = RQ (RV r1 r2 r3) r4) by reflexivity. rewrite VE. clearbody r1 r2 r3 r4. clear VE F1 F2 F3 F4.
  cbn [sg] in *.
  unfold dist. apply norm_components; [lra|..]; unfold hsub, vsub, hmul, vadd, vscale, cross3, dot3; cbn [qv qs v1 v2 v3 val].
  - eapply Rle_trans; [|eapply Rle_trans; [exact E1|]]; [|lra]. right. f_equal. ring.
  - eapply Rle_trans; [|eapply Rle_trans; [exact E2|]]; [|lra]. right. f_equal. ring.
  - eapply Rle_trans; [|eapply Rle_trans; [exact E3|]]; [|lra]. right. f_equal. ring.
  - eapply Rle_trans; [|eapply Rle_trans; [exact E4|]]; [|lra]. right. f_equal. ring.
Qed.

(** ** Sums, scalings, inverses, quotients *)
Lemma finq_neg {L} (q : @quat (F64 L)) : finq q -> finq (qneg q) /\ val (qneg q) = hneg (val q).
Proof.
  intros (A & B & C & D). split.
  - split; [|split; [|split]]; [change (fin (Bopp (qx q)))|change (fin (Bopp (qy q)))|change (fin (Bopp (qz q)))|change (fin (Bopp (qw q)))]; rewrite opp_fin; assumption.
  - unfold val, hneg, vscale. cbn [qv qs v1 v2 v3 qneg qx qy qz qw opp F64]. rewrite !opp_V. f_equal. f_equal; ring.
Qed.
Lemma finq_conj {L} (q : @quat (F64 L)) : finq q -> finq (qconj q) /\ val (qconj q) = hconj (val q).
Proof.
  intros (A & B & C & D). split.
  - split; [|split; [|split]]; [change (fin (Bopp (qx q)))|change (fin (Bopp (qy q)))|change (fin (Bopp (qz q)))|exact D]; rewrite opp_fin; assumption.
  - unfold val, hconj, vscale. cbn [qv qs v1 v2 v3 qconj qx qy qz qw opp F64]. rewrite !opp_V. f_equal. f_equal; ring.
Qed.
Lemma qadd_near {L} (p q : @quat (F64 L)) : finq p -> finq q -> hnorm (val p) + hnorm (val q) <= M50 ->
  finq (qadd p q) /\ dist (val (qadd p q)) (hadd (val p) (val q)) <= 2 * u * hnorm (hadd (val p) (val q)) + 2 * eta.
Proof.
  intros (P1 & P2 & P3 & P4) (Q1 & Q2 & Q3 & Q4) M. pose proof big_huge as BH. pose proof eta_pos as EP. pose proof u_pos as UP.
  pose proof (hnorm_triangle (val p) (val q)) as TR. set (h := hnorm (hadd (val p) (val q))) in *. assert (H0 : 0 <= h) by apply hnorm_pos.
  destruct (component_le (hadd (val p) (val q))) as (C1 & C2 & C3 & C4). fold h in C1, C2, C3, C4. cbn [hadd vadd val qv qs v1 v2 v3] in C1, C2, C3, C4.
  assert (G : forall a b : f64, fin a -> fin b -> Rabs (V a + V b) <= h -> fin (Bplus mode_NE a b) /\ Rabs (V (Bplus mode_NE a b) - (V a + V b)) <= u * h + eta).
  { intros a b FA FB H. destruct (add_ok a b FA FB) as [F E]; [unfold M50 in M; lra|]. split; [exact F|]. rewrite E. pose proof (rnd_within _ _ H). absle; lra. }
  destruct (G _ _ P1 Q1 C1) as [F1 E1]. destruct (G _ _ P2 Q2 C2) as [F2 E2]. destruct (G _ _ P3 Q3 C3) as [F3 E3]. destruct (G _ _ P4 Q4 C4) as [F4 E4].
  split; [exact (conj F1 (conj F2 (conj F3 F4)))|].
  apply Rle_trans with (2 * (u * h + eta)); [|lra]. assert (0 <= u * h) by (apply Rmult_le_pos; lra).
  unfold dist. apply norm_components; [lra|exact E1|exact E2|exact E3|exact E4].
Qed.
Lemma quot e x n N h : 0 < N -> 0 <= e <= 1 / 100000000000000 -> Rabs (n - N) <= e * N -> Rabs x <= h ->
  Rabs (rnd (x / n) - x / N) <= (e + 2 / 10000000000000000) * (h / N) + eta /\ Rabs (x / n) <= 2 * (h / N).
Proof.
  intros N0 E0 D X. apply Rabs_le_inv in D. pose proof (Rabs_pos x) as X0.
  assert (EN : 0 <= e * N <= 1 / 100000000000000 * N) by (split; [apply Rmult_le_pos; lra|apply Rmult_le_compat_r; lra]).
  assert (n0 : 0 < n) by lra.
  assert (Q : Rabs (x / n) <= (1 + 2 / 100000000000000) * (h / N)).
  { unfold Rdiv. rewrite Rabs_mult, (Rabs_pos_eq (/ n)) by (left; now apply Rinv_0_lt_compat).
    apply Rmult_le_reg_r with n; [easy|]. rewrite Rmult_assoc, Rinv_l, Rmult_1_r by lra.
    apply Rle_trans with ((1 + 2 / 100000000000000) * (h * / N) * ((1 - 1 / 100000000000000) * N)).
    - replace ((1 + 2 / 100000000000000) * (h * / N) * ((1 - 1 / 100000000000000) * N)) with ((1 + 2 / 100000000000000) * (1 - 1 / 100000000000000) * h) by (field; lra). lra.
    - apply Rmult_le_compat_l; [|lra]. apply Rmult_le_pos; [lra|]. apply Rmult_le_pos; [lra|left; now apply Rinv_0_lt_compat]. }
  assert (QP : 0 <= h / N) by (apply Rmult_le_pos; [lra|left; now apply Rinv_0_lt_compat]).
  split; [|lra].
  assert (E : Rabs (x / n - x / N) <= (1 + 2 / 100000000000000) * (h / N) * e).
  { replace (x / n - x / N) with (x / n * ((N - n) / N)) by (field; lra). rewrite Rabs_mult.
    assert (A : Rabs ((N - n) / N) <= e).
    { unfold Rdiv. rewrite Rabs_mult, (Rabs_pos_eq (/ N)) by (left; now apply Rinv_0_lt_compat). apply Rmult_le_reg_r with N; [easy|]. rewrite Rmult_assoc, Rinv_l, Rmult_1_r by lra. absle; lra. }
    pose proof (Rabs_pos (x / n)). pose proof (Rabs_pos ((N - n) / N)). apply Rmult_le_compat; lra. }
  assert (P : 0 <= (h / N) * e <= (h / N) * (1 / 100000000000000)) by (split; [apply Rmult_le_pos; lra|apply Rmult_le_compat_l; lra]).
  pose proof (rnd_within _ _ Q) as R. apply Rabs_le_inv in E. set (k := h / N) in *. set (P1 := k * e) in *. replace ((1 + 2 / 100000000000000) * k * e) with ((1 + 2 / 100000000000000) * P1) in E by (unfold P1; ring).
  replace ((e + 2 / 10000000000000000) * k) with (P1 + 2 / 10000000000000000 * k) by (unfold P1; ring). clearbody P1. absle; nums; lra.
Qed.
Lemma qinv_near {L} (r : @quat (F64 L)) : finq r -> 1 / 4 <= hnorm2 (val r) <= 4 ->
  finq (qinv r) /\ dist (val (qinv r)) (hscale (/ hnorm2 (val r)) (hconj (val r))) <= 3 / 1000000000000000 / hnorm (val r).
Proof.
  intros F B. destruct (norm_near r F B) as (FD & _ & _). destruct (sqnorm_error r FD) as [_ D].
  set (N := hnorm2 (val r)) in *. set (n := V (qdot r r)) in *. set (h := hnorm (val r)).
  assert (HH : h * h = N) by apply hnorm_sqr. assert (H0 : 0 < h). { apply sqrt_lt_R0. fold N. lra. }
  assert (D' : Rabs (n - N) <= 12 / 10000000000000000 * N) by (apply Rabs_le_inv in D; absle; nums; lra).
  assert (HN : h / N = / h) by (rewrite <- HH; field; lra).
  assert (HI : 1 / 2 <= / h <= 2).
  { assert (h <= 2) by nra. assert (1 / 2 <= h) by nra. split; [replace (1 / 2) with (/ 2) by lra|replace 2 with (/ (1 / 2)) by lra]; apply Rinv_le_contravar; lra. }
  assert (n0 : n <> 0) by (apply Rabs_le_inv in D'; lra). pose proof big_huge as BH.
  assert (K : forall a : f64, fin a -> Rabs (V a) <= h -> fin (Bdiv mode_NE a (qdot r r)) /\ Rabs (V (Bdiv mode_NE a (qdot r r)) - / N * V a) <= 14 / 10000000000000000 * / h + eta).
  { intros a FA HA. destruct (quot (12 / 10000000000000000) (V a) n N h ltac:(lra) ltac:(lra) D' HA) as [Q R]. rewrite HN in Q, R. destruct (div_ok a (qdot r r) FA n0) as [FQ EQ]; [fold n; lra|].
    split; [exact FQ|]. rewrite EQ. fold n. rewrite (Rmult_comm (/ N)). replace (14 / 10000000000000000) with (12 / 10000000000000000 + 2 / 10000000000000000) by lra. exact Q. }
  destruct (component_le (val r)) as (x & y & z & w). fold h in x, y, z, w. cbn [val qv qs v1 v2 v3] in x, y, z, w. destruct F as (Fx & Fy & Fz & Fw).
  assert (O : forall a : f64, fin a -> Rabs (V a) <= h -> fin (Bopp a) /\ Rabs (V (Bopp a)) <= h) by (intros a FA HA; now rewrite opp_fin, opp_V, Rabs_Ropp).
  destruct (O _ Fx x) as [Ox ox]. destruct (O _ Fy y) as [Oy oy]. destruct (O _ Fz z) as [Oz oz].
  destruct (K _ Ox ox) as [Dx Ex]. destruct (K _ Oy oy) as [Dy Ey]. destruct (K _ Oz oz) as [Dz Ez]. destruct (K _ Fw w) as [Dw Ew]. clear K O.
  split; [exact (conj Dx (conj Dy (conj Dz Dw)))|]. rewrite opp_V in Ex, Ey, Ez.
  apply Rle_trans with (2 * (14 / 10000000000000000 * / h + eta)); [|nums; unfold Rdiv; lra].
  pose proof eta_pos. unfold dist. apply norm_components; [lra|..]; unfold hsub, vsub, hscale, hconj, vscale; cbn [qv qs v1 v2 v3].
  - eapply Rle_trans; [|exact Ex]. right. f_equal. cbn [val qv qs v1 v2 v3]. match goal with |- ?a - _ = ?b - _ => change b with a end. ring.
  - eapply Rle_trans; [|exact Ey]. right. f_equal. cbn [val qv qs v1 v2 v3]. match goal with |- ?a - _ = ?b - _ => change b with a end. ring.
  - eapply Rle_trans; [|exact Ez]. right. f_equal. cbn [val qv qs v1 v2 v3]. match goal with |- ?a - _ = ?b - _ => change b with a end. ring.
  - exact Ew.
Qed.
(** division of a quaternion by a number close to N *)
Lemma qdivs_near {L} (q : @quat (F64 L)) (n : f64) e N : finq q -> hnorm (val q) <= M50 -> 1 / 4 <= N <= 4 -> 0 <= e <= 1 / 100000000000000 -> Rabs (V n - N) <= e * N ->
  finq (qdivs (N:=F64 L) q n) /\ dist (val (qdivs (N:=F64 L) q n)) (hscale (/ N) (val q)) <= 2 * (e + 2 / 10000000000000000) * (hnorm (val q) / N) + 2 * eta.
Proof.
  intros F B HN E0 D. set (h := hnorm (val q)) in *. assert (H0 : 0 <= h) by apply hnorm_pos. pose proof big_huge as BH. pose proof eta_pos as EP.
  assert (n0 : V n <> 0) by (apply Rabs_le_inv in D; assert (e * N <= 1 / 100000000000000 * N) by (apply Rmult_le_compat_r; lra); lra).
  assert (HI : 0 <= h / N <= 4 * h).
  { assert (1 / 4 <= / N <= 4) by (split; [replace (1 / 4) with (/ 4) by lra|replace 4 with (/ (1 / 4)) by lra]; apply Rinv_le_contravar; lra).
    unfold Rdiv. split; [apply Rmult_le_pos; lra|]. rewrite Rmult_comm. apply Rmult_le_compat_r; lra. }
  assert (K : forall a : f64, fin a -> Rabs (V a) <= h -> fin (Bdiv mode_NE a n) /\ Rabs (V (Bdiv mode_NE a n) - / N * V a) <= (e + 2 / 10000000000000000) * (h / N) + eta).
  { intros a FA HA. destruct (quot e (V a) (V n) N h ltac:(lra) E0 D HA) as [Q R]. destruct (div_ok a n FA n0) as [FQ EQ]; [unfold M50 in B; lra|].
    split; [exact FQ|]. rewrite EQ. rewrite (Rmult_comm (/ N)). exact Q. }
  destruct (component_le (val q)) as (x & y & z & w). fold h in x, y, z, w. cbn [val qv qs v1 v2 v3] in x, y, z, w. destruct F as (Fx & Fy & Fz & Fw).
  destruct (K _ Fx x) as [Dx Ex]. destruct (K _ Fy y) as [Dy Ey]. destruct (K _ Fz z) as [Dz Ez]. destruct (K _ Fw w) as [Dw Ew]. clear K.
  split; [exact (conj Dx (conj Dy (conj Dz Dw)))|].
  apply Rle_trans with (2 * ((e + 2 / 10000000000000000) * (h / N) + eta)); [|lra].
  assert (0 <= (e + 2 / 10000000000000000) * (h / N)) by (apply Rmult_le_pos; lra). unfold dist. apply norm_components; [lra|exact Ex|exact Ey|exact Ez|exact Ew].
Qed.
