(** * Property C109: screw axes and the prefilter in double precision. *)

From Coq Require Import Reals ZArith Bool List Arith Lra Lia Psatz.
From Flocq Require Import Core BinarySingleNaN.
From Verif Require Import Num Py Quat DualQuat HandEye F64 Spec ListFacts QuatFacts QuatTrig DualFacts F64Facts FloatFacts PropFloat FloatQuat FloatDual PropFloatDual PropPrefilter PropFloatPose.
Import ListNotations.
Local Open Scope R_scope.

(** ** Specification *)
(** sine, arccosine and remainder of the libm *)
Definition sine (L : libm) : Prop := forall x : f64, fin x -> Rabs (V x) <= 4 -> fin (m_sin L x) /\ Rabs (V (m_sin L x) - sin (V x)) <= 1 / 1000000000000000.
Definition remainder (L : libm) : Prop :=
  (forall x : f64, fin x -> 0 <= V x < 360 -> fin (m_mod L x (f_of_Z 360)) /\ V (m_mod L x (f_of_Z 360)) = V x) /\ m_mod L B754_nan (f_of_Z 360) = B754_nan.
Definition accurate (L : libm) : Prop := arccosine L /\ (forall x : f64, fin x -> V x = 1 -> V (m_acos L x) = 0) /\ sine L /\ remainder L.
(** a motion that turns by at least 0.002 rad, away from full turns *)
Definition turning (D : rdq) : Prop := unitq (dr D) /\ 1 / 1000 <= len3 (qv (dr D)).
(** a computed dual quaternion whose rotation part is within 1e-13 of the exact one *)
Definition represents {L} (d : @dquat (F64 L)) (D : rdq) : Prop := finq (rot d) /\ dist (val (rot d)) (dr D) <= 1 / 10000000000000.
(** its axis, and the cosine of the angle between two axes *)
Definition exact_axis (D : rdq) : rv := vscale (/ len3 (qv (dr D))) (qv (dr D)).
Definition cosine (A B : rdq) : R := dot3 (qv (dr A)) (qv (dr B)) / (len3 (qv (dr A)) * len3 (qv (dr B))).

(** ** Half of the angle, to degrees and back *)
Lemma sin_le_id x : 0 <= x -> sin x <= x.
Proof. intros [H|<-]; [left; now apply sin_lt_x|rewrite sin_0; lra]. Qed.
Lemma sin_lipschitz x y : Rabs (sin x - sin y) <= Rabs (x - y).
Proof.
  assert (E : sin x - sin y = 2 * cos ((x + y) / 2) * sin ((x - y) / 2)).
  { assert (E1 : sin x = sin ((x + y) / 2 + (x - y) / 2)) by (f_equal; lra). assert (E2 : sin y = sin ((x + y) / 2 - (x - y) / 2)) by (f_equal; lra). rewrite E1, E2, sin_plus, sin_minus. ring. }
  assert (S : forall z, Rabs (sin z) <= Rabs z).
  { intros z. destruct (Rle_lt_dec 0 z) as [H|H].
    - rewrite (Rabs_pos_eq z) by easy. destruct (Rle_lt_dec z 1) as [H1|H1].
      + pose proof PI2_1. rewrite Rabs_pos_eq by (apply sin_ge_0; lra). now apply sin_le_id.
      + pose proof (SIN_bound z). absle; lra.
    - rewrite <- (Rabs_Ropp z), (Rabs_pos_eq (- z)) by lra. rewrite <- (Rabs_Ropp (sin z)), <- sin_neg. destruct (Rle_lt_dec (- z) 1) as [H1|H1].
      + pose proof PI2_1. rewrite Rabs_pos_eq by (apply sin_ge_0; lra). apply sin_le_id. lra.
      + pose proof (SIN_bound (- z)). absle; lra. }
  rewrite E, !Rabs_mult. specialize (S ((x - y) / 2)). pose proof (COS_bound ((x + y) / 2)). assert (Rabs (cos ((x + y) / 2)) <= 1) by (absle; lra).
  assert (E2 : Rabs ((x - y) / 2) = Rabs (x - y) / 2) by (unfold Rdiv; rewrite Rabs_mult, (Rabs_pos_eq (/ 2)) by lra; reflexivity). rewrite E2 in S.
  rewrite (Rabs_pos_eq 2) by lra. pose proof (Rabs_pos (cos ((x + y) / 2))). pose proof (Rabs_pos (sin ((x - y) / 2))).
  assert (Rabs (cos ((x + y) / 2)) * Rabs (sin ((x - y) / 2)) <= 1 * (Rabs (x - y) / 2)) by (apply Rmult_le_compat; lra). lra.
Qed.
Definition turn_of {L} (w : @T (F64 L)) : @T (F64 L) := modn (mul n2 (degrees (acosn w))) (lit 360 0).
Definition half_of {L} (r : @T (F64 L)) : @T (F64 L) := div (mul (div r n2) npi) (lit 180 0).
Lemma turn_near L (w : @T (F64 L)) : accurate L -> fin (w : f64) -> Rabs (V w) <= 1 -> 1 / 100000000 <= acos (V w) <= PI - 8 / 10000 ->
  fin (turn_of w : f64) /\ 1 / 10000000 <= V (turn_of w) /\ fin (half_of (turn_of w) : f64) /\ Rabs (V (half_of (turn_of w)) - acos (V w)) <= 1 / 100000000000000.
Proof.
  intros (AC & _ & _ & MO & _) FW W B. destruct (AC w FW) as [H _]. destruct (H W) as [FA DA]. clear H. pose proof big_huge as BH. pose proof (proj1 PI_near) as P1. pose proof (proj2 PI_near) as P2.
  unfold turn_of, half_of, degrees. cbn [acosn mul div modn lit npi F64 T]. set (a := m_acos L w) in *. set (th := acos (V w)) in *. apply Rabs_le_inv in DA.
  destruct two_V as [F2 V2]. change (@n2 (F64 L)) with (f_of_Z 2). change (f_lit 360 0) with (f_of_Z 360).
  destruct pi_V as [FP VP]. destruct (of_Z_V 180 ltac:(lia)) as [F1 V1]. change (f_lit 180 0) with (f_of_Z 180).
  assert (PB : 314159265 / 100000000 <= V f_pi <= 314159266 / 100000000) by (rewrite VP; lra). clear VP. set (P := V f_pi) in *.
  assert (QB : 57 <= 180 / P <= 58).
  { assert (E : 180 / P * P = 180) by (field; lra). split; apply Rmult_le_reg_r with P; try lra; rewrite E; lra. }
  destruct (div_ok (f_of_Z 180) f_pi F1 ltac:(fold P; lra)) as [FK EK]; [rewrite V1; fold P; absle; lra|]. rewrite V1 in EK. fold P in EK. set (k := Bdiv mode_NE (f_of_Z 180) f_pi) in *.
  pose proof (rnd_within (180 / P) 60 ltac:(absle; lra)) as RK. rewrite <- EK in RK. set (K := 180 / P) in *.
  set (A := V a) in *. assert (AB : 0 <= A <= 4) by lra.
  set (x := A * K). assert (XB : 0 <= x <= 4 * 58) by (unfold x; split; [apply Rmult_le_pos; lra|apply Rmult_le_compat; lra]).
  assert (XA : 9 / 1000000000 * 57 <= x) by (unfold x; apply Rmult_le_compat; lra).
  assert (XC : x <= 180 - 3 / 100).
  { assert (E : P * K = 180) by (unfold K; field; lra). assert (A <= P - 7 / 10000) by (unfold A in *; lra). assert (A * K <= (P - 7 / 10000) * K) by (apply Rmult_le_compat_r; lra). unfold x. lra. }
  assert (AK : x - 300 * u <= A * V k <= x + 300 * u).
  { assert (M : Rabs (A * V k - x) <= 4 * (u * 60 + eta)).
    { unfold x. rewrite <- Rmult_minus_distr_l, Rabs_mult, (Rabs_pos_eq A) by lra. apply Rmult_le_compat; try apply Rabs_pos; try lra. absle; lra. }
    apply Rabs_le_inv in M. nums. lra. }
  destruct (mul_ok a k FA FK) as [F3 E3]; [fold A; nums; absle; lra|]. fold A in E3. set (t1 := Bmult mode_NE a k) in *.
  pose proof (rnd_within (A * V k) 240 ltac:(nums; absle; lra)) as R1. rewrite <- E3 in R1.
  destruct (mul_ok (f_of_Z 2) t1 F2 F3) as [F4 E4]; [rewrite V2; nums; absle; lra|]. rewrite V2 in E4. set (t2 := Bmult mode_NE (f_of_Z 2) t1) in *.
  pose proof (rnd_within (2 * V t1) 480 ltac:(nums; absle; lra)) as R2. rewrite <- E4 in R2.
  destruct (MO t2 F4) as [F5 E5]; [nums; lra|]. set (t3 := m_mod L t2 (f_of_Z 360)) in *. split; [exact F5|]. split; [rewrite E5; nums; lra|].
  destruct (div_ok t3 (f_of_Z 2) F5) as [F6 E6]; [rewrite V2; lra|rewrite V2, E5; nums; absle; lra|]. rewrite V2, E5 in E6. set (t4 := Bdiv mode_NE t3 (f_of_Z 2)) in *.
  pose proof (rnd_within (V t2 / 2) 240 ltac:(nums; absle; lra)) as R4. rewrite <- E6 in R4.
  assert (T4 : x - 1400 * u <= V t4 <= x + 1400 * u) by (nums; lra).
  assert (XP : x * P = 180 * A) by (unfold x, K; field; lra).
  assert (T4P : 180 * A - 5000 * u <= V t4 * P <= 180 * A + 5000 * u).
  { assert (M : Rabs (V t4 * P - x * P) <= 1400 * u * (314159266 / 100000000)).
    { rewrite <- Rmult_minus_distr_r, Rabs_mult, (Rabs_pos_eq P) by lra. apply Rmult_le_compat; try apply Rabs_pos; try lra. absle; lra. }
    apply Rabs_le_inv in M. rewrite XP in M. nums. lra. }
  destruct (mul_ok t4 f_pi F6 FP) as [F7 E7]; [fold P; nums; absle; lra|]. fold P in E7. set (t5 := Bmult mode_NE t4 f_pi) in *.
  pose proof (rnd_within (V t4 * P) 800 ltac:(nums; absle; lra)) as R5. rewrite <- E7 in R5.
  destruct (div_ok t5 (f_of_Z 180) F7) as [F8 E8]; [rewrite V1; lra|rewrite V1; nums; absle; lra|]. rewrite V1 in E8. split; [exact F8|].
  pose proof (rnd_within (V t5 / 180) 5 ltac:(nums; absle; lra)) as R6. rewrite <- E8 in R6. unfold A in *. absle; nums; lra.
Qed.

(** ** The axis *)
Lemma lit_12 : fin (f_lit 1 (-12)) /\ 9 / 10000000000000 <= V (f_lit 1 (-12)) <= 11 / 10000000000000.
Proof.
  destruct (of_Z_V 1 ltac:(lia)) as [F1 V1]. destruct (of_Z_V 1000000000000 ltac:(lia)) as [FK VK]. pose proof big_huge as BH.
  change (f_lit 1 (-12)) with (Bdiv mode_NE (f_of_Z 1) (f_of_Z 1000000000000)).
  destruct (div_ok (f_of_Z 1) (f_of_Z 1000000000000) F1) as [F E]; [rewrite VK; lra|rewrite V1, VK; absle; lra|]. split; [exact F|]. rewrite E, V1, VK.
  pose proof (rnd_within (1 / 1000000000000) (1 / 1000000000000) ltac:(absle; lra)) as W. nums. lra.
Qed.
Lemma quotient_close x X s S d e : 9 / 10000 <= S <= 1 -> Rabs X <= S -> Rabs (x - X) <= d -> Rabs (s - S) <= e -> 0 <= d -> 0 <= e <= 1 / 10000 ->
  Rabs (x / s - X / S) <= (d + e) * 1250.
Proof.
  intros HS HX HD HE D E. assert (SP : 8 / 10000 <= s) by (split_Rabs; lra).
  assert (Q : x / s - X / S = ((x - X) + (X / S) * (S - s)) / s) by (field; lra). rewrite Q. unfold Rdiv at 1. rewrite Rabs_mult, (Rabs_pos_eq (/ s)) by (left; apply Rinv_0_lt_compat; lra).
  assert (XS : Rabs (X / S) <= 1).
  { unfold Rdiv. rewrite Rabs_mult, (Rabs_pos_eq (/ S)) by (left; apply Rinv_0_lt_compat; lra). apply Rmult_le_reg_r with S; [lra|]. rewrite Rmult_assoc, Rinv_l by lra. lra. }
  apply Rmult_le_compat; try apply Rabs_pos.
  - left. apply Rinv_0_lt_compat. lra.
  - eapply Rle_trans; [apply Rabs_triang|]. apply Rplus_le_compat; [exact HD|]. rewrite Rabs_mult, (Rabs_minus_sym S s). replace e with (1 * e) by ring. apply Rmult_le_compat; try apply Rabs_pos; lra.
  - apply Rmult_le_reg_r with s; [lra|]. rewrite Rinv_l by lra. lra.
Qed.
Lemma fraction x S : 0 < S -> Rabs x <= S -> Rabs (x / S) <= 1.
Proof.
  intros P H. unfold Rdiv. rewrite Rabs_mult, (Rabs_pos_eq (/ S)) by (left; now apply Rinv_0_lt_compat). apply Rmult_le_reg_r with S; [lra|]. rewrite Rmult_assoc, Rinv_l by lra. lra.
Qed.
Definition within3 (e : R) (v w : rv) : Prop := Rabs (v1 v - v1 w) <= e /\ Rabs (v2 v - v2 w) <= e /\ Rabs (v3 v - v3 w) <= e.
Lemma vec_components v : Rabs (v1 v) <= len3 v /\ Rabs (v2 v) <= len3 v /\ Rabs (v3 v) <= len3 v.
Proof. rewrite <- len_norm. destruct (component_le (RQ v 0)) as (a & b & c & _). auto. Qed.
Lemma exact_axis_parts D : 0 < len3 (qv (dr D)) -> v1 (exact_axis D) = v1 (qv (dr D)) / len3 (qv (dr D)) /\ v2 (exact_axis D) = v2 (qv (dr D)) / len3 (qv (dr D)) /\ v3 (exact_axis D) = v3 (qv (dr D)) / len3 (qv (dr D)).
Proof. intros. unfold exact_axis. destruct (qv (dr D)) as [a b c]. cbn [vscale v1 v2 v3]. unfold Rdiv. repeat split; ring. Qed.
Lemma exact_axis_len D : 0 < len3 (qv (dr D)) -> len3 (exact_axis D) = 1.
Proof. intros H. unfold exact_axis. rewrite len3_scale by (left; now apply Rinv_0_lt_compat). field. lra. Qed.
Lemma axis_near L (d : @dquat (F64 L)) D : accurate L -> represents d D -> turning D ->
  finv (axis_of d) /\ within3 (3 / 10000000) (valv (axis_of d)) (exact_axis D).
Proof.
  intros AC ((FX & FY & FZ & FW) & DI) (U & S0). pose proof big_huge as BH. destruct (dist_close _ _ _ DI) as (DX & DY & DZ & DW). cbn [val qv qs v1 v2 v3] in *.
  set (S := len3 (qv (dr D))) in *. set (W := qs (dr D)) in *. set (w := V (qw (rot d))) in *.
  assert (SW : S * S + W * W = 1).
  { unfold S. rewrite len3_sqr. unfold unitq, hnorm2 in U. unfold W. rewrite <- U. destruct (dr D) as [[a b c] g]. specu. ring. }
  assert (S1 : S <= 1) by nra. assert (W1 : W * W <= 1 - 1 / 1000000) by nra. assert (WB : Rabs W <= 1) by (absle; nra).
  assert (DW2 : Rabs (w * w - W * W) <= 21 / 100000000000000).
  { replace (w * w - W * W) with ((w - W) * (w + W)) by ring. rewrite Rabs_mult. assert (Rabs (w + W) <= 21 / 10) by (apply Rabs_le_inv in DW, WB; absle; lra).
    replace (21 / 100000000000000) with (1 / 10000000000000 * (21 / 10)) by lra. apply Rmult_le_compat; try apply Rabs_pos; lra. }
  apply Rabs_le_inv in DW2. assert (w1 : Rabs w <= 1) by (absle; nra).
  set (a := acos w). assert (AB : 0 <= a <= PI) by apply acos_bound. assert (CA : cos a = w) by (apply cos_acos; apply Rabs_le_inv in w1; lra).
  assert (SA : sin a * sin a = 1 - w * w) by (pose proof (sin2_cos2 a) as H; rewrite CA in H; unfold Rsqr in H; lra).
  assert (SP : 0 <= sin a) by (apply sin_ge_0; lra). assert (SL : 99 / 100000 <= sin a) by nra.
  assert (AL : sin a <= a) by (apply sin_le_id; lra). assert (AR : sin a <= PI - a) by (rewrite <- sin_PI_x; apply sin_le_id; lra).
  destruct (turn_near L (qw (rot d)) AC FW w1 ltac:(fold w a; lra)) as (FT & TL & FH & DH). fold w a in DH.
  assert (BR : ltb (lit (Num:=F64 L) 1 (-12)) (turn_of (qw (rot d))) = true).
  { destruct lit_12 as [FL VL]. apply (proj2 (ltb_V _ _ FL FT)). lra. }
  unfold axis_of, screw_axis. fold (turn_of (qw (rot d))).
  rewrite BR. cbv zeta. fold (half_of (turn_of (qw (rot d)))). set (h := half_of (turn_of (qw (rot d)))) in *. clearbody h. clear BR TL FT.
  destruct AC as (_ & _ & SI & _). pose proof (proj2 PI_near) as P2. destruct (SI h FH) as [FS DS]; [apply Rabs_le_inv in DH; absle; lra|]. cbn [sinn F64 T].
  pose proof (sin_lipschitz (V h) a) as LI. set (s := m_sin L h) in *. clearbody s.
  assert (DS2 : Rabs (V s - sin a) <= 2 / 100000000000000) by (apply Rabs_le_inv in DS, DH; pose proof (Rabs_le _ _ DH) as DH'; assert (LI' := Rle_trans _ _ _ LI DH'); apply Rabs_le_inv in LI'; absle; lra).
  assert (DSS : Rabs (sin a - S) <= 22 / 100000000000).
  { assert (E : (sin a - S) * (sin a + S) = W * W - w * w) by (replace ((sin a - S) * (sin a + S)) with (sin a * sin a - S * S) by ring; lra).
    assert (M : Rabs (sin a - S) * (1 / 1000) <= 21 / 100000000000000).
    { eapply Rle_trans; [|apply (Rabs_le (W * W - w * w) (21 / 100000000000000)); lra]. rewrite <- E, Rabs_mult. apply Rmult_le_compat_l; [apply Rabs_pos|]. rewrite Rabs_pos_eq by lra. lra. }
    lra. }
  assert (DE : Rabs (V s - S) <= 23 / 100000000000) by (apply Rabs_le_inv in DS2, DSS; absle; lra).
  destruct (vec_components (qv (dr D))) as (X1 & X2 & X3). fold S in X1, X2, X3.
  destruct (exact_axis_parts D) as (E1 & E2 & E3); [fold S; lra|]. fold S in E1, E2, E3.
  assert (C : forall (x : f64) X, fin x -> Rabs (V x - X) <= 1 / 10000000000000 -> Rabs X <= S -> fin (Bdiv mode_NE x s) /\ Rabs (V (Bdiv mode_NE x s) - X / S) <= 3 / 10000000).
  { intros x X F DX' B. pose proof (quotient_close (V x) X (V s) S _ _ ltac:(lra) B DX' DE ltac:(lra) ltac:(lra)) as Q. pose proof (fraction X S ltac:(lra) B) as FR.
    apply Rabs_le_inv in Q, FR. destruct (div_ok x s F) as [F' E']; [apply Rabs_le_inv in DE; lra|absle; lra|]. split; [exact F'|]. rewrite E'.
    pose proof (rnd_within (V x / V s) 2 ltac:(absle; lra)) as R. absle; nums; lra. }
  destruct (C (qx (rot d)) _ FX DX X1) as [G1 H1]. destruct (C (qy (rot d)) _ FY DY X2) as [G2 H2]. destruct (C (qz (rot d)) _ FZ DZ X3) as [G3 H3].
  split; [exact (conj G1 (conj G2 G3))|]. unfold within3, valv. cbn [v1 v2 v3 vx vy vz div F64 T]. rewrite E1, E2, E3. exact (conj H1 (conj H2 H3)).
Qed.
Lemma within_dist e v w : 0 <= e -> within3 e v w -> dist (RQ v 0) (RQ w 0) <= 2 * e.
Proof.
  intros E (a & b & c). apply close_dist; [exact E|]. split; [exact a|]. split; [exact b|]. split; [exact c|]. cbn [qs]. rewrite Rminus_0_r, Rabs_R0. exact E.
Qed.
Lemma axis_length L (d : @dquat (F64 L)) D : accurate L -> represents d D -> turning D ->
  fin (vnorm (axis_of d) : f64) /\ Rabs (V (vnorm (axis_of d)) - 1) <= 61 / 100000000.
Proof.
  intros AC RE TU. destruct (axis_near L d D AC RE TU) as [F W]. assert (P : 0 < len3 (qv (dr D))) by (destruct TU; lra).
  apply within_dist in W; [|lra]. pose proof (exact_axis_len D P) as EL. set (v := valv (axis_of d)) in *.
  assert (LE : Rabs (len3 v - 1) <= 6 / 10000000).
  { pose proof (dist_norm (RQ v 0) (RQ (exact_axis D) 0)) as A1. pose proof (dist_norm (RQ (exact_axis D) 0) (RQ v 0)) as A2. rewrite (dist_sym (RQ (exact_axis D) 0)) in A2. rewrite !len_norm, EL in A1, A2. absle; lra. }
  apply Rabs_le_inv in LE. destruct (vnorm_near L (axis_of d) F) as [FN DN]; [fold v; unfold e24; lra|]. fold v in DN. split; [exact FN|]. apply Rabs_le_inv in DN. absle; lra.
Qed.
Lemma unit_near L (d : @dquat (F64 L)) D : accurate L -> represents d D -> turning D ->
  finv (unit_axis d) /\ within3 (12 / 10000000) (valv (unit_axis d)) (exact_axis D).
Proof.
  intros AC RE TU. destruct (axis_near L d D AC RE TU) as [(F1 & F2 & F3) (W1 & W2 & W3)]. destruct (axis_length L d D AC RE TU) as [FN DN].
  assert (P : 0 < len3 (qv (dr D))) by (destruct TU; lra). pose proof (exact_axis_len D P) as EL. destruct (vec_components (exact_axis D)) as (X1 & X2 & X3). rewrite EL in X1, X2, X3. pose proof big_huge as BH.
  unfold unit_axis, vdivs. set (n := vnorm (axis_of d)) in *. set (v := axis_of d) in *. clearbody n v. unfold valv in *. cbn [vx vy vz v1 v2 v3 div F64 T] in *. apply Rabs_le_inv in DN.
  assert (C : forall (x : f64) X, fin x -> Rabs (V x - X) <= 3 / 10000000 -> Rabs X <= 1 -> fin (Bdiv mode_NE x n) /\ Rabs (V (Bdiv mode_NE x n) - X) <= 12 / 10000000).
  { intros x X F D' B. apply Rabs_le_inv in D', B. assert (N : 0 < V n) by lra. assert (E : V x / V n * V n = V x) by (field; lra). set (y := V x / V n) in *.
    assert (Y : -(11 / 10) <= y <= 11 / 10) by nra. assert (Y2 : - (91 / 100000000) - 1 / 1000000000 <= y - X <= 91 / 100000000 + 1 / 1000000000) by nra.
    destruct (div_ok x n F) as [F' E']; [lra|fold y; absle; lra|]. split; [exact F'|]. rewrite E'. fold y. pose proof (rnd_within y 2 ltac:(absle; lra)) as R. absle; nums; lra. }
  destruct (C (vx v) _ F1 W1 X1) as [G1 H1]. destruct (C (vy v) _ F2 W2 X2) as [G2 H2]. destruct (C (vz v) _ F3 W3 X3) as [G3 H3].
  split; [exact (conj G1 (conj G2 G3))|exact (conj H1 (conj H2 H3))].
Qed.
Lemma product_close x X y Y e : Rabs X <= 1 -> Rabs Y <= 1 -> Rabs (x - X) <= e -> Rabs (y - Y) <= e -> 0 <= e <= 1 -> Rabs (x * y - X * Y) <= e * (2 + e).
Proof.
  intros HX HY A B E. replace (x * y - X * Y) with ((x - X) * (y - Y) + ((x - X) * Y + X * (y - Y))) by ring.
  assert (P : forall p q a b, Rabs p <= a -> Rabs q <= b -> Rabs (p * q) <= a * b) by (intros; rewrite Rabs_mult; apply Rmult_le_compat; auto using Rabs_pos).
  pose proof (P _ _ _ _ A B). pose proof (P _ _ _ _ A HY). pose proof (P _ _ _ _ HX B).
  eapply Rle_trans; [apply Rabs_triang|]. eapply Rle_trans; [apply Rplus_le_compat_l, Rabs_triang|]. lra.
Qed.
Lemma cosine_near L (a b : @dquat (F64 L)) A B : accurate L -> represents a A -> turning A -> represents b B -> turning B ->
  fin (vdot (unit_axis a) (unit_axis b) : f64) /\ Rabs (V (vdot (unit_axis a) (unit_axis b)) - cosine A B) <= 1 / 100000.
Proof.
  intros AC RA TA RB TB. destruct (unit_near L a A AC RA TA) as [(F1 & F2 & F3) (W1 & W2 & W3)]. destruct (unit_near L b B AC RB TB) as [(G1 & G2 & G3) (Z1 & Z2 & Z3)].
  assert (PA : 0 < len3 (qv (dr A))) by (destruct TA; lra). assert (PB : 0 < len3 (qv (dr B))) by (destruct TB; lra). pose proof big_huge as BH.
  destruct (vec_components (exact_axis A)) as (X1 & X2 & X3). rewrite (exact_axis_len A PA) in X1, X2, X3. destruct (vec_components (exact_axis B)) as (Y1 & Y2 & Y3). rewrite (exact_axis_len B PB) in Y1, Y2, Y3.
  assert (CE : cosine A B = dot3 (exact_axis A) (exact_axis B)).
  { unfold cosine, exact_axis. set (p := len3 (qv (dr A))) in *. set (q := len3 (qv (dr B))) in *. destruct (qv (dr A)) as [x y z], (qv (dr B)) as [x' y' z']. unfold dot3. cbn [vscale v1 v2 v3]. field. lra. }
  rewrite CE. unfold dot3. set (p := unit_axis a) in *. set (q := unit_axis b) in *. clearbody p q. unfold valv in *. cbn [v1 v2 v3] in *.
  pose proof (product_close _ _ _ _ _ X1 Y1 W1 Z1 ltac:(lra)) as Q1. pose proof (product_close _ _ _ _ _ X2 Y2 W2 Z2 ltac:(lra)) as Q2. pose proof (product_close _ _ _ _ _ X3 Y3 W3 Z3 ltac:(lra)) as Q3.
  assert (U : forall x y, Rabs x <= 1 -> Rabs y <= 1 -> -1 <= x * y <= 1) by (clear; intros x y I J; apply Rabs_le_inv in I, J; nra).
  pose proof (U _ _ X1 Y1) as U1. pose proof (U _ _ X2 Y2) as U2. pose proof (U _ _ X3 Y3) as U3. apply Rabs_le_inv in Q1, Q2, Q3.
  set (e1 := v1 (exact_axis A) * v1 (exact_axis B)) in *. set (e2 := v2 (exact_axis A) * v2 (exact_axis B)) in *. set (e3 := v3 (exact_axis A) * v3 (exact_axis B)) in *. clearbody e1 e2 e3.
  unfold vdot. cbn [add mul F64 T].
  destruct (mul_ok (vx p) (vx q) F1 G1) as [K1 E1]; [absle; lra|]. destruct (mul_ok (vy p) (vy q) F2 G2) as [K2 E2]; [absle; lra|]. destruct (mul_ok (vz p) (vz q) F3 G3) as [K3 E3]; [absle; lra|].
  pose proof (rnd_within (V (vx p) * V (vx q)) 2 ltac:(absle; lra)) as R1. pose proof (rnd_within (V (vy p) * V (vy q)) 2 ltac:(absle; lra)) as R2. pose proof (rnd_within (V (vz p) * V (vz q)) 2 ltac:(absle; lra)) as R3.
  rewrite <- E1 in R1. rewrite <- E2 in R2. rewrite <- E3 in R3.
  destruct (add_ok _ _ K1 K2) as [K4 E4]; [nums; absle; lra|]. match type of E4 with V ?s = rnd ?r => pose proof (rnd_within r 5 ltac:(nums; absle; lra)) as R4; rewrite <- E4 in R4 end.
  destruct (add_ok _ _ K4 K3) as [K5 E5]; [nums; absle; lra|]. match type of E5 with V ?s = rnd ?r => pose proof (rnd_within r 8 ltac:(nums; absle; lra)) as R5; rewrite <- E5 in R5 end.
  split; [exact K5|]. absle; nums; lra.
Qed.

(** ** The property *)
(** The screw axis of a motion that turns is within 3e-7 (in each component) of the exact rotation axis, and is not taken for a vanishing one. *)
Theorem C109_axis : forall L (d : @dquat (F64 L)) D, accurate L -> represents d D -> turning D ->
  finv (axis_of d) /\ within3 (3 / 10000000) (valv (axis_of d)) (exact_axis D) /\ len3 (exact_axis D) = 1 /\
  leb (vnorm (axis_of d)) (lit (Num:=F64 L) 1 (-12)) = false.
Proof.
  intros L d D AC RE TU. destruct (axis_near L d D AC RE TU) as [F W]. destruct (axis_length L d D AC RE TU) as [FN DN]. destruct lit_12 as [FL VL].
  split; [exact F|]. split; [exact W|]. split; [apply exact_axis_len; destruct TU; lra|]. destruct (leb (vnorm (axis_of d)) (lit (Num:=F64 L) 1 (-12))) eqn:E; [|reflexivity]. apply (leb_V _ _ FN FL) in E. apply Rabs_le_inv in DN. lra.
Qed.
(** The number that is compared with the threshold is within 1e-5 of the cosine of the angle between the exact axes. *)
Theorem C109_cosine : forall L (a b : @dquat (F64 L)) A B, accurate L -> represents a A -> turning A -> represents b B -> turning B ->
  fin (vdot (unit_axis a) (unit_axis b) : f64) /\ Rabs (V (vdot (unit_axis a) (unit_axis b)) - cosine A B) <= 1 / 100000.
Proof. exact cosine_near. Qed.

(** The pair p of computed motions stands for a pair of exact motions that both turn; or (None) one of its axes is computed as vanishing. *)
Definition stands {L} (p : @dquat (F64 L) * @dquat (F64 L)) (o : option (rdq * rdq)) : Prop :=
  match o with
  | Some P => represents (fst p) (fst P) /\ represents (snd p) (snd P) /\ turning (fst P) /\ turning (snd P)
  | None => leb (vnorm (axis_of (fst p))) (lit (Num:=F64 L) 1 (-12)) = true \/ leb (vnorm (axis_of (snd p))) (lit (Num:=F64 L) 1 (-12)) = true
  end.
Lemma above_threshold L (thr : f64) (a b : @dquat (F64 L)) A B : accurate L -> fin thr -> represents a A -> turning A -> represents b B -> turning B ->
  1 / 100000 < Rabs (cosine A B - V thr) -> (ltb (Num:=F64 L) thr (vdot (unit_axis a) (unit_axis b)) = false <-> cosine A B <= V thr).
Proof.
  intros AC FT RA TA RB TB C. destruct (cosine_near L a b A B AC RA TA RB TB) as [F D]. set (x := vdot (unit_axis a) (unit_axis b)) in *. clearbody x. pose proof (ltb_V thr x FT F) as H.
  apply Rabs_le_inv in D. change (ltb (Num:=F64 L) thr x) with (Bltb thr x). split.
  - intros E. destruct (Rle_lt_dec (cosine A B) (V thr)) as [K|K]; [exact K|]. rewrite Rabs_pos_eq in C by lra. rewrite (proj2 H) in E by lra. discriminate E.
  - intros K. destruct (Bltb thr x) eqn:E; [|reflexivity]. pose proof (proj1 H eq_refl). rewrite Rabs_left1 in C by lra. lra.
Qed.
(** If no two exact axes make an angle whose cosine is within 1e-5 of the threshold, the prefilter in doubles keeps exactly the pairs that it
    keeps in exact arithmetic: those whose cosines with all earlier kept pairs are at most the threshold, on both sides. *)
Theorem C109_prefilter : forall L (thr : f64) (l : list (@dquat (F64 L) * @dquat (F64 L))) M, accurate L -> fin thr -> Forall2 stands l M ->
  (forall i k P Q, (i < k)%nat -> nth_error M i = Some (Some P) -> nth_error M k = Some (Some Q) ->
     1 / 100000 < Rabs (cosine (fst P) (fst Q) - V thr) /\ 1 / 100000 < Rabs (cosine (snd P) (snd Q) - V thr)) ->
  exists keep, length keep = length l /\
    (forall k, nth_error M k = Some None -> nth_error keep k = Some false) /\
    (forall k Q, nth_error M k = Some (Some Q) ->
       (nth_error keep k = Some true <->
        forall i P, (i < k)%nat -> nth_error M i = Some (Some P) -> nth_error keep i = Some true ->
          cosine (fst P) (fst Q) <= V thr /\ cosine (snd P) (snd Q) <= V thr)) /\
    prefilter_using_screw_axis (N:=F64 L) thr l = if (2 <=? count_true keep)%nat then Ok (compress l keep) else Err AssertionError.
Proof.
  intros L thr l M AC FT ST CL. destruct (C29_prefilter (F64 L) thr l) as (keep & LK & K & E). exists keep. split; [exact LK|].
  assert (N : forall k o, nth_error M k = Some o -> exists p, nth_error l k = Some p /\ stands p o).
  { clear - ST. induction ST as [|p o l M S ST IH]; intros [|k] o' H; cbn in *; try discriminate H; [|now apply IH]. exists p. split; [reflexivity|]. congruence. }
  assert (NN : forall k p, nth_error l k = Some p -> exists o, nth_error M k = Some o /\ stands p o).
  { clear - ST. induction ST as [|p o l M S ST IH]; intros [|k] p' H; cbn in *; try discriminate H; [|now apply IH]. exists o. split; [reflexivity|]. congruence. }
  split; [|split; [|exact E]].
  - intros k H. destruct (N k None H) as (p & HP & S). assert (I : (k < length keep)%nat) by (rewrite LK; apply nth_error_Some; congruence).
    destruct (nth_error keep k) as [[]|] eqn:B; [|reflexivity|apply nth_error_None in B; lia]. exfalso. apply (K k p HP) in B as (B1 & B2 & _). destruct S as [S|S]; congruence.
  - intros k Q H. destruct (N k (Some Q) H) as (q & HQ & R1 & R2 & T1 & T2). rewrite (K k q HQ). split.
    + intros (_ & _ & C) i P I HP KP. destruct (N i (Some P) HP) as (p & Hp & R3 & R4 & T3 & T4). destruct (C i p I Hp KP) as [C1 C2]. destruct (CL i k P Q I HP H) as [M1 M2].
      split; [now apply (above_threshold L thr (fst p) (fst q))|now apply (above_threshold L thr (snd p) (snd q))].
    + intros C. destruct (C109_axis L _ _ AC R1 T1) as (_ & _ & _ & A1). destruct (C109_axis L _ _ AC R2 T2) as (_ & _ & _ & A2). split; [exact A1|]. split; [exact A2|].
      intros i p I Hp KP. destruct (NN i p Hp) as ([P|] & HP & S).
      * destruct S as (R3 & R4 & T3 & T4). destruct (C i P I HP KP) as [C1 C2]. destruct (CL i k P Q I HP H) as [M1 M2].
        split; [now apply (above_threshold L thr (fst p) (fst q) (fst P) (fst Q))|now apply (above_threshold L thr (snd p) (snd q) (snd P) (snd Q))].
      * exfalso. apply (K i p Hp) in KP as (B1 & B2 & _). destruct S as [S|S]; congruence.
Qed.

(** The first aligned pose is the identity up to rounding.  Its pair is dropped, as in exact arithmetic, when the scalar part is computed as 1 or
    more (the angle is 0 or nan, and the translation below 1e-12) ... *)
Theorem C109_first_dropped : forall L (poses : list (@pose (F64 L))) i p first rest, accurate L ->
  nth_error poses i = Some p -> usable 10 p -> align_paths_at_index (map from_pose_vector poses) i = Ok (first :: rest) -> 1 <= V (qw (rot first)) ->
  leb (vnorm (axis_of first)) (lit (Num:=F64 L) 1 (-12)) = true.
Proof.
  intros L poses i p first rest AC HP U E W. destruct (C72_align L poses i p HP (usable_weaken 10 million p ltac:(unfold million; lra) U)) as (al & EA & _ & (f & r & -> & AP) & _).
  rewrite E in EA. assert (f = first) by congruence. subst f. destruct AP as ((_ & _ & _ & FW) & FD & _ & DD).
  assert (LD : len3 (qv (val (dual first))) <= 71 / 1000000000000000).
  { pose proof (len_norm_le (qv (val (dual first))) (qs (val (dual first)))) as H. replace (RQ (qv (val (dual first))) (qs (val (dual first)))) with (val (dual first)) in H by reflexivity.
    change (dd dqone) with hzero in DD. rewrite dist_zero in DD.
    destruct U as (_ & B & _). fold (far p) in B. unfold tiny50 in DD. lra. }
  assert (NR : ltb (lit (Num:=F64 L) 1 (-12)) (turn_of (qw (rot first))) = false).
  { destruct AC as (AC & ZE & _ & MO & MN). destruct lit_12 as [FL VL]. destruct (Rle_lt_or_eq_dec _ _ W) as [G|G].
    - destruct (AC _ FW) as [_ H]. unfold turn_of, degrees. cbn [acosn F64 T]. change (f_lit 360 0) with (f_of_Z 360). rewrite H by (rewrite Rabs_pos_eq; lra).
      assert (N1 : forall x : f64, Bmult mode_NE B754_nan x = (B754_nan : f64)) by (intros []; reflexivity). assert (N2 : forall x : f64, Bmult mode_NE x B754_nan = (B754_nan : f64)) by (intros []; reflexivity).
      cbn [mul modn lit F64 T]. rewrite N1, N2. change (f_lit 360 0) with (f_of_Z 360). rewrite MN. cbn [ltb F64]. destruct (f_lit 1 (-12)); reflexivity.
    - symmetry in G. pose proof (ZE _ FW G) as ZA. destruct (AC _ FW) as [H _]. destruct (H ltac:(rewrite G; rewrite Rabs_R1; lra)) as [FA _]. clear H.
      unfold turn_of. cbn [modn lit F64 T]. change (f_lit 360 0) with (f_of_Z 360).
      assert (Z : fin (mul (Num:=F64 L) n2 (degrees (acosn (qw (rot first)))) : f64) /\ V (mul (Num:=F64 L) n2 (degrees (acosn (qw (rot first))))) = 0).
      { unfold degrees. cbn [mul acosn div lit npi F64 T]. change (f_lit 180 0) with (f_of_Z 180). destruct (of_Z_V 180 ltac:(lia)) as [F1 V1]. destruct pi_V as [FP VP]. pose proof big_huge as BH.
        destruct (div_ok (f_of_Z 180) f_pi F1 ltac:(rewrite VP; lra)) as [FK EK]; [rewrite V1, VP; absle; lra|].
        destruct (mul_ok (m_acos L (qw (rot first))) _ FA FK) as [F2 E2]; [rewrite ZA, Rmult_0_l, Rabs_R0; lra|]. rewrite ZA, Rmult_0_l, rnd_0 in E2.
        destruct two_V as [F3 V3]. change (@n2 (F64 L)) with (f_of_Z 2). destruct (mul_ok (f_of_Z 2) _ F3 F2) as [F4 E4]; [rewrite E2, Rmult_0_r, Rabs_R0; lra|]. rewrite E2, Rmult_0_r, rnd_0 in E4. exact (conj F4 E4). }
      destruct Z as [FZ VZ]. set (z := mul (Num:=F64 L) n2 (degrees (acosn (qw (rot first))))) in *. clearbody z. assert (ZB : 0 <= V z < 360) by (replace (V z) with 0 by (symmetry; exact VZ); lra). destruct (MO z FZ ZB) as [FM VM]. assert (VM0 : V (m_mod L z (f_of_Z 360)) = 0) by (rewrite VM; exact VZ).
      set (m := m_mod L z (f_of_Z 360)) in *. clearbody m. change (Bltb (f_lit 1 (-12)) m = false). destruct (Bltb (f_lit 1 (-12)) m) eqn:B; [|reflexivity]. apply (ltb_V _ _ FL FM) in B. lra. }
  unfold axis_of, screw_axis. fold (turn_of (qw (rot first))). rewrite NR. cbv zeta.
  set (v := mkV (N:=F64 L) (qx (dual first)) (qy (dual first)) (qz (dual first))).
  assert (FV : finv v) by (destruct FD as (a & b & c & _); exact (conj a (conj b c))). destruct (vnorm_near L v FV) as [FN DN]; [change (valv v) with (qv (val (dual first))); unfold e24; lra|].
  change (valv v) with (qv (val (dual first))) in DN. set (h := len3 (qv (val (dual first)))) in *. assert (0 <= h) by apply sqrt_pos. clearbody h.
  change (sqrtn (Num:=F64 L) _) with (vnorm v). set (n := vnorm v) in *. clearbody n. apply Rabs_le_inv in DN. destruct two_V as [F3 V3]. pose proof big_huge as BH.
  destruct (mul_ok (f_of_Z 2) n F3 FN) as [F4 E4]; [rewrite V3; absle; lra|]. rewrite V3 in E4. pose proof (rnd_within (2 * V n) 1 ltac:(absle; lra)) as R. rewrite <- E4 in R.
  change (mul (Num:=F64 L) n2 n) with (Bmult mode_NE (f_of_Z 2) n). destruct lit_12 as [FL VL].
  assert (NT : ltb (Num:=F64 L) (lit (Num:=F64 L) 1 (-12)) (Bmult mode_NE (f_of_Z 2) n : f64) = false).
  { set (m := Bmult mode_NE (f_of_Z 2) n) in *. clearbody m. change (Bltb (f_lit 1 (-12)) m = false). destruct (Bltb (f_lit 1 (-12)) m) eqn:B; [|reflexivity]. apply (ltb_V _ _ FL F4) in B. assert (S : 2 * V n <= 3 / 10000000000000) by lra.
    clear - B VL E4 S H DN. pose proof (rnd_within (2 * V n) (3 / 10000000000000)) as R. nums. specialize (R ltac:(absle; lra)). lra. }
  rewrite NT. vm_compute. reflexivity.
Qed.
(** ... but it is kept, with an axis of rounding noise, when the scalar part is computed as 1 - 2^-53, which happens for ordinary poses. *)
Definition shown_pose L : @pose (F64 L) := mkPose (N:=F64 L) (mkV (N:=F64 L) (f_of_Z 1) (f_of_Z 2) (f_of_Z 3)) (mkQ (N:=F64 L) (f_of_Z 1) (f_of_Z 3) (f_of_Z 1) (f_of_Z 1)).
Definition power (e : Z) : f64 := binary_normalize 53 1024 f64_prec f64_emax mode_NE 1 e false.
Definition below_one : f64 := binary_normalize 53 1024 f64_prec f64_emax mode_NE 9007199254740991 (-53) false.
Definition noisy {L} (r : res (list (@dquat (F64 L)))) : bool :=
  match r with
  | Ok [d] => Beqb (qw (rot d)) below_one && Beqb (qy (rot d)) (power (-55)) && Beqb (qx (rot d)) (f_of_Z 0) && Beqb (qz (rot d)) (f_of_Z 0)
              && is_finite (qx (rot d)) && is_finite (qy (rot d)) && is_finite (qz (rot d)) && is_finite (qw (rot d))
  | _ => false
  end.
Lemma shown_noisy L : noisy (align_paths_at_index (map from_pose_vector [shown_pose L]) 0) = true.
Proof. vm_compute. reflexivity. Qed.
Lemma normalize_V m e : (Z.abs m < 2 ^ 53)%Z -> (-100 <= e <= 0)%Z -> fin (binary_normalize 53 1024 f64_prec f64_emax mode_NE m e false) /\ V (binary_normalize 53 1024 f64_prec f64_emax mode_NE m e false) = F2R (Float radix2 m e).
Proof.
  intros M E. pose proof (binary_normalize_correct 53 1024 f64_prec f64_emax mode_NE m e false) as C. cbv zeta in C.
  assert (G : rnd (F2R (Float radix2 m e)) = F2R (Float radix2 m e)).
  { apply round_generic; [apply valid_rnd_round_mode|]. rewrite fexp_FLT. apply generic_format_FLT. exists (Float radix2 m e); [reflexivity|exact M|cbn; lia]. }
  rewrite G in C. rewrite Rlt_bool_true in C; [now destruct C as (C1 & C2 & _)|].
  apply Rlt_le_trans with (bpow radix2 53); [|apply bpow_le; lia]. unfold F2R. cbn [Fnum Fexp]. rewrite Rabs_mult, (Rabs_pos_eq (bpow radix2 e)) by apply bpow_ge_0. rewrite <- abs_IZR.
  apply Rle_lt_trans with (IZR (Z.abs m) * 1).
  - apply Rmult_le_compat_l; [apply IZR_le; lia|]. change 1 with (bpow radix2 0). apply bpow_le. lia.
  - rewrite Rmult_1_r. change (bpow radix2 53) with (IZR (2 ^ 53)). now apply IZR_lt.
Qed.
Lemma below_one_V : fin below_one /\ V below_one = 1 - 1 / 9007199254740992.
Proof. destruct (normalize_V 9007199254740991 (-53)) as [F E]; [lia|lia|]. split; [exact F|]. unfold below_one. rewrite E. unfold F2R. cbn [Fnum Fexp]. change (bpow radix2 (-53)) with (/ IZR 9007199254740992). lra. Qed.
Lemma power_V : fin (power (-55)) /\ V (power (-55)) = 1 / 36028797018963968.
Proof. destruct (normalize_V 1 (-55)) as [F E]; [lia|lia|]. split; [exact F|]. unfold power. rewrite E. unfold F2R. cbn [Fnum Fexp]. change (bpow radix2 (-55)) with (/ IZR 36028797018963968). lra. Qed.
Lemma noise_axis L (d : @dquat (F64 L)) : accurate L -> finq (rot d) -> V (qw (rot d)) = 1 - 1 / 9007199254740992 ->
  V (qx (rot d)) = 0 -> V (qy (rot d)) = 1 / 36028797018963968 -> V (qz (rot d)) = 0 -> leb (vnorm (axis_of d)) (lit (Num:=F64 L) 1 (-12)) = false.
Proof.
  intros AC (FX & FY & FZ & FW) W X Y Z. pose proof big_huge as BH.
  set (w := V (qw (rot d))) in *. set (a := acos w). assert (AB : 0 <= a <= PI) by apply acos_bound. assert (CA : cos a = w) by (apply cos_acos; lra).
  assert (SA : sin a * sin a = 1 - w * w) by (pose proof (sin2_cos2 a) as H; rewrite CA in H; unfold Rsqr in H; lra).
  assert (SP : 0 <= sin a) by (apply sin_ge_0; lra). assert (S2 : 1 / 5000000000000000 <= sin a * sin a <= 1 / 4500000000000000) by (rewrite SA, W; lra).
  assert (SL : 14 / 1000000000 <= sin a) by (apply Rsqr_incr_0_var; unfold Rsqr; lra). assert (SU : sin a <= 15 / 1000000000) by (apply Rsqr_incr_0_var; unfold Rsqr; lra).
  assert (AL : sin a <= a) by (apply sin_le_id; lra).
  assert (AR : a <= PI - 8 / 10000).
  { pose proof (proj1 PI_near). destruct (Rle_lt_dec a (PI / 2)) as [K|K]; [lra|]. pose proof (cos_le_0 a ltac:(lra) ltac:(lra)). lra. }
  destruct (turn_near L (qw (rot d)) AC FW ltac:(fold w; absle; lra) ltac:(fold w a; lra)) as (FT & TL & FH & DH). fold w a in DH. destruct lit_12 as [FL VL].
  assert (BR : ltb (lit (Num:=F64 L) 1 (-12)) (turn_of (qw (rot d))) = true) by (apply (proj2 (ltb_V _ _ FL FT)); lra).
  unfold axis_of, screw_axis. fold (turn_of (qw (rot d))). rewrite BR. cbv zeta. fold (half_of (turn_of (qw (rot d)))). set (h := half_of (turn_of (qw (rot d)))) in *. clearbody h. clear BR TL FT.
  destruct AC as (_ & _ & SI & _). pose proof (proj2 PI_near) as P2. destruct (SI h FH) as [FS DS]; [apply Rabs_le_inv in DH; absle; lra|]. cbn [sinn F64 T].
  pose proof (sin_lipschitz (V h) a) as LI. set (s := m_sin L h) in *. clearbody s.
  assert (DS2 : 13 / 1000000000 <= V s <= 16 / 1000000000) by (assert (LI' := Rle_trans _ _ _ LI DH); apply Rabs_le_inv in DS, LI'; lra).
  assert (NZ : V s <> 0) by lra.
  destruct (div_ok (qx (rot d)) s FX NZ) as [G1 E1]; [rewrite X; unfold Rdiv; rewrite Rmult_0_l, Rabs_R0; lra|].
  destruct (div_ok (qz (rot d)) s FZ NZ) as [G3 E3]; [rewrite Z; unfold Rdiv; rewrite Rmult_0_l, Rabs_R0; lra|].
  assert (QB : 1 / 1000000000 <= V (qy (rot d)) / V s <= 1 / 100000000).
  { rewrite Y. set (p := 1 / 36028797018963968) in *. assert (PB : 27 / 1000000000000000000 <= p <= 28 / 1000000000000000000) by (unfold p; lra). clearbody p. assert (E : p / V s * V s = p) by (field; lra).
    split; apply Rmult_le_reg_r with (V s); try lra; rewrite E; lra. }
  destruct (div_ok (qy (rot d)) s FY NZ) as [G2 E2]; [absle; lra|]. pose proof (rnd_within (V (qy (rot d)) / V s) 1 ltac:(absle; lra)) as R. rewrite <- E2 in R.
  rewrite X in E1. rewrite Z in E3. unfold Rdiv in E1, E3. rewrite Rmult_0_l, rnd_0 in E1, E3.
  set (v := mkV (N:=F64 L) (div (qx (rot d)) (s : @T (F64 L))) (div (qy (rot d)) (s : @T (F64 L))) (div (qz (rot d)) (s : @T (F64 L)))).
  assert (FV : finv v) by exact (conj G1 (conj G2 G3)).
  assert (VV : valv v = RV 0 (V (Bdiv mode_NE (qy (rot d)) s)) 0) by (unfold valv, v; cbn [vx vy vz div F64 T]; now rewrite E1, E3).
  destruct (vec_components (valv v)) as (_ & B2 & _). assert (LV : len3 (valv v) <= 1).
  { rewrite <- len_norm. eapply Rle_trans; [apply (norm_components _ (1 / 10000000))|lra]; [lra| | | |cbn [qs]; rewrite Rabs_R0; lra]; rewrite VV; cbn [qv v1 v2 v3]; try (rewrite Rabs_R0; lra). nums; absle; lra. }
  assert (LB : 9 / 10000000000 <= len3 (valv v)) by (eapply Rle_trans; [|exact B2]; rewrite VV; cbn [v2]; rewrite Rabs_pos_eq; nums; lra).
  destruct (vnorm_near L v FV ltac:(unfold e24; lra)) as [FN DN]. apply Rabs_le_inv in DN.
  change (Bleb (vnorm v) (f_lit 1 (-12)) = false). set (n := vnorm v) in *. clearbody n. destruct (Bleb n (f_lit 1 (-12))) eqn:Q; [|reflexivity]. apply (leb_V _ _ FN FL) in Q. lra.
Qed.
Theorem C109_identity_kept_refuted : forall L, accurate L -> usable 10 (shown_pose L) /\
  exists first, align_paths_at_index (map from_pose_vector [shown_pose L]) 0 = Ok [first] /\
    leb (vnorm (axis_of first)) (lit (Num:=F64 L) 1 (-12)) = false /\
    forall (thr : f64) rest kept, prefilter_using_screw_axis (N:=F64 L) thr ((first, first) :: rest) = Ok kept -> exists others, kept = (first, first) :: others.
Proof.
  intros L AC. split.
  { assert (C : forall k, (1 <= k <= 3)%Z -> fin (f_of_Z k) /\ V (f_of_Z k) = IZR k) by (intros k K; apply of_Z_V; lia). destruct (C 1%Z ltac:(lia)) as [F1 V1]. destruct (C 2%Z ltac:(lia)) as [F2 V2]. destruct (C 3%Z ltac:(lia)) as [F3 V3].
    split; [exact (conj F1 (conj F2 F3))|]. split; [|split; vm_compute; reflexivity].
    rewrite <- len_norm. eapply Rle_trans; [apply (norm_components _ 3)|lra]; [lra| | | |cbn [qs]; rewrite Rabs_R0; lra]; unfold valv, shown_pose; cbn [pos vx vy vz qv v1 v2 v3]; rewrite ?V1, ?V2, ?V3; absle; lra. }
  pose proof (shown_noisy L) as N. destruct (align_paths_at_index (map from_pose_vector [shown_pose L]) 0) as [[|d [|]]|]; try discriminate N. exists d. split; [reflexivity|]. cbn [noisy] in N. rewrite !andb_true_iff in N. destruct N as (((((((NW & NY) & NX) & NZ) & FX) & FY) & FZ) & FW).
  destruct below_one_V as [FB VB]. destruct power_V as [FP VP]. destruct (of_Z_V 0 ltac:(lia)) as [F0 V0].
  apply (eqb_V _ _ FW FB) in NW. apply (eqb_V _ _ FY FP) in NY. apply (eqb_V _ _ FX F0) in NX. apply (eqb_V _ _ FZ F0) in NZ. rewrite VB in NW. rewrite VP in NY. rewrite V0 in NX, NZ.
  assert (A : leb (vnorm (axis_of d)) (lit (Num:=F64 L) 1 (-12)) = false) by (apply noise_axis; try assumption; exact (conj FX (conj FY (conj FZ FW)))).
  split; [exact A|]. intros thr rest kept E. destruct (C29_prefilter (F64 L) thr ((d, d) :: rest)) as (keep & LK & K & R). rewrite E in R. destruct keep as [|k keep]; [discriminate LK|].
  assert (k = true). { destruct (K 0%nat (d, d) eq_refl) as [_ H]. assert (H2 : nth_error (k :: keep) 0 = Some true) by (apply H; split; [exact A|]; split; [exact A|]; intros; lia). cbn in H2. congruence. }
  subst k. destruct (2 <=? count_true (true :: keep))%nat; [|discriminate R]. injection R as ->. cbn [compress]. eexists. reflexivity.
Qed.

(** ** Examples *)
(** a libm with the assumed accuracy: the nearest multiples of 2^-50 *)
Definition on_grid (r : R) : f64 := binary_normalize 53 1024 f64_prec f64_emax mode_NE (Znearest (fun z => negb (Z.even z)) (r * 1125899906842624)) (-50) false.
Lemma on_grid_V r : Rabs r <= 4 -> fin (on_grid r) /\ Rabs (V (on_grid r) - r) <= 1 / 1000000000000000 /\ (r = 0 -> V (on_grid r) = 0).
Proof.
  intros B. apply Rabs_le_inv in B. unfold on_grid. set (m := Znearest (fun z => negb (Z.even z)) (r * 1125899906842624)).
  assert (M : Rabs (IZR m - r * 1125899906842624) <= 1 / 2) by (rewrite Rabs_minus_sym; pose proof (Znearest_half (fun z => negb (Z.even z)) (r * 1125899906842624)) as H; fold m in H; lra).
  apply Rabs_le_inv in M.
  assert (MB : (Z.abs m < 2 ^ 53)%Z) by (apply lt_IZR; rewrite abs_IZR; change (IZR (2 ^ 53)) with 9007199254740992; apply Rabs_def1; lra).
  destruct (normalize_V m (-50) MB ltac:(lia)) as [F E]. split; [exact F|]. rewrite E. assert (E2 : F2R (Float radix2 m (-50)) = IZR m / 1125899906842624) by (unfold F2R; cbn; lra). rewrite E2. split; [absle; lra|].
  intros ->. assert (m = 0%Z) by (assert (-1 < m < 1)%Z by (split; apply lt_IZR; lra); lia). rewrite H. lra.
Qed.
Definition screw_libm : libm := Build_libm (fun x => on_grid (sin (V x))) (fun _ => f_of_Z 0) (fun x => if Bleb (Babs x) (f_of_Z 1) then on_grid (acos (V x)) else B754_nan) (fun _ => f_of_Z 0) (fun x _ => x).
Example C109_accurate_example : accurate screw_libm.
Proof.
  destruct (of_Z_V 1 ltac:(lia)) as [F1 V1]. pose proof (proj2 PI_near) as P2.
  assert (IN : forall x : f64, fin x -> Rabs (V x) <= 1 -> m_acos screw_libm x = on_grid (acos (V x))).
  { intros x F H. cbn [m_acos screw_libm]. rewrite (proj2 (leb_V (Babs x) (f_of_Z 1) ltac:(now rewrite abs_fin) F1)); [reflexivity|]. now rewrite abs_V, V1. }
  assert (AB : forall r, Rabs (acos r) <= 4) by (intros r; pose proof (acos_bound r); absle; lra).
  split; [|split; [|split; [|split]]].
  - intros x F. split; intros H.
    + rewrite IN by assumption. destruct (on_grid_V _ (AB (V x))) as (A & B & _). exact (conj A B).
    + cbn [m_acos screw_libm]. replace (Bleb (Babs x) (f_of_Z 1)) with false; [reflexivity|]. symmetry. apply not_true_iff_false. intros Q. apply leb_V in Q; [|now rewrite abs_fin|exact F1]. rewrite abs_V, V1 in Q. lra.
  - intros x F H. rewrite IN; [|exact F|rewrite H, Rabs_R1; lra]. destruct (on_grid_V _ (AB (V x))) as (_ & _ & Z). apply Z. rewrite H. exact acos_1.
  - intros x F H. cbn [m_sin screw_libm]. destruct (on_grid_V (sin (V x))) as (A & B & _); [pose proof (SIN_bound (V x)); absle; lra|]. exact (conj A B).
  - intros x F H. cbn [m_mod screw_libm]. split; [exact F|reflexivity].
  - reflexivity.
Qed.
(** turns about the x and the y axis *)
Definition six : f64 := f_lit 6 (-1).
Definition eight : f64 := f_lit 8 (-1).
Definition zero4 : @quat (F64 screw_libm) := mkQ (N:=F64 screw_libm) (f_of_Z 0) (f_of_Z 0) (f_of_Z 0) (f_of_Z 0).
Definition about_x : @dquat (F64 screw_libm) := mkDQ (N:=F64 screw_libm) (mkQ (N:=F64 screw_libm) six (f_of_Z 0) (f_of_Z 0) eight) zero4.
Definition about_y : @dquat (F64 screw_libm) := mkDQ (N:=F64 screw_libm) (mkQ (N:=F64 screw_libm) (f_of_Z 0) six (f_of_Z 0) eight) zero4.
Definition exact_x : rdq := RD (RQ (RV (3 / 5) 0 0) (4 / 5)) (RQ (RV 0 0 0) 0).
Definition exact_y : rdq := RD (RQ (RV 0 (3 / 5) 0) (4 / 5)) (RQ (RV 0 0 0) 0).
Lemma tenth_V z : (0 <= z <= 10)%Z -> fin (f_lit z (-1)) /\ Rabs (V (f_lit z (-1)) - IZR z / 10) <= 1 / 1000000000000000.
Proof.
  intros H. destruct (of_Z_V z ltac:(lia)) as [F1 V1]. destruct (of_Z_V 10 ltac:(lia)) as [FK VK]. pose proof big_huge as BH. assert (B : 0 <= IZR z <= 10) by (split; apply IZR_le; lia).
  change (f_lit z (-1)) with (Bdiv mode_NE (f_of_Z z) (f_of_Z 10)). destruct (div_ok (f_of_Z z) (f_of_Z 10) F1) as [F E]; [rewrite VK; lra|rewrite V1, VK; absle; lra|]. split; [exact F|]. rewrite E, V1, VK.
  pose proof (rnd_within (IZR z / 10) 1 ltac:(absle; lra)) as W. absle; nums; lra.
Qed.
Lemma example_represents : represents about_x exact_x /\ represents about_y exact_y /\ turning exact_x /\ turning exact_y.
Proof.
  destruct (tenth_V 6 ltac:(lia)) as [F6 V6]. destruct (tenth_V 8 ltac:(lia)) as [F8 V8]. destruct (of_Z_V 0 ltac:(lia)) as [F0 V0].
  assert (LX : len3 (RV (3 / 5) 0 0) = 3 / 5) by (unfold len3, dot3; cbn [v1 v2 v3]; replace (3 / 5 * (3 / 5) + 0 * 0 + 0 * 0) with (3 / 5 * (3 / 5)) by ring; apply sqrt_square; lra).
  assert (LY : len3 (RV 0 (3 / 5) 0) = 3 / 5) by (unfold len3, dot3; cbn [v1 v2 v3]; replace (0 * 0 + 3 / 5 * (3 / 5) + 0 * 0) with (3 / 5 * (3 / 5)) by ring; apply sqrt_square; lra).
  fold six in *. fold eight in *. apply Rabs_le_inv in V6, V8.
  split; [|split; [|split]].
  - split; [exact (conj F6 (conj F0 (conj F0 F8)))|]. eapply Rle_trans; [apply (close_dist (1 / 1000000000000000)); [lra|]|lra]. unfold PropFloat.close_to. cbn [about_x rot val qx qy qz qw exact_x dr qv qs v1 v2 v3]. rewrite V0. repeat split; absle; lra.
  - split; [exact (conj F0 (conj F6 (conj F0 F8)))|]. eapply Rle_trans; [apply (close_dist (1 / 1000000000000000)); [lra|]|lra]. unfold PropFloat.close_to. cbn [about_y rot val qx qy qz qw exact_y dr qv qs v1 v2 v3]. rewrite V0. repeat split; absle; lra.
  - split; [unfold unitq; cbn [exact_x exact_y dr]; unfold hnorm2, hdot, dot3; cbn [qv qs v1 v2 v3]; lra|cbn [exact_x dr qv]; rewrite LX; lra].
  - split; [unfold unitq; cbn [exact_x exact_y dr]; unfold hnorm2, hdot, dot3; cbn [qv qs v1 v2 v3]; lra|cbn [exact_y dr qv]; rewrite LY; lra].
Qed.
Example C109_example : prefilter_using_screw_axis (N:=F64 screw_libm) (f_lit 9 (-1)) [(about_x, about_y); (about_y, about_x)] = Ok [(about_x, about_y); (about_y, about_x)].
Proof.
  destruct example_represents as (RX & RY & TX & TY). destruct (tenth_V 9 ltac:(lia)) as [F9 V9]. apply Rabs_le_inv in V9.
  assert (CX : cosine exact_x exact_y = 0) by (unfold cosine, dot3; cbn [exact_x exact_y dr qv v1 v2 v3]; unfold Rdiv; ring). assert (CY : cosine exact_y exact_x = 0) by (unfold cosine, dot3; cbn [exact_x exact_y dr qv v1 v2 v3]; unfold Rdiv; ring).
  destruct (C109_prefilter screw_libm (f_lit 9 (-1)) [(about_x, about_y); (about_y, about_x)] [Some (exact_x, exact_y); Some (exact_y, exact_x)] C109_accurate_example F9) as (keep & LK & _ & K & E).
  - apply Forall2_cons; [exact (conj RX (conj RY (conj TX TY)))|]. apply Forall2_cons; [exact (conj RY (conj RX (conj TY TX)))|]. apply Forall2_nil.
  - intros [|[|i]] [|[|k]] P Q I HP HQ; cbn in HP, HQ; try lia; try (destruct i; discriminate HP); try (destruct k; discriminate HQ).
    injection HP as <-. injection HQ as <-. cbn [fst snd]. rewrite CX, CY. replace (Rabs (0 - V (f_lit 9 (-1)))) with (V (f_lit 9 (-1))) by (rewrite Rabs_left1; lra). lra.
  - assert (K0 : nth_error keep 0 = Some true) by (apply (K 0%nat _ eq_refl); intros; lia).
    assert (K1 : nth_error keep 1 = Some true) by (apply (K 1%nat _ eq_refl); intros [|i] P I HP _; [|lia]; cbn in HP; injection HP as <-; cbn [fst snd]; rewrite CX, CY; lra).
    rewrite E. destruct keep as [|a [|b [|]]]; try discriminate LK. cbn in K0, K1. injection K0 as ->. injection K1 as ->. reflexivity.
Qed.
(** an upright pose: its pair is dropped *)
Definition upright : @pose (F64 screw_libm) := mkPose (N:=F64 screw_libm) (mkV (N:=F64 screw_libm) (f_of_Z 1) (f_of_Z 2) (f_of_Z 3)) (mkQ (N:=F64 screw_libm) (f_of_Z 0) (f_of_Z 0) (f_of_Z 0) (f_of_Z 1)).
Definition whole {L} (r : res (list (@dquat (F64 L)))) : bool := match r with Ok [d] => Bleb (f_of_Z 1) (qw (rot d)) && is_finite (qw (rot d)) | _ => false end.
Example C109_first_dropped_example : exists first, align_paths_at_index (map from_pose_vector [upright]) 0 = Ok [first] /\ leb (vnorm (axis_of first)) (lit (Num:=F64 screw_libm) 1 (-12)) = true.
Proof.
  assert (W : whole (align_paths_at_index (map from_pose_vector [upright]) 0) = true) by (vm_compute; reflexivity).
  destruct (of_Z_V 1 ltac:(lia)) as [F1 V1]. destruct (of_Z_V 2 ltac:(lia)) as [F2 V2]. destruct (of_Z_V 3 ltac:(lia)) as [F3 V3].
  destruct (align_paths_at_index (map from_pose_vector [upright]) 0) as [[|d [|]]|] eqn:E; try discriminate W. exists d. split; [reflexivity|]. cbn [whole] in W. apply andb_true_iff in W as [W F].
  apply (C109_first_dropped screw_libm [upright] 0 upright d []); [exact C109_accurate_example|reflexivity| |exact E|apply (leb_V _ _ F1 F) in W; lra].
  split; [exact (conj F1 (conj F2 F3))|]. split; [|split; vm_compute; reflexivity].
  rewrite <- len_norm. eapply Rle_trans; [apply (norm_components _ 3)|lra]; [lra| | | |cbn [qs]; rewrite Rabs_R0; lra]; unfold valv, upright; cbn [pos vx vy vz qv v1 v2 v3]; rewrite ?V1, ?V2, ?V3; absle; lra.
Qed.
