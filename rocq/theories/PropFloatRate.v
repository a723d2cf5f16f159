(** * Property C114: angular velocities in double precision. *)

From Coq Require Import Reals ZArith Bool List Arith Lra Lia Psatz.
From Flocq Require Import Core BinarySingleNaN.
From Verif Require Import Num Py Quat DualQuat HandEye TimeAlign F64 Spec TimeSpec ListFacts QuatFacts QuatTrig RateFacts DualFacts F64Facts FloatFacts PropFloat FloatQuat FloatTime FloatGrid PropFloatTime FloatDual PropFloatDual HandEyeFacts XFacts PropEval NoiseFacts PropFloatPose PropFloatScrew PropFloatInterp.
Import ListNotations.
Local Open Scope R_scope.

(** ** The rotation between two orientations *)
Lemma relative_near {L} (a b : @quat (F64 L)) sa sb : finq a -> finq b -> hnorm sa = 1 -> hnorm sb = 1 ->
  dist (val a) sa <= 1 / 100000000000000 -> dist (val b) sb <= 1 / 100000000000000 ->
  finq (qmul a (qinv b)) /\ dist (val (qmul a (qinv b))) (hmul sa (hconj sb)) <= 1 / 10000000000000.
Proof.
  intros FA FB NA NB DA DB. pose proof (dist_pos (val a) sa). pose proof (dist_pos (val b) sb).
  pose proof (dist_norm (val a) sa) as A1. pose proof (dist_norm sa (val a)) as A2. rewrite dist_sym in A2.
  pose proof (dist_norm (val b) sb) as B1. pose proof (dist_norm sb (val b)) as B2. rewrite dist_sym in B2.
  set (ha := hnorm (val a)) in *. set (hb := hnorm (val b)) in *. rewrite NA in *. rewrite NB in *.
  assert (HB : 1 / 4 <= hnorm2 (val b) <= 4). { rewrite <- hnorm_sqr. fold hb. apply norm_range with (1 / 100000000000000); [absle; lra|lra]. }
  destruct (qinv_near b FB HB) as [FI DI]. set (i := qinv b) in *. fold hb in DI.
  assert (IB : 0 < / hb <= 1 + 11 / 1000000000000000).
  { split; [apply Rinv_0_lt_compat; lra|]. apply Rmult_le_reg_r with hb; [lra|]. rewrite Rinv_l by lra. nra. }
  assert (DI' : dist (val i) (hconj (val b)) <= 26 / 1000000000000000).
  { eapply Rle_trans; [apply (dist_triangle _ (hscale (/ hnorm2 (val b)) (hconj (val b))))|].
    assert (E : dist (hscale (/ hnorm2 (val b)) (hconj (val b))) (hconj (val b)) = Rabs (1 - hb * hb) * / hb).
    { unfold dist. rewrite <- hnorm_sqr. fold hb.
      assert (Q : forall k p, hnorm (hsub (hscale k p) p) = Rabs (k - 1) * hnorm p).
      { clear. intros k p. rewrite <- hnorm_scale_abs. f_equal. destruct p as [[] ?]. apply rq_eq; cbn; ring. }
      rewrite Q, hnorm_conj. fold hb. replace (/ (hb * hb) - 1) with ((1 - hb * hb) * (/ hb * / hb)) by (field; lra).
      rewrite !Rabs_mult, (Rabs_pos_eq (/ hb)) by lra. rewrite !Rmult_assoc, Rinv_l by lra. now rewrite Rmult_1_r. }
    rewrite E. assert (Rabs (1 - hb * hb) <= 21 / 1000000000000000) by (absle; nra). pose proof (Rabs_pos (1 - hb * hb)).
    assert (Rabs (1 - hb * hb) * / hb <= 21 / 1000000000000000 * (1 + 11 / 1000000000000000)) by (apply Rmult_le_compat; lra). unfold Rdiv in DI at 1. lra. }
  assert (DS : dist (val i) (hconj sb) <= 36 / 1000000000000000) by (eapply Rle_trans; [apply (dist_triangle _ (hconj (val b)))|]; rewrite dist_conj; lra).
  pose proof (dist_norm (val i) (hconj sb)) as NI. rewrite hnorm_conj, NB in NI. pose proof (hnorm_pos (val i)) as I0. pose proof (dist_pos (val i) (hconj sb)) as P0. pose proof (hnorm_pos (val a)) as HA0. fold ha in HA0.
  assert (PR : ha * hnorm (val i) <= (1 + 1 / 100000000000000) * (1 + 36 / 1000000000000000)) by (apply Rmult_le_compat; lra).
  destruct (qmul_near a i FA FI) as [FM DM]; [fold ha; unfold M50; nums; lra|]. fold ha in DM. split; [exact FM|].
  eapply Rle_trans; [apply (dist_triangle _ (hmul (val a) (val i)))|]. eapply Rle_trans; [apply Rplus_le_compat_l, (dist_triangle _ (hmul (val a) (hconj sb)))|].
  rewrite dist_mul_l, dist_mul_r, hnorm_conj, NB. fold ha.
  assert (ha * dist (val i) (hconj sb) <= (1 + 1 / 100000000000000) * (36 / 1000000000000000)) by (apply Rmult_le_compat; lra). nums. lra.
Qed.

(** ** Arccosines away from one *)
Lemma acos_lipschitz a b : - (1 / 10) <= a <= 1 - 98 / 10000000 -> - (1 / 10) <= b <= 1 - 98 / 10000000 -> Rabs (acos a - acos b) <= 250 * Rabs (a - b).
Proof.
  assert (K : forall a b, - (1 / 10) <= a -> a < b -> b <= 1 - 98 / 10000000 -> Rabs (acos a - acos b) <= 250 * Rabs (a - b)).
  { clear. intros a b HA AB HB. destruct (MVT_cor2 acos (fun x => -1 / sqrt (1 - x²)) a b AB) as (c & E & C).
    { intros c C. assert (R : -1 < c < 1) by lra. exact (derive_pt_eq_1 _ _ _ _ (derive_pt_acos c R)). }
    assert (S : 1 / 250 <= sqrt (1 - c²)).
    { replace (1 / 250) with (sqrt (1 / 250 * (1 / 250))) by (apply sqrt_square; lra). apply sqrt_le_1_alt. unfold Rsqr. nra. }
    rewrite Rabs_minus_sym, E, Rabs_mult, (Rabs_minus_sym a b). apply Rmult_le_compat_r; [apply Rabs_pos|].
    unfold Rdiv. rewrite Rabs_mult, (Rabs_pos_eq (/ _)) by (left; apply Rinv_0_lt_compat; lra). rewrite (Rabs_left (-1)) by lra. replace (- -1) with 1 by ring. rewrite Rmult_1_l.
    replace 250 with (/ (1 / 250)) by field. apply Rinv_le_contravar; lra. }
  intros [A1 A2] [B1 B2]. destruct (Rtotal_order a b) as [H|[->|H]].
  - now apply K.
  - rewrite !Rminus_eq_0, Rabs_R0. lra.
  - rewrite (Rabs_minus_sym (acos a)), (Rabs_minus_sym a). now apply K.
Qed.
Lemma isclose_holds {L} (a : @T (F64 L)) : fin (a : f64) -> Rabs (V a - 1) <= 99999 / 10000000000 -> isclose (N:=F64 L) (lit (Num:=F64 L) 1 (-12)) a (n1 (N:=F64 L)) = true.
Proof.
  intros FA D. pose proof big_huge as BH. destruct (of_Z_V 1 ltac:(lia)) as [F1 V1]. change (n1 (N:=F64 L)) with (f_of_Z 1).
  unfold isclose, isclose_gen. cbn [isfin leb absv add sub mul lit F64 T] in *. rewrite FA, F1. cbn [andb].
  destruct PropFloatPose.lit_12 as [F8 B8]. destruct lit_5 as [F5 B5]. apply Rabs_le_inv in D.
  destruct (sub_ok a (f_of_Z 1) FA F1 ltac:(rewrite V1; absle; lra)) as [FD ED]. rewrite V1 in ED.
  destruct (mul_ok (f_lit 1 (-5)) (Babs (f_of_Z 1)) F5 ltac:(now rewrite abs_fin)) as [FM EM]; [rewrite abs_V, V1, Rabs_R1; absle; lra|]. rewrite abs_V, V1, Rabs_R1, Rmult_1_r, rnd_self in EM.
  set (m := Bmult mode_NE (f_lit 1 (-5)) (Babs (f_of_Z 1))) in *.
  destruct (add_ok _ _ F8 FM) as [FS ES]; [rewrite EM; absle; lra|].
  apply leb_V; [now rewrite abs_fin|exact FS|]. rewrite abs_V, ED, ES, EM.
  pose proof (rnd_within (V (f_lit 1 (-12)) + V (f_lit 1 (-5))) 1 ltac:(absle; lra)) as RS.
  pose proof (rnd_within (V a - 1) 1 ltac:(absle; lra)) as RD. absle; nums; lra.
Qed.

(** ** The formula of angle_axis *)
(** x / s, where x and s are the computed component and length *)
Lemma axis_part (x s : f64) X S : fin x -> fin s -> 44 / 10000 <= S <= 1 -> Rabs X <= S -> Rabs (V x - X) <= 1 / 10000000000000 -> Rabs (V s - S) <= 13 / 1000000000 * S ->
  fin (Bdiv mode_NE x s) /\ Rabs (V (Bdiv mode_NE x s) - X / S) <= 14 / 1000000000.
Proof.
  intros FX FS SB XB DX DS. pose proof big_huge as BH. apply Rabs_le_inv in DS. assert (SP : 43 / 10000 <= V s) by lra.
  assert (Y : Rabs (X / S) <= 1) by (apply fraction; lra).
  assert (Q : Rabs (V x / V s - X / S) <= 135 / 10000000000).
  { assert (E : V x / V s - X / S = ((V x - X) + X / S * (S - V s)) / V s) by (field; lra). rewrite E. unfold Rdiv at 1. rewrite Rabs_mult, (Rabs_pos_eq (/ V s)) by (left; apply Rinv_0_lt_compat; lra).
    apply Rmult_le_reg_r with (V s); [lra|]. rewrite Rmult_assoc, Rinv_l, Rmult_1_r by lra.
    eapply Rle_trans; [apply Rabs_triang|]. pose proof (prod_le (X / S) (S - V s) 1 (13 / 1000000000 * S) Y ltac:(absle; lra)). lra. }
  apply Rabs_le_inv in Q, Y. destruct (div_ok x s FX) as [FD ED]; [lra|absle; lra|]. split; [exact FD|]. rewrite ED.
  pose proof (rnd_within (V x / V s) 2 ltac:(absle; lra)) as W. absle; nums; lra.
Qed.
(** sqrt(1 - w^2) *)
Lemma length_part (w one : f64) W : fin w -> fin one -> V one = 1 -> 0 <= V w <= 1 - 98 / 10000000 -> Rabs (V w - W) <= 1 / 10000000000000 -> W <= 1 - 98 / 10000000 ->
  let s := Bsqrt mode_NE (Bminus mode_NE one (Bmult mode_NE w w)) in fin s /\ 44 / 10000 <= sqrt (1 - W * W) <= 1 /\ Rabs (V s - sqrt (1 - W * W)) <= 13 / 1000000000 * sqrt (1 - W * W).
Proof.
  intros FW F1 V1 WB DW WL. cbv zeta. pose proof big_huge as BH. apply Rabs_le_inv in DW.
  assert (W2 : 0 <= V w * V w <= 1) by nra.
  destruct (mul_ok w w FW FW) as [FM EM]; [absle; lra|]. pose proof (rnd_within (V w * V w) 1 ltac:(absle; lra)) as RM. rewrite <- EM in RM.
  set (m := Bmult mode_NE w w) in *. destruct (sub_ok one m F1 FM) as [FN EN]; [rewrite V1; nums; absle; lra|]. rewrite V1 in EN.
  pose proof (rnd_within (1 - V m) 2 ltac:(nums; absle; lra)) as RN. rewrite <- EN in RN. set (n := Bminus mode_NE one m) in *.
  assert (X0 : 1937 / 100000000 <= 1 - W * W <= 1) by nra.
  assert (WW : Rabs (V w * V w - W * W) <= 21 / 100000000000000). { replace (V w * V w - W * W) with ((V w - W) * (V w + W)) by ring. eapply Rle_trans; [apply (prod_le _ _ (1 / 10000000000000) (21 / 10)); absle; lra|lra]. }
  apply Rabs_le_inv in WW. assert (NB : Rabs (V n - (1 - W * W)) <= 12 / 1000000000 * (1 - W * W)) by (absle; nums; lra).
  assert (N0 : 0 < V n) by (apply Rabs_le_inv in NB; lra). destruct (sqrt_ok n FN N0) as [FS ES]. split; [exact FS|].
  assert (SB : 44 / 10000 <= sqrt (1 - W * W) <= 1).
  { split; [replace (44 / 10000) with (sqrt (44 / 10000 * (44 / 10000))) by (apply sqrt_square; lra)|rewrite <- sqrt_1 at 2]; apply sqrt_le_1_alt; lra. }
  split; [exact SB|]. pose proof (sqrt_error (V n) (1 - W * W) _ (12 / 1000000000) ltac:(lra) ltac:(lra) NB ES ltac:(lra)) as E.
  eapply Rle_trans; [exact E|]. apply Rmult_le_compat_r; [lra|]. nums. lra.
Qed.
(** 0.5 / t * angle *)
Lemma factor_part (t a : f64) A : fin t -> 1 / 100000000000000000000 <= V t <= 100000000000000000000 -> fin a -> 0 <= A <= 2 -> Rabs (V a - 2 * A) <= 1 / 10000000000 ->
  let k := Bmult mode_NE (Bdiv mode_NE (f_lit 5 (-1)) t) a in fin k /\ Rabs (V k - A / V t) <= 6 / 100000000000 / V t.
Proof.
  intros FT TB FA AB DA. cbv zeta. pose proof big_huge as BH. destruct half_V as [FH VH]. set (i := / V t).
  assert (IB : 1 / 100000000000000000000 <= i <= 100000000000000000000).
  { unfold i. split; [replace (1 / 100000000000000000000) with (/ 100000000000000000000) by lra|replace 100000000000000000000 with (/ (1 / 100000000000000000000)) by (field; lra)]; apply Rinv_le_contravar; lra. }
  unfold Rdiv. fold i. replace (1 * / 100000000000000000000) with (1 / 100000000000000000000) in * by lra.
  destruct (div_ok (f_lit 5 (-1)) t FH) as [FD ED]; [lra|rewrite VH; unfold Rdiv; fold i; absle; lra|]. rewrite VH in ED. replace (1 / 2 / V t) with (1 / 2 * i) in ED by (unfold i; field; lra).
  pose proof (rnd_within (1 / 2 * i) (1 / 2 * i) ltac:(absle; lra)) as RD. rewrite <- ED in RD. set (g := Bdiv mode_NE (f_lit 5 (-1)) t) in *.
  assert (ET : eta <= 1 / 10000000000000000000000000 * i) by (nums; lra). assert (UI : u * (1 / 2 * i) <= 6 / 100000000000000000 * i) by (nums; lra).
  apply Rabs_le_inv in DA.
  assert (E : Rabs (V g * V a - A * i) <= 51 / 1000000000000 * i).
  { replace (V g * V a - A * i) with ((V g - 1 / 2 * i) * V a + 1 / 2 * i * (V a - 2 * A)) by field.
    pose proof (prod_le (V g - 1 / 2 * i) (V a) (7 / 100000000000000000 * i) 5 ltac:(absle; lra) ltac:(absle; lra)) as P1.
    pose proof (prod_le (1 / 2 * i) (V a - 2 * A) (1 / 2 * i) (1 / 10000000000) ltac:(absle; lra) ltac:(absle; lra)) as P2.
    eapply Rle_trans; [apply Rabs_triang|]. lra. }
  apply Rabs_le_inv in E. assert (AI : 0 <= A * i <= 2 * i) by (split; [apply Rmult_le_pos; lra|apply Rmult_le_compat_r; lra]).
  destruct (mul_ok g a FD FA) as [FK EK]; [absle; lra|]. split; [exact FK|]. rewrite EK.
  pose proof (rnd_within (V g * V a) (3 * i) ltac:(absle; lra)) as RK. assert (u * (3 * i) <= 4 / 10000000000000000 * i) by (nums; lra). absle; lra.
Qed.
Lemma rate_part (k y : f64) A Y i : fin k -> fin y -> 1 / 100000000000000000000 <= i <= 100000000000000000000 -> 0 <= A <= 2 -> Rabs (V k - A * i) <= 6 / 100000000000 * i -> Rabs Y <= 1 -> Rabs (V y - Y) <= 14 / 1000000000 ->
  fin (Bmult mode_NE k y) /\ Rabs (V (Bmult mode_NE k y) - i * (A * Y)) <= 3 / 100000000 * i.
Proof.
  intros FK FY IB AB DK YB DY. pose proof big_huge as BH. apply Rabs_le_inv in DK, DY, YB.
  assert (AI : 0 <= A * i <= 2 * i) by (split; [apply Rmult_le_pos; lra|apply Rmult_le_compat_r; lra]).
  assert (E : Rabs (V k * V y - i * (A * Y)) <= 285 / 10000000000 * i).
  { replace (V k * V y - i * (A * Y)) with ((V k - A * i) * V y + A * i * (V y - Y)) by ring.
    pose proof (prod_le (V k - A * i) (V y) (6 / 100000000000 * i) 2 ltac:(absle; lra) ltac:(absle; lra)) as P1.
    pose proof (prod_le (A * i) (V y - Y) (2 * i) (14 / 1000000000) ltac:(absle; lra) ltac:(absle; lra)) as P2.
    eapply Rle_trans; [apply Rabs_triang|]. lra. }
  assert (KB : Rabs (V k * V y) <= 6 * i) by (eapply Rle_trans; [apply (prod_le _ _ (3 * i) 2); absle; lra|lra]).
  destruct (mul_ok k y FK FY) as [F EM]; [lra|]. split; [exact F|]. rewrite EM. pose proof (rnd_within (V k * V y) (6 * i) KB) as R.
  assert (u * (6 * i) <= 7 / 10000000000000000 * i) by (nums; lra). assert (eta <= 1 / 10000000000000000000000000 * i) by (nums; lra). apply Rabs_le_inv in E. absle; lra.
Qed.

(** ** The angular velocity *)
(** the rotation that turns Q into P, as the quaternion with a scalar part that is not negative; half turns may have either sign *)
Definition turns (P Q D : rq) : Prop := (D = hmul P (hconj Q) \/ D = hneg (hmul P (hconj Q))) /\ - (1 / 1000000000000) <= qs D.
(** what is reported as (half of) the angular velocity over the time t: zero for a rotation by less than about half a degree,
    else half of the rotation vector divided by the time, up to 1e-7 *)
Definition rate_near (P Q : rq) (t : R) (w : rv) : Prop :=
  exists D, turns P Q D /\
    ((w = vzero /\ 1 - 100002 / 10000000000 <= qs D) \/
     (qs D <= 1 - 99998 / 10000000000 /\ len3 (vsub w (vscale (/ t) (half_turn_vector D))) <= 1 / 10000000 / t)).
Lemma zero_times (a b : f64) : fin a -> fin b -> V b = 0 -> fin (Bmult mode_NE a b) /\ V (Bmult mode_NE a b) = 0.
Proof.
  intros FA FB Z. pose proof big_huge as BH. destruct (mul_ok a b FA FB) as [F E]; [rewrite Z, Rmult_0_r, Rabs_R0; lra|]. split; [exact F|]. rewrite E, Z, Rmult_0_r, <- Z. apply rnd_self.
Qed.
Lemma zero_times_l (a b : f64) : fin a -> fin b -> V a = 0 -> fin (Bmult mode_NE a b) /\ V (Bmult mode_NE a b) = 0.
Proof.
  intros FA FB Z. pose proof big_huge as BH. destruct (mul_ok a b FA FB) as [F E]; [rewrite Z, Rmult_0_l, Rabs_R0; lra|]. split; [exact F|]. rewrite E, Z, Rmult_0_l, <- Z. apply rnd_self.
Qed.
Lemma unit_parts D : unitq D -> Rabs (v1 (qv D)) <= sqrt (1 - qs D * qs D) /\ Rabs (v2 (qv D)) <= sqrt (1 - qs D * qs D) /\ Rabs (v3 (qv D)) <= sqrt (1 - qs D * qs D).
Proof.
  intros U. destruct D as [[x y z] w]. unfold unitq, hnorm2, hdot, dot3 in U. cbn [qv qs v1 v2 v3] in *.
  assert (K : forall a, a * a <= 1 - w * w -> Rabs a <= sqrt (1 - w * w)) by (intros a H; rewrite <- sqrt_Rsqr_abs; apply sqrt_le_1_alt; unfold Rsqr; exact H).
  repeat split; apply K; nra.
Qed.
Definition velocity_of {L} (d : @quat (F64 L)) (t : @T (F64 L)) : @vec3 (F64 L) :=
  let '(axis, angle) := angle_axis d in
  let k := mul (Num:=F64 L) (div (Num:=F64 L) (nhalf (N:=F64 L)) t) angle in
  mkV (mul (Num:=F64 L) k (vx axis)) (mul (Num:=F64 L) k (vy axis)) (mul (Num:=F64 L) k (vz axis)).
Lemma velocity_near L (d : @quat (F64 L)) (t : @T (F64 L)) D : arccosine L -> finq d -> unitq D -> dist (val d) D <= 1 / 10000000000000 -> 0 <= V (qw d) ->
  fin (t : f64) -> 1 / 100000000000000000000 <= V t <= 100000000000000000000 ->
  finv (velocity_of d t) /\
    ((valv (velocity_of d t) = vzero /\ 1 - 100002 / 10000000000 <= qs D) \/
     (qs D <= 1 - 99998 / 10000000000 /\ len3 (vsub (valv (velocity_of d t)) (vscale (/ V t) (half_turn_vector D))) <= 1 / 10000000 / V t)).
Proof.
  intros AC (FX & FY & FZ & FW) U DD W0 FT TB. pose proof (dist_close _ _ _ DD) as (CX & CY & CZ & CW). cbn [val qv qs v1 v2 v3] in CX, CY, CZ, CW.
  pose proof (unit_qs_bound D U) as WB. destruct (of_Z_V 1 ltac:(lia)) as [F1 V1]. destruct (of_Z_V 0 ltac:(lia)) as [F0 V0]. destruct (of_Z_V 2 ltac:(lia)) as [F2 V2]. pose proof big_huge as BH. destruct half_V as [FH VH].
  pose proof CW as CW'. apply Rabs_le_inv in CW'.
  assert (IB : 1 / 100000000000000000000 <= / V t <= 100000000000000000000).
  { split; [replace (1 / 100000000000000000000) with (/ 100000000000000000000) by lra|replace 100000000000000000000 with (/ (1 / 100000000000000000000)) by (field; lra)]; apply Rinv_le_contravar; lra. }
  unfold velocity_of, angle_axis. destruct (isclose _ _ _) eqn:C.
  - pose proof (isclose_bound (L:=L) (qw d) (f_of_Z 1) FW F1 ltac:(absle; lra) ltac:(rewrite V1, Rabs_R1; lra) C) as B. rewrite V1, Rabs_R1 in B. apply Rabs_le_inv in B.
    cbn [vx vy vz]. change (nhalf (N:=F64 L)) with (f_lit 5 (-1)). change (n0 (N:=F64 L)) with (f_of_Z 0). change (n1 (N:=F64 L)) with (f_of_Z 1).
    assert (FD : fin (Bdiv mode_NE (f_lit 5 (-1)) t)). { apply div_ok; [exact FH|lra|]. rewrite VH. unfold Rdiv. absle; lra. }
    destruct (zero_times (Bdiv mode_NE (f_lit 5 (-1)) t) (f_of_Z 0) FD F0 V0) as [FK VK]. set (k := Bmult mode_NE (Bdiv mode_NE (f_lit 5 (-1)) t) (f_of_Z 0)) in *.
    destruct (zero_times_l k (f_of_Z 1) FK F1 VK) as [Fa Va]. destruct (zero_times_l k (f_of_Z 0) FK F0 VK) as [Fb Vb].
    split; [exact (conj Fa (conj Fb Fb))|]. left. split; [|lra]. unfold valv, vzero. cbn [vx vy vz]. change (RV (V (Bmult mode_NE k (f_of_Z 1))) (V (Bmult mode_NE k (f_of_Z 0))) (V (Bmult mode_NE k (f_of_Z 0))) = RV 0 0 0). rewrite Va, Vb. reflexivity.
  - assert (B : 99999 / 10000000000 < Rabs (V (qw d) - 1)).
    { destruct (Rle_lt_dec (Rabs (V (qw d) - 1)) (99999 / 10000000000)) as [G|]; [|assumption]. pose proof (isclose_holds (L:=L) (qw d) FW G). congruence. }
    assert (WU : V (qw d) <= 1 - 99999 / 10000000000) by (unfold Rabs in B; destruct (Rcase_abs (V (qw d) - 1)); lra). clear B C.
    cbn [vx vy vz]. change (nhalf (N:=F64 L)) with (f_lit 5 (-1)). change (n1 (N:=F64 L)) with (f_of_Z 1). change (n2 (N:=F64 L)) with (f_of_Z 2).
    change (acosn (Num:=F64 L) (qw d)) with (m_acos L (qw d)).
    change (sqrtn (Num:=F64 L) (sub (Num:=F64 L) (f_of_Z 1) (mul (Num:=F64 L) (qw d) (qw d)))) with (Bsqrt mode_NE (Bminus mode_NE (f_of_Z 1) (Bmult mode_NE (qw d) (qw d)))).
    change (mul (Num:=F64 L) (f_of_Z 2) (m_acos L (qw d))) with (Bmult mode_NE (f_of_Z 2) (m_acos L (qw d))).
    destruct (length_part (qw d) (f_of_Z 1) (qs D) FW F1 V1 ltac:(lra) CW ltac:(lra)) as (FS & SB & DS). cbv zeta in FS, DS. set (s := Bsqrt mode_NE (Bminus mode_NE (f_of_Z 1) (Bmult mode_NE (qw d) (qw d)))) in *.
    set (S := sqrt (1 - qs D * qs D)) in *. destruct (unit_parts D U) as (P1 & P2 & P3). fold S in P1, P2, P3.
    destruct (proj1 (AC (qw d) FW) ltac:(absle; lra)) as [FA DA]. set (a := m_acos L (qw d)) in *.
    set (A := acos (qs D)). pose proof PI_near as PN.
    assert (AB : 0 <= A <= 2).
    { split; [apply acos_bound|]. destruct (Rle_lt_dec A (PI / 2)) as [G|G]; [lra|]. assert (WN : qs D < 0) by (rewrite <- (cos_acos (qs D)) by lra; apply cos_lt_0; [exact G|]; pose proof (acos_bound (qs D)); fold A in H |- *; lra).
      pose proof (acos_lipschitz (qs D) 0 ltac:(lra) ltac:(lra)) as Q. fold A in Q. rewrite acos_0, (Rabs_left (qs D - 0)) in Q by lra. apply Rabs_le_inv in Q. lra. }
    pose proof (acos_lipschitz (V (qw d)) (qs D) ltac:(lra) ltac:(lra)) as AL. fold A in AL. apply Rabs_le_inv in DA, AL.
    destruct (mul_ok (f_of_Z 2) a F2 FA) as [FG EG]; [rewrite V2; absle; lra|]. rewrite V2 in EG. pose proof (rnd_within (2 * V a) 5 ltac:(absle; lra)) as RG. rewrite <- EG in RG. set (g := Bmult mode_NE (f_of_Z 2) a) in *.
    destruct (factor_part t g A FT TB FG AB ltac:(absle; nums; lra)) as [FK DK]. cbv zeta in FK, DK.
    change (mul (Num:=F64 L) (div (Num:=F64 L) (f_lit 5 (-1)) t) g) with (Bmult mode_NE (Bdiv mode_NE (f_lit 5 (-1)) t) g). set (k := Bmult mode_NE (Bdiv mode_NE (f_lit 5 (-1)) t) g) in *. change (Rabs (V k - A * / V t) <= 6 / 100000000000 * / V t) in DK.
    assert (PART : forall (x : f64) X, fin x -> Rabs X <= S -> Rabs (V x - X) <= 1 / 10000000000000 -> fin (Bmult mode_NE k (Bdiv mode_NE x s)) /\ Rabs (V (Bmult mode_NE k (Bdiv mode_NE x s)) - / V t * (A / S * X)) <= 3 / 100000000 * / V t).
    { intros x X F B D1. destruct (axis_part x s X S F FS SB B D1 DS) as [Fy Dy].
      destruct (rate_part k (Bdiv mode_NE x s) A (X / S) (/ V t) FK Fy IB AB DK ltac:(apply fraction; lra) Dy) as [Fr Dr]. split; [exact Fr|]. replace (A / S * X) with (A * (X / S)) by (field; lra). exact Dr. }
    destruct (PART (qx d) _ FX P1 CX) as [Fa Da]. destruct (PART (qy d) _ FY P2 CY) as [Fb Db]. destruct (PART (qz d) _ FZ P3 CZ) as [Fc Dc].
    split; [exact (conj Fa (conj Fb Fc))|]. right. split; [lra|]. rewrite <- len_norm.
    eapply Rle_trans; [apply (norm_components _ (3 / 100000000 * / V t))|unfold Rdiv at 2; lra]; [lra|exact Da|exact Db|exact Dc|cbn [qs]; rewrite Rabs_R0; lra].
Qed.

Theorem C114_velocity : forall L (p q : @quat (F64 L)) (t : @T (F64 L)) P Q, arccosine L -> unitq P -> unitq Q -> finq p -> finq q -> dist (val p) P <= tau -> dist (val q) Q <= tau ->
  fin (t : f64) -> 1 / 100000000000000000000 <= V t <= 100000000000000000000 ->
  finv (angular_velocity_between_quaternions p q t) /\ rate_near P Q (V t) (valv (angular_velocity_between_quaternions p q t)).
Proof.
  intros L p q t P Q AC UP UQ FP FQ DP DQ FT TB. unfold tau in *. destruct (of_Z_V 0 ltac:(lia)) as [F0 V0].
  destruct (relative_near p q P Q FP FQ (proj1 (unit_hnorm P) UP) (proj1 (unit_hnorm Q) UQ) DP DQ) as [FD DD]. set (d0 := qmul p (qinv q)) in *. set (D0 := hmul P (hconj Q)) in *.
  assert (UD : unitq D0) by (unfold unitq, D0; rewrite hnorm2_mul, hnorm2_conj, UP, UQ; ring).
  change (angular_velocity_between_quaternions p q t) with (velocity_of (if Bltb (qw d0) (f_of_Z 0) then qneg d0 else d0) t).
  pose proof FD as (_ & _ & _ & FW). pose proof (dist_close _ _ _ DD) as (_ & _ & _ & CW). cbn [val qs] in CW. apply Rabs_le_inv in CW.
  destruct (Bltb (qw d0) (f_of_Z 0)) eqn:C.
  - apply ltb_V in C; [|exact FW|exact F0]. rewrite V0 in C. destruct (finq_neg d0 FD) as [FN VN].
    destruct (velocity_near L (qneg d0) t (hneg D0) AC FN (unit_neg _ UD)) as [A B]; [rewrite VN, dist_neg; exact DD| |exact FT|exact TB|].
    + change (qw (qneg d0)) with (Bopp (qw d0)). rewrite opp_V. lra.
    + split; [exact A|]. exists (hneg D0). split; [|exact B]. split; [now right|]. cbn [hneg qs]. lra.
  - assert (C' : 0 <= V (qw d0)). { destruct (Rle_lt_dec 0 (V (qw d0))) as [|G]; [assumption|]. rewrite <- V0 in G. apply (proj2 (ltb_V _ _ FW F0)) in G. congruence. }
    destruct (velocity_near L d0 t D0 AC FD UD DD C' FT TB) as [A B]. split; [exact A|]. exists D0. split; [|exact B]. split; [now left|]. lra.
Qed.

(** ** A list of orientations *)
(** the velocity of every step of compute_angular_velocity_norms before filtering: between the orientations i and i + 1, with the
    computed difference of the sample times, which is within one rounding of the exact one *)
Lemma step_velocities {N : Num} : forall (quats : list (@quat N)) samples out, angular_velocities quats samples = Ok out ->
  length out = (length quats - 1)%nat /\ forall i w, nth_error out i = Some w -> exists p q s s', nth_error quats i = Some p /\ nth_error quats (S i) = Some q /\
    nth_error samples i = Some s /\ nth_error samples (S i) = Some s' /\ ltb n0 (sub s' s) = true /\ w = angular_velocity_between_quaternions p q (sub s' s).
Proof.
  induction quats as [|p quats IH]; intros samples out H; [injection H as <-; split; [reflexivity|intros [|i] w E; discriminate E]|].
  destruct quats as [|q quats]; [injection H as <-; split; [reflexivity|intros [|i] w E; discriminate E]|].
  change (angular_velocities (p :: q :: quats) samples) with (do s' <- index samples 1; do s <- index samples 0; let dt := sub s' s in assert ltb n0 dt; do rest <- angular_velocities (q :: quats) (tl samples); Ok (angular_velocity_between_quaternions p q dt :: rest)) in H.
  apply bind_ok in H as (s' & E1 & H). apply bind_ok in H as (s & E0 & H). cbv zeta in H. apply assert_ok in H as [G H]. apply bind_ok in H as (rest & ER & H). injection H as <-.
  assert (IDX : forall {X} (l : list X) i x, index l i = Ok x -> nth_error l i = Some x) by (intros X l i x E; unfold index in E; destruct (nth_error l i); [now injection E as ->|discriminate E]).
  apply IDX in E1, E0. destruct (IH (tl samples) rest ER) as [LR R]. split; [cbn [length] in *; lia|]. intros [|i] w E.
  - injection E as <-. exists p, q, s, s'. repeat split; assumption.
  - destruct (R i w E) as (p' & q' & t & t' & A & B & C & D & F). exists p', q', t, t'. split; [exact A|]. split; [exact B|]. destruct samples as [|z samples]; [discriminate E0|]. split; [exact C|]. split; [exact D|exact F].
Qed.
Theorem C114_velocities : forall L (quats : list (@quat (F64 L))) samples out exact, arccosine L -> angular_velocities quats samples = Ok out ->
  Forall2 (fun q Q => unitq Q /\ finq q /\ dist (val q) Q <= tau) quats exact ->
  Forall (fun s : @T (F64 L) => fin (s : f64) /\ Rabs (V s) <= 10000000000000000000) samples -> spaced (1 / 10000000000000000000) (map (fun s : @T (F64 L) => (s : f64)) samples) ->
  length out = (length quats - 1)%nat /\
  forall i w, nth_error out i = Some w -> exists P Q s s' dt, nth_error exact i = Some P /\ nth_error exact (S i) = Some Q /\
    nth_error samples i = Some s /\ nth_error samples (S i) = Some s' /\ Rabs (dt - (V s' - V s)) <= 2 / 10000000000000000 * (V s' - V s) /\
    finv w /\ rate_near P Q dt (valv w).
Proof.
  intros L quats samples out ex AC H F FS SP. destruct (step_velocities _ _ _ H) as [LO R]. split; [exact LO|]. intros i w E. destruct (R i w E) as (p & q & s & s' & A & B & C & D & _ & ->).
  assert (EX : forall i p, nth_error quats i = Some p -> exists P, nth_error ex i = Some P /\ unitq P /\ finq p /\ dist (val p) P <= tau).
  { clear -F. induction F as [|p P l m R F IH]; intros i x E; [destruct i; discriminate E|]. destruct i as [|i]; [injection E as <-; exists P; split; [reflexivity|exact R]|exact (IH i x E)]. }
  destruct (EX _ _ A) as (P & EP & UP & FP & DP). destruct (EX _ _ B) as (Q & EQ & UQ & FQ & DQ). rewrite Forall_forall in FS.
  destruct (FS _ (nth_error_In _ _ C)) as [F1 B1]. destruct (FS _ (nth_error_In _ _ D)) as [F2 B2]. apply Rabs_le_inv in B1, B2.
  assert (G : 1 / 10000000000000000000 <= V s' - V s) by (apply (SP i); [exact (map_nth_error _ _ _ C)|exact (map_nth_error _ _ _ D)]).
  pose proof big_huge as BH. destruct (sub_ok s' s F2 F1) as [FT ET]; [absle; lra|]. pose proof (rnd_within (V s' - V s) (V s' - V s) ltac:(absle; lra)) as RT. rewrite <- ET in RT.
  assert (UT : u * (V s' - V s) <= 12 / 100000000000000000 * (V s' - V s)) by (apply Rmult_le_compat_r; [lra|nums; lra]). assert (eta <= 1 / 10000000000000000000000000 * (V s' - V s)) by (nums; lra).
  exists P, Q, s, s', (V (Bminus mode_NE s' s)). split; [exact EP|]. split; [exact EQ|]. split; [exact C|]. split; [exact D|]. split; [absle; lra|].
  change (sub (Num:=F64 L) s' s) with (Bminus mode_NE s' s). apply C114_velocity; try assumption; lra.
Qed.

(** ** Example *)
(** a turn by about 74 degrees about the x axis within one second *)
Definition rest_q : @quat (F64 trig_libm) := mkQ (N:=F64 trig_libm) (f_of_Z 0) (f_of_Z 0) (f_of_Z 0) (f_of_Z 1).
Definition turned_q : @quat (F64 trig_libm) := mkQ (N:=F64 trig_libm) six (f_of_Z 0) (f_of_Z 0) eight.
Definition rest_r : rq := RQ (RV 0 0 0) 1.
Definition turned_r : rq := RQ (RV (3 / 5) 0 0) (4 / 5).
Example C114_example :
  (exists out, angular_velocities [rest_q; turned_q] [(f_of_Z 0 : @T (F64 trig_libm)); (f_of_Z 1 : @T (F64 trig_libm))] = Ok out /\ length out = 1%nat) /\
  Forall2 (fun q Q => unitq Q /\ finq q /\ dist (val q) Q <= tau) [rest_q; turned_q] [rest_r; turned_r] /\
  Forall (fun s : @T (F64 trig_libm) => fin (s : f64) /\ Rabs (V s) <= 10000000000000000000) [(f_of_Z 0 : @T (F64 trig_libm)); (f_of_Z 1 : @T (F64 trig_libm))] /\
  spaced (1 / 10000000000000000000) [f_of_Z 0; f_of_Z 1] /\
  len3 (half_turn_vector (hmul rest_r (hconj turned_r))) = acos (4 / 5).
Proof.
  destruct (tenth_V 6 ltac:(lia)) as [F6 V6]. destruct (tenth_V 8 ltac:(lia)) as [F8 V8]. destruct (of_Z_V 0 ltac:(lia)) as [F0 V0]. destruct (of_Z_V 1 ltac:(lia)) as [F1 V1].
  fold six in *. fold eight in *. apply Rabs_le_inv in V6, V8. pose proof big_huge as BH.
  assert (U1 : unitq rest_r) by (unfold unitq, hnorm2, hdot, dot3, rest_r; cbn [qv qs v1 v2 v3]; lra). assert (U2 : unitq turned_r) by (unfold unitq, hnorm2, hdot, dot3, turned_r; cbn [qv qs v1 v2 v3]; lra).
  split; [|split; [|split; [|split]]].
  - exists [angular_velocity_between_quaternions rest_q turned_q (sub (Num:=F64 trig_libm) (f_of_Z 1) (f_of_Z 0))]. split; [|reflexivity]. cbn [angular_velocities index nth_error bind tl].
    assert (G : ltb (Num:=F64 trig_libm) (n0 (N:=F64 trig_libm)) (sub (Num:=F64 trig_libm) (f_of_Z 1) (f_of_Z 0)) = true).
    { change (Bltb (f_of_Z 0) (Bminus mode_NE (f_of_Z 1) (f_of_Z 0)) = true). destruct (sub_ok (f_of_Z 1) (f_of_Z 0) F1 F0) as [FS ES]; [rewrite V0, V1; absle; lra|]. apply ltb_V; [exact F0|exact FS|]. rewrite ES, V0. replace (V (f_of_Z 1) - 0) with (V (f_of_Z 1)) by ring. rewrite rnd_self, V1. lra. }
    rewrite G. cbn [assert_ bind]. reflexivity.
  - apply Forall2_cons; [|apply Forall2_cons; [|apply Forall2_nil]]; unfold tau.
    + split; [exact U1|]. split; [exact (conj F0 (conj F0 (conj F0 F1)))|]. eapply Rle_trans; [apply (close_dist (1 / 1000000000000000)); [lra|]|lra]. unfold PropFloat.close_to, rest_q, rest_r. cbn [val qx qy qz qw qv qs v1 v2 v3]. rewrite V0, V1. repeat split; absle; lra.
    + split; [exact U2|]. split; [exact (conj F6 (conj F0 (conj F0 F8)))|]. eapply Rle_trans; [apply (close_dist (1 / 1000000000000000)); [lra|]|lra]. unfold PropFloat.close_to, turned_q, turned_r. cbn [val qx qy qz qw qv qs v1 v2 v3]. rewrite V0. repeat split; absle; lra.
  - apply Forall_cons; [|apply Forall_cons; [|apply Forall_nil]]; (split; [assumption|]); rewrite ?V0, ?V1; absle; lra.
  - apply spaced_two. rewrite V0, V1. lra.
  - assert (E : qs (hmul rest_r (hconj turned_r)) = 4 / 5) by (unfold rest_r, turned_r, hmul, hconj, vscale, dot3; cbn; lra). rewrite half_vector_len; [now rewrite E| |rewrite E; lra].
    unfold unitq. rewrite hnorm2_mul, hnorm2_conj. rewrite U1, U2. ring.
Qed.
