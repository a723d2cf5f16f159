(** * Properties C01-C10: quaternions.

    [inQ q], [inV v], [inM m] embed real quaternions/vectors/matrices of [Spec] as finite model
    values.  All theorems below are about the exact instance [XR]. *)

From Coq Require Import Reals ZArith Bool List Lra Psatz Nsatz.
From Verif Require Import Num Py XReal XFacts Quat Spec Embed QuatFacts QuatTrig QuatRot.
Import ListNotations.
Local Open Scope R_scope.

(** ** C01 *)
Theorem C01_mul_is_hamilton : forall p q : rq,
  quat_mul (inQ p) (OpQuat (inQ q)) =
    Ok (inQ (RQ (vadd (vadd (vscale (qs p) (qv q)) (vscale (qs q) (qv p))) (cross3 (qv p) (qv q)))
                (qs p * qs q - dot3 (qv p) (qv q)))).
Proof. intros. unfold quat_mul. now rewrite qmul_in. Qed.

Theorem C01_mul_dispatch : forall (p : rq) (t : R),
  quat_mul (inQ p) (OpNum (Fin t)) = Ok (inQ (RQ (vscale t (qv p)) (t * qs p))) /\
  quat_rmul (inQ p) (OpNum (Fin t)) = Ok (inQ (RQ (vscale t (qv p)) (t * qs p))) /\
  quat_mul (inQ p) OpOther = Err AssertionError /\
  quat_rmul (inQ p) OpOther = Err AssertionError.
Proof.
  intros. unfold quat_mul, quat_rmul. rewrite qscale_in, qscale_l_in. repeat split.
Qed.

Theorem C01_algebra : forall p q r : rq,
  qmul (qmul (inQ p) (inQ q)) (inQ r) = qmul (inQ p) (qmul (inQ q) (inQ r)) /\
  qmul (qadd (inQ p) (inQ q)) (inQ r) = qadd (qmul (inQ p) (inQ r)) (qmul (inQ q) (inQ r)) /\
  qmul (inQ p) (qadd (inQ q) (inQ r)) = qadd (qmul (inQ p) (inQ q)) (qmul (inQ p) (inQ r)) /\
  qmul (inQ (RQ vzero 1)) (inQ p) = inQ p /\
  qmul (inQ p) (inQ (RQ vzero 1)) = inQ p /\
  qadd (inQ p) (qneg (inQ p)) = inQ (RQ vzero 0) /\
  qsub (inQ p) (inQ q) = qadd (inQ p) (qneg (inQ q)).
Proof.
  intros. change (RQ vzero 1) with hone.
  rewrite !qadd_in, !qmul_in, !qneg_in, !qadd_in, !qsub_in.
  rewrite hmul_assoc, hmul_add_l, hmul_add_r, hmul_1_l, hmul_1_r.
  repeat split; try reflexivity; apply inQ_eq; simpl; ring.
Qed.

Theorem C01_norm_and_conjugate : forall p q : rq,
  qnorm (inQ p) = Fin (sqrt (dot3 (qv p) (qv p) + qs p * qs p)) /\
  qnorm (qmul (inQ p) (inQ q)) = mul (qnorm (inQ p)) (qnorm (inQ q)) /\
  qsqnorm (inQ p) = Fin (dot3 (qv p) (qv p) + qs p * qs p) /\
  qconj (inQ p) = inQ (RQ (vscale (-1) (qv p)) (qs p)) /\
  qconj (qmul (inQ p) (inQ q)) = qmul (qconj (inQ q)) (qconj (inQ p)) /\
  qconj (qconj (inQ p)) = inQ p.
Proof.
  intros. rewrite !qmul_in, !qconj_in, !qmul_in, !qnorm_in, hnorm_mul, hconj_mul, hconj_invol.
  repeat split.
Qed.

Example C01_example : qmul (inQ (RQ (RV 1 2 3) 4)) (inQ (RQ (RV 5 6 7) 8))
                    = inQ (RQ (RV 24 48 48) (-6)).
Proof. rewrite qmul_in. apply inQ_eq; simpl; unfold dot3; simpl; ring. Qed.

(** Constructor: scalars or an array are accepted, a Python list (documented in the class
    docstring) is rejected. *)
Theorem C01_constructor : forall (x y z w : xr) (a : quat (N:=XR)),
  quat_init (N:=XR) (Some x) (Some y) (Some z) (Some w) ArgNone = Ok (mkQ (N:=XR) x y z w) /\
  quat_init (Some x) (Some y) (Some z) (Some w) (ArgArray a) = Ok a /\
  quat_init (N:=XR) (Some x) (Some y) (Some z) (Some w) ArgOther = Err AssertionError /\
  quat_init (N:=XR) None (Some y) (Some z) (Some w) ArgNone = Err AssertionError /\
  quat_init (N:=XR) (Some x) None (Some z) (Some w) ArgNone = Err AssertionError /\
  quat_init (N:=XR) (Some x) (Some y) None (Some w) ArgNone = Err AssertionError /\
  quat_init (N:=XR) (Some x) (Some y) (Some z) None ArgNone = Err AssertionError.
Proof. repeat split. Qed.

(** ** C02 *)
Theorem C02_inverse : forall q : rq, q <> RQ (RV 0 0 0) 0 ->
  qmul (inQ q) (qinv (inQ q)) = inQ (RQ (RV 0 0 0) 1) /\
  qmul (qinv (inQ q)) (inQ q) = inQ (RQ (RV 0 0 0) 1).
Proof.
  intros q H. assert (hnorm2 q <> 0) by (intros E; apply H; now apply hnorm2_zero).
  rewrite qinv_in, !qmul_in, hmul_inv_r, hmul_inv_l by easy. split; reflexivity.
Qed.

Theorem C02_division : forall p q : rq, q <> RQ (RV 0 0 0) 0 ->
  exists r, quat_div (inQ p) (OpQuat (inQ q)) = Ok (inQ r) /\ hmul r q = p /\
    (forall r', hmul r' q = p -> r' = r).
Proof.
  intros p q H. assert (hnorm2 q <> 0) by (intros E; apply H; now apply hnorm2_zero).
  exists (hmul p (hinv q)). unfold quat_div. rewrite qinv_in, qmul_in by easy. repeat split.
  - now rewrite hmul_assoc, hmul_inv_l, hmul_1_r.
  - intros r' <-. now rewrite hmul_assoc, hmul_inv_r, hmul_1_r.
Qed.

Theorem C02_scalar_division : forall (p : rq) (t : R), t <> 0 ->
  quat_div (inQ p) (OpNum (Fin t)) =
    Ok (inQ (RQ (RV (v1 (qv p) / t) (v2 (qv p) / t) (v3 (qv p) / t)) (qs p / t))) /\
  quat_div (inQ p) OpOther = Err AssertionError.
Proof.
  intros. unfold quat_div. rewrite qdivs_in by easy. split; [|easy].
  f_equal; apply inQ_eq; simpl; field; easy.
Qed.

(** The zero quaternion: no exception, all components NaN. *)
Theorem C02_inverse_zero : qinv (inQ (RQ (RV 0 0 0) 0)) = mkQ (N:=XR) NaN NaN NaN NaN.
Proof.
  unfold qinv, qsqnorm. rewrite qdot_in, qconj_in. unfold hdot, dot3; simpl.
  replace (0 * 0 + 0 * 0 + 0 * 0 + 0 * 0) with 0 by ring.
  unfold qdivs, inQ; simpl. destruct (Req_EM_T 0 0); [|easy].
  assert (Z : forall r, r = 0 -> inf_signed r PInf = NaN).
  { intros r ->. unfold inf_signed. repeat destruct (Rlt_dec _ _); try lra; easy. }
  rewrite !Z by ring. reflexivity.
Qed.

Example C02_example : RQ (RV 1 2 3) 4 <> RQ (RV 0 0 0) 0.
Proof. intros H; injection H; intros; lra. Qed.

(** ** C03 *)
Theorem C03_rotation : forall q : rq, unitq q ->
  exists M : rm,
    to_rotation_matrix (inQ q) = inM M /\
    is_rotation M /\
    (forall v, mapply M v = hrot q v) /\
    (forall v, rotate_vector (inQ q) (inV v) = inV (hrot q v)) /\
    to_rotation_matrix (qneg (inQ q)) = inM M /\
    to_transformation_matrix (inQ q) = inH (HM M (RV 0 0 0)).
Proof.
  intros q U. exists (rot_matrix q). split; [apply to_rotation_matrix_in|].
  split; [now apply rot_matrix_rotation|].
  split; [intros; now apply rot_matrix_apply|].
  split; [intros; now rewrite rotate_vector_in, rot_matrix_apply|].
  split; [now rewrite qneg_in, to_rotation_matrix_in, rot_matrix_neg|].
  reflexivity.
Qed.

Theorem C03_composition : forall p q : rq, unitq p -> unitq q ->
  exists Mp Mq : rm,
    to_rotation_matrix (inQ p) = inM Mp /\ to_rotation_matrix (inQ q) = inM Mq /\
    to_rotation_matrix (qmul (inQ p) (inQ q)) = inM (mmul Mp Mq) /\
    (forall v, rotate_vector (qmul (inQ p) (inQ q)) (inV v)
               = rotate_vector (inQ p) (rotate_vector (inQ q) (inV v))).
Proof.
  intros p q Up Uq. exists (rot_matrix p), (rot_matrix q).
  rewrite !to_rotation_matrix_in, qmul_in, to_rotation_matrix_in, rot_matrix_mul by easy.
  repeat split. intros v. rewrite !rotate_vector_in, rot_matrix_mul by easy. f_equal.
  destruct (rot_matrix p) as [[] [] []], (rot_matrix q) as [[] [] []], v.
  apply rv_eq; specu; ring.
Qed.

Theorem C03_isometry : forall (q : rq) (u v : rv), unitq q ->
  exists u' v', rotate_vector (inQ q) (inV u) = inV u' /\ rotate_vector (inQ q) (inV v) = inV v' /\
    dot3 u' v' = dot3 u v.
Proof.
  intros q u v U. exists (hrot q u), (hrot q v).
  rewrite !rotate_vector_in, !rot_matrix_apply by easy. repeat split.
  assert (D : forall a b, dot3 a b = hdot (RQ a 0) (RQ b 0)) by (intros; unfold hdot; simpl; ring).
  assert (Z : forall w, RQ (hrot q w) 0 = hmul (hmul q (RQ w 0)) (hconj q)).
  { intros w. unfold hrot. apply rq_eq; try reflexivity. simpl. unfold dot3; simpl. ring. }
  rewrite (D (hrot q u)), (D u), !Z.
  rewrite <- qs_mul_conj, !hconj_mul, hconj_invol, !hmul_assoc.
  rewrite <- (hmul_assoc (hconj q) q), unit_conj_l, hmul_1_l by easy.
  rewrite <- !hmul_assoc.
  destruct q as [[x y z] w], u as [a b c], v as [d e f].
  unfold unitq, hnorm2 in U. specu. nsatz.
Qed.

Example C03_example : unitq (RQ (RV (3/5) 0 0) (4/5)).
Proof. unfold unitq, hnorm2, hdot, dot3; simpl; field. Qed.

(** ** C04 *)
Theorem C04_quat_roundtrip : forall q : rq, unitq q ->
  (0 < qs q -> from_rotation_matrix (to_rotation_matrix (inQ q)) = inQ q) /\
  (qs q < 0 -> from_rotation_matrix (to_rotation_matrix (inQ q)) = qneg (inQ q)) /\
  (qs q = 0 -> from_rotation_matrix (to_rotation_matrix (inQ q)) = mkQ (N:=XR) NaN NaN NaN (Fin 0)).
Proof.
  intros q U. repeat split; intros H.
  - rewrite roundtrip_quat by (easy || lra). destruct (Rlt_dec 0 (qs q)); [easy|lra].
  - rewrite roundtrip_quat by (easy || lra). destruct (Rlt_dec 0 (qs q)); [lra|].
    now rewrite qneg_in.
  - destruct (roundtrip_quat_halfturn q U H) as (x & y & z & E & -> & -> & ->). exact E.
Qed.

Theorem C04_matrix_roundtrip : forall m : rm, is_rotation m -> mtrace m <> -1 ->
  to_rotation_matrix (from_rotation_matrix (inM m)) = inM m /\
  exists q, from_rotation_matrix (inM m) = inQ q /\ 0 < qs q.
Proof.
  intros m H T. pose proof (rotation_trace_ge m H). split.
  - apply roundtrip_matrix; [easy|lra].
  - rewrite from_rotation_matrix_in by lra. eexists; split; [reflexivity|]. simpl.
    pose proof (sqrt_lt_R0 (1 + mtrace m) ltac:(lra)). lra.
Qed.

Example C04_example : unitq (RQ (RV 1 0 0) 0) /\ unitq (RQ (RV (3/5) 0 0) (-4/5)) /\
  is_rotation (RM (RV 0 (-1) 0) (RV 1 0 0) (RV 0 0 1)) /\
  mtrace (RM (RV 0 (-1) 0) (RV 1 0 0) (RV 0 0 1)) <> -1.
Proof.
  unfold unitq, is_rotation, hnorm2. specu. repeat split; try field; try (f_equal; f_equal; ring); lra.
Qed.

(** ** C05 *)
Theorem C05_normalize : forall q : rq,
  (1 / 100000000 < hnorm q ->
     exists r, qnormalize (inQ q) = inQ r /\ hnorm r = 1 /\ q = hscale (hnorm q) r) /\
  (hnorm q <= 1 / 100000000 -> qnormalize (inQ q) = inQ q) /\
  qnormalize (qnormalize (inQ q)) = qnormalize (inQ q).
Proof.
  intros q. repeat split.
  - intros H. rewrite qnormalize_big by easy. eexists; split; [reflexivity|]. split.
    + apply unit_hnorm, hnormalize_unit; lra.
    + rewrite hscale_scale, Rinv_r, hscale_1 by lra. easy.
  - apply qnormalize_small.
  - destruct (Rlt_dec (1 / 100000000) (hnorm q)).
    + rewrite qnormalize_big by easy.
      assert (E : hnorm (hscale (/ hnorm q) q) = 1) by (apply unit_hnorm, hnormalize_unit; lra).
      rewrite qnormalize_big by lra. rewrite E. f_equal.
      rewrite hscale_scale. f_equal. field. lra.
    + rewrite qnormalize_small by lra. rewrite qnormalize_small by lra. easy.
Qed.

Example C05_example : 1 / 100000000 < hnorm (RQ (RV 3 0 0) 4) /\ hnorm hzero <= 1 / 100000000.
Proof.
  unfold hnorm, hnorm2, hdot, dot3; simpl. split.
  - replace (3 * 3 + 0 * 0 + 0 * 0 + 4 * 4) with (5 * 5) by ring. rewrite sqrt_square; lra.
  - replace (0 * 0 + 0 * 0 + 0 * 0 + 0 * 0) with 0 by ring. rewrite sqrt_0; lra.
Qed.

(** ** C06 *)
Theorem C06_from_angle_axis : forall (a : R) (n : rv), 1 / 10000000000000000 < len3 n ->
  exists q, from_angle_axis (N:=XR) (Fin a) (inV n) = inQ q /\ unitq q /\
    qs q = cos (a / 2) /\ qv q = vscale (sin (a / 2) / len3 n) n.
Proof.
  intros a n H. rewrite from_angle_axis_in by easy. eexists; split; [reflexivity|].
  split; [apply angle_axis_unit; lra|split; reflexivity].
Qed.

Theorem C06_roundtrip : forall (a : R) (n : rv), len3 n = 1 -> 0 < a < 2 * PI ->
  Rabs (cos (a / 2) - 1) > 1 / 1000000000000 + 1 / 100000 ->
  angle_axis (from_angle_axis (N:=XR) (Fin a) (inV n)) = (inV n, Fin a).
Proof. intros. apply angle_axis_roundtrip; auto. unfold dead_zone; lra. Qed.

(** The dead zone: every quaternion with |w-1| <= 1e-5 + 1e-12 is reported as "no rotation". *)
Theorem C06_dead_zone : forall q : rq,
  Rabs (qs q - 1) <= 1 / 1000000000000 + 1 / 100000 ->
  angle_axis (inQ q) = (inV (RV 1 0 0), Fin 0).
Proof. intros; now apply angle_axis_dead. Qed.

(** In particular every rotation by up to 0.0089 rad (0.5 degrees). *)
Theorem C06_small_rotations_vanish : forall (a : R) (n : rv), len3 n = 1 -> Rabs a <= 89 / 10000 ->
  angle_axis (from_angle_axis (N:=XR) (Fin a) (inV n)) = (inV (RV 1 0 0), Fin 0).
Proof.
  intros a n Hn Ha. rewrite from_angle_axis_in by lra. apply angle_axis_dead. simpl.
  now apply small_angle_dead.
Qed.

(** Hence the unguarded round trip claimed by the API is false. *)
Theorem C06_roundtrip_refuted : exists (a : R) (n : rv), len3 n = 1 /\ 0 < a < PI /\
  angle_axis (from_angle_axis (N:=XR) (Fin a) (inV n)) <> (inV n, Fin a).
Proof.
  exists (1 / 200), (RV 0 0 1).
  assert (L : len3 (RV 0 0 1) = 1).
  { unfold len3, dot3; simpl. replace (0 * 0 + 0 * 0 + 1 * 1) with 1 by ring. apply sqrt_1. }
  split; [easy|]. split; [pose proof PI2_1; lra|].
  rewrite C06_small_rotations_vanish; [|easy|rewrite Rabs_pos_eq; lra].
  intros H. injection H; intros. lra.
Qed.

Example C06_example : len3 (RV (3/5) 0 (4/5)) = 1 /\ 0 < PI < 2 * PI /\
  Rabs (cos (PI / 2) - 1) > 1 / 1000000000000 + 1 / 100000.
Proof.
  split; [|split].
  - unfold len3, dot3; simpl. replace (_ + _) with 1 by field. apply sqrt_1.
  - pose proof PI_RGT_0; lra.
  - rewrite cos_PI2. unfold Rabs; destruct (Rcase_abs _); lra.
Qed.

(** ** C07 *)
Theorem C07_slerp_endpoints : forall q1 q2 : rq, unitq q1 -> unitq q2 ->
  quaternion_slerp (inQ q1) (inQ q2) (Fin 0) = Ok (inQ q1) /\
  quaternion_slerp (inQ q1) (inQ q2) (Fin 1) = Ok (inQ q2).
Proof.
  intros q1 q2 U1 U2. rewrite !slerp_in by (easy || lra). split.
  - destruct (Req_EM_T 0 0); easy.
  - destruct (Req_EM_T 1 0); [lra|]. destruct (Req_EM_T 1 1); easy.
Qed.

(** Interior: classical slerp formula from the nearer of +-q1 to q2. *)
Theorem C07_slerp_interior : forall (q1 q2 : rq) (t : R),
  unitq q1 -> unitq q2 -> 0 < t < 1 ->
  1 / 10000000000000000 < 1 - hdot q1 q2 * hdot q1 q2 ->
  exists (start r : rq),
    (start = q1 \/ start = hneg q1) /\ 0 <= hdot start q2 /\
    quaternion_slerp (inQ q1) (inQ q2) (Fin t) = Ok (inQ r) /\
    let th := acos (hdot start q2) in
    r = hadd (hscale (sin ((1 - t) * th) / sin th) start) (hscale (sin (t * th) / sin th) q2) /\
    unitq r /\
    hdot start r = cos (t * th) /\ hdot r q2 = cos ((1 - t) * th) /\
    0 <= th <= PI / 2.
Proof.
  intros q1 q2 t U1 U2 Ht Hd.
  exists (near_start q1 q2), (slerp_body (near_start q1 q2) q2 (Rabs (hdot q1 q2)) t).
  pose proof (near_start_dot q1 q2) as ND. pose proof (near_start_unit q1 q2 U1) as NU.
  pose proof (unit_dot_bound q1 q2 U1 U2) as B.
  assert (D : 0 <= Rabs (hdot q1 q2) <= 1) by (split; [apply Rabs_pos|apply Rabs_le; lra]).
  assert (D2 : 1 / 10000000000000000 < 1 - Rabs (hdot q1 q2) * Rabs (hdot q1 q2))
    by (rewrite Rabs_sq; easy).
  split; [unfold near_start; destruct (Rlt_dec _ _); auto|].
  split; [rewrite ND; apply Rabs_pos|].
  split.
  { rewrite slerp_in by (easy || lra). destruct (Req_EM_T t 0); [lra|].
    destruct (Req_EM_T t 1); [lra|easy]. }
  rewrite ND. split; [now apply slerp_body_classical|].
  split; [now apply slerp_body_unit|].
  destruct (slerp_body_dots _ _ _ t NU U2 ND D D2) as [E1 E2].
  split; [exact E1|]. split; [exact E2|].
  pose proof (acos_bound (Rabs (hdot q1 q2))). split; [lra|]. now apply acos_le_PI2.
Qed.

(** Norm of the result in all cases (including nearly parallel inputs). *)
Theorem C07_slerp_norm : forall (q1 q2 : rq) (t : R), unitq q1 -> unitq q2 -> 0 <= t <= 1 ->
  exists r, quaternion_slerp (inQ q1) (inQ q2) (Fin t) = Ok (inQ r) /\
    Rabs (hnorm2 r - 1) <= 1 / 10000000000000000.
Proof.
  intros q1 q2 t U1 U2 Ht. rewrite slerp_in by easy. eexists; split; [reflexivity|].
  unfold unitq in *.
  destruct (Req_EM_T t 0).
  { rewrite U1. replace (1 - 1) with 0 by ring. rewrite Rabs_R0; lra. }
  destruct (Req_EM_T t 1).
  { rewrite U2. replace (1 - 1) with 0 by ring. rewrite Rabs_R0; lra. }
  apply slerp_body_norm; auto.
  - now apply near_start_unit.
  - apply near_start_dot.
  - pose proof (unit_dot_bound q1 q2 U1 U2). split; [apply Rabs_pos|apply Rabs_le; lra].
Qed.

Theorem C07_slerp_rejects : forall (q1 q2 : rq) (t : R),
  (t < 0 \/ 1 < t -> quaternion_slerp (inQ q1) (inQ q2) (Fin t) = Err AssertionError) /\
  (Rabs (hnorm q1 - 1) > 1 / 100000000 + 1 / 100000 \/
   Rabs (hnorm q2 - 1) > 1 / 100000000 + 1 / 100000 ->
   quaternion_slerp (inQ q1) (inQ q2) (Fin t) = Err AssertionError).
Proof. intros; split; [apply slerp_bad_fraction|apply slerp_non_unit]. Qed.

Example C07_example : unitq (RQ (RV 0 0 0) 1) /\ unitq (RQ (RV (3/5) 0 0) (-4/5)) /\
  1 / 10000000000000000 < 1 - hdot (RQ (RV 0 0 0) 1) (RQ (RV (3/5) 0 0) (-4/5))
                            * hdot (RQ (RV 0 0 0) 1) (RQ (RV (3/5) 0 0) (-4/5)).
Proof. unfold unitq, hnorm2. specu. repeat split; try field; lra. Qed.

(** ** C08 *)
Theorem C08_lerp : forall (q1 q2 : rq) (t : R), unitq q1 -> unitq q2 -> 0 <= t <= 1 ->
  quaternion_lerp (inQ q1) (inQ q2) (Fin t) = Ok (inQ (hadd q1 (hscale t (hsub q2 q1)))).
Proof.
  intros. rewrite lerp_in by easy. f_equal. apply inQ_eq; simpl; ring.
Qed.

Theorem C08_nlerp : forall (q1 q2 : rq) (t : R), unitq q1 -> unitq q2 -> 0 <= t <= 1 ->
  let l := hadd q1 (hscale t (hsub q2 q1)) in
  (1 / 100000000 < hnorm l ->
    exists r, quaternion_nlerp (inQ q1) (inQ q2) (Fin t) = Ok (inQ r) /\ unitq r /\
              l = hscale (hnorm l) r) /\
  (hnorm l <= 1 / 100000000 -> quaternion_nlerp (inQ q1) (inQ q2) (Fin t) = Ok (inQ l)).
Proof.
  intros q1 q2 t U1 U2 Ht l. unfold quaternion_nlerp. rewrite C08_lerp by easy. fold l.
  cbn [bind]. destruct (C05_normalize l) as (A & B & _). split; intros H.
  - destruct (A H) as (r & E & N & S). exists r. rewrite E. split; [easy|]. split; [|easy].
    now apply unit_hnorm.
  - now rewrite B.
Qed.

(** The antipodal midpoint: nlerp returns the zero quaternion, not a unit quaternion. *)
Theorem C08_nlerp_unit_refuted : forall q : rq, unitq q ->
  quaternion_nlerp (inQ q) (inQ (hneg q)) (Fin (1 / 2)) = Ok (inQ hzero).
Proof.
  intros q U. destruct (C08_nlerp q (hneg q) (1 / 2)) as [_ B]; auto.
  - unfold unitq in *. now rewrite hnorm2_neg.
  - lra.
  - assert (E : hadd q (hscale (1 / 2) (hsub (hneg q) q)) = hzero).
    { apply rq_eq; simpl; field. }
    rewrite E in B. apply B. unfold hnorm, hnorm2, hdot, dot3; simpl.
    replace (0 * 0 + 0 * 0 + 0 * 0 + 0 * 0) with 0 by ring. rewrite sqrt_0; lra.
Qed.

Theorem C08_lerp_rejects : forall (q1 q2 : rq) (t : R),
  (t < 0 \/ 1 < t -> quaternion_lerp (inQ q1) (inQ q2) (Fin t) = Err AssertionError) /\
  (Rabs (hnorm q1 - 1) > 1 / 100000000 + 1 / 100000 \/
   Rabs (hnorm q2 - 1) > 1 / 100000000 + 1 / 100000 ->
   quaternion_lerp (inQ q1) (inQ q2) (Fin t) = Err AssertionError).
Proof.
  intros q1 q2 t; split; intros H; unfold quaternion_lerp.
  - rewrite assert_false; [easy|].
    unfold n0, n1; cbn [lit XR leb xleb Rlit].
    destruct H; [rewrite Rleb_f by lra|rewrite (Rleb_f t 1) by lra]; try easy.
    now rewrite andb_false_r.
  - destruct (_ && _); [cbn [bind assert_]|easy].
    destruct (is_unit_ (inQ q1)) eqn:E1; [cbn [bind assert_]|easy].
    destruct H as [H|H]; apply is_unit_false in H; [congruence|]. now rewrite H.
Qed.

Example C08_example : unitq (RQ (RV 0 0 0) 1) /\ unitq (RQ (RV 1 0 0) 0) /\
  1 / 100000000 < hnorm (hadd (RQ (RV 0 0 0) 1) (hscale (1/2) (hsub (RQ (RV 1 0 0) 0) (RQ (RV 0 0 0) 1)))).
Proof.
  unfold unitq, hnorm, hnorm2. specu. repeat split; try ring.
  replace (1 / 100000000) with (sqrt (1 / 100000000 * (1 / 100000000))) by (apply sqrt_square; lra).
  apply sqrt_lt_1; lra.
Qed.

(** ** C09 *)
(** Element-wise closeness of two quaternions as tested by np.allclose(q1.q, q2.q, atol=1e-12). *)
Definition elementwise_close (p q : rq) : Prop :=
  forall f, In f [(fun r => v1 (qv r)); (fun r => v2 (qv r)); (fun r => v3 (qv r)); qs] ->
    Rabs (f p - f q) <= 1 / 1000000000000 + 1 / 100000 * Rabs (f q).
Lemma elementwise_close_iff p q : elementwise_close p q <-> close4 (1 / 1000000000000) p q.
Proof.
  unfold elementwise_close, close4. split.
  - intros H. repeat split.
    + apply (H (fun r => v1 (qv r))); simpl; auto.
    + apply (H (fun r => v2 (qv r))); simpl; auto.
    + apply (H (fun r => v3 (qv r))); simpl; auto.
    + apply (H qs); simpl; auto.
  - intros (A & B & C & D) f [<-|[<-|[<-|[<-|[]]]]]; easy.
Qed.

Theorem C09_angle : forall p q : rq, unitq p -> unitq q -> ~ elementwise_close p q ->
  exists a, angle_between_quaternions (inQ p) (inQ q) = Fin a /\
    a = 2 * acos (hdot p q) /\ 0 <= a <= 2 * PI /\ cos (a / 2) = qs (hmul p (hconj q)).
Proof.
  intros p q Up Uq H. rewrite elementwise_close_iff in H.
  rewrite angle_between_far by easy. eexists; split; [reflexivity|]. split; [easy|].
  pose proof (acos_bound (hdot p q)). split; [lra|].
  replace (2 * acos (hdot p q) / 2) with (acos (hdot p q)) by field.
  rewrite cos_acos by now apply unit_dot_bound. now rewrite qs_mul_conj.
Qed.

Theorem C09_symmetric : forall p q : rq, unitq p -> unitq q ->
  ~ elementwise_close p q -> ~ elementwise_close q p ->
  angle_between_quaternions (inQ p) (inQ q) = angle_between_quaternions (inQ q) (inQ p).
Proof.
  intros p q Up Uq H1 H2. rewrite elementwise_close_iff in *.
  rewrite !angle_between_far by easy. now rewrite hdot_sym.
Qed.

Theorem C09_shortcut : forall p q : rq, unitq p -> unitq q -> elementwise_close p q ->
  angle_between_quaternions (inQ p) (inQ q) = Fin 0 /\
  0 <= 2 * acos (hdot p q) < 1 / 10000.
Proof.
  intros p q Up Uq H. rewrite elementwise_close_iff in H. split; [now apply angle_between_close|].
  pose proof (acos_bound (hdot p q)). split; [lra|]. apply acos_small.
  pose proof (unit_dot_bound p q Up Uq). pose proof (close4_dot p q Up Uq H). lra.
Qed.

(** The angle is not a function of the two rotations: q and -q are 2*pi apart. *)
Theorem C09_sign_invariance_refuted : exists q : rq, unitq q /\
  angle_between_quaternions (inQ q) (inQ q) = Fin 0 /\
  angle_between_quaternions (inQ q) (qneg (inQ q)) = Fin (2 * PI).
Proof.
  exists hone. assert (U : unitq hone) by (unfold unitq, hnorm2; specu; ring).
  assert (Un : unitq (hneg hone)) by (unfold unitq in *; now rewrite hnorm2_neg).
  split; [easy|]. split.
  - apply angle_between_close. unfold close4. specu.
    replace (0 - 0) with 0 by ring. replace (1 - 1) with 0 by ring. rewrite Rabs_R0, Rabs_R1. lra.
  - rewrite qneg_in, angle_between_far; auto.
    + f_equal. f_equal. replace (hdot hone (hneg hone)) with (Ropp 1) by (specu; ring).
      rewrite acos_opp, acos_1. ring.
    + unfold close4. intros (_ & _ & _ & H). specu.
      rewrite Rabs_pos_eq, Rabs_left in H by lra. lra.
Qed.

Example C09_example : unitq hone /\ unitq (RQ (RV 1 0 0) 0) /\
  ~ elementwise_close hone (RQ (RV 1 0 0) 0).
Proof.
  unfold unitq, hnorm2. repeat split; try (specu; ring).
  rewrite elementwise_close_iff. unfold close4. intros (_ & _ & _ & H). specu.
  rewrite Rabs_pos_eq, Rabs_R0 in H by lra. lra.
Qed.

(** ** C10 *)
(** The body turns from q1 with constant angular velocity rate*axis for time t to q2 (world
    frame): q2 = exp(rate*t/2 axis) q1. *)
Theorem C10_half_and_reversed : forall (q1 : rq) (axis : rv) (rate t : R),
  unitq q1 -> len3 axis = 1 -> 0 < t -> 0 < rate -> rate * t <= PI ->
  Rabs (cos (rate * t / 2) - 1) > 1 / 1000000000000 + 1 / 100000 ->
  let q2 := hmul (RQ (vscale (sin (rate * t / 2)) axis) (cos (rate * t / 2))) q1 in
  angular_velocity_between_quaternions (inQ q1) (inQ q2) (Fin t)
    = inV (vscale (- (1 / 2)) (vscale rate axis)).
Proof.
  intros q1 n rate t U Ln Ht Hr Hpi Hd q2.
  set (th := rate * t) in *.
  assert (Hth : 0 < th) by (unfold th; nra).
  assert (S : 0 < sin (th / 2)) by (apply sin_gt_0; pose proof PI_RGT_0; lra).
  assert (C0 : 0 <= cos (th / 2)) by (apply cos_ge_0; lra).
  set (e := RQ (vscale (sin (th / 2)) n) (cos (th / 2))).
  assert (Ue : unitq e).
  { pose proof (angle_axis_unit th n ltac:(lra)) as X. rewrite Ln in X.
    unfold e. replace (sin (th / 2) / 1) with (sin (th / 2)) in X by field. exact X. }
  assert (U2 : unitq q2).
  { unfold q2, unitq in *. fold e. now rewrite hnorm2_mul, Ue, U, Rmult_1_l. }
  rewrite angvel_in by (easy || lra).
  assert (D : pos_w (hmul q1 (hconj q2)) = hconj e).
  { unfold q2. fold e. rewrite hconj_mul, <- hmul_assoc, unit_conj_r, hmul_1_l by easy.
    unfold pos_w. simpl. destruct (Rlt_dec (cos (th / 2)) 0); [lra|easy]. }
  rewrite D. simpl qs. destruct (Rle_dec _ _); [lra|].
  f_equal. simpl qv. rewrite sqrt_1_cos2 by lra. rewrite acos_cos by (pose proof PI_RGT_0; lra).
  unfold th in *. apply rv_eq; simpl; field; lra.
Qed.

Theorem C10_sign_independent : forall (q1 q2 : rq) (t : R), unitq q1 -> unitq q2 -> 0 < t ->
  hdot q1 q2 <> 0 ->
  angular_velocity_between_quaternions (qneg (inQ q1)) (inQ q2) (Fin t)
    = angular_velocity_between_quaternions (inQ q1) (inQ q2) (Fin t) /\
  angular_velocity_between_quaternions (inQ q1) (qneg (inQ q2)) (Fin t)
    = angular_velocity_between_quaternions (inQ q1) (inQ q2) (Fin t).
Proof.
  intros q1 q2 t U1 U2 Ht H.
  assert (N1 : unitq (hneg q1)) by (unfold unitq in *; now rewrite hnorm2_neg).
  assert (N2 : unitq (hneg q2)) by (unfold unitq in *; now rewrite hnorm2_neg).
  assert (P : forall d, qs d <> 0 -> pos_w (hneg d) = pos_w d).
  { intros d Hd. unfold pos_w. simpl.
    destruct (Rlt_dec (- qs d) 0), (Rlt_dec (qs d) 0); try lra; try easy.
    apply rq_eq; simpl; ring. }
  rewrite !qneg_in, !angvel_in by (easy || lra).
  replace (hmul (hneg q1) (hconj q2)) with (hneg (hmul q1 (hconj q2))) by qring.
  replace (hmul q1 (hconj (hneg q2))) with (hneg (hmul q1 (hconj q2))) by qring.
  rewrite P by (rewrite qs_mul_conj; easy). split; reflexivity.
Qed.

Theorem C10_dead_zone : forall (q1 q2 : rq) (t : R), unitq q1 -> unitq q2 -> 0 < t ->
  1 - Rabs (hdot q1 q2) <= 1 / 100000 ->
  angular_velocity_between_quaternions (inQ q1) (inQ q2) (Fin t) = inV (RV 0 0 0).
Proof.
  intros q1 q2 t U1 U2 Ht H. rewrite angvel_in by (easy || lra).
  assert (E : qs (pos_w (hmul q1 (hconj q2))) = Rabs (hdot q1 q2)).
  { rewrite <- qs_mul_conj. unfold pos_w. destruct (Rlt_dec _ _).
    - now rewrite Rabs_left.
    - now rewrite Rabs_pos_eq by lra. }
  rewrite E. destruct (Rle_dec _ _) as [|n]; [reflexivity|]. exfalso; apply n.
  pose proof (unit_dot_bound q1 q2 U1 U2).
  rewrite Rabs_left1; [lra|]. assert (Rabs (hdot q1 q2) <= 1) by (apply Rabs_le; lra). lra.
Qed.

Example C10_example : unitq hone /\ len3 (RV 1 0 0) = 1 /\ 0 < 1 /\ 0 < PI /\ PI * 1 <= PI /\
  Rabs (cos (PI * 1 / 2) - 1) > 1 / 1000000000000 + 1 / 100000.
Proof.
  pose proof PI_RGT_0. repeat split; try lra.
  - unfold unitq, hnorm2; specu; ring.
  - unfold len3, dot3; simpl. replace (_ + _) with 1 by ring. apply sqrt_1.
  - replace (PI * 1 / 2) with (PI / 2) by field. rewrite cos_PI2.
    unfold Rabs; destruct (Rcase_abs _); lra.
Qed.
