(** * Properties C01 and C07, continued: scalars in products and interpolation between nearly parallel quaternions. *)

From Coq Require Import Reals List Lra Lia Psatz.
From Verif Require Import Num Py XReal XFacts Quat Spec Embed QuatFacts QuatTrig QuatRot PropQuat.
Import ListNotations.
Local Open Scope R_scope.

(** ** C01: scalars can be pulled out of either factor *)
Theorem C01_bilinear : forall (p q : rq) (t : R), exists tp tq pq tpq,
  quat_mul (inQ p) (OpNum (Fin t)) = Ok (inQ tp) /\ quat_mul (inQ q) (OpNum (Fin t)) = Ok (inQ tq) /\
  quat_mul (inQ p) (OpQuat (inQ q)) = Ok (inQ pq) /\ quat_mul (inQ pq) (OpNum (Fin t)) = Ok (inQ tpq) /\
  quat_mul (inQ tp) (OpQuat (inQ q)) = Ok (inQ tpq) /\ quat_mul (inQ p) (OpQuat (inQ tq)) = Ok (inQ tpq).
Proof.
  intros p q t. do 4 eexists.
  split; [apply C01_mul_dispatch|]. split; [apply C01_mul_dispatch|]. split; [apply C01_mul_is_hamilton|]. split; [apply C01_mul_dispatch|].
  rewrite !C01_mul_is_hamilton. split; apply (f_equal Ok), inQ_eq; destruct p as [[? ? ?] ?], q as [[? ? ?] ?]; cbn; unfold dot3; cbn; ring.
Qed.

(** ** C07: nearly parallel quaternions *)
(** Within 1e-8 of parallel the result still makes the angle t times the total angle with the start, and is the start
    itself up to 2e-16. *)
Theorem C07_slerp_parallel : forall (q1 q2 : rq) (t : R),
  unitq q1 -> unitq q2 -> 0 < t < 1 ->
  1 - hdot q1 q2 * hdot q1 q2 <= 1 / 10000000000000000 ->
  exists (start r : rq),
    (start = q1 \/ start = hneg q1) /\ 0 <= hdot start q2 /\
    quaternion_slerp (inQ q1) (inQ q2) (Fin t) = Ok (inQ r) /\
    hdot start r = cos (t * acos (hdot start q2)) /\
    hnorm (hsub r start) <= 2 / 10000000000000000.
Proof.
  intros q1 q2 t U1 U2 Ht Hd.
  set (d := Rabs (hdot q1 q2)). set (p := near_start q1 q2).
  pose proof (near_start_dot q1 q2) as ND. fold d p in ND. pose proof (near_start_unit q1 q2 U1) as NU. fold p in NU.
  pose proof (unit_dot_bound q1 q2 U1 U2) as B.
  assert (D : 0 <= d <= 1) by (split; [apply Rabs_pos|apply Rabs_le; lra]).
  assert (D2 : 1 - d * d <= 1 / 10000000000000000) by (unfold d; rewrite Rabs_sq; easy).
  exists p, (slerp_body p q2 d t).
  split; [unfold p, near_start; destruct (Rlt_dec _ _); auto|]. split; [rewrite ND; lra|]. split.
  { rewrite slerp_in by (easy || lra). destruct (Req_EM_T t 0); [lra|]. destruct (Req_EM_T t 1); [lra|easy]. }
  rewrite ND. pose proof (perp_norm2 p q2 d NU U2 ND) as N2. pose proof (perp_dot p q2 d NU ND) as P0.
  unfold slerp_body. cbv zeta. set (q3 := hsub q2 (hscale d p)) in *.
  assert (N3 : hnorm q3 <= 1 / 100000000).
  { pose proof (hnorm_pos q3). pose proof (hnorm_sqr q3) as S. rewrite N2 in S. nra. }
  destruct (Rlt_dec (1 / 100000000) (hnorm q3)); [lra|]. rewrite (Rmult_comm (acos d) t). set (th := t * acos d).
  pose proof (acos_bound d) as AB. assert (A2 : acos d <= PI / 2) by (apply acos_le_PI2; lra).
  assert (T0 : 0 <= th <= acos d) by (unfold th; nra).
  assert (S0 : 0 <= sin th) by (apply sin_ge_0; lra). assert (C0 : 0 <= cos th) by (apply cos_ge_0; lra).
  assert (S1 : sin th <= sin (acos d)) by (apply sin_incr_1; lra).
  assert (S2 : sin (acos d) * sin (acos d) = 1 - d * d) by (rewrite acos_sin by lra; apply sqrt_def; nra).
  pose proof (sin2_cos2 th) as E. unfold Rsqr in E. unfold unitq in NU.
  split.
  - replace (hdot p (hadd (hscale (cos th) p) (hscale (sin th) q3))) with (cos th * hnorm2 p + sin th * hdot p q3) by (unfold hnorm2, hdot, dot3; simpl; ring).
    rewrite NU, P0. ring.
  - assert (NN : hnorm2 (hsub (hadd (hscale (cos th) p) (hscale (sin th) q3)) p) = (1 - cos th) * (1 - cos th) + sin th * sin th * hnorm2 q3).
    { replace (hnorm2 (hsub (hadd (hscale (cos th) p) (hscale (sin th) q3)) p))
        with ((1 - cos th) * (1 - cos th) * hnorm2 p + sin th * sin th * hnorm2 q3 - 2 * (1 - cos th) * sin th * hdot p q3)
        by (unfold hnorm2, hdot, dot3; simpl; ring).
      rewrite NU, P0. ring. }
    rewrite N2 in NN. assert (SS : 0 <= sin th * sin th <= 1 / 10000000000000000) by nra.
    assert (CC : 0 <= 1 - cos th <= 1 / 10000000000000000) by nra.
    assert (L : hnorm2 (hsub (hadd (hscale (cos th) p) (hscale (sin th) q3)) p) <= (2 / 10000000000000000) * (2 / 10000000000000000)).
    { rewrite NN. assert (0 <= 1 - d * d) by nra.
      assert ((1 - cos th) * (1 - cos th) <= 1 / 10000000000000000 * (1 / 10000000000000000)) by (apply Rmult_le_compat; lra).
      assert (sin th * sin th * (1 - d * d) <= 1 / 10000000000000000 * (1 / 10000000000000000)) by (apply Rmult_le_compat; lra). lra. }
    rewrite <- hnorm_sqr in L. apply Rsqr_incr_0_var; [exact L|lra].
Qed.
Example C07_parallel_example : unitq hone /\ unitq (hneg hone) /\ 1 - hdot hone (hneg hone) * hdot hone (hneg hone) <= 1 / 10000000000000000.
Proof. unfold unitq, hnorm2. specu. repeat split; try field; lra. Qed.
