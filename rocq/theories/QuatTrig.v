(** * Trigonometric facts about the quaternion model (angle-axis, slerp, angles). *)

From Coq Require Import Reals ZArith Bool List Lra Psatz.
From Verif Require Import Num Py XReal XFacts Quat DualQuat Spec Embed QuatFacts.
Import ListNotations.
Local Open Scope R_scope.

Lemma len3_pos v : 0 <= len3 v.
Proof. apply sqrt_pos. Qed.
Lemma dot3_pos v : 0 <= dot3 v v.
Proof. unfold dot3; nra. Qed.
Lemma len3_sqr v : len3 v * len3 v = dot3 v v.
Proof. apply sqrt_def, dot3_pos. Qed.

Lemma sin_abs_le x : Rabs (sin x) <= Rabs x.
Proof.
  assert (P : forall y, 0 < y -> Rabs (sin y) <= y).
  { intros y Hy. destruct (Rle_dec y 1).
    - assert (0 < sin y) by (apply sin_gt_0; pose proof PI2_1; lra).
      pose proof (sin_lt_x y Hy). rewrite Rabs_pos_eq; lra.
    - pose proof (SIN_bound y). unfold Rabs; destruct (Rcase_abs _); lra. }
  destruct (Rtotal_order x 0) as [H|[H|H]].
  - replace (sin x) with (- sin (- x)) by (rewrite sin_neg; ring).
    rewrite Rabs_Ropp, (Rabs_left x) by easy. apply P; lra.
  - subst. rewrite sin_0, Rabs_R0; lra.
  - rewrite (Rabs_pos_eq x) by lra. now apply P.
Qed.

Lemma cos_lb x : 1 - x * x / 2 <= cos x.
Proof.
  assert (E : cos x = 1 - 2 * (sin (x / 2) * sin (x / 2))).
  { replace x with (2 * (x / 2)) at 1 by field. rewrite cos_2a_sin. ring. }
  rewrite E. pose proof (sin_abs_le (x / 2)).
  assert (sin (x/2) * sin (x/2) <= (x/2) * (x/2)).
  { apply Rsqr_le_abs_1 in H. unfold Rsqr in H. easy. }
  nra.
Qed.

(** from_angle_axis *)
Lemma from_angle_axis_in a n :
  1 / 10000000000000000 < len3 n ->
  from_angle_axis (N:=XR) (Fin a) (inV n) = inQ (RQ (vscale (sin (a / 2) / len3 n) n) (cos (a / 2))).
Proof.
  intros H. unfold from_angle_axis.
  change (mkQ (N:=XR) (vx (inV n)) (vy (inV n)) (vz (inV n)) n0) with (inQ (RQ n 0)).
  rewrite qnorm_in.
  assert (E : hnorm (RQ n 0) = len3 n).
  { unfold hnorm, hnorm2, hdot, len3. simpl. f_equal. ring. }
  rewrite E. cbn [ltb XR lit xltb]. rewrite Rlit_1e16, Rltb_t by easy.
  unfold n2; cbn [div XR lit sinn cosn]. rewrite xdiv_fin by (simpl; lra).
  cbn [xsin xcos]. rewrite xdiv_fin by lra. rewrite qscale_in.
  apply mkQ_in; simpl; try field; lra.
Qed.

Lemma angle_axis_unit a n : len3 n > 0 -> unitq (RQ (vscale (sin (a / 2) / len3 n) n) (cos (a / 2))).
Proof.
  intros. unfold unitq, hnorm2, hdot. simpl.
  replace (dot3 _ _) with ((sin (a/2) * sin (a/2)) * (dot3 n n / (len3 n * len3 n)))
    by (unfold dot3; simpl; field; lra).
  rewrite len3_sqr. pose proof (sin2_cos2 (a/2)). unfold Rsqr in H0.
  assert (dot3 n n <> 0). { rewrite <- len3_sqr. nra. }
  field_simplify; [|easy]. lra.
Qed.

Definition dead_zone (w : R) : Prop := Rabs (w - 1) <= 1 / 1000000000000 + 1 / 100000.

Lemma angle_axis_test w :
  isclose (N:=XR) (lit 1 (-12)) (Fin w) n1 = Rleb (Rabs (w - 1)) (1 / 1000000000000 + 1 / 100000).
Proof.
  unfold n1. cbn [lit XR]. rewrite isclose_fin. simpl. rewrite Rabs_R1.
  now rewrite Rmult_1_r.
Qed.

Lemma angle_axis_dead q : dead_zone (qs q) ->
  angle_axis (inQ q) = (inV (RV 1 0 0), Fin 0).
Proof.
  intros H. unfold angle_axis. cbn [qw inQ]. rewrite angle_axis_test, Rleb_t; easy.
Qed.

Lemma angle_axis_live q : ~ dead_zone (qs q) -> -1 < qs q < 1 ->
  angle_axis (inQ q) =
    (inV (vscale (/ sqrt (1 - qs q * qs q)) (qv q)), Fin (2 * acos (qs q))).
Proof.
  intros H B. unfold angle_axis. cbn [qw inQ]. rewrite angle_axis_test, Rleb_f.
  2:{ unfold dead_zone in H. lra. }
  unfold n1, n2. cbn [lit XR acosn mul sub sqrtn div].
  assert (0 < sqrt (1 - qs q * qs q)) by (apply sqrt_lt_R0; nra).
  rewrite xacos_fin by lra. cbn [xmul xsub]. rewrite xsqrt_fin by (simpl; nra). simpl Rlit.
  cbn [qx qy qz inQ]. rewrite !xdiv_fin by lra.
  unfold inV. f_equal. simpl. unfold Rdiv. rewrite !(Rmult_comm (/ _)). easy.
Qed.

Lemma sqrt_1_cos2 x : 0 <= sin x -> sqrt (1 - cos x * cos x) = sin x.
Proof.
  intros. replace (1 - cos x * cos x) with (sin x * sin x).
  - now apply sqrt_square.
  - pose proof (sin2_cos2 x). unfold Rsqr in H0. lra.
Qed.

Lemma angle_axis_roundtrip a n :
  len3 n = 1 -> 0 < a < 2 * PI -> ~ dead_zone (cos (a / 2)) ->
  angle_axis (from_angle_axis (N:=XR) (Fin a) (inV n)) = (inV n, Fin a).
Proof.
  intros Hn Ha Hd. rewrite from_angle_axis_in by lra. rewrite Hn.
  assert (S : 0 < sin (a / 2)) by (apply sin_gt_0; lra).
  pose proof (sin2_cos2 (a / 2)) as E. unfold Rsqr in E.
  rewrite angle_axis_live; simpl.
  - rewrite sqrt_1_cos2 by lra. rewrite acos_cos by lra. f_equal.
    + f_equal. apply rv_eq; simpl; field; lra.
    + f_equal; field.
  - easy.
  - nra.
Qed.

Lemma small_angle_dead a : Rabs a <= 89 / 10000 -> dead_zone (cos (a / 2)).
Proof.
  intros. unfold dead_zone. pose proof (cos_lb (a / 2)). pose proof (COS_bound (a / 2)).
  rewrite Rabs_left1 by lra.
  assert (a * a <= (89 / 10000) * (89 / 10000)).
  { apply Rsqr_le_abs_1. unfold Rsqr. rewrite (Rabs_pos_eq (89/10000)) by lra. easy. }
  lra.
Qed.

(** ** Slerp *)

Lemma is_unit_true q : unitq q -> is_unit_ (inQ q) = true.
Proof.
  intros H. unfold is_unit_. rewrite qnorm_in. apply unit_hnorm in H. rewrite H.
  unfold n1; cbn [lit XR]. rewrite isclose_fin. apply Rleb_t. simpl.
  replace (1 - 1) with 0 by ring. rewrite Rabs_R0, Rabs_R1. unfold Rlit. lra.
Qed.
Lemma is_unit_false q : Rabs (hnorm q - 1) > 1 / 100000000 + 1 / 100000 ->
  is_unit_ (inQ q) = false.
Proof.
  intros H. unfold is_unit_. rewrite qnorm_in.
  unfold n1; cbn [lit XR]. rewrite isclose_fin. apply Rleb_f.
  rewrite Rlit_1e8. simpl. rewrite Rabs_R1. lra.
Qed.

(** The sign-corrected start point. *)
Definition near_start (q1 q2 : rq) : rq := if Rlt_dec (hdot q1 q2) 0 then hneg q1 else q1.

Lemma near_start_dot q1 q2 : hdot (near_start q1 q2) q2 = Rabs (hdot q1 q2).
Proof.
  unfold near_start. destruct (Rlt_dec (hdot q1 q2) 0).
  - rewrite Rabs_left by easy. unfold hdot, dot3; simpl. ring.
  - rewrite Rabs_pos_eq by lra. easy.
Qed.
Lemma near_start_unit q1 q2 : unitq q1 -> unitq (near_start q1 q2).
Proof.
  unfold unitq, near_start. destruct (Rlt_dec _ _); [rewrite hnorm2_neg|]; easy.
Qed.

(** The reduced form of slerp in the interior. *)
Definition slerp_body (p q : rq) (d t : R) : rq :=
  let th := acos d * t in
  let q3 := hsub q (hscale d p) in
  let q3 := if Rlt_dec (1 / 100000000) (hnorm q3) then hscale (/ hnorm q3) q3 else q3 in
  hadd (hscale (cos th) p) (hscale (sin th) q3).

Lemma slerp_in q1 q2 t : unitq q1 -> unitq q2 -> 0 <= t <= 1 ->
  quaternion_slerp (inQ q1) (inQ q2) (Fin t) =
  Ok (inQ (if Req_EM_T t 0 then q1 else if Req_EM_T t 1 then q2
           else slerp_body (near_start q1 q2) q2 (Rabs (hdot q1 q2)) t)).
Proof.
  intros U1 U2 Ht. unfold quaternion_slerp.
  rewrite assert_true.
  2:{ unfold n0, n1; cbn [lit XR leb xleb Rlit]. rewrite !Rleb_t by lra. easy. }
  rewrite (assert_true _ (is_unit_ (inQ q1))) by now apply is_unit_true.
  rewrite (assert_true _ (is_unit_ (inQ q2))) by now apply is_unit_true.
  unfold n0, n1; cbn [lit XR eqb xeqb Rlit]. unfold Reqb.
  destruct (Req_EM_T t 0); [easy|]. destruct (Req_EM_T t 1); [easy|].
  rewrite qdot_in. cbn [ltb XR xltb]. unfold Rltb.
  pose proof (unit_dot_bound q1 q2 U1 U2) as B.
  set (d := Rabs (hdot q1 q2)).
  assert (D : 0 <= d <= 1).
  { unfold d. split; [apply Rabs_pos|]. apply Rabs_le; lra. }
  assert (E : (if Rlt_dec (hdot q1 q2) 0 then true else false) = true -> True) by easy.
  assert (P : (if if Rlt_dec (hdot q1 q2) 0 then true else false
               then (xopp (Fin (hdot q1 q2)), qscale (inQ q1) (Fin (-1)))
               else (Fin (hdot q1 q2), inQ q1)) = (Fin d, inQ (near_start q1 q2))).
  { unfold near_start, d. destruct (Rlt_dec (hdot q1 q2) 0).
    - rewrite qscale_in, Rabs_left by easy. cbn [xopp]. f_equal. apply inQ_eq; simpl; ring.
    - rewrite Rabs_pos_eq by lra. easy. }
  cbn [opp XR T] in *. rewrite P. clear P E.
  rewrite clip_fin.
  replace (Rmin (Rmax d (-1)) 1) with d.
  2:{ unfold Rmin, Rmax. repeat destruct (Rle_dec _ _); lra. }
  cbn [acosn XR]. rewrite xacos_fin by lra. cbn [mul XR xmul cosn sinn xcos xsin].
  rewrite !qscale_in, qsub_in. unfold slerp_body.
  destruct (Rlt_dec (1/100000000) (hnorm (hsub q2 (hscale d (near_start q1 q2))))).
  - rewrite qnormalize_big by easy. rewrite !qscale_in, qadd_in. reflexivity.
  - rewrite qnormalize_small by lra. rewrite !qscale_in, qadd_in. reflexivity.
Qed.

Lemma perp_norm2 p q d : unitq p -> unitq q -> hdot p q = d ->
  hnorm2 (hsub q (hscale d p)) = 1 - d * d.
Proof.
  unfold unitq; intros Hp Hq Hd.
  replace (hnorm2 (hsub q (hscale d p))) with (hnorm2 q - 2 * d * hdot p q + d * d * hnorm2 p)
    by (unfold hnorm2, hdot, dot3; simpl; ring).
  rewrite Hp, Hq, Hd. ring.
Qed.
Lemma perp_dot p q d : unitq p -> hdot p q = d -> hdot p (hsub q (hscale d p)) = 0.
Proof.
  unfold unitq; intros Hp Hd.
  replace (hdot p (hsub q (hscale d p))) with (hdot p q - d * hnorm2 p)
    by (unfold hnorm2, hdot, dot3; simpl; ring).
  rewrite Hp, Hd. ring.
Qed.
Lemma combo_norm2 c s p r : unitq p -> hdot p r = 0 ->
  hnorm2 (hadd (hscale c p) (hscale s r)) = c * c + s * s * hnorm2 r.
Proof.
  unfold unitq; intros Hp H0.
  replace (hnorm2 (hadd (hscale c p) (hscale s r)))
    with (c * c * hnorm2 p + 2 * c * s * hdot p r + s * s * hnorm2 r)
    by (unfold hnorm2, hdot, dot3; simpl; ring).
  rewrite Hp, H0. ring.
Qed.

Lemma acos_sin d : -1 <= d <= 1 -> sin (acos d) = sqrt (1 - d * d).
Proof. intros. rewrite sin_acos by easy. unfold Rsqr. easy. Qed.

Lemma acos_le_PI2 d : 0 <= d <= 1 -> acos d <= PI / 2.
Proof.
  intros. destruct (Rle_dec (acos d) (PI / 2)); [easy|exfalso].
  pose proof (acos_bound d). assert (C : cos (acos d) = d) by (apply cos_acos; lra).
  pose proof (cos_lt_0 (acos d) ltac:(lra) ltac:(lra)). lra.
Qed.

(** Away from parallel inputs slerp is the classical formula. *)
Lemma slerp_body_classical p q d t :
  unitq p -> unitq q -> hdot p q = d -> 0 <= d <= 1 ->
  1 / 10000000000000000 < 1 - d * d ->
  let th := acos d in
  slerp_body p q d t =
    hadd (hscale (sin ((1 - t) * th) / sin th) p) (hscale (sin (t * th) / sin th) q).
Proof.
  intros Hp Hq Hd B Hb th. unfold slerp_body.
  assert (N2 : hnorm (hsub q (hscale d p)) = sin th).
  { unfold hnorm. rewrite (perp_norm2 p q d) by easy. unfold th. now rewrite acos_sin by lra. }
  assert (S : 1 / 100000000 < sin th).
  { unfold th. rewrite acos_sin by lra.
    replace (1 / 100000000) with (sqrt ((1 / 100000000) * (1 / 100000000)))
      by (apply sqrt_square; lra).
    apply sqrt_lt_1; lra. }
  rewrite N2. destruct (Rlt_dec (1 / 100000000) (sin th)); [|easy].
  fold th.
  replace (sin ((1 - t) * th)) with (sin th * cos (th * t) - cos th * sin (th * t)).
  2:{ rewrite <- sin_minus. f_equal. ring. }
  replace (t * th) with (th * t) by ring.
  assert (C : cos th = d) by (unfold th; apply cos_acos; lra).
  rewrite C. apply rq_eq; simpl; field; lra.
Qed.

Lemma slerp_body_norm p q d t :
  unitq p -> unitq q -> hdot p q = d -> 0 <= d <= 1 -> 0 <= t <= 1 ->
  Rabs (hnorm2 (slerp_body p q d t) - 1) <= 1 / 10000000000000000.
Proof.
  intros Hp Hq Hd B Ht. unfold slerp_body.
  set (th := acos d * t). pose proof (sin2_cos2 th) as E. unfold Rsqr in E.
  pose proof (perp_norm2 p q d Hp Hq Hd) as N2.
  pose proof (perp_dot p q d Hp Hd) as P0.
  set (q3 := hsub q (hscale d p)) in *.
  destruct (Rlt_dec (1 / 100000000) (hnorm q3)).
  - rewrite combo_norm2; auto.
    + pose proof (hnormalize_unit q3 ltac:(lra)) as U. unfold unitq in U. rewrite U.
      replace (cos th * cos th + sin th * sin th * 1 - 1) with 0 by lra.
      rewrite Rabs_R0. lra.
    + unfold hdot, dot3 in *; simpl in *.
      transitivity (/ hnorm q3 * 0); [rewrite <- P0; ring|ring].
  - rewrite combo_norm2; auto.
    assert (H : 0 <= hnorm2 q3 <= 1 / 10000000000000000).
    { split; [apply hnorm2_pos|]. rewrite <- hnorm_sqr. pose proof (hnorm_pos q3). nra. }
    pose proof (acos_bound d) as AB.
    assert (A2 : acos d <= PI / 2).
    { apply acos_le_PI2; lra. }
    assert (S0 : 0 <= sin th).
    { apply sin_ge_0; unfold th; nra. }
    assert (S1 : sin th <= sin (acos d)).
    { apply sin_incr_1; unfold th; try nra. }
    assert (S2 : sin (acos d) * sin (acos d) = 1 - d * d).
    { rewrite acos_sin by lra. apply sqrt_def. nra. }
    assert (0 <= sin th * sin th <= 1 / 10000000000000000) by nra.
    replace (cos th * cos th + sin th * sin th * hnorm2 q3 - 1)
      with (- (sin th * sin th * (1 - hnorm2 q3))) by lra.
    rewrite Rabs_Ropp, Rabs_pos_eq by nra. nra.
Qed.

Lemma slerp_body_unit p q d t :
  unitq p -> unitq q -> hdot p q = d -> 0 <= d <= 1 ->
  1 / 10000000000000000 < 1 - d * d -> unitq (slerp_body p q d t).
Proof.
  intros Hp Hq Hd B Hb. unfold slerp_body, unitq.
  set (th := acos d * t). pose proof (sin2_cos2 th) as E. unfold Rsqr in E.
  pose proof (perp_norm2 p q d Hp Hq Hd) as N2.
  pose proof (perp_dot p q d Hp Hd) as P0.
  set (q3 := hsub q (hscale d p)) in *.
  destruct (Rlt_dec (1 / 100000000) (hnorm q3)) as [r|r].
  - rewrite combo_norm2; auto.
    + pose proof (hnormalize_unit q3 ltac:(lra)) as U. unfold unitq in U. rewrite U. lra.
    + unfold hdot, dot3 in *; simpl in *.
      transitivity (/ hnorm q3 * 0); [rewrite <- P0; ring|ring].
  - exfalso. apply r. rewrite <- N2 in Hb. rewrite <- hnorm_sqr in Hb.
    pose proof (hnorm_pos q3). nra.
Qed.

(** Angles along the arc. *)
Lemma slerp_body_dots p q d t :
  unitq p -> unitq q -> hdot p q = d -> 0 <= d <= 1 ->
  1 / 10000000000000000 < 1 - d * d ->
  hdot p (slerp_body p q d t) = cos (t * acos d) /\
  hdot (slerp_body p q d t) q = cos ((1 - t) * acos d).
Proof.
  intros Hp Hq Hd B Hb. rewrite slerp_body_classical by easy.
  set (th := acos d).
  assert (C : cos th = d) by (unfold th; apply cos_acos; lra).
  assert (S : 0 < sin th).
  { unfold th. rewrite acos_sin by lra. apply sqrt_lt_R0. lra. }
  unfold unitq in *.
  set (a := sin ((1 - t) * th) / sin th). set (b := sin (t * th) / sin th).
  split.
  - replace (hdot p (hadd (hscale a p) (hscale b q))) with (a * hnorm2 p + b * hdot p q)
      by (unfold hnorm2, hdot, dot3; simpl; ring).
    rewrite Hp, Hd, <- C. unfold a, b.
    replace ((1 - t) * th) with (th - t * th) by ring. rewrite sin_minus. field. lra.
  - replace (hdot (hadd (hscale a p) (hscale b q)) q) with (a * hdot p q + b * hnorm2 q)
      by (unfold hnorm2, hdot, dot3; simpl; ring).
    rewrite Hq, Hd, <- C. unfold a, b.
    replace (t * th) with (th - (1 - t) * th) by ring. rewrite sin_minus. field. lra.
Qed.

Lemma slerp_bad_fraction q1 q2 t : t < 0 \/ 1 < t ->
  quaternion_slerp (N:=XR) q1 q2 (Fin t) = Err AssertionError.
Proof.
  intros H. unfold quaternion_slerp. rewrite assert_false; [easy|].
  unfold n0, n1; cbn [lit XR leb xleb Rlit].
  destruct H; [rewrite Rleb_f by lra|rewrite (Rleb_f t 1) by lra]; try easy.
  now rewrite andb_false_r.
Qed.
Lemma slerp_non_unit q1 q2 t :
  Rabs (hnorm q1 - 1) > 1 / 100000000 + 1 / 100000 \/
  Rabs (hnorm q2 - 1) > 1 / 100000000 + 1 / 100000 ->
  quaternion_slerp (inQ q1) (inQ q2) (Fin t) = Err AssertionError.
Proof.
  intros H. unfold quaternion_slerp.
  destruct (_ && _); [cbn [bind assert_]|easy].
  destruct (is_unit_ (inQ q1)) eqn:E1; [cbn [bind assert_]|easy].
  destruct H as [H|H]; apply is_unit_false in H; [congruence|]. now rewrite H.
Qed.

(** ** Lerp / nlerp *)
Definition lerpq (q1 q2 : rq) (t : R) : rq := hadd (hscale (1 - t) q1) (hscale t q2).
Lemma lerp_in q1 q2 t : unitq q1 -> unitq q2 -> 0 <= t <= 1 ->
  quaternion_lerp (inQ q1) (inQ q2) (Fin t) = Ok (inQ (lerpq q1 q2 t)).
Proof.
  intros U1 U2 Ht. unfold quaternion_lerp.
  rewrite assert_true.
  2:{ unfold n0, n1; cbn [lit XR leb xleb Rlit]. rewrite !Rleb_t by lra. easy. }
  rewrite (assert_true _ (is_unit_ (inQ q1))) by now apply is_unit_true.
  rewrite (assert_true _ (is_unit_ (inQ q2))) by now apply is_unit_true.
  unfold n0, n1; cbn [lit XR eqb xeqb Rlit]. unfold Reqb.
  destruct (Req_EM_T t 0); [subst; f_equal; apply inQ_eq; simpl; ring|].
  destruct (Req_EM_T t 1); [subst; f_equal; apply inQ_eq; simpl; ring|].
  rewrite qsub_in, qscale_l_in, qadd_in. f_equal. apply inQ_eq; simpl; ring.
Qed.

(** ** Angle between quaternions *)
Lemma qlist_in q : q_list (inQ q) = map Fin [v1 (qv q); v2 (qv q); v3 (qv q); qs q].
Proof. reflexivity. Qed.

(** Element-wise closeness with tolerance a + 1e-5 |b_i|. *)
Definition close4 (atol : R) (p q : rq) : Prop :=
  Rabs (v1 (qv p) - v1 (qv q)) <= atol + 1 / 100000 * Rabs (v1 (qv q)) /\
  Rabs (v2 (qv p) - v2 (qv q)) <= atol + 1 / 100000 * Rabs (v2 (qv q)) /\
  Rabs (v3 (qv p) - v3 (qv q)) <= atol + 1 / 100000 * Rabs (v3 (qv q)) /\
  Rabs (qs p - qs q) <= atol + 1 / 100000 * Rabs (qs q).

Lemma allclose_close4 atol p q :
  allclose (N:=XR) (Fin atol) (q_list (inQ p)) (q_list (inQ q)) = true <-> close4 atol p q.
Proof.
  unfold q_list, inQ; cbn [qx qy qz qw allclose]. rewrite !isclose_fin.
  rewrite !andb_true_iff, !Rleb_iff. unfold close4. tauto.
Qed.

Lemma angle_between_close p q : close4 (1 / 1000000000000) p q ->
  angle_between_quaternions (inQ p) (inQ q) = Fin 0.
Proof.
  intros H. unfold angle_between_quaternions. cbn [lit XR]. rewrite Rlit_1e12.
  apply allclose_close4 in H. cbn [T XR] in *. rewrite H. reflexivity.
Qed.
Lemma angle_between_far p q : unitq p -> unitq q -> ~ close4 (1 / 1000000000000) p q ->
  angle_between_quaternions (inQ p) (inQ q) = Fin (2 * acos (hdot p q)).
Proof.
  intros Up Uq H. unfold angle_between_quaternions. cbn [lit XR]. rewrite Rlit_1e12.
  destruct (allclose _ _ _) eqn:E; [now apply allclose_close4 in E|].
  rewrite qinv_in_unit, qmul_in by easy. cbn [qw inQ]. rewrite qs_mul_conj.
  cbn [acosn XR]. rewrite xacos_fin by now apply unit_dot_bound. reflexivity.
Qed.

Lemma Rabs_sq x : Rabs x * Rabs x = x * x.
Proof. unfold Rabs; destruct (Rcase_abs x); ring. Qed.

Lemma close4_dot p q : unitq p -> unitq q -> close4 (1 / 1000000000000) p q ->
  1 - 2 / 10000000000 <= hdot p q.
Proof.
  unfold unitq, close4, hnorm2. intros Up Uq (H1 & H2 & H3 & H4).
  assert (L : forall a b, Rabs (a - b) <= 1 / 1000000000000 + 1 / 100000 * Rabs b ->
            (a - b) * (a - b) <= 2 / 1000000000000000000000000 + 2 / 10000000000 * (b * b)).
  { intros a b H. pose proof (Rabs_pos b). pose proof (Rabs_pos (a - b)).
    rewrite <- (Rabs_sq (a - b)), <- (Rabs_sq b).
    set (x := Rabs b) in *. set (y := Rabs (a - b)) in *.
    assert (y * y <= (1 / 1000000000000 + 1 / 100000 * x) * (1 / 1000000000000 + 1 / 100000 * x))
      by (apply Rmult_le_compat; lra).
    assert (0 <= (1 / 1000000000000 - 1 / 100000 * x) * (1 / 1000000000000 - 1 / 100000 * x))
      by (apply Rle_0_sqr).
    lra. }
  apply L in H1, H2, H3, H4. clear L.
  unfold hdot, dot3 in *. lra.
Qed.

Lemma sin_lb x : 0 <= x <= 4 -> x - x * x * x / 6 <= sin x.
Proof.
  intros. pose proof (pre_sin_bound x 0 ltac:(lra) ltac:(lra)) as [L _].
  eapply Rle_trans; [|exact L]. unfold sin_approx, sin_term. simpl. lra.
Qed.

Lemma acos_small d : 1 - 2 / 10000000000 <= d <= 1 -> 2 * acos d < 1 / 10000.
Proof.
  intros H. set (y := acos d). assert (C : cos y = d) by (apply cos_acos; lra).
  pose proof (acos_bound d) as AB. fold y in AB.
  destruct (Rlt_dec (2 * y) (1 / 10000)) as [|N]; [easy|exfalso].
  assert (E : cos y = 1 - 2 * (sin (y / 2) * sin (y / 2))).
  { replace y with (2 * (y / 2)) at 1 by field. rewrite cos_2a_sin. ring. }
  assert (S2 : sin (y / 2) * sin (y / 2) <= 1 / 10000000000) by lra.
  set (c := 1 / 40000).
  assert (S1 : sin c <= sin (y / 2)).
  { pose proof PI2_1. apply sin_incr_1; unfold c; lra. }
  pose proof (sin_lb c ltac:(unfold c; lra)) as L.
  assert (2 / 100000 < sin c) by (unfold c in *; lra).
  nra.
Qed.

(** ** Angular velocity *)
Lemma unit_qs_bound q : unitq q -> -1 <= qs q <= 1.
Proof. unfold unitq, hnorm2, hdot, dot3; intros; nra. Qed.

Definition pos_w (q : rq) : rq := if Rlt_dec (qs q) 0 then hneg q else q.

Lemma angvel_in q1 q2 t : unitq q1 -> unitq q2 -> t <> 0 ->
  let d := pos_w (hmul q1 (hconj q2)) in
  angular_velocity_between_quaternions (inQ q1) (inQ q2) (Fin t) =
  inV (if Rle_dec (Rabs (qs d - 1)) (1 / 1000000000000 + 1 / 100000) then vzero
       else vscale (acos (qs d) / t / sqrt (1 - qs d * qs d)) (qv d)).
Proof.
  intros U1 U2 Ht d. unfold angular_velocity_between_quaternions.
  rewrite qinv_in_unit, qmul_in by easy. cbn [qw inQ]. unfold n0; cbn [lit XR Rlit ltb xltb].
  assert (D : (if Rltb (qs (hmul q1 (hconj q2))) 0 then qneg (inQ (hmul q1 (hconj q2)))
               else inQ (hmul q1 (hconj q2))) = inQ d).
  { unfold d, pos_w, Rltb. destruct (Rlt_dec _ _); [apply qneg_in|easy]. }
  cbn [T XR] in *. rewrite D.
  assert (Ud : unitq d).
  { unfold unitq, d, pos_w. destruct (Rlt_dec _ _); [rewrite hnorm2_neg|];
    rewrite hnorm2_mul, hnorm2_conj, U1, U2; ring. }
  assert (Bd : 0 <= qs d <= 1).
  { pose proof (unit_qs_bound d Ud). split; [|lra].
    unfold d, pos_w. destruct (Rlt_dec _ _); simpl in *; lra. }
  unfold nhalf. cbn [lit XR div]. rewrite xdiv_fin by easy.
  destruct (Rle_dec _ _) as [Hd|Hd].
  - rewrite angle_axis_dead by easy. cbn [mul XR xmul inV vx vy vz v1 v2 v3].
    unfold inV, vzero; simpl. f_equal; f_equal; ring.
  - rewrite angle_axis_live.
    + cbn [mul XR xmul inV vx vy vz v1 v2 v3 vscale]. rewrite Rlit_half.
      assert (0 < sqrt (1 - qs d * qs d)).
      { apply sqrt_lt_R0. assert (qs d <> 1). { intros E. apply Hd. rewrite E.
        replace (1 - 1) with 0 by ring. rewrite Rabs_R0. lra. } nra. }
      unfold inV; simpl. f_equal; f_equal; field; lra.
    + exact Hd.
    + split; [lra|]. assert (qs d <> 1); [|lra]. intros E. apply Hd. rewrite E.
      replace (1 - 1) with 0 by ring. rewrite Rabs_R0. lra.
Qed.
