(** * Property C102: the unit of length. *)

From Coq Require Import Reals ZArith Bool List Lra Lia Psatz.
From Verif Require Import Num Py XReal XFacts Quat DualQuat HandEye TimeAlign Spec Embed QuatFacts DualFacts ListFacts HandEyeFacts KernelFacts CalibFacts CalibExample PropQuat PropEval PropCalib.
Import ListNotations.
Local Open Scope R_scope.

(** ** Specification *)
(** the motion with its translation written in another unit *)
Definition resized (c : R) (a : rdq) : rdq := RD (dr a) (hscale c (dd a)).
Definition resized_pairs (c : R) (l : list (rdq * rdq)) : list (rdq * rdq) := map (fun p => (resized c (fst p), resized c (snd p))) l.
(** a recording with its positions written in another unit; the positions may be any numbers, infinities or nan *)
Definition resized_rows (c : R) (l : list (stamped (N:=XR))) : list (stamped (N:=XR)) :=
  map (fun r => (fst r, mkPose (N:=XR) (mkV (N:=XR) (xmul (Fin c) (vx (pos (snd r)))) (xmul (Fin c) (vy (pos (snd r)))) (xmul (Fin c) (vz (pos (snd r))))) (ori (snd r)))) l.
Definition resized_poses (c : R) (l : list (rv * rq)) : list (rv * rq) := map (fun p => (vscale c (fst p), snd p)) l.

(** ** Facts *)
Lemma resized_trans c a : trans_of (resized c a) = vscale c (trans_of a).
Proof. destruct a as [[[x y z] w] [[x' y' z'] w']]. unfold trans_of, resized. specu. f_equal; ring. Qed.
Lemma resized_move c a p : move (resized c a) (vscale c p) = vscale c (move a p).
Proof. unfold move. rewrite resized_trans. cbn [resized dr]. destruct a as [[[x y z] w] d], p as [p1 p2 p3]. generalize (trans_of (RD (RQ (RV x y z) w) d)). intros [t1 t2 t3]. specu. f_equal; ring. Qed.
Lemma resized_mul c a b : dqmul (resized c a) (resized c b) = resized c (dqmul a b).
Proof. destruct a as [[[a1 a2 a3] a0] [[a5 a6 a7] a4]], b as [[[b1 b2 b3] b0] [[b5 b6 b7] b4]]. unfold resized. specu. f_equal; f_equal; try ring. f_equal; ring. Qed.
Lemma resized_neg c a : resized c (dqneg a) = dqneg (resized c a).
Proof. destruct a as [[[a1 a2 a3] a0] [[a5 a6 a7] a4]]. unfold resized. specu. f_equal; f_equal; try ring. f_equal; ring. Qed.
Lemma resized_one c : resized c dqone = dqone.
Proof. unfold resized. specu. f_equal; f_equal; try ring. f_equal; ring. Qed.
Lemma resized_unit c a : unitdq a -> unitdq (resized c a).
Proof.
  intros [U W]. split; [exact U|]. transitivity (c * hdot (dr a) (dd a)); [|rewrite W; ring].
  destruct a as [[[a1 a2 a3] a0] [[a5 a6 a7] a4]]. unfold resized. specu. ring.
Qed.
Lemma resized_consistent c x p : consistent x p -> consistent (resized c x) (resized c (fst p), resized c (snd p)).
Proof. unfold consistent. cbn [fst snd]. intros E. now rewrite !resized_mul, E. Qed.

(** ** The calibration *)
(** On noise-free motions the calibration is the same motion in the new unit: whatever decompositions the two calls
    use, each of them returns the calibration in its unit or raises AssertionError. *)
Theorem C102_recovery : forall c svd svd' (tol : R) (x : rdq) (l : list (rdq * rdq)) (m m' : list rdq) (s s' : list R) (v v' : list rdq) w w' r r',
  0 <= tol -> unitdq x -> 0 < qs (dr x) -> Forall (consistent x) l -> two_axes l ->
  setup_t_matrix svd (inD dqone :: hands l) (inD dqone :: eyes l) = Ok (map inD m) ->
  svd (map inD m) = Ok (map Fin s, map inD v) -> svd_spec m s v ->
  setup_t_matrix svd' (inD dqone :: hands (resized_pairs c l)) (inD dqone :: eyes (resized_pairs c l)) = Ok (map inD m') ->
  svd' (map inD m') = Ok (map Fin s', map inD v') -> svd_spec m' s' v' ->
  compute_hand_eye_calibration svd (Fin tol) (inD dqone :: hands l) (inD dqone :: eyes l) = (w, r) ->
  compute_hand_eye_calibration svd' (Fin tol) (inD dqone :: hands (resized_pairs c l)) (inD dqone :: eyes (resized_pairs c l)) = (w', r') ->
  ((exists sv bad, r = Ok (inD x, sv, bad)) \/ r = Err AssertionError) /\
  ((exists sv bad, r' = Ok (inD (resized c x), sv, bad)) \/ r' = Err AssertionError) /\
  (forall p, move (resized c x) (vscale c p) = vscale c (move x p)).
Proof.
  intros c svd svd' tol x l m m' s s' v v' w w' r r' T0 U W C TA S1 E1 P1 S2 E2 P2 R1 R2.
  assert (SAME : forall l : list (rdq * rdq), Forall2 (fun p y => y = snd p \/ (y = dqneg (snd p) /\ qs (dr (snd p)) <> 0)) l (map snd l)).
  { clear. induction l; cbn; constructor; auto. }
  assert (ME : forall l : list (rdq * rdq), map inD (map snd l) = eyes l) by (intros; apply map_map).
  split; [|split; [|apply resized_move]].
  - apply (C25_never_wrong svd tol x l (map snd l) m s v w r); try assumption; [apply SAME|]. rewrite ME. exact R1.
  - apply (C25_never_wrong svd' tol (resized c x) (resized_pairs c l) (map snd (resized_pairs c l)) m' s' v' w' r'); try assumption.
    + now apply resized_unit.
    + unfold resized_pairs. rewrite Forall_map. apply Forall_impl with (2 := C). intros p. apply resized_consistent.
    + destruct TA as (p & q & Ip & Iq & N). exists (resized c (fst p), resized c (snd p)), (resized c (fst q), resized c (snd q)).
      split; [apply (in_map (fun p => (resized c (fst p), resized c (snd p))) _ _ Ip)|]. split; [apply (in_map (fun p => (resized c (fst p), resized c (snd p))) _ _ Iq)|exact N].
    + apply SAME.
    + rewrite ME. exact R2.
Qed.

(** The tolerances of the calibration are fixed numbers.  As soon as one pair of motions is noisy, in that the dual
    scalar parts differ by more than 1e-5 of their size, the calibration raises AssertionError in every sufficiently
    small unit of length, whatever the tolerance. *)
Theorem C102_small_unit : forall tol (b w : list rdq) i a y, 0 <= tol ->
  nth_error b 0 = Some dqone -> nth_error w 0 = Some dqone -> (length b <= length w)%nat -> nth_error b i = Some a -> nth_error w i = Some y ->
  0 <= qs (dr a) * qs (dr y) -> 1 / 100000 * Rabs (qs (dd a)) < Rabs (qs (dd y) - qs (dd a)) ->
  exists c0, 0 < c0 /\ forall c svd, c0 <= c ->
    snd (compute_hand_eye_calibration svd (Fin tol) (map inD (map (resized c) b)) (map inD (map (resized c) w))) = Err AssertionError.
Proof.
  intros tol b w i a y T0 B0 W0 L Bi Wi SG NZ. set (g := Rabs (qs (dd y) - qs (dd a)) - 1 / 100000 * Rabs (qs (dd a))).
  assert (G : 0 < g) by (unfold g; lra). exists ((tol + 1) / g). split; [apply Rdiv_lt_0_compat; lra|]. intros c svd C0.
  assert (CG : tol + 1 <= c * g).
  { replace (tol + 1) with ((tol + 1) / g * g) by (field; lra). apply Rmult_le_compat_r; lra. }
  assert (C1 : 0 < c) by (apply Rlt_le_trans with ((tol + 1) / g); [apply Rdiv_lt_0_compat; lra|exact C0]).
  destruct (C28_rejects svd tol (map (resized c) b) (map (resized c) w) T0) as (_ & _ & _ & _ & _ & H).
  assert (NO : near_one dqone).
  { unfold near_one, Spec.close_to. cbn [dqone hone hzero dr dd qv qs v1 v2 v3].
    assert (Z : forall r, Rabs (r - r) <= 1 / 100000000 + 1 / 100000 * Rabs r) by (intros r; rewrite Rminus_diag_eq, Rabs_R0 by reflexivity; pose proof (Rabs_pos r); lra).
    repeat split; apply Z. }
  apply (H dqone dqone i (resized c a) (resized c y)).
  - rewrite nth_error_map, B0. cbn. now rewrite resized_one.
  - exact NO.
  - rewrite nth_error_map, W0. cbn. now rewrite resized_one.
  - exact NO.
  - now rewrite !map_length.
  - now rewrite nth_error_map, Bi.
  - now rewrite nth_error_map, Wi.
  - cbn [resized dr]. destruct (Rlt_dec _ _) as [X|X]; [lra|]. intros [_ Q]. revert Q. unfold Spec.close_to. cbn [resized dd hscale qs].
    rewrite <- Rmult_minus_distr_l, !Rabs_mult, (Rabs_pos_eq c) by lra. intros Q.
    assert (c * g = c * Rabs (qs (dd y) - qs (dd a)) - 1 / 100000 * (c * Rabs (qs (dd a)))) by (unfold g; ring). lra.
Qed.

(** ** The evaluation *)
Lemma resized_dist c t u : 0 <= c -> len3 (vsub (vscale c t) (vscale c u)) = c * len3 (vsub t u).
Proof.
  intros C. unfold len3. transitivity (sqrt (c * c) * sqrt (dot3 (vsub t u) (vsub t u))); [|now rewrite sqrt_square].
  rewrite <- sqrt_mult_alt by nra. f_equal. destruct t, u; specu; ring.
Qed.
Lemma errors_resized c p q e : 0 <= c -> good_pose p -> good_pose q -> errors_of (p, q) e -> errors_of ((vscale c (fst p), snd p), (vscale c (fst q), snd q)) (c * fst e, snd e).
Proof.
  intros C GP GQ. unfold errors_of, good_pose in *. cbn [fst snd].
  assert (D : forall e1 e2 f1 f2 : R, @Ok (xr * xr) (Fin e1, Fin e2) = Ok (Fin f1, Fin f2) -> f1 = e1 /\ f2 = e2) by (intros ? ? ? ? [= -> ->]; easy).
  destruct (close_dec (canon (snd p)) (canon (snd q))) as [K|K].
  - rewrite !pose_error_close by assumption. intros E. apply D in E as [-> ->]. now rewrite resized_dist.
  - rewrite !pose_error_far by assumption. intros E. apply D in E as [-> ->]. now rewrite resized_dist.
Qed.
Lemma rms_scaled c l : 0 <= c -> rms (map (Rmult c) l) = c * rms l.
Proof.
  intros C. unfold rms. rewrite map_length. transitivity (sqrt (c * c) * sqrt (sum_squares l / INR (length l))); [|now rewrite sqrt_square].
  rewrite <- sqrt_mult_alt by nra. f_equal.
  unfold Rdiv. rewrite <- Rmult_assoc. f_equal. induction l as [|x l IH]; cbn [map sum_squares fold_right]; [ring|]. change (fold_right (fun x a => x * x + a) 0) with sum_squares. rewrite IH. ring.
Qed.
(** Poses and position threshold in another unit: the position error is the same length in the new unit, the
    orientation error and the inliers are the same. *)
Theorem C102_evaluation : forall c (cfg cfg' : config XR) (tp to : R) (A B : list (rv * rq)), 0 < c ->
  length A = length B -> A <> [] -> Forall good_pose A -> Forall good_pose B ->
  ransac_position_error_threshold_m cfg = Fin tp -> ransac_orientation_error_threshold_deg cfg = Fin to ->
  ransac_position_error_threshold_m cfg' = Fin (c * tp) -> ransac_orientation_error_threshold_deg cfg' = Fin to ->
  exists rp ro flags, evaluate_alignment cfg (poses A) (poses B) = Ok (Fin rp, Fin ro, flags) /\
    evaluate_alignment cfg' (poses (resized_poses c A)) (poses (resized_poses c B)) = Ok (Fin (c * rp), Fin ro, flags).
Proof.
  intros c cfg cfg' tp to A B C L NE GA GB TP TO TP' TO'.
  destruct (C31_evaluate cfg tp to A B L NE GA GB TP TO) as (es & fl & F & E & FF & _ & LE).
  assert (GA' : Forall good_pose (resized_poses c A)) by (unfold resized_poses; now rewrite Forall_map).
  assert (GB' : Forall good_pose (resized_poses c B)) by (unfold resized_poses; now rewrite Forall_map).
  destruct (C31_evaluate cfg' (c * tp) to (resized_poses c A) (resized_poses c B)) as (es' & fl' & F' & E' & FF' & _ & LE'); try assumption.
  { unfold resized_poses. now rewrite !map_length. } { unfold resized_poses. intros H. apply map_eq_nil in H. contradiction. }
  exists (rms (map fst es)), (rms (map snd es)), fl. split; [exact E|].
  assert (ES : es' = map (fun e => (c * fst e, snd e)) es).
  { clear - C F F' GA GB L. unfold resized_poses in F'. revert B es es' F F' GB L. induction A as [|p A IH]; intros [|q B] es es' F F' GB L; try discriminate L.
    - inversion F; inversion F'. reflexivity.
    - cbn [map combine] in F, F'. inversion F as [|? e ? r X Y]; subst. inversion F' as [|? e' ? r' X' Y']; subst. inversion GA; inversion GB; subst. cbn [map]. f_equal.
      + apply (errors_resized c p q e) in X; [|lra|assumption|assumption]. unfold errors_of in X, X'. cbn [fst snd] in X, X'. rewrite X in X'. injection X' as Q1 Q2. destruct e'. cbn in *. now subst.
      + apply (IH H2 B); try assumption. now injection L. }
  assert (FL : fl' = fl).
  { clear - C FF FF' ES. subst es'. revert fl' FF'. induction FF as [|e f es fl X FF IH]; intros fl' FF'; [now inversion FF'|]. inversion FF' as [|? f' ? r' Y FF2]; subst. f_equal; [|now apply IH].
    cbn [fst snd] in Y. assert (Q : f' = true <-> f = true).
    { rewrite X, Y. split; intros [H1 H2]; split; try assumption; [now apply Rmult_lt_reg_l in H1|now apply Rmult_lt_compat_l]. }
    destruct f, f'; try reflexivity; destruct Q as [Q1 Q2]; [discriminate (Q2 eq_refl)|discriminate (Q1 eq_refl)]. }
  rewrite E', FL, ES, !map_map. cbn [fst snd]. rewrite <- (map_map fst (Rmult c)), rms_scaled by lra. reflexivity.
Qed.

(** ** The alignment *)
Section Alignment.
Context (c : R) (C : 0 < c).
Notation sc := (xmul (Fin c)).
Ltac sgn := repeat match goal with |- context [Rlt_dec ?a ?b] => destruct (Rlt_dec a b) | |- context [Req_EM_T ?a ?b] => destruct (Req_EM_T a b) end.
Lemma sc_add a b : xadd (sc a) (sc b) = sc (xadd a b).
Proof. destruct a, b; cbn; unfold inf_signed; sgn; try easy; try lra. f_equal. ring. Qed.
Lemma sc_sub a b : xsub (sc a) (sc b) = sc (xsub a b).
Proof. destruct a, b; cbn; unfold inf_signed; sgn; try easy; try lra. f_equal. ring. Qed.
Lemma sc_mul a b : xmul (sc a) b = sc (xmul a b).
Proof. destruct a, b; cbn; unfold inf_signed; sgn; cbn; unfold inf_signed; sgn; try easy; try nra. f_equal. ring. Qed.
Lemma sc_div a b : xdiv (sc a) b = sc (xdiv a b).
Proof. destruct a, b; cbn; unfold inf_signed; sgn; cbn; unfold inf_signed; sgn; try easy; try nra; f_equal; unfold Rdiv; ring. Qed.
Lemma sc_interp_from x pts : forall xj fj, interp_from (N:=XR) x xj (sc fj) (map (fun p => (fst p, sc (snd p))) pts) = sc (interp_from (N:=XR) x xj fj pts).
Proof.
  induction pts as [|[xk fk] pts IH]; intros xj fj; [reflexivity|]. cbn [map fst snd interp_from]. destruct (leb (Num:=XR) xk x); [apply IH|].
  cbn [add sub mul div XR]. now rewrite sc_sub, sc_div, sc_mul, sc_add.
Qed.
Definition under {A B} (f : A -> B) (r : res A) : res B := match r with Ok a => Ok (f a) | Err e => Err e end.
Lemma sc_interp x pts : interp (N:=XR) x (map (fun p => (fst p, sc (snd p))) pts) = under (xmul (Fin c)) (interp (N:=XR) x pts).
Proof. destruct pts as [|[x0 f0] pts]; [reflexivity|]. cbn [map fst snd interp]. destruct (ltb (Num:=XR) x x0); [reflexivity|]. cbn [under]. now rewrite sc_interp_from. Qed.
Lemma mapM_under {A B B'} (f : A -> res B) (f' : A -> res B') (g : B -> B') l : (forall x, f' x = under g (f x)) -> mapM f' l = under (map g) (mapM f l).
Proof.
  intros H. induction l as [|x l IH]; [reflexivity|]. cbn [mapM]. rewrite H. destruct (f x) as [y|]; [|reflexivity]. cbn [under bind].
  rewrite IH. destruct (mapM f l); reflexivity.
Qed.
Lemma rows_stamps l : stamps (resized_rows c l) = stamps l.
Proof. unfold stamps, resized_rows. rewrite map_map. reflexivity. Qed.
Lemma rows_length l : length (resized_rows c l) = length l.
Proof. unfold resized_rows. now rewrite map_length. Qed.
Lemma rows_interpolate l samples : interpolate_poses_from_samples (N:=XR) (resized_rows c l) samples = under (resized_rows c) (interpolate_poses_from_samples (N:=XR) l samples).
Proof.
  unfold interpolate_poses_from_samples. rewrite rows_stamps.
  assert (EO : map (fun p => ori (snd p)) (resized_rows c l) = map (fun p : stamped (N:=XR) => ori (snd p)) l) by (unfold resized_rows; rewrite map_map; reflexivity).
  rewrite EO. destruct (resample_quaternions_from_samples _ _ samples) as [qs|e]; [|reflexivity]. cbn [bind].
  assert (COL : forall f : vec3 (N:=XR) -> @T XR, (forall x y z, f (mkV (N:=XR) (sc x) (sc y) (sc z)) = sc (f (mkV (N:=XR) x y z))) ->
    mapM (fun s => interp (N:=XR) s (map (fun p : @T XR * pose (N:=XR) => (fst p, f (pos (snd p)))) (resized_rows c l))) samples = under (map (xmul (Fin c))) (mapM (fun s => interp (N:=XR) s (map (fun p : @T XR * pose (N:=XR) => (fst p, f (pos (snd p)))) l)) samples)).
  { intros f F. apply mapM_under. intros s. rewrite <- sc_interp. f_equal. unfold resized_rows. rewrite !map_map. apply map_ext. intros [t [[x y z] q]]. cbn [fst snd pos vx vy vz]. now rewrite F. }
  cbn beta zeta. rewrite (COL vx), (COL vy), (COL vz) by reflexivity.
  destruct (mapM _ samples) as [xs|e]; [|reflexivity]. cbn [under bind]. destruct (mapM _ samples) as [ys|e]; [|reflexivity]. cbn [under bind]. destruct (mapM _ samples) as [zs|e]; [|reflexivity]. cbn [under bind].
  unfold resized_rows at 1. apply mapM_under. intros i. rewrite !index_map. change (@T XR) with xr in *.
  destruct (index samples i); [|reflexivity]. cbn [bind]. destruct (index xs i); [|reflexivity]. cbn [bind]. destruct (index ys i); [|reflexivity]. cbn [bind]. destruct (index zs i); [|reflexivity]. cbn [bind].
  destruct (index qs i); reflexivity.
Qed.
End Alignment.
(** The alignment of two recordings with positions in another unit gives the same poses in the new unit, or the same
    exception; the offset and the choice of the poses do not depend on the positions.  This holds for all recordings, sorted
    or not, and all positions, even infinite ones and nan. *)
Theorem C102_alignment : forall c (A B : list (stamped (N:=XR))) o, 0 < c ->
  compute_aligned_poses (resized_rows c A) (resized_rows c B) o =
  match compute_aligned_poses A B o with Ok (a, b) => Ok (resized_rows c a, resized_rows c b) | Err e => Err e end.
Proof.
  intros c A B o C. unfold compute_aligned_poses.
  set (sA := map (fun p => (add (fst p) o, snd p)) A).
  assert (SH : map (fun p => (add (fst p) o, snd p)) (resized_rows c A) = resized_rows c sA) by (unfold sA, resized_rows; rewrite !map_map; reflexivity).
  rewrite SH, !rows_stamps. destruct (index (stamps sA) 0); [|reflexivity]. cbn [bind]. destruct (index (stamps B) 0); [|reflexivity]. cbn [bind].
  destruct (if leb _ _ then _ else _) as [low high]. destruct (select_samples _ high low) as [samples|]; [|reflexivity]. cbn [bind].
  rewrite !rows_interpolate by exact C. destruct (interpolate_poses_from_samples sA samples) as [pa|]; [|reflexivity]. cbn [under bind].
  destruct (interpolate_poses_from_samples B samples) as [pb|]; [|reflexivity]. cbn [under bind]. rewrite !rows_length, !rows_stamps.
  destruct (length pa =? length pb)%nat; [|reflexivity]. cbn [assert_ bind]. destruct (allclose _ _ _); reflexivity.
Qed.

(** ** Examples *)
(** a calibration without rotation, 2 d along the first axis, and a rotation about the second and one about the third axis *)
Definition x102 (d : R) : rdq := RD hone (RQ (RV d 0 0) 0).
Definition l102 (d : R) : list (rdq * rdq) :=
  [(RD (RQ (RV 0 (3/5) 0) (4/5)) (RQ (RV 0 0 (3/5 * d)) 0), RD (RQ (RV 0 (3/5) 0) (4/5)) (RQ (RV 0 0 (- (3/5 * d))) 0));
   (RD (RQ (RV 0 0 (3/5)) (4/5)) (RQ (RV 0 (- (3/5 * d)) 0) 0), RD (RQ (RV 0 0 (3/5)) (4/5)) (RQ (RV 0 (3/5 * d) 0) 0))].
Definition m102 (d : R) : list rdq := trows ((dqone, dqone) :: l102 d).
Definition k102 (d e c s : R) : rdq := RD (RQ vzero (c * e)) (RQ (RV (c * (e * d)) 0 0) s).
Definition v102 (d e : R) : list rdq :=
  [RD (RQ vzero (e * d)) (RQ (RV (- e) 0 0) 0); RD (RQ (RV 1 0 0) 0) hzero; RD (RQ (RV 0 1 0) 0) hzero; RD (RQ (RV 0 0 1) 0) hzero;
   RD hzero (RQ (RV 0 1 0) 0); RD hzero (RQ (RV 0 0 1) 0); k102 d e (3/5) (4/5); k102 d e (- (4/5)) (3/5)].
Definition s102 (g : R) : list R := [6/5 * (sqrt 2 * g); 6/5 * sqrt 2; 6/5; 6/5; 6/5; 6/5; 0; 0].
Lemma gram102 d p q : gram (m102 d) p q =
  36/25 * (2 * (Spec.v1 (qv (dr p)) * Spec.v1 (qv (dr q))) + Spec.v2 (qv (dr p)) * Spec.v2 (qv (dr q)) + Spec.v3 (qv (dr p)) * Spec.v3 (qv (dr q))
    + Spec.v2 (qv (dd p)) * Spec.v2 (qv (dd q)) + Spec.v3 (qv (dd p)) * Spec.v3 (qv (dd q)) + 2 * ((d * qs (dr p) - Spec.v1 (qv (dd p))) * (d * qs (dr q) - Spec.v1 (qv (dd q))))).
Proof.
  destruct p as [[[x y z] q0] [[dx dy dz] dq]], q as [[[x1 y1 z1] q1] [[dx1 dy1 dz1] dq1]].
  rewrite image_gram. unfold m102, trows, srows, rhalf, l102. cbn [flat_map map app combine fold_right fst snd]. specu. cbn [fst snd]. field.
Qed.
Lemma svd102 d e g : 0 < e -> 1 <= g -> e * g = 1 -> g * g = 1 + d * d -> svd_spec (m102 d) (s102 g) (v102 d e).
Proof.
  intros E0 G1 EG G2. assert (E2 : e * e * (1 + d * d) = 1) by (rewrite <- G2; replace (e * e * (g * g)) with ((e * g) * (e * g)) by ring; rewrite EG; ring).
  assert (D : e * e * (d * d) = 1 - e * e) by lra. assert (S2 : sqrt 2 * sqrt 2 = 2) by (apply sqrt_sqrt; lra). assert (SP : 1 <= sqrt 2) by (rewrite <- sqrt_1; apply sqrt_le_1_alt; lra).
  assert (F : forall i j vi vj, nth_error (v102 d e) i = Some vi -> nth_error (v102 d e) j = Some vj ->
    dot8 vi vj = (if Nat.eqb i j then 1 else 0) /\ gram (m102 d) vi vj = if Nat.eqb i j then nth i (s102 g) 0 * nth i (s102 g) 0 else 0).
  { intros i j vi vj I J. rewrite gram102. unfold v102 in I, J. unfold s102.
    do 8 (destruct i as [|i]; [cbn [nth_error] in I; injection I as <-;
      do 8 (destruct j as [|j]; [cbn [nth_error] in J; injection J as <-; cbn [Nat.eqb nth]; clear - E2 EG G2 D S2;
        unfold k102; specu; split; first [ring | lra | nra]|]); now destruct j|]).
    now destruct i. }
  constructor.
  - reflexivity.
  - reflexivity.
  - intros [[[y1 y2 y3] y4] [[y5 y6 y7] y8]]. unfold v102, k102, dqsum. cbn [map fold_right]. clear - D.
    pose proof (f_equal (Rmult y4) D). pose proof (f_equal (Rmult y5) D). apply rdq_eq; apply rq_eq; specu; lra.
  - intros i j vi vj I J. apply (F i j vi vj I J).
  - intros i j vi vj I J N. destruct (F i j vi vj I J) as [_ ->]. now apply Nat.eqb_neq in N as ->.
  - intros i vi I. destruct (F i i vi vi I I) as [_ ->]. now rewrite Nat.eqb_refl.
  - intros i. unfold s102. do 8 (destruct i as [|i]; [cbn [nth]; nra|]). destruct i; cbn; lra.
  - assert (B : forall i, nth (S i) (s102 g) 0 <= nth i (s102 g) 0).
    { intros i. unfold s102. do 8 (destruct i as [|i]; [cbn [nth]; nra|]). destruct i; cbn; lra. }
    intros i j L. induction L as [|j L IH]; [lra|]. specialize (B j). lra.
Qed.
Lemma x102_unit d : unitdq (x102 d) /\ Forall (consistent (x102 d)) (l102 d) /\ two_axes (l102 d).
Proof.
  split; [split; unfold x102; specu; ring|]. split.
  - apply Forall_cons; [|apply Forall_cons; [|apply Forall_nil]]; unfold consistent, x102; cbn [fst snd]; apply rdq_eq; apply rq_eq; specu; ring.
  - exists (nth 0 (l102 d) (dqone, dqone)), (nth 1 (l102 d) (dqone, dqone)). cbn [l102 nth].
    split; [now left|]. split; [right; now left|]. cbn [fst snd dr qv]. intros E. specu. injection E as E _ _. lra.
Qed.
Definition svd_of102 (d e g : R) : list (@dquat XR) -> res (list (@T XR) * list (@dquat XR)) := fun _ => Ok (map Fin (s102 g), map inD (v102 d e)).
Lemma m102_built d e g : setup_t_matrix (svd_of102 d e g) (inD dqone :: hands (l102 d)) (inD dqone :: eyes (l102 d)) = Ok (map inD (m102 d)).
Proof.
  change (setup_t_matrix (svd_of102 d e g) (hands ((dqone, dqone) :: l102 d)) (eyes ((dqone, dqone) :: l102 d)) = Ok (map inD (m102 d))).
  apply setup_t_in.
  - intros. now eexists.
  - destruct (x102_unit d) as (U & CO & _). assert (C : Forall (consistent (x102 d)) ((dqone, dqone) :: l102 d)).
    { apply Forall_cons; [|exact CO]. unfold consistent; cbn [fst snd]. now rewrite dqmul_1_l, dqmul_1_r. }
    rewrite Forall_forall in C. intros p I.
    destruct (consistent_scalars (x102 d) p U (C p I)). apply scalars_close_eq; [lra|congruence|congruence].
  - now eexists.
Qed.
Lemma x102_found d e g : 0 < e -> 1 <= g -> e * g = 1 -> g * g = 1 + d * d ->
  snd (compute_hand_eye_calibration (svd_of102 d e g) (Fin (1/25)) (inD dqone :: hands (l102 d)) (inD dqone :: eyes (l102 d)))
  = Ok (inD (x102 d), map Fin (s102 g), bad_singular_values (N:=XR) (map Fin (s102 g))).
Proof.
  intros E G EG G2. destruct (x102_unit d) as (U & CO & TA). rewrite <- (map_map snd inD (l102 d)) at 1.
  destruct (C25_recovery (svd_of102 d e g) (1/25) (x102 d) (l102 d) (map snd (l102 d)) (m102 d) (s102 g) (v102 d e) ltac:(lra) U
     ltac:(cbn; lra) CO TA) as (v7 & E7 & R); [|apply m102_built|reflexivity|now apply svd102|].
  - clear. generalize (l102 d). intros l. induction l; cbn; constructor; auto.
  - rewrite R. cbn [snd]. injection E7 as <-. destruct (Req_EM_T _ 0) as [Z|]; [|reflexivity].
    exfalso. revert Z. unfold k102. specu. lra.
Qed.
(** A calibration of 1.5 m along the first axis, measured in metres and in units of 9/16 m: the hypotheses of
    C102_recovery are met, and both calls return the calibration in their unit. *)
Example C102_recovery_example :
  l102 (4/3) = resized_pairs (16/9) (l102 (3/4)) /\ x102 (4/3) = resized (16/9) (x102 (3/4)) /\
  svd_spec (m102 (3/4)) (s102 (5/4)) (v102 (3/4) (4/5)) /\ svd_spec (m102 (4/3)) (s102 (5/3)) (v102 (4/3) (3/5)) /\
  (exists sv bad, snd (compute_hand_eye_calibration (svd_of102 (3/4) (4/5) (5/4)) (Fin (1/25)) (inD dqone :: hands (l102 (3/4))) (inD dqone :: eyes (l102 (3/4)))) = Ok (inD (x102 (3/4)), sv, bad)) /\
  (exists sv bad, snd (compute_hand_eye_calibration (svd_of102 (4/3) (3/5) (5/3)) (Fin (1/25)) (inD dqone :: hands (l102 (4/3))) (inD dqone :: eyes (l102 (4/3)))) = Ok (inD (x102 (4/3)), sv, bad)).
Proof.
  split; [|split; [|split; [apply svd102; lra|split; [apply svd102; lra|split]]]].
  - unfold l102, resized_pairs. cbn [map fst snd]. apply (f_equal2 cons); [|apply (f_equal2 cons); [|reflexivity]]; apply (f_equal2 pair); unfold resized; cbn [dr dd]; f_equal; apply rq_eq; specu; lra.
  - unfold x102, resized. cbn [dr dd]. f_equal. apply rq_eq; specu; lra.
  - do 2 eexists. apply x102_found; lra.
  - do 2 eexists. apply x102_found; lra.
Qed.
(** Noisy motions: the second eye motion is 2 cm longer along its axis than the hand motion.  The tolerance is never
    exceeded in metres (0.001 < 1/25) but always in sufficiently small units. *)
Definition b102 : list rdq := [dqone; RD (RQ (RV 0 (3/5) 0) (4/5)) hzero].
Definition w102 : list rdq := [dqone; RD (RQ (RV 0 (3/5) 0) (4/5)) (RQ (RV 0 (1/125) 0) (- (3/500)))].
Example C102_small_unit_example : exists c0, 0 < c0 /\ forall c svd, c0 <= c ->
  snd (compute_hand_eye_calibration svd (Fin (1/25)) (map inD (map (resized c) b102)) (map inD (map (resized c) w102))) = Err AssertionError.
Proof.
  apply (C102_small_unit (1/25) b102 w102 1 (RD (RQ (RV 0 (3/5) 0) (4/5)) hzero) (RD (RQ (RV 0 (3/5) 0) (4/5)) (RQ (RV 0 (1/125) 0) (- (3/500))))).
  - lra.
  - reflexivity.
  - reflexivity.
  - cbn. lia.
  - reflexivity.
  - reflexivity.
  - cbn. lra.
  - cbn. rewrite Rabs_R0, Rabs_left by lra. lra.
Qed.
(** Positions with an infinite coordinate and nan are resized as well. *)
Example C102_alignment_example : exists a b,
  let row t x := (Fin t, mkPose (N:=XR) (mkV (N:=XR) x NaN PInf) (mkQ (N:=XR) (Fin 0) (Fin 0) (Fin 0) (Fin 1))) in
  a = resized_rows 1000 [row 0 (Fin 2)] /\ b = row 0 (Fin 2000) /\ a = [b].
Proof.
  do 2 eexists. split; [reflexivity|]. split; [reflexivity|]. unfold resized_rows. cbn [map fst snd pos ori vx vy vz]. unfold xmul, inf_signed.
  destruct (Rlt_dec 0 1000); [|lra]. repeat f_equal. lra.
Qed.
