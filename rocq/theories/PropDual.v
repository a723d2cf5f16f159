(** * Properties C11-C21: dual quaternions (exact instance [XR], except where stated for every
    number type). *)

From Coq Require Import Reals ZArith Bool List Lra Psatz.
From Verif Require Import Num Py XReal XFacts Quat DualQuat Spec Embed QuatFacts QuatTrig QuatRot
  DualFacts ScrewFacts.
Import ListNotations.
Local Open Scope R_scope.

(** ** C11 *)
Theorem C11_algebra : forall (a b c : rdq) (t : R),
  dual_mul (inD a) (DOpDQ (inD b)) = Ok (inD (RD (hmul (dr a) (dr b))
        (hadd (hmul (dr a) (dd b)) (hmul (dd a) (dr b))))) /\
  dmul (dmul (inD a) (inD b)) (inD c) = dmul (inD a) (dmul (inD b) (inD c)) /\
  dmul (dadd (inD a) (inD b)) (inD c) = dadd (dmul (inD a) (inD c)) (dmul (inD b) (inD c)) /\
  dmul (inD a) (dadd (inD b) (inD c)) = dadd (dmul (inD a) (inD b)) (dmul (inD a) (inD c)) /\
  dmul didentity (inD a) = inD a /\ dmul (inD a) didentity = inD a /\
  dual_mul (inD a) (DOpNum (Fin t)) = Ok (inD (RD (hscale t (dr a)) (hscale t (dd a)))) /\
  dual_rmul (inD a) (DOpNum (Fin t)) = Ok (inD (RD (hscale t (dr a)) (hscale t (dd a)))) /\
  dsub (inD a) (inD b) = inD (RD (hsub (dr a) (dr b)) (hsub (dd a) (dd b))) /\
  dual_mul (inD a) DOpOther = Err AssertionError /\
  dual_rmul (inD a) DOpOther = Err AssertionError.
Proof.
  intros. unfold dual_mul, dual_rmul. rewrite didentity_in, !dadd_in, !dmul_in, dscale_in, dscale_l_in.
  rewrite !dadd_in, dqmul_assoc, dqmul_1_l, dqmul_1_r.
  repeat split.
  - f_equal. apply rdq_eq; unfold dqmul, dqadd; cbn [dr dd]; rewrite ?hmul_add_l; [easy|qring].
  - f_equal. apply rdq_eq; unfold dqmul, dqadd; cbn [dr dd]; rewrite ?hmul_add_r; [easy|qring].
Qed.

Theorem C11_unit_closed : forall a b : rdq, unitdq a -> unitdq b ->
  (exists c, dmul (inD a) (inD b) = inD c /\ unitdq c) /\
  (exists c, dinv (inD a) = Ok (inD c) /\ unitdq c) /\
  (exists c, dconj (inD a) = inD c /\ unitdq c) /\
  (exists c, dneg (inD a) = inD c /\ unitdq c) /\
  dinv (inD a) = Ok (dconj (inD a)).
Proof.
  intros a b Ha Hb. rewrite dmul_in, dconj_in, dneg_in, dinv_big by now apply unitdq_tiny.
  split; [|split; [|split; [|split]]].
  - eexists; split; [reflexivity|now apply unitdq_mul].
  - eexists; split; [reflexivity|now apply unitdq_inv].
  - eexists; split; [reflexivity|now apply unitdq_conj].
  - eexists; split; [reflexivity|now apply unitdq_neg].
  - now rewrite unitdq_inv_conj.
Qed.

(** A rotation by 2 acos(4/5) about x followed by a translation. *)
Example C11_example : unitdq (dq_of (RQ (RV (3/5) 0 0) (4/5)) (RV 1 2 3)).
Proof. apply dq_of_unit. unfold unitq. specu; field. Qed.

(** ** C12 *)
Theorem C12_inverse : forall a : rdq, 1 / 100000000 < hnorm (dr a) ->
  exists i, dinv (inD a) = Ok (inD i) /\
    dmul (inD a) (inD i) = didentity /\ dmul (inD i) (inD a) = didentity.
Proof.
  intros a H. exists (dqinv a). split; [now apply dinv_big|].
  assert (hnorm2 (dr a) <> 0) by (apply hnorm_pos_iff; lra).
  now rewrite didentity_in, !dmul_in, dqmul_inv_r, dqmul_inv_l.
Qed.

Theorem C12_inverse_guard : forall a : rdq, hnorm (dr a) <= 1 / 100000000 ->
  dinv (inD a) = Err AssertionError.
Proof. intros. now apply dinv_small. Qed.

Theorem C12_division : forall a b : rdq,
  (1 / 100000000 < hnorm (dr b) ->
     exists r, dual_div (inD a) (DOpDQ (inD b)) = Ok (inD r) /\ dqmul r b = a) /\
  (hnorm (dr b) <= 1 / 100000000 -> dual_div (inD a) (DOpDQ (inD b)) = Err AssertionError) /\
  (forall t, t <> 0 -> dual_div (inD a) (DOpNum (Fin t)) = Ok (inD (dqscale (/ t) a))) /\
  dual_div (inD a) DOpOther = Err AssertionError.
Proof.
  intros a b. unfold dual_div. repeat split.
  - intros H. exists (dqmul a (dqinv b)). rewrite dinv_big by easy. cbn [bind]. rewrite dmul_in.
    split; [easy|]. rewrite dqmul_assoc, dqmul_inv_l, dqmul_1_r; [easy|].
    apply hnorm_pos_iff; lra.
  - intros H. now rewrite dinv_small.
  - intros t Ht. unfold inD at 1 2; cbn [rot dual]. now rewrite !qdivs_in.
Qed.

Example C12_example : 1 / 100000000 < hnorm (dr (RD (RQ (RV 1 2 3) 4) (RQ (RV 5 6 7) 8))) /\
  ~ unitdq (RD (RQ (RV 1 2 3) 4) (RQ (RV 5 6 7) 8)).
Proof.
  split.
  - unfold hnorm; specu. apply Rle_lt_trans with (sqrt 1).
    + rewrite sqrt_1; lra.
    + apply sqrt_lt_1; lra.
  - intros [U _]. specu. lra.
Qed.

(** ** C13 *)
(** the quaternion with the sign that makes its scalar part non-negative *)
Definition canonical (q r : rq) : Prop := (q = r \/ q = hneg r) /\ 0 <= qs q.

Theorem C13_pose_roundtrip : forall (t : rv) (q : rq), 1 / 100000000 < hnorm q ->
  exists r, snd (to_pose (from_pose (inV t) (inQ q))) = inP t r /\
    canonical r (hscale (/ hnorm q) q) /\ unitq r.
Proof.
  intros t q H. rewrite from_pose_in by easy. set (n := hscale (/ hnorm q) q).
  assert (U : unitq n) by (apply hnormalize_unit; lra).
  rewrite to_pose_unit by now apply dq_of_unit. cbn [snd]. rewrite trans_dq_of by easy.
  cbn [dq_of dr]. eexists; split; [reflexivity|]. unfold canonical, pos_w.
  destruct (Rlt_dec (qs n) 0).
  - split; [split; [auto|cbn [hneg qs]; lra]|]. unfold unitq. now rewrite hnorm2_neg.
  - split; [split; [auto|lra]|easy].
Qed.

Theorem C13_dq_roundtrip : forall a : rdq, unitdq a ->
  exists b, from_pose_vector (snd (to_pose (inD a))) = inD b /\
    (qs (dr a) < 0 /\ b = dqneg a \/ 0 <= qs (dr a) /\ b = a).
Proof.
  intros a U. rewrite to_pose_unit by easy. cbn [snd]. unfold from_pose_vector, inP; cbn [pos ori].
  rewrite from_pose_unit.
  2:{ unfold pos_w. destruct (Rlt_dec (qs (dr a)) 0); [unfold unitq; rewrite hnorm2_neg|]; apply U. }
  eexists; split; [reflexivity|]. unfold pos_w. destruct (Rlt_dec (qs (dr a)) 0).
  - left; split; [easy|]. rewrite <- (trans_of_neg a). change (hneg (dr a)) with (dr (dqneg a)).
    apply dq_of_trans. now apply unitdq_neg.
  - right; split; [lra|]. now apply dq_of_trans.
Qed.

Example C13_example : 1 / 100000000 < hnorm (RQ (RV 0 3 0) (-4)) /\
  hscale (/ hnorm (RQ (RV 0 3 0) (-4))) (RQ (RV 0 3 0) (-4)) = RQ (RV 0 (3/5) 0) (-4/5).
Proof.
  assert (E : hnorm (RQ (RV 0 3 0) (-4)) = 5).
  { unfold hnorm; specu. replace (0 * 0 + 3 * 3 + 0 * 0 + -4 * -4) with (5 * 5) by ring.
    apply sqrt_square; lra. }
  rewrite E. split; [lra|]. apply rq_eq; simpl; field.
Qed.

(** ** C14 *)
Lemma to_matrix_unit a : unitdq a ->
  to_matrix (inD a) = (inD a, inH (HM (rot_matrix (dr a)) (trans_of a))).
Proof.
  intros U. unfold to_matrix. rewrite dnormalize_unit, to_pose_unit by easy.
  change (rot (inD a)) with (inQ (dr a)). rewrite to_rotation_matrix_in. reflexivity.
Qed.

Theorem C14_composition : forall a b : rdq, unitdq a -> unitdq b ->
  exists Ma Mb : hm,
    snd (to_matrix (inD a)) = inH Ma /\ snd (to_matrix (inD b)) = inH Mb /\
    is_rotation (hm_rot Ma) /\ is_rotation (hm_rot Mb) /\
    (forall v, mapply (hm_rot Ma) v = hrot (dr a) v) /\ hm_t Ma = trans_of a /\
    snd (to_matrix (dmul (inD a) (inD b))) =
      inH (HM (mmul (hm_rot Ma) (hm_rot Mb)) (vadd (mapply (hm_rot Ma) (hm_t Mb)) (hm_t Ma))) /\
    snd (to_matrix (dneg (inD a))) = inH Ma.
Proof.
  intros a b Ha Hb. exists (HM (rot_matrix (dr a)) (trans_of a)), (HM (rot_matrix (dr b)) (trans_of b)).
  rewrite dmul_in, dneg_in, !to_matrix_unit by auto using unitdq_mul, unitdq_neg.
  cbn [snd hm_rot hm_t]. destruct Ha as [Ua Da], Hb as [Ub Db].
  repeat split; try (now apply rot_matrix_rotation).
  - intros. now apply rot_matrix_apply.
  - f_equal. f_equal.
    + unfold dqmul; cbn [dr]. now apply rot_matrix_mul.
    + rewrite trans_of_mul by easy. now rewrite rot_matrix_apply.
  - f_equal. f_equal.
    + unfold dqneg; cbn [dr]. apply rot_matrix_neg.
    + apply trans_of_neg.
Qed.

Theorem C14_inverse : forall a : rdq, unitdq a ->
  exists (i : rdq) (Ma Mi : hm),
    dinv (inD a) = Ok (inD i) /\
    snd (to_matrix (inD a)) = inH Ma /\ snd (to_matrix (inD i)) = inH Mi /\
    hm_mul Ma Mi = hm_id /\ hm_mul Mi Ma = hm_id /\
    snd (to_matrix (didentity (N:=XR))) = inH hm_id.
Proof.
  intros a U. exists (dqinv a). pose proof (unitdq_inv a U) as Ui.
  assert (ONE : HM (rot_matrix (dr dqone)) (trans_of dqone) = hm_id).
  { unfold hm_id. f_equal; [apply rm_eq|]; apply rv_eq; unfold rot_matrix; specu; ring. }
  assert (Mul : forall x y, unitdq x -> unitdq y ->
    hm_mul (HM (rot_matrix (dr x)) (trans_of x)) (HM (rot_matrix (dr y)) (trans_of y))
    = HM (rot_matrix (dr (dqmul x y))) (trans_of (dqmul x y))).
  { intros x y [Ux ?] [Uy ?]. unfold hm_mul; cbn [hm_rot hm_t]. rewrite trans_of_mul by easy.
    unfold dqmul; cbn [dr]. rewrite rot_matrix_mul, rot_matrix_apply by easy. reflexivity. }
  eexists _, _. rewrite dinv_big by now apply unitdq_tiny. rewrite didentity_in.
  rewrite !to_matrix_unit by auto using unitdq_one. cbn [snd].
  repeat split.
  - rewrite Mul by easy. now rewrite dqmul_inv_r by now apply unitdq_n2.
  - rewrite Mul by easy. now rewrite dqmul_inv_l by now apply unitdq_n2.
  - now rewrite ONE.
Qed.

Example C14_example : unitdq (dq_of (RQ (RV (3/5) 0 0) (4/5)) (RV 1 2 3)) /\
  unitdq (dq_of (RQ (RV 0 1 0) 0) (RV 0 2 (-3))).
Proof. split; apply dq_of_unit; unfold unitq; specu; field. Qed.

(** ** C15 *)
Lemma passive_in a p : unitdq a -> passive_transform_point (inD a) (inV p) = inV (move a p).
Proof.
  intros U. unfold passive_transform_point.
  change (mkQ (N:=XR) n0 n0 n0 n1) with (inQ hone).
  assert (U1 : unitq hone) by (unfold unitq; specu; ring).
  rewrite from_pose_unit by easy. rewrite dmul_in, to_pose_unit.
  2:{ apply unitdq_mul; [easy|now apply dq_of_unit]. }
  cbn [snd pos inP]. f_equal. rewrite trans_of_mul by (easy || apply U).
  now rewrite trans_dq_of.
Qed.

Theorem C15_points : forall (a : rdq) (p : rv), unitdq a ->
  passive_transform_point (inD a) (inV p) = inV (vadd (hrot (dr a) p) (trans_of a)) /\
  active_transform_point (inD a) (passive_transform_point (inD a) (inV p)) = Ok (inV p) /\
  (exists p', active_transform_point (inD a) (inV p) = Ok p' /\
              passive_transform_point (inD a) p' = inV p).
Proof.
  intros a p U. pose proof (unitdq_inv a U) as Ui. repeat split.
  - now apply passive_in.
  - unfold active_transform_point. rewrite dinv_big by now apply unitdq_tiny. cbn [bind].
    rewrite !passive_in by easy. rewrite <- move_mul by (apply U || apply Ui).
    rewrite dqmul_inv_l, move_one by now apply unitdq_n2. easy.
  - unfold active_transform_point. rewrite dinv_big by now apply unitdq_tiny. cbn [bind].
    eexists; split; [reflexivity|].
    rewrite !passive_in by easy. rewrite <- move_mul by (apply U || apply Ui).
    rewrite dqmul_inv_r, move_one by now apply unitdq_n2. easy.
Qed.

Theorem C15_composition : forall (a b : rdq) (p : rv), unitdq a -> unitdq b ->
  passive_transform_point (dmul (inD a) (inD b)) (inV p)
  = passive_transform_point (inD a) (passive_transform_point (inD b) (inV p)).
Proof.
  intros a b p Ha Hb. rewrite dmul_in, !passive_in by auto using unitdq_mul.
  now rewrite move_mul by (apply Ha || apply Hb).
Qed.

Example C15_example : unitdq (dq_of (RQ (RV 0 0 (3/5)) (4/5)) (RV 1 2 3)) /\
  move (dq_of (RQ (RV 0 0 (3/5)) (4/5)) (RV 1 2 3)) (RV 25 0 0) = RV 8 26 3.
Proof.
  split; [apply dq_of_unit; unfold unitq; specu; field|]. apply rv_eq; specu; field.
Qed.

(** ** C16 *)
(** The methods that mutate their receiver (copy returns an equal object). *)
Inductive mutation := CallToPose | CallToMatrix | CallNormalize | CallEnforce | CallCopy.
Definition apply_mutation (m : mutation) (a : dquat (N:=XR)) : res (dquat (N:=XR)) :=
  match m with
  | CallToPose => Ok (fst (to_pose a))
  | CallToMatrix => Ok (fst (to_matrix a))
  | CallNormalize => Ok (dnormalize a)
  | CallEnforce => enforce_positive_w a
  | CallCopy => Ok a
  end.
Fixpoint apply_all (l : list mutation) (a : dquat) : res dquat :=
  match l with [] => Ok a | m :: l' => do b <- apply_mutation m a; apply_all l' b end.

Definition same_motion (a c : rdq) : Prop :=
  tiny < hnorm (dr c) /\
  (dqnormalize c = dqnormalize a \/
   (qs (dr (dqnormalize a)) <> 0 /\ dqnormalize c = dqneg (dqnormalize a))).

Lemma enforce_in a : tiny < hnorm (dr a) ->
  enforce_positive_w (inD a) = Ok (inD (if Rlt_dec (qs (dr a)) 0 then dqneg a else a)).
Proof.
  intros H. unfold enforce_positive_w. rewrite dnorm_big by easy. cbn [bind fst].
  rewrite assert_true. 2:{ cbn [ltb XR lit xltb]. rewrite Rlit_1e8. now apply Rltb_t. }
  unfold inD at 1; cbn [rot]. unfold n0; cbn [ltb XR lit xltb inQ qw Rlit]. unfold Rltb.
  destruct (Rlt_dec (qs (dr a)) 0); [now rewrite dneg_in|easy].
Qed.
Lemma to_matrix_in a : 0 < hnorm (dr a) ->
  to_matrix (inD a) = (inD (dqnormalize a),
                       inH (HM (rot_matrix (dr (dqnormalize a))) (trans_of (dqnormalize a)))).
Proof.
  intros H. unfold to_matrix. rewrite dnormalize_in by easy. fold (dqnormalize a).
  rewrite to_pose_in by (rewrite dqnormalize_hnorm by easy; lra).
  rewrite dqnormalize_idem by easy.
  change (rot (inD (dqnormalize a))) with (inQ (dr (dqnormalize a))).
  rewrite to_rotation_matrix_in. reflexivity.
Qed.
Lemma dqnormalize_neg a : dqnormalize (dqneg a) = dqneg (dqnormalize a).
Proof.
  unfold dqnormalize, dqneg; cbn [dr dd]. unfold hnorm. rewrite hnorm2_neg.
  apply rdq_eq; cbn [dqscale dr dd]; qring.
Qed.
Lemma same_motion_step m a c : same_motion a c ->
  exists d, apply_mutation m (inD c) = Ok (inD d) /\ same_motion a d.
Proof.
  intros [H S]. assert (P : 0 < hnorm (dr c)) by (unfold tiny in H; lra).
  assert (SN : same_motion a (dqnormalize c)).
  { split; [rewrite dqnormalize_hnorm by easy; unfold tiny; lra|].
    rewrite dqnormalize_idem by easy. exact S. }
  destruct m; cbn [apply_mutation].
  - rewrite to_pose_in by easy. eexists; split; [reflexivity|]. exact SN.
  - rewrite to_matrix_in by easy. eexists; split; [reflexivity|]. exact SN.
  - rewrite dnormalize_in by easy. eexists; split; [reflexivity|]. exact SN.
  - rewrite enforce_in by easy. eexists; split; [reflexivity|].
    destruct (Rlt_dec (qs (dr c)) 0) as [L|]; [|now split].
    split; [unfold dqneg, hnorm; cbn [dr]; rewrite hnorm2_neg; exact H|].
    rewrite dqnormalize_neg.
    assert (Q : qs (dr (dqnormalize c)) <> 0).
    { unfold dqnormalize; cbn [dqscale dr hscale qs].
      pose proof (Rinv_0_lt_compat _ P). nra. }
    destruct S as [S|[S1 S]].
    + right. rewrite <- S. split; [easy|reflexivity].
    + left. now rewrite S, dqneg_neg.
  - eexists; split; [reflexivity|]. now split.
Qed.
Lemma same_motion_pose a c : 0 < hnorm (dr a) -> same_motion a c ->
  snd (to_pose (inD c)) = snd (to_pose (inD a)) /\ snd (to_matrix (inD c)) = snd (to_matrix (inD a)).
Proof.
  intros P [H S]. assert (Pc : 0 < hnorm (dr c)) by (unfold tiny in H; lra).
  rewrite !to_pose_in, !to_matrix_in by easy. cbn [snd].
  destruct S as [->|[Q ->]]; [easy|]. rewrite trans_of_neg. unfold dqneg; cbn [dr].
  rewrite rot_matrix_neg. split; [|easy]. f_equal. unfold pos_w. cbn [hneg qs].
  set (n := dr (dqnormalize a)) in *.
  destruct (Rlt_dec (qs n) 0), (Rlt_dec (- qs n) 0); try lra; [easy|apply hneg_neg].
Qed.

Theorem C16_history : forall (l : list mutation) (a : rdq), 1 / 100000000 < hnorm (dr a) ->
  exists b, apply_all l (inD a) = Ok b /\
    snd (to_pose b) = snd (to_pose (inD a)) /\
    snd (to_matrix b) = snd (to_matrix (inD a)) /\
    (exists t q, snd (to_pose b) = inP t q /\ unitq q /\ 0 <= qs q).
Proof.
  intros l a H. assert (P : 0 < hnorm (dr a)) by lra.
  assert (G : forall c, same_motion a c -> exists d, apply_all l (inD c) = Ok (inD d) /\ same_motion a d).
  { induction l as [|m l IH]; intros c S.
    - exists c. now split.
    - destruct (same_motion_step m a c S) as (d & E & S'). cbn [apply_all]. rewrite E. cbn [bind].
      now apply IH. }
  destruct (G a) as (d & E & S).
  { split; [exact H|now left]. }
  exists (inD d). destruct (same_motion_pose a d P S) as [E1 E2].
  split; [exact E|]. split; [exact E1|]. split; [exact E2|].
  rewrite E1, to_pose_in by easy. eexists _, _; split; [reflexivity|]. unfold pos_w.
  pose proof (dqnormalize_unit_rot a P) as Ur.
  destruct (Rlt_dec (qs (dr (dqnormalize a))) 0).
  - split; [unfold unitq; now rewrite hnorm2_neg|cbn [hneg qs]; lra].
  - split; [easy|lra].
Qed.

(** A dual quaternion that is neither normalised nor of positive scalar part. *)
Example C16_example : 1 / 100000000 < hnorm (dr (RD (RQ (RV 1 2 3) (-4)) (RQ (RV 5 6 7) 8))).
Proof.
  unfold hnorm; specu. apply Rle_lt_trans with (sqrt 1).
  - rewrite sqrt_1; lra.
  - apply sqrt_lt_1; lra.
Qed.

(** ** C17 *)
Theorem C17_constructor_accepts_all : forall (N : Num) (r d : quat (N:=N)),
  dq_init r d = Ok (mkDQ r d).
Proof. reflexivity. Qed.

Theorem C17_is_normalized : forall a : rdq, 1 / 100000000 < hnorm (dr a) ->
  exists b, is_normalized (inD a) = Ok b /\
    (b = true <-> Rabs (hnorm (dr a) - 1) < 1 / 100000000 /\
                  Rabs (hdot (dr a) (dd a)) / hnorm (dr a) < 1 / 100000000).
Proof.
  intros a H. unfold is_normalized. rewrite dnorm_big by easy. cbn [bind fst snd].
  eexists; split; [reflexivity|]. rewrite andb_true_iff. cbn [ltb XR lit xltb absv sub xsub xabs n1].
  rewrite Rlit_1e8, !Rltb_iff. cbn [Rlit]. change (IZR 1) with 1.
  assert (E : Rabs (hdot (dr a) (dd a) / hnorm (dr a)) = Rabs (hdot (dr a) (dd a)) / hnorm (dr a)).
  { unfold Rdiv. rewrite Rabs_mult, (Rabs_pos_eq (/ hnorm (dr a))); [easy|].
    apply Rlt_le, Rinv_0_lt_compat; lra. }
  rewrite E. reflexivity.
Qed.

Theorem C17_normalize : forall a : rdq, 0 < hnorm (dr a) ->
  exists b, dnormalize (inD a) = inD b /\ hnorm (dr b) = 1 /\
    hdot (dr b) (dd b) = hdot (dr a) (dd a) / (hnorm (dr a) * hnorm (dr a)).
Proof.
  intros a H. rewrite dnormalize_in by easy. eexists; split; [reflexivity|].
  split; [now apply dqnormalize_hnorm|].
  destruct a as [[[] ?] [[] ?]]. unfold dqscale; cbn [dr dd].
  set (n := hnorm _) in *. specu. field. lra.
Qed.

(** normalize() does not establish is_normalized() *)
Theorem C17_normalize_refuted :
  exists a : rdq, is_normalized (dnormalize (inD a)) = Ok false /\ 0 < hnorm (dr a).
Proof.
  exists (RD hone hone).
  assert (E : hnorm hone = 1) by (apply unit_hnorm; unfold unitq; specu; ring).
  split; [|cbn [dr]; lra]. rewrite dnormalize_in by (cbn [dr]; lra). cbn [dr]. rewrite E.
  replace (/ 1) with 1 by field. rewrite dqscale_1.
  destruct (C17_is_normalized (RD hone hone)) as (b & -> & Hb); [cbn [dr]; lra|].
  destruct b; [|easy]. destruct Hb as [Hb _]. destruct (Hb eq_refl) as [_ C].
  cbn [dr dd] in C. rewrite E in C. replace (hdot hone hone) with 1 in C by (specu; ring).
  rewrite Rabs_R1 in C. lra.
Qed.

(** ** C18 *)
Theorem C18_screw_congruence : forall a b x : rdq, unitdq x ->
  dmul (inD a) (inD x) = dmul (inD x) (inD b) ->
  exists s, scalar (inD a) = Ok s /\ scalar (inD b) = Ok s.
Proof.
  intros a b x U E. rewrite !dmul_in in E. apply inD_inj in E.
  destruct (screw_congruence a b x U E) as [E1 E2]. rewrite !scalar_in, E1, E2. eauto.
Qed.

Theorem C18_conjugate : forall a x : rdq, unitdq x ->
  exists i b, dinv (inD x) = Ok (inD i) /\ dmul (dmul (inD i) (inD a)) (inD x) = inD b /\
    dmul (inD a) (inD x) = dmul (inD x) (inD b).
Proof.
  intros a x U. exists (dqinv x), (dqmul (dqmul (dqinv x) a) x).
  rewrite dinv_big by now apply unitdq_tiny. rewrite !dmul_in. repeat split.
  now rewrite <- conj_equation.
Qed.

Theorem C18_scalar : forall a : rdq,
  scalar (inD a) = Ok (inD (RD (RQ (RV 0 0 0) (qs (dr a))) (RQ (RV 0 0 0) (qs (dd a))))).
Proof. apply scalar_in. Qed.

Example C18_example :
  let x := dq_of (RQ (RV 0 0 (3/5)) (4/5)) (RV 1 2 3) in
  let a := dq_of (RQ (RV 1 0 0) 0) (RV 0 1 0) in
  let b := dqmul (dqmul (dqconj x) a) x in
  unitdq x /\ dqmul a x = dqmul x b /\ b <> a.
Proof.
  intros x a b. assert (U : unitdq x) by (apply dq_of_unit; unfold unitq; specu; field).
  repeat split; try apply U.
  - unfold b. rewrite <- unitdq_inv_conj by easy. now apply conj_equation.
  - intros E. apply (f_equal (fun q => v2 (qv (dr q)))) in E. revert E. unfold b, x, a.
    specu. lra.
Qed.

(** ** C19 *)
Theorem C19_screw : forall a : rdq, unitdq a ->
  exists (axis : rv) (rotation translation : R),
    screw_axis (inD a) = (inV axis, Fin rotation, Fin translation) /\
    0 <= rotation < 360 /\
    (1 / 1000000000000 < rotation ->
       dot3 axis axis = 1 /\
       qs (dr a) = cos (rotation * (PI / 180) / 2) /\
       qv (dr a) = vscale (sin (rotation * (PI / 180) / 2)) axis /\
       translation = dot3 (trans_of a) axis) /\
    (qv (dr a) = RV 0 0 0 ->
       rotation = 0 /\ translation = len3 (trans_of a) /\
       (1 / 1000000000000 < translation ->
          dot3 axis axis = 1 /\ trans_of a = vscale (qs (dr a) * translation) axis) /\
       (translation <= 1 / 1000000000000 -> axis = RV 0 0 0)).
Proof.
  intros a U. pose proof (proj1 U) as Ur. pose proof (unit_qs_bound _ Ur) as B.
  pose proof (turn_mod_range _ B) as TR.
  destruct (Rlt_dec eps12 (turn_mod (qs (dr a)))) as [T|T].
  - destruct (screw_axis_rot a Ur T) as [S E]. rewrite E. eexists _, _, _; split; [reflexivity|].
    split; [easy|]. split.
    + intros _. set (s := len3 (qv (dr a))) in *. set (w := qs (dr a)) in *.
      assert (W : w <> -1).
      { intros W. unfold turn_mod, eps12 in T. destruct (Req_EM_T w (-1)); lra. }
      assert (TT : turn_mod w = turn_deg w) by (unfold turn_mod; destruct (Req_EM_T w (-1)); lra).
      pose proof (len3_sqr (qv (dr a))) as L. fold s in L.
      assert (S2 : s * s = 1 - w * w).
      { rewrite L. unfold unitdq, hnorm2, hdot in U. fold w in U. lra. }
      pose proof PI_RGT_0.
      assert (A : turn_mod w * (PI / 180) / 2 = acos w) by (rewrite TT; unfold turn_deg; field; lra).
      rewrite A, cos_acos, acos_sin by lra.
      assert (SS : sqrt (1 - w * w) = s) by (rewrite <- S2; apply sqrt_square; lra).
      rewrite SS. repeat split.
      * destruct (qv (dr a)) as [x y z] eqn:Q. unfold dot3, vscale in *; simpl in *.
        replace (/ s * x * (/ s * x) + / s * y * (/ s * y) + / s * z * (/ s * z))
          with (/ s * / s * (x * x + y * y + z * z)) by ring.
        rewrite <- L. field; lra.
      * apply rv_eq; simpl; field; lra.
      * transitivity (/ s * dot3 (trans_of a) (qv (dr a))).
        { rewrite trans_dot_axis by easy. field; lra. }
        unfold dot3, vscale; simpl; ring.
    + intros Z. exfalso. unfold len3 in S. rewrite Z in S. unfold dot3 in S; simpl in S.
      replace (0 * 0 + 0 * 0 + 0 * 0) with 0 in S by ring. rewrite sqrt_0 in S; lra.
  - rewrite (screw_axis_norot a Ur) by lra. eexists _, _, _; split; [reflexivity|].
    split; [easy|]. split; [intros; unfold eps12 in T; lra|].
    intros Z. set (w := qs (dr a)) in *.
    assert (W2 : w * w = 1).
    { unfold unitq, hnorm2, hdot in Ur. rewrite Z in Ur. fold w in Ur. unfold dot3 in Ur; simpl in Ur. lra. }
    assert (W : w = 1 \/ w = -1).
    { assert (F : (w - 1) * (w + 1) = 0) by lra. apply Rmult_integral in F as [F|F]; lra. }
    assert (TV : trans_of a = vscale (2 * w) (qv (dd a))).
    { destruct a as [[v w0] [[x y z] w']]. cbn [dr qv] in Z. subst v. unfold w; cbn [dr qs].
      apply rv_eq; specu; ring. }
    assert (TL : len3 (trans_of a) = 2 * len3 (qv (dd a))).
    { rewrite TV. unfold len3, dot3, vscale; simpl.
      set (x := v1 _). set (y := v2 _). set (z := v3 _).
      replace (2 * w * x * (2 * w * x) + 2 * w * y * (2 * w * y) + 2 * w * z * (2 * w * z))
        with (2 * 2 * (x * x + y * y + z * z) * (w * w)) by ring.
      rewrite W2, Rmult_1_r.
      rewrite sqrt_mult_alt, sqrt_square by lra. reflexivity. }
    unfold eps12 in *. split; [|split; [|split]].
    + unfold turn_mod. destruct W as [-> | ->].
      * destruct (Req_EM_T 1 (-1)); [lra|apply turn_1].
      * destruct (Req_EM_T (-1) (-1)); lra.
    + now rewrite TL.
    + intros L. destruct (Rlt_dec (1 / 1000000000000) (2 * len3 (qv (dd a)))); [|lra].
      set (s := len3 (qv (dd a))) in *. pose proof (len3_sqr (qv (dd a))) as L2. fold s in L2.
      split.
      * destruct (qv (dd a)) as [x y z] eqn:Q. unfold dot3, vscale in *; simpl in *.
        replace (/ s * x * (/ s * x) + / s * y * (/ s * y) + / s * z * (/ s * z))
          with (/ s * / s * (x * x + y * y + z * z)) by ring.
        rewrite <- L2. field; lra.
      * rewrite TV. apply rv_eq; simpl; field; lra.
    + intros L. destruct (Rlt_dec (1 / 1000000000000) (2 * len3 (qv (dd a)))); [lra|easy].
Qed.

(** Rotation and translation are invariants of the motion up to conjugation, i.e. they agree for
    the hand motion and the eye motion of a rigid hand-eye pair. *)
Theorem C19_invariant : forall a b x : rdq, unitdq a -> unitdq b -> unitdq x ->
  dqmul a x = dqmul x b ->
  exists axis_a axis_b rotation ta tb,
    screw_axis (inD a) = (inV axis_a, Fin rotation, Fin ta) /\
    screw_axis (inD b) = (inV axis_b, Fin rotation, Fin tb) /\
    (1 / 1000000000000 < rotation \/ qv (dr a) = RV 0 0 0 -> ta = tb).
Proof.
  intros a b x Ua Ub Ux E. destruct (screw_congruence a b x Ux E) as [E1 E2].
  pose proof (proj1 Ua) as Ura. pose proof (proj1 Ub) as Urb.
  assert (LV : len3 (qv (dr a)) = len3 (qv (dr b))).
  { unfold len3. f_equal. unfold unitq, hnorm2, hdot in *. rewrite E1 in Ura. lra. }
  destruct (Rlt_dec eps12 (turn_mod (qs (dr a)))) as [T|T].
  - destruct (screw_axis_rot a Ura T) as [S ->].
    destruct (screw_axis_rot b Urb) as [S' ->]; [now rewrite <- E1|].
    eexists _, _, _, _, _. split; [reflexivity|]. rewrite <- E1, <- E2, <- LV. split; [reflexivity|].
    easy.
  - rewrite (screw_axis_norot a Ura) by lra.
    rewrite (screw_axis_norot b Urb) by (rewrite <- E1; lra).
    eexists _, _, _, _, _. split; [reflexivity|]. rewrite <- E1. split; [reflexivity|].
    intros [C|Z]; [unfold eps12 in T; lra|].
    (* pure translation *)
    assert (Zb : qv (dr b) = RV 0 0 0).
    { pose proof (len3_sqr (qv (dr b))) as L. rewrite <- LV in L.
      unfold len3 in L. rewrite Z in L. unfold dot3 in L. simpl in L.
      replace (0 * 0 + 0 * 0 + 0 * 0) with 0 in L by ring. rewrite sqrt_0 in L.
      apply rv_eq; simpl; nra. }
    assert (Da : qs (dd a) = 0).
    { destruct Ua as [Ua Da]. unfold hdot in Da. rewrite Z in Da. unfold hnorm2, hdot in Ua.
      rewrite Z in Ua. unfold dot3 in *; simpl in *. nra. }
    assert (Db : qs (dd b) = 0) by congruence.
    assert (N : hnorm2 (dd a) = hnorm2 (dd b)).
    { (* a x = x b, with dr a = dr b = w : dd a * x = x * dd b *)
      assert (Ed : hmul (dd a) (dr x) = hmul (dr x) (dd b)).
      { pose proof (f_equal dd E) as Ed. unfold dqmul in Ed; cbn [dd] in Ed.
        assert (C : hmul (dr a) (dd x) = hmul (dd x) (dr b)).
        { destruct a as [[va wa] da], b as [[vb wb] db]. cbn [dr qv qs] in *. subst va vb wa. qring. }
        rewrite C in Ed. apply (f_equal (hadd (hneg (hmul (dd x) (dr b))))) in Ed.
        set (p := hmul (dd x) (dr b)) in *. set (q := hmul (dd a) (dr x)) in *.
        set (r := hmul (dr x) (dd b)) in *. clearbody p q r. clear - Ed.
        assert (K : forall u, hadd (hneg p) (hadd p u) = u) by (intros; qring).
        assert (K2 : hadd r p = hadd p r) by qring.
        now rewrite K2, !K in Ed. }
      apply (f_equal hnorm2) in Ed. rewrite !hnorm2_mul in Ed. rewrite (proj1 Ux) in Ed. lra. }
    unfold hnorm2, hdot in N. rewrite Da, Db in N. f_equal. unfold len3. f_equal. lra.
Qed.

Example C19_example : unitdq (dq_of (RQ (RV 0 0 (3/5)) (-4/5)) (RV 1 2 3)) /\
  unitdq (dq_of (RQ (RV 0 0 0) (-1)) (RV 1 2 3)).
Proof. split; apply dq_of_unit; unfold unitq; specu; field. Qed.

(** For rot = -1 (the other sign of a pure translation) the reported axis is the opposite of the
    translation direction although the reported translation is positive. *)
Theorem C19_translation_direction_refuted :
  exists a : rdq, unitdq a /\
    screw_axis (inD a) = (inV (RV (-1) 0 0), Fin 0, Fin 2) /\ trans_of a = RV 2 0 0.
Proof.
  exists (RD (RQ (RV 0 0 0) (-1)) (RQ (RV (-1) 0 0) 0)).
  split; [split; specu; ring|]. split; [|apply rv_eq; specu; ring].
  assert (L : len3 (RV (-1) 0 0) = 1).
  { unfold len3, dot3; simpl. replace (-1 * -1 + 0 * 0 + 0 * 0) with 1 by ring. apply sqrt_1. }
  assert (T0 : turn_mod (-1) = 0) by (unfold turn_mod; destruct (Req_EM_T (-1) (-1)); lra).
  rewrite screw_axis_norot.
  - cbn [dr dd qs qv]. rewrite L, T0. destruct (Rlt_dec eps12 (2 * 1)) as [_|C]; [|unfold eps12 in C; lra].
    replace (2 * 1) with 2 by ring. unfold inV; simpl.
    replace (/ 1 * -1) with (-1) by field. replace (/ 1 * 0) with 0 by field. reflexivity.
  - unfold unitq; specu; ring.
  - cbn [dr qs]. rewrite T0. unfold eps12; lra.
Qed.

(** ** C20 *)
Lemma upper_left_H h : upper_left (inH h) = inM (hm_rot h).
Proof. destruct h as [[[] [] []] []]; reflexivity. Qed.
Lemma last_column_H h : last_column (inH h) = inV (hm_t h).
Proof. destruct h as [[[] [] []] []]; reflexivity. Qed.

Theorem C20_roundtrip : forall a : rdq, unitdq a -> qs (dr a) <> 0 ->
  exists b, from_transformation_matrix (snd (to_matrix (inD a))) = inD b /\
    (b = a \/ b = dqneg a) /\ 0 < qs (dr b).
Proof.
  intros a U W. rewrite to_matrix_unit by easy. cbn [snd]. unfold from_transformation_matrix.
  rewrite upper_left_H, last_column_H. cbn [hm_rot hm_t]. rewrite <- to_rotation_matrix_in.
  pose proof (proj1 U) as Ur.
  rewrite roundtrip_quat by (easy || lra). destruct (Rlt_dec 0 (qs (dr a))).
  - rewrite from_pose_unit by easy. exists a. rewrite dq_of_trans by easy. auto.
  - rewrite from_pose_unit by (unfold unitq; now rewrite hnorm2_neg).
    exists (dqneg a). rewrite <- (trans_of_neg a). change (hneg (dr a)) with (dr (dqneg a)).
    rewrite dq_of_trans by now apply unitdq_neg. repeat split; auto. simpl; lra.
Qed.

(** and in the other direction, for every homogeneous matrix whose rotation is not a half turn *)
Theorem C20_matrix_roundtrip : forall (m : rm) (t : rv), is_rotation m -> mtrace m <> -1 ->
  snd (to_matrix (from_transformation_matrix (inH (HM m t)))) = inH (HM m t).
Proof.
  intros m t R T. unfold from_transformation_matrix.
  rewrite upper_left_H, last_column_H. cbn [hm_rot hm_t].
  pose proof (rotation_trace_ge m R) as TG.
  assert (P : 0 < 1 + mtrace m) by lra.
  pose proof (roundtrip_matrix m R P) as RT. rewrite from_rotation_matrix_in in * by easy.
  set (q := RQ _ _) in *.
  rewrite to_rotation_matrix_in in RT.
  assert (RQm : rot_matrix q = m).
  { assert (INJ : forall a b, inM a = inM b -> a = b).
    { intros [[] [] []] [[] [] []] H. unfold inM, inV in H. simpl in H. injection H. intros; subst. easy. }
    now apply INJ. }
  assert (U : unitq q).
  { pose proof (f_equal (fun m => 1 + mtrace m) RQm) as TQ; cbn beta in TQ.
    (* first row of the rotation matrix gives the norm via the trace: 1 + tr = 4 - 4 |v|^2 *)
    unfold unitq, hnorm2, hdot, dot3.
    assert (TV : 1 + mtrace (rot_matrix q)
               = 4 - 4 * (v1 (qv q) * v1 (qv q) + v2 (qv q) * v2 (qv q) + v3 (qv q) * v3 (qv q))).
    { unfold rot_matrix, mtrace; simpl. ring. }
    assert (QW : qs q * qs q = (1 + mtrace m) / 4).
    { unfold q; cbn [qs]. pose proof (sqrt_sqrt (1 + mtrace m) ltac:(lra)). lra. }
    lra. }
  rewrite from_pose_unit by easy. rewrite to_matrix_unit by now apply dq_of_unit.
  cbn [snd dq_of dr]. f_equal. f_equal; [easy|]. now apply (trans_dq_of q).
Qed.

(** Half turns: no exception; every component of the rotation axis is NaN. *)
Theorem C20_half_turn : forall a : rdq, unitdq a -> qs (dr a) = 0 ->
  rot (from_transformation_matrix (snd (to_matrix (inD a)))) = mkQ (N:=XR) NaN NaN NaN (Fin 0).
Proof.
  intros a U W. rewrite to_matrix_unit by easy. cbn [snd]. unfold from_transformation_matrix.
  rewrite upper_left_H, last_column_H. cbn [hm_rot hm_t]. rewrite <- to_rotation_matrix_in.
  destruct (roundtrip_quat_halfturn (dr a) (proj1 U) W) as (x & y & z & -> & -> & -> & ->).
  unfold from_pose. cbn [rot]. reflexivity.
Qed.

Example C20_example : unitdq (dq_of (RQ (RV 0 0 (3/5)) (-4/5)) (RV 1 2 3)) /\
  unitdq (dq_of (RQ (RV 0 1 0) 0) (RV 1 2 3)).
Proof. split; apply dq_of_unit; unfold unitq; specu; field. Qed.

(** ** C21 *)
Lemma Forall2_cons_iff {A B} (P : A -> B -> Prop) x y l k :
  Forall2 P (x :: l) (y :: k) <-> P x y /\ Forall2 P l k.
Proof. split; [now inversion 1|intros []; now constructor]. Qed.
Definition components (a : rdq) : list R :=
  [v1 (qv (dr a)); v2 (qv (dr a)); v3 (qv (dr a)); qs (dr a);
   v1 (qv (dd a)); v2 (qv (dd a)); v3 (qv (dd a)); qs (dd a)].
Definition close (x y : R) : Prop := Rabs (x - y) <= 1 / 100000000 + 1 / 100000 * Rabs y.

Lemma dual_eq_iff a b : dual_eq (inD a) (DOpDQ (inD b)) = true <->
  Forall2 close (components a) (components b).
Proof.
  unfold dual_eq, dq_list, q_list, inD, inQ. cbn [rot dual qx qy qz qw app].
  unfold atol_default. cbn [lit XR allclose]. rewrite Rlit_1e8.
  rewrite !andb_true_iff. rewrite !isclose_fin, !Rleb_iff. unfold components. fold (close (v1 (qv (dr a))) (v1 (qv (dr b)))).
  split.
  - intros (H1 & H2 & H3 & H4 & H5 & H6 & H7 & H8 & _).
    do 8 (apply Forall2_cons; [assumption|]). apply Forall2_nil.
  - intros H. do 8 (apply Forall2_cons_iff in H; destruct H as [? H]). unfold close in *. tauto.
Qed.

Theorem C21_eq : forall a b : rdq,
  dual_eq (inD a) (DOpDQ (inD b)) = true <-> Forall2 close (components a) (components b).
Proof. exact dual_eq_iff. Qed.

Theorem C21_reflexive : forall a : rdq, dual_eq (inD a) (DOpDQ (inD a)) = true.
Proof.
  intros a. apply dual_eq_iff. unfold components.
  assert (R : forall x, close x x).
  { intros x. unfold close. replace (x - x) with 0 by ring. rewrite Rabs_R0. pose proof (Rabs_pos x). lra. }
  do 8 (apply Forall2_cons; [apply R|]). apply Forall2_nil.
Qed.

Definition shift (d : R) : rdq := RD hone (RQ (RV d 0 0) 0).
Lemma shift_unit d : unitdq (shift d).
Proof. split; unfold shift; specu; ring. Qed.
Lemma shift_eq d e : dual_eq (inD (shift d)) (DOpDQ (inD (shift e))) = true <-> close d e.
Proof.
  rewrite dual_eq_iff. unfold components, shift; simpl. split.
  - intros H. do 4 (apply Forall2_cons_iff in H as [_ H]). now apply Forall2_cons_iff in H as [H _].
  - intros H. assert (Z : forall x, close x x).
    { intros x. unfold close. replace (x - x) with 0 by ring. rewrite Rabs_R0.
      pose proof (Rabs_pos x). lra. }
    do 8 (apply Forall2_cons; [exact H || apply Z|]). apply Forall2_nil.
Qed.

Theorem C21_not_symmetric : exists a b : rdq, unitdq a /\ unitdq b /\
  dual_eq (inD a) (DOpDQ (inD b)) = true /\ dual_eq (inD b) (DOpDQ (inD a)) = false.
Proof.
  exists (shift (100000 - 1)), (shift 100000). repeat split; try apply shift_unit.
  - apply shift_eq. unfold close. replace (100000 - 1 - 100000) with (Ropp 1) by ring.
    rewrite Rabs_Ropp, Rabs_R1, Rabs_pos_eq by lra. lra.
  - apply not_true_iff_false. rewrite shift_eq. unfold close.
    replace (100000 - (100000 - 1)) with 1 by ring. rewrite Rabs_R1, Rabs_pos_eq by lra. lra.
Qed.

Theorem C21_not_transitive : exists a b c : rdq, unitdq a /\ unitdq b /\ unitdq c /\
  dual_eq (inD a) (DOpDQ (inD b)) = true /\ dual_eq (inD b) (DOpDQ (inD c)) = true /\
  dual_eq (inD a) (DOpDQ (inD c)) = false.
Proof.
  exists (shift 0), (shift (1 / 100000000)), (shift (2 / 100000000)). repeat split; try apply shift_unit.
  - apply shift_eq. unfold close. rewrite <- Rabs_Ropp. rewrite !Rabs_pos_eq by lra. lra.
  - apply shift_eq. unfold close. rewrite <- Rabs_Ropp. rewrite !Rabs_pos_eq by lra. lra.
  - apply not_true_iff_false. rewrite shift_eq. unfold close. rewrite <- Rabs_Ropp.
    rewrite !Rabs_pos_eq by lra. lra.
Qed.

(** dq and -dq are the same pose (C14_composition) but never compare equal when unit. *)
Theorem C21_sign : forall a : rdq, unitdq a -> dual_eq (inD a) (DOpDQ (inD (dqneg a))) = false.
Proof.
  intros a [U _]. apply not_true_iff_false. rewrite dual_eq_iff. intros H.
  assert (S : forall x, close x (-1 * x) -> Rabs x <= 1 / 100000000).
  { intros x. unfold close. replace (x - -1 * x) with (2 * x) by ring.
    replace (-1 * x) with (- x) by ring. rewrite Rabs_Ropp, Rabs_mult, (Rabs_pos_eq 2) by lra.
    pose proof (Rabs_pos x). lra. }
  assert (S' : forall x, close x (- x) -> Rabs x <= 1 / 100000000).
  { intros x C. apply S. now replace (-1 * x) with (- x) by ring. }
  destruct a as [[[x y z] w] d]. unfold components, dqneg in H; simpl in H.
  apply Forall2_cons_iff in H as [C1 H]. apply Forall2_cons_iff in H as [C2 H].
  apply Forall2_cons_iff in H as [C3 H]. apply Forall2_cons_iff in H as [C4 _].
  apply S in C1, C2, C3. apply S' in C4.
  unfold hnorm2 in U. specu.
  assert (Q : forall x, Rabs x <= 1 / 100000000 -> x * x <= 1 / 100000000 * (1 / 100000000)).
  { clear. intros x H. rewrite <- Rabs_sq. pose proof (Rabs_pos x). apply Rmult_le_compat; lra. }
  pose proof (Q _ C1). pose proof (Q _ C2). pose proof (Q _ C3). pose proof (Q _ C4). lra.
Qed.

Theorem C21_other_type : forall (N : Num) (a : dquat (N:=N)) (t : T),
  dual_eq a (DOpNum t) = false /\ dual_eq a DOpOther = false.
Proof. split; reflexivity. Qed.

(** Values that are not finite: an infinity is close only to itself, NaN to nothing. *)
Definition close_x (x y : xr) : Prop :=
  match x, y with Fin a, Fin b => close a b | PInf, PInf => True | NInf, NInf => True | _, _ => False end.
Definition values (a : dquat (N:=XR)) : list xr :=
  [qx (rot a); qy (rot a); qz (rot a); qw (rot a); qx (dual a); qy (dual a); qz (dual a); qw (dual a)].
Theorem C21_all_values : forall a b : dquat (N:=XR), dual_eq a (DOpDQ b) = true <-> Forall2 close_x (values a) (values b).
Proof.
  intros a b.
  assert (C : forall x y : xr, isclose (N:=XR) atol_default x y = true <-> close_x x y).
  { intros x y. unfold isclose, isclose_gen, atol_default. cbn [isfin XR]. destruct x as [x| | |], y as [y| | |]; cbn; try easy.
    rewrite Rleb_iff. reflexivity. }
  unfold values, dual_eq, dq_list, q_list. cbn [app allclose]. rewrite !andb_true_iff, !C. split.
  - intros (H1 & H2 & H3 & H4 & H5 & H6 & H7 & H8 & _). do 8 (apply Forall2_cons; [assumption|]). apply Forall2_nil.
  - intros H. do 8 (apply Forall2_cons_iff in H; destruct H as [? H]). tauto.
Qed.
(** equal with an infinite component; not equal to the same with a number in its place, nor with NaN even to itself *)
Example C21_values_example : let q c := mkDQ (mkQ (N:=XR) (Fin 0) (Fin 0) (Fin 0) (Fin 1)) (mkQ c (Fin 0) (Fin 0) (Fin 0)) in
  dual_eq (q PInf) (DOpDQ (q PInf)) = true /\ dual_eq (q (Fin 1)) (DOpDQ (q PInf)) = false /\ dual_eq (q NaN) (DOpDQ (q NaN)) = false.
Proof.
  assert (R : forall x, close x x).
  { intros x. unfold close. replace (x - x) with 0 by ring. rewrite Rabs_R0. pose proof (Rabs_pos x). lra. }
  cbv zeta. split; [|split].
  - apply C21_all_values. unfold values. cbn [rot dual qx qy qz qw]. repeat apply Forall2_cons; try apply Forall2_nil; cbn; auto.
  - apply not_true_iff_false. rewrite C21_all_values. unfold values. cbn [rot dual qx qy qz qw]. intros H.
    do 4 (apply Forall2_cons_iff in H as [_ H]). apply Forall2_cons_iff in H as [H _]. exact H.
  - apply not_true_iff_false. rewrite C21_all_values. unfold values. cbn [rot dual qx qy qz qw]. intros H.
    do 4 (apply Forall2_cons_iff in H as [_ H]). apply Forall2_cons_iff in H as [H _]. exact H.
Qed.
