(** * Reduction of the dual quaternion model on finite inputs, and algebra of rigid motions. *)

From Coq Require Import Reals ZArith Bool List Lra Psatz.
From Verif Require Import Num Py XReal XFacts Quat DualQuat Spec Embed QuatFacts QuatTrig QuatRot.
Import ListNotations.
Local Open Scope R_scope.

Lemma rdq_eq a b : dr a = dr b -> dd a = dd b -> a = b.
Proof. destruct a, b; simpl; congruence. Qed.
Lemma inD_eq a b : dr a = dr b -> dd a = dd b -> inD a = inD b.
Proof. intros; f_equal; now apply rdq_eq. Qed.

Lemma dmul_in a b : dmul (inD a) (inD b) = inD (dqmul a b).
Proof. unfold dmul, inD; cbn [rot dual]. now rewrite !qmul_in, qadd_in. Qed.
Lemma dadd_in a b : dadd (inD a) (inD b) = inD (dqadd a b).
Proof. reflexivity. Qed.
Lemma dneg_in a : dneg (inD a) = inD (dqneg a).
Proof. unfold dneg, inD; cbn [rot dual]. now rewrite !qneg_in. Qed.
Lemma dconj_in a : dconj (inD a) = inD (dqconj a).
Proof. unfold dconj, inD; cbn [rot dual]. now rewrite !qconj_in. Qed.
Lemma dscale_in a t : dscale (inD a) (Fin t) = inD (dqscale t a).
Proof. unfold dscale, inD; cbn [rot dual]. now rewrite !qscale_in. Qed.
Lemma dscale_l_in a t : dscale_l (N:=XR) (Fin t) (inD a) = inD (dqscale t a).
Proof. reflexivity. Qed.
Lemma didentity_in : didentity (N:=XR) = inD dqone.
Proof. reflexivity. Qed.

Definition tiny : R := 1 / 100000000.

Lemma dnorm_big a : tiny < hnorm (dr a) ->
  dnorm (inD a) = Ok (Fin (hnorm (dr a)), Fin (hdot (dr a) (dd a) / hnorm (dr a))).
Proof.
  unfold tiny; intros. unfold dnorm, inD; cbn [rot dual]. rewrite qnorm_in.
  rewrite assert_true. 2:{ cbn [ltb XR lit xltb]. rewrite Rlit_1e8. now apply Rltb_t. }
  rewrite qdot_in. cbn [div XR]. rewrite xdiv_fin by lra. reflexivity.
Qed.
Lemma dnorm_small a : hnorm (dr a) <= tiny -> dnorm (inD a) = Err AssertionError.
Proof.
  unfold tiny; intros. unfold dnorm, inD; cbn [rot dual]. rewrite qnorm_in.
  rewrite assert_false; [easy|]. cbn [ltb XR lit xltb]. rewrite Rlit_1e8. now apply Rltb_f.
Qed.

(** Inverse of an invertible dual quaternion. *)
Definition dqinv (a : rdq) : rdq :=
  let i := hinv (dr a) in RD i (hmul (hmul (hneg i) (dd a)) i).

Lemma dinv_big a : tiny < hnorm (dr a) -> dinv (inD a) = Ok (inD (dqinv a)).
Proof.
  intros H. unfold dinv. rewrite dnorm_big by easy. cbn [bind fst].
  rewrite assert_true.
  2:{ cbn [ltb XR lit xltb]. rewrite Rlit_1e8. now apply Rltb_t. }
  assert (hnorm2 (dr a) <> 0) by (apply hnorm_pos_iff; unfold tiny in H; lra).
  unfold inD at 1 2 3 4; cbn [rot dual]. rewrite qinv_in by easy.
  rewrite qneg_in, !qmul_in. reflexivity.
Qed.
Lemma dinv_small a : hnorm (dr a) <= tiny -> dinv (inD a) = Err AssertionError.
Proof. intros H. unfold dinv. now rewrite dnorm_small. Qed.

Lemma hmul_neg_l p q : hmul (hneg p) q = hneg (hmul p q).
Proof. qring. Qed.
Lemma hmul_neg_r p q : hmul p (hneg q) = hneg (hmul p q).
Proof. qring. Qed.
Lemma hneg_neg p : hneg (hneg p) = p.
Proof. qring. Qed.
Lemma hadd_neg_r p : hadd p (hneg p) = hzero.
Proof. qring. Qed.
Lemma hadd_neg_l p : hadd (hneg p) p = hzero.
Proof. qring. Qed.
Lemma hmul_0_l p : hmul hzero p = hzero.
Proof. qring. Qed.
Lemma hmul_0_r p : hmul p hzero = hzero.
Proof. qring. Qed.
Lemma hadd_0_l p : hadd hzero p = p.
Proof. qring. Qed.
Lemma hadd_0_r p : hadd p hzero = p.
Proof. qring. Qed.

Lemma dqmul_assoc a b c : dqmul (dqmul a b) c = dqmul a (dqmul b c).
Proof.
  apply rdq_eq; unfold dqmul; cbn [dr dd].
  - apply hmul_assoc.
  - rewrite hmul_add_l, hmul_add_r, !hmul_assoc. qring.
Qed.
Lemma dqmul_1_l a : dqmul dqone a = a.
Proof. apply rdq_eq; unfold dqmul, dqone; cbn [dr dd]; rewrite ?hmul_1_l, ?hmul_0_l, ?hadd_0_r; easy. Qed.
Lemma dqmul_1_r a : dqmul a dqone = a.
Proof. apply rdq_eq; unfold dqmul, dqone; cbn [dr dd]; rewrite ?hmul_1_r, ?hmul_0_r, ?hadd_0_l; easy. Qed.
Lemma dqmul_inv_r a : hnorm2 (dr a) <> 0 -> dqmul a (dqinv a) = dqone.
Proof.
  intros H. apply rdq_eq; unfold dqmul, dqinv, dqone; cbn [dr dd].
  - now apply hmul_inv_r.
  - rewrite !hmul_neg_l, hmul_neg_r, <- !hmul_assoc, hmul_inv_r, hmul_1_l by easy. apply hadd_neg_l.
Qed.
Lemma dqmul_inv_l a : hnorm2 (dr a) <> 0 -> dqmul (dqinv a) a = dqone.
Proof.
  intros H. apply rdq_eq; unfold dqmul, dqinv, dqone; cbn [dr dd].
  - now apply hmul_inv_l.
  - rewrite !hmul_neg_l, !hmul_assoc, hmul_inv_l, hmul_1_r by easy. apply hadd_neg_r.
Qed.
Lemma dqmul_neg_l a b : dqmul (dqneg a) b = dqneg (dqmul a b).
Proof. apply rdq_eq; unfold dqmul, dqneg; cbn [dr dd]; qring. Qed.
Lemma dqmul_neg_r a b : dqmul a (dqneg b) = dqneg (dqmul a b).
Proof. apply rdq_eq; unfold dqmul, dqneg; cbn [dr dd]; qring. Qed.
Lemma dqneg_neg a : dqneg (dqneg a) = a.
Proof. apply rdq_eq; unfold dqneg; cbn [dr dd]; qring. Qed.

(** Unit dual quaternions *)
Lemma unitdq_inv_conj a : unitdq a -> dqinv a = dqconj a.
Proof.
  intros [U D]. assert (E : hinv (dr a) = hconj (dr a)).
  { unfold hinv. rewrite U. replace (/ 1) with 1 by field. apply hscale_1. }
  apply rdq_eq; unfold dqinv, dqconj; cbn [dr dd]; rewrite E; [easy|].
  (* - r* d r* = d*   because r d* + d r* = 2 r.d = 0 *)
  assert (K : hmul (hconj (dr a)) (dd a) = hneg (hmul (hconj (dd a)) (dr a))).
  { destruct a as [[[x y z] w] [[a b c] d]]. unfold hdot, dot3 in D; simpl in D.
    apply rq_eq; specu; lra. }
  rewrite hmul_neg_l, K, hneg_neg, hmul_assoc, unit_conj_r, hmul_1_r by easy. easy.
Qed.
Lemma unitdq_norm a : unitdq a -> hnorm (dr a) = 1.
Proof. intros [U _]. now apply unit_hnorm. Qed.
Lemma unitdq_tiny a : unitdq a -> tiny < hnorm (dr a).
Proof. intros U. rewrite unitdq_norm by easy. unfold tiny; lra. Qed.
Lemma unitdq_n2 a : unitdq a -> hnorm2 (dr a) <> 0.
Proof. intros [U _]. rewrite U; lra. Qed.
Lemma hdot_mul_l p q r : hdot (hmul p q) (hmul p r) = hnorm2 p * hdot q r.
Proof. destruct p as [[] ?], q as [[] ?], r as [[] ?]. specu; ring. Qed.
Lemma hdot_mul_r p q r : hdot (hmul q p) (hmul r p) = hnorm2 p * hdot q r.
Proof. destruct p as [[] ?], q as [[] ?], r as [[] ?]. specu; ring. Qed.
Lemma hdot_add_r p q r : hdot p (hadd q r) = hdot p q + hdot p r.
Proof. destruct p as [[] ?], q as [[] ?], r as [[] ?]. specu; ring. Qed.
Lemma unitdq_mul a b : unitdq a -> unitdq b -> unitdq (dqmul a b).
Proof.
  intros [Ua Da] [Ub Db]. split; unfold dqmul; cbn [dr dd].
  - rewrite hnorm2_mul, Ua, Ub; ring.
  - rewrite hdot_add_r, hdot_mul_l, hdot_mul_r, Db, Da; ring.
Qed.
Lemma unitdq_conj a : unitdq a -> unitdq (dqconj a).
Proof.
  intros [Ua Da]. split; unfold dqconj; cbn [dr dd].
  - now rewrite hnorm2_conj.
  - rewrite <- Da. unfold hdot, dot3; simpl; ring.
Qed.
Lemma unitdq_inv a : unitdq a -> unitdq (dqinv a).
Proof. intros U. rewrite unitdq_inv_conj by easy. now apply unitdq_conj. Qed.
Lemma unitdq_neg a : unitdq a -> unitdq (dqneg a).
Proof.
  intros [Ua Da]. split; unfold dqneg; cbn [dr dd].
  - now rewrite hnorm2_neg.
  - rewrite <- Da. unfold hdot, dot3; simpl; ring.
Qed.
Lemma unitdq_one : unitdq dqone.
Proof. split; specu; ring. Qed.

(** normalize *)
Lemma dnormalize_in a : 0 < hnorm (dr a) -> dnormalize (inD a) = inD (dqscale (/ hnorm (dr a)) a).
Proof.
  intros H. unfold dnormalize, inD; cbn [rot dual]. rewrite qnorm_in, !qdivs_in by lra. reflexivity.
Qed.
Lemma dqscale_1 a : dqscale 1 a = a.
Proof. apply rdq_eq; unfold dqscale; cbn [dr dd]; apply hscale_1. Qed.
Lemma dqscale_scale k l a : dqscale k (dqscale l a) = dqscale (k * l) a.
Proof. apply rdq_eq; unfold dqscale; cbn [dr dd]; apply hscale_scale. Qed.
Lemma dnormalize_unit a : unitdq a -> dnormalize (inD a) = inD a.
Proof.
  intros U. rewrite dnormalize_in; rewrite (unitdq_norm a U); [|lra].
  replace (/ 1) with 1 by field. now rewrite dqscale_1.
Qed.
Definition dqnormalize (a : rdq) : rdq := dqscale (/ hnorm (dr a)) a.
Lemma dqnormalize_unit_rot a : 0 < hnorm (dr a) -> unitq (dr (dqnormalize a)).
Proof. intros. now apply hnormalize_unit. Qed.
Lemma dqnormalize_hnorm a : 0 < hnorm (dr a) -> hnorm (dr (dqnormalize a)) = 1.
Proof. intros. apply unit_hnorm. now apply dqnormalize_unit_rot. Qed.
Lemma dqnormalize_idem a : 0 < hnorm (dr a) -> dqnormalize (dqnormalize a) = dqnormalize a.
Proof.
  intros H. unfold dqnormalize at 1. rewrite dqnormalize_hnorm by easy.
  replace (/ 1) with 1 by field. apply dqscale_1.
Qed.

(** to_pose *)
Lemma to_pose_in a : 0 < hnorm (dr a) ->
  let n := dqnormalize a in
  to_pose (inD a) = (inD n, inP (trans_of n) (pos_w (dr n))).
Proof.
  intros H n. unfold to_pose. rewrite dnormalize_in by easy. fold (dqnormalize a). fold n.
  f_equal. unfold inP. f_equal.
  - unfold inD; cbn [rot dual]. unfold n2; cbn [lit XR]. rewrite qscale_l_in, qconj_in, qmul_in.
    unfold trans_of, inV, inQ; simpl. f_equal; f_equal; ring.
  - unfold inD; cbn [rot dual]. unfold pos_w. unfold n0; cbn [lit XR ltb xltb qw inQ Rlit].
    unfold Rltb. destruct (Rlt_dec (qs (dr n)) 0); [apply qneg_in|easy].
Qed.
Lemma to_pose_unit a : unitdq a -> to_pose (inD a) = (inD a, inP (trans_of a) (pos_w (dr a))).
Proof.
  intros U. rewrite to_pose_in. 2:{ rewrite (unitdq_norm a U); lra. }
  assert (E : dqnormalize a = a).
  { unfold dqnormalize. rewrite (unitdq_norm a U). replace (/ 1) with 1 by field. apply dqscale_1. }
  now rewrite E.
Qed.

(** from_pose *)
Lemma from_pose_in t q : 1 / 100000000 < hnorm q ->
  from_pose (inV t) (inQ q) = inD (dq_of (hscale (/ hnorm q) q) t).
Proof.
  intros H. unfold from_pose. rewrite qnormalize_big by easy. unfold inD, dq_of; cbn [dr dd].
  f_equal. change (mkQ (N:=XR) (vx (inV t)) (vy (inV t)) (vz (inV t)) n0) with (inQ (RQ t 0)).
  rewrite qmul_in. unfold nhalf; cbn [lit XR]. rewrite qscale_in. f_equal. rewrite Rlit_half.
  f_equal. lra.
Qed.
Lemma from_pose_unit t q : unitq q -> from_pose (inV t) (inQ q) = inD (dq_of q t).
Proof.
  intros U. apply unit_hnorm in U. rewrite from_pose_in by lra. rewrite U.
  replace (/ 1) with 1 by field. now rewrite hscale_1.
Qed.

Lemma dq_of_unit q t : unitq q -> unitdq (dq_of q t).
Proof.
  intros U. split; unfold dq_of; cbn [dr dd]; [easy|].
  destruct q as [[] ?], t. specu. field.
Qed.
Lemma trans_dq_of q t : unitq q -> trans_of (dq_of q t) = t.
Proof.
  intros U. unfold trans_of, dq_of; cbn [dr dd]. rewrite hmul_scale_l, hmul_assoc, unit_conj_r by easy.
  rewrite hmul_1_r. apply rv_eq; simpl; field.
Qed.
Lemma dq_of_trans a : unitdq a -> dq_of (dr a) (trans_of a) = a.
Proof.
  intros [U D]. apply rdq_eq; unfold dq_of, trans_of; cbn [dr dd]; [easy|].
  assert (E : RQ (vscale 2 (qv (hmul (dd a) (hconj (dr a))))) 0 = hscale 2 (hmul (dd a) (hconj (dr a)))).
  { apply rq_eq; try reflexivity. simpl qs. pose proof (qs_mul_conj (dd a) (dr a)) as Q.
    simpl in Q. rewrite Q, hdot_sym, D. ring. }
  rewrite E, hmul_scale_l, hmul_assoc, unit_conj_l, hmul_1_r by easy.
  rewrite hscale_scale. replace (1 / 2 * 2) with 1 by field. apply hscale_1.
Qed.

(** Composition *)
Lemma trans_of_mul a b : unitq (dr a) -> unitq (dr b) ->
  trans_of (dqmul a b) = vadd (hrot (dr a) (trans_of b)) (trans_of a).
Proof.
  intros Ua Ub. unfold trans_of, dqmul; cbn [dr dd]. rewrite hconj_mul, hmul_add_l.
  assert (E1 : hmul (hmul (dd a) (dr b)) (hmul (hconj (dr b)) (hconj (dr a)))
               = hmul (dd a) (hconj (dr a))).
  { rewrite hmul_assoc, <- (hmul_assoc (dr b)), unit_conj_r, hmul_1_l by easy. easy. }
  assert (E2 : hmul (hmul (dr a) (dd b)) (hmul (hconj (dr b)) (hconj (dr a)))
               = hmul (hmul (dr a) (hmul (dd b) (hconj (dr b)))) (hconj (dr a))).
  { now rewrite !hmul_assoc. }
  rewrite E1, E2. unfold hrot. set (h := hmul (dd b) (hconj (dr b))).
  destruct h as [[] ?], (hmul (dd a) (hconj (dr a))) as [[] ?], (dr a) as [[] ?].
  apply rv_eq; specu; ring.
Qed.
Lemma hrot_mul p q v : unitq p -> unitq q -> hrot (hmul p q) v = hrot p (hrot q v).
Proof.
  intros Up Uq. rewrite <- !rot_matrix_apply; try easy.
  2:{ unfold unitq in *. rewrite hnorm2_mul, Up, Uq; ring. }
  rewrite rot_matrix_mul by easy.
  destruct (rot_matrix p) as [[] [] []], (rot_matrix q) as [[] [] []], v.
  apply rv_eq; specu; ring.
Qed.
Lemma hrot_add q u v : hrot q (vadd u v) = vadd (hrot q u) (hrot q v).
Proof. destruct q as [[] ?], u, v. apply rv_eq; specu; ring. Qed.
Lemma vadd_assoc u v w : vadd (vadd u v) w = vadd u (vadd v w).
Proof. vring. Qed.
Lemma move_mul a b p : unitq (dr a) -> unitq (dr b) -> move (dqmul a b) p = move a (move b p).
Proof.
  intros Ua Ub. unfold move. rewrite trans_of_mul by easy. unfold dqmul; cbn [dr].
  rewrite hrot_mul by easy. rewrite hrot_add. now rewrite vadd_assoc.
Qed.
Lemma move_one p : move dqone p = p.
Proof. destruct p. apply rv_eq; specu; ring. Qed.

Lemma trans_of_neg a : trans_of (dqneg a) = trans_of a.
Proof. destruct a as [[[] ?] [[] ?]]. apply rv_eq; specu; ring. Qed.
