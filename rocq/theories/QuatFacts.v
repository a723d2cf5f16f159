(** * Reduction of the quaternion model on finite inputs to the real specification, and the
    algebra of real quaternions. *)

From Coq Require Import Reals ZArith Bool List Lra Psatz.
From Verif Require Import Num Py XReal XFacts Quat DualQuat Spec Embed.
Import ListNotations.
Local Open Scope R_scope.

Lemma rv_eq u v : v1 u = v1 v -> v2 u = v2 v -> v3 u = v3 v -> u = v.
Proof. destruct u, v; simpl; congruence. Qed.
Lemma rq_eq p q : v1 (qv p) = v1 (qv q) -> v2 (qv p) = v2 (qv q) -> v3 (qv p) = v3 (qv q) ->
  qs p = qs q -> p = q.
Proof. destruct p as [[]], q as [[]]; simpl; congruence. Qed.
Lemma inQ_eq p q : v1 (qv p) = v1 (qv q) -> v2 (qv p) = v2 (qv q) -> v3 (qv p) = v3 (qv q) ->
  qs p = qs q -> inQ p = inQ q.
Proof. intros; f_equal; now apply rq_eq. Qed.
Lemma inQ_inj p q : inQ p = inQ q -> p = q.
Proof. unfold inQ; intros H; injection H; intros; now apply rq_eq. Qed.
Lemma inV_inj u v : inV u = inV v -> u = v.
Proof. unfold inV; intros H; injection H; intros; now apply rv_eq. Qed.
Lemma inD_inj a b : inD a = inD b -> a = b.
Proof.
  destruct a, b; unfold inD; simpl; intros H.
  assert (inQ dr = inQ dr0) by congruence. assert (inQ dd = inQ dd0) by congruence.
  f_equal; now apply inQ_inj.
Qed.

(** Unfold every specification-level operation (variables should be destructed first). *)
Ltac specu :=
  cbv [dot3 cross3 vadd vsub vscale vzero mapply mtrans mmul mid mdet mtrace
       hmul hconj hneg hadd hsub hscale hdot hone hzero hnorm2 hrot
       dqmul dqone dqneg dqscale dqadd dqconj trans_of dq_of move
       hm_mul hm_id hm_rot hm_t dot8 dr dd qv qs m1 m2 m3 v1 v2 v3] in *.
Ltac qring := apply rq_eq; simpl; unfold dot3; simpl; ring.
Ltac vring := apply rv_eq; simpl; unfold dot3; simpl; ring.
Lemma mkQ_in a b c d q : a = v1 (qv q) -> b = v2 (qv q) -> c = v3 (qv q) -> d = qs q ->
  mkQ (N:=XR) (Fin a) (Fin b) (Fin c) (Fin d) = inQ q.
Proof. intros; subst; reflexivity. Qed.
Ltac mkQring := apply mkQ_in; simpl; unfold dot3; simpl; ring.

Lemma qmul_in p q : qmul (inQ p) (inQ q) = inQ (hmul p q).
Proof. unfold qmul; cbn; mkQring. Qed.
Lemma qadd_in p q : qadd (inQ p) (inQ q) = inQ (hadd p q).
Proof. reflexivity. Qed.
Lemma qsub_in p q : qsub (inQ p) (inQ q) = inQ (hsub p q).
Proof. reflexivity. Qed.
Lemma qneg_in q : qneg (inQ q) = inQ (hneg q).
Proof. unfold qneg; cbn; mkQring. Qed.
Lemma qconj_in q : qconj (inQ q) = inQ (hconj q).
Proof. unfold qconj; cbn; mkQring. Qed.
Lemma qscale_in q t : qscale (inQ q) (Fin t) = inQ (hscale t q).
Proof. unfold qscale; cbn; mkQring. Qed.
Lemma qscale_l_in q t : qscale_l (N:=XR) (Fin t) (inQ q) = inQ (hscale t q).
Proof. reflexivity. Qed.
Lemma qdot_in p q : qdot (inQ p) (inQ q) = Fin (hdot p q).
Proof. reflexivity. Qed.
Lemma hnorm2_pos q : 0 <= hnorm2 q.
Proof. destruct q as [[]]; unfold hnorm2, hdot, dot3; simpl; nra. Qed.
Lemma hnorm_pos q : 0 <= hnorm q.
Proof. apply sqrt_pos. Qed.
Lemma qnorm_in q : qnorm (inQ q) = Fin (hnorm q).
Proof. unfold qnorm. rewrite qdot_in. cbn [sqrtn XR]. apply xsqrt_fin, hnorm2_pos. Qed.
Lemma qdivs_in q t : t <> 0 -> qdivs (inQ q) (Fin t) = inQ (hscale (/ t) q).
Proof.
  intros. unfold qdivs, inQ; cbn [qx qy qz qw div XR].
  rewrite !xdiv_fin by easy. apply mkQ_in; simpl; field; easy.
Qed.

Definition hinv (q : rq) : rq := hscale (/ hnorm2 q) (hconj q).

Lemma qinv_in q : hnorm2 q <> 0 -> qinv (inQ q) = inQ (hinv q).
Proof.
  intros. unfold qinv, qsqnorm. rewrite qdot_in, qconj_in, qdivs_in; auto.
Qed.
Lemma qinv_in_unit q : unitq q -> qinv (inQ q) = inQ (hconj q).
Proof.
  unfold unitq; intros H. rewrite qinv_in by lra. unfold hinv; rewrite H.
  apply inQ_eq; simpl; field.
Qed.

(** Algebra *)
Lemma hmul_assoc p q r : hmul (hmul p q) r = hmul p (hmul q r).
Proof. qring. Qed.
Lemma hmul_1_l q : hmul hone q = q.
Proof. qring. Qed.
Lemma hmul_1_r q : hmul q hone = q.
Proof. qring. Qed.
Lemma hmul_add_l p q r : hmul (hadd p q) r = hadd (hmul p r) (hmul q r).
Proof. qring. Qed.
Lemma hmul_add_r p q r : hmul p (hadd q r) = hadd (hmul p q) (hmul p r).
Proof. qring. Qed.
Lemma hmul_scale_l k p q : hmul (hscale k p) q = hscale k (hmul p q).
Proof. qring. Qed.
Lemma hmul_scale_r k p q : hmul p (hscale k q) = hscale k (hmul p q).
Proof. qring. Qed.
Lemma hconj_mul p q : hconj (hmul p q) = hmul (hconj q) (hconj p).
Proof. qring. Qed.
Lemma hconj_invol q : hconj (hconj q) = q.
Proof. qring. Qed.
Lemma hnorm2_mul p q : hnorm2 (hmul p q) = hnorm2 p * hnorm2 q.
Proof. unfold hnorm2, hdot; simpl; unfold dot3; simpl; ring. Qed.
Lemma hnorm_mul p q : hnorm (hmul p q) = hnorm p * hnorm q.
Proof. unfold hnorm. rewrite hnorm2_mul. apply sqrt_mult; apply hnorm2_pos. Qed.
Lemma hnorm2_conj q : hnorm2 (hconj q) = hnorm2 q.
Proof. unfold hnorm2, hdot; simpl; unfold dot3; simpl; ring. Qed.
Lemma hnorm2_neg q : hnorm2 (hneg q) = hnorm2 q.
Proof. unfold hnorm2, hdot; simpl; unfold dot3; simpl; ring. Qed.
Lemma hnorm2_scale k q : hnorm2 (hscale k q) = k * k * hnorm2 q.
Proof. unfold hnorm2, hdot; simpl; unfold dot3; simpl; ring. Qed.
Lemma hmul_conj_r q : hmul q (hconj q) = hscale (hnorm2 q) hone.
Proof. unfold hnorm2, hdot, dot3; qring. Qed.
Lemma hmul_conj_l q : hmul (hconj q) q = hscale (hnorm2 q) hone.
Proof. unfold hnorm2, hdot, dot3; qring. Qed.
Lemma hscale_1 q : hscale 1 q = q.
Proof. qring. Qed.
Lemma hscale_scale a b q : hscale a (hscale b q) = hscale (a * b) q.
Proof. qring. Qed.
Lemma hmul_inv_r q : hnorm2 q <> 0 -> hmul q (hinv q) = hone.
Proof.
  intros. unfold hinv. rewrite hmul_scale_r, hmul_conj_r, hscale_scale, Rinv_l, hscale_1; auto.
Qed.
Lemma hmul_inv_l q : hnorm2 q <> 0 -> hmul (hinv q) q = hone.
Proof.
  intros. unfold hinv. rewrite hmul_scale_l, hmul_conj_l, hscale_scale, Rinv_l, hscale_1; auto.
Qed.
Lemma unit_conj_r q : unitq q -> hmul q (hconj q) = hone.
Proof. unfold unitq; intros H. rewrite hmul_conj_r, H. apply hscale_1. Qed.
Lemma unit_conj_l q : unitq q -> hmul (hconj q) q = hone.
Proof. unfold unitq; intros H. rewrite hmul_conj_l, H. apply hscale_1. Qed.
Lemma hnorm2_zero q : hnorm2 q = 0 -> q = hzero.
Proof. destruct q as [[]]; unfold hnorm2, hdot, dot3; simpl; intros. apply rq_eq; simpl; nra. Qed.
Lemma hnorm_sqr q : hnorm q * hnorm q = hnorm2 q.
Proof. apply sqrt_def, hnorm2_pos. Qed.
Lemma unit_hnorm q : unitq q <-> hnorm q = 1.
Proof.
  unfold unitq; split; intros H.
  - unfold hnorm; rewrite H; apply sqrt_1.
  - rewrite <- hnorm_sqr, H; ring.
Qed.
Lemma hnorm_pos_iff q : 0 < hnorm q <-> hnorm2 q <> 0.
Proof.
  split; intros H.
  - intros E. unfold hnorm in H. rewrite E, sqrt_0 in H. lra.
  - apply sqrt_lt_R0. pose proof (hnorm2_pos q). lra.
Qed.
Lemma hdot_sym p q : hdot p q = hdot q p.
Proof. unfold hdot, dot3; ring. Qed.
(** Cauchy-Schwarz *)
Lemma hdot_cs p q : hdot p q * hdot p q <= hnorm2 p * hnorm2 q.
Proof.
  assert (E : hnorm2 p * hnorm2 q - hdot p q * hdot p q
              = hnorm2 (hmul p (hconj q)) - qs (hmul p (hconj q)) * qs (hmul p (hconj q))).
  { rewrite hnorm2_mul, hnorm2_conj. unfold hdot; simpl; unfold dot3; simpl; ring. }
  assert (0 <= hnorm2 (hmul p (hconj q)) - qs (hmul p (hconj q)) * qs (hmul p (hconj q))).
  { destruct (hmul p (hconj q)) as [[a b c] d]; unfold hnorm2, hdot, dot3; simpl; nra. }
  lra.
Qed.
Lemma unit_dot_bound p q : unitq p -> unitq q -> -1 <= hdot p q <= 1.
Proof. unfold unitq; intros Hp Hq. pose proof (hdot_cs p q). rewrite Hp, Hq in H. nra. Qed.
Lemma qs_mul_conj p q : qs (hmul p (hconj q)) = hdot p q.
Proof. unfold hdot; simpl; unfold dot3; simpl; ring. Qed.
Lemma qs_mul_conj_l p q : qs (hmul (hconj p) q) = hdot p q.
Proof. unfold hdot; simpl; unfold dot3; simpl; ring. Qed.

(** normalize *)
Lemma qnormalize_big q : 1 / 100000000 < hnorm q ->
  qnormalize (inQ q) = inQ (hscale (/ hnorm q) q).
Proof.
  intros. unfold qnormalize. rewrite qnorm_in. cbn [ltb XR lit xltb].
  rewrite Rlit_1e8, Rltb_t by easy. apply qdivs_in. lra.
Qed.
Lemma qnormalize_small q : hnorm q <= 1 / 100000000 -> qnormalize (inQ q) = inQ q.
Proof.
  intros. unfold qnormalize. rewrite qnorm_in. cbn [ltb XR lit xltb].
  now rewrite Rlit_1e8, Rltb_f.
Qed.
Lemma hnormalize_unit q : 0 < hnorm q -> unitq (hscale (/ hnorm q) q).
Proof.
  intros. unfold unitq. rewrite hnorm2_scale, <- hnorm_sqr. field. lra.
Qed.
Lemma hnorm_scale k q : 0 <= k -> hnorm (hscale k q) = k * hnorm q.
Proof.
  intros. unfold hnorm. rewrite hnorm2_scale, sqrt_mult; [|nra|apply hnorm2_pos].
  now rewrite sqrt_square.
Qed.
