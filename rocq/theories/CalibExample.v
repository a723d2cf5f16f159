(** * A concrete hand-eye experiment with explicit decompositions (used for non-vacuity and for
    counterexamples). *)

From Coq Require Import Reals ZArith Bool List Lra Lia Psatz.
From Verif Require Import Num Py XReal XFacts Quat DualQuat HandEye Spec Embed QuatFacts QuatTrig
  QuatRot DualFacts ScrewFacts ListFacts HandEyeFacts KernelFacts CalibFacts.
Import ListNotations.
Local Open Scope R_scope.

Definition q0 : rq := RQ (RV 0 0 (3/5)) (4/5).
Definition x0 : rdq := RD q0 hzero.
Definition l0 : list (rdq * rdq) :=
  [(RD (RQ (RV (3/5) 0 0) (4/5)) hzero, RD (RQ (RV (21/125) (-72/125) 0) (4/5)) hzero);
   (RD (RQ (RV 0 (4/5) 0) (3/5)) hzero, RD (RQ (RV (96/125) (28/125) 0) (3/5)) hzero)].
Definition m0 : list rdq := trows ((dqone, dqone) :: l0).
Definition s0 : list R := [2; 2; 32/25; 32/25; 24/25; 24/25; 0; 0].
Definition bz : rq := RQ (RV 0 0 (4/5)) (-3/5).
Definition bx : rq := RQ (RV (4/5) (-3/5) 0) 0.
Definition by0 : rq := RQ (RV (3/5) (4/5) 0) 0.
Definition v0 (c d : R) : list rdq :=
  [RD bz hzero; RD hzero bz; RD bx hzero; RD hzero bx; RD by0 hzero; RD hzero by0;
   RD (hscale c q0) (hscale d q0); RD (hscale (- d) q0) (hscale c q0)].

Ltac idxn n i H := lazymatch n with
  | O => destruct i; discriminate H
  | S ?k => destruct i as [|i]; [injection H as <-|idxn k i H]
  end.
Ltac idx i H := idxn 8%nat i H.

Lemma image_gram m a b : gram m a b = fold_right Rplus 0 (map (fun r => dot8 r a * dot8 r b) m).
Proof. induction m; simpl; [easy|]. now rewrite IHm. Qed.

Lemma kills0 c d : kills m0 (RD (hscale c q0) (hscale d q0)).
Proof.
  unfold kills, m0, trows, srows, rhalf, l0, q0. cbn [flat_map map app combine fst snd].
  repeat (apply Forall_cons; [cbn [fst snd]; specu; field|]). apply Forall_nil.
Qed.

Lemma svd0 c d : c * c + d * d = 1 -> svd_spec m0 s0 (v0 c d).
Proof.
  intros E. constructor.
  - reflexivity.
  - reflexivity.
  - intros [[[a1 a2 a3] a4] [[b1 b2 b3] b4]]. unfold v0, q0, bx, by0, bz, dqsum. cbn [map fold_right].
    apply rdq_eq; apply rq_eq; specu; cbn [fst snd];
      assert (D : d * d = 1 - c * c) by lra; ring_simplify [D]; field.
  - intros i j vi vj Hi Hj. unfold v0 in *.
    idx i Hi; idx j Hj; unfold q0, bx, by0, bz; cbn [Nat.eqb]; specu; try lra;
      assert (D : d * d = 1 - c * c) by lra; ring_simplify [D]; lra.
  - intros i j vi vj Hi Hj NE. unfold v0 in *.
    idx i Hi; idx j Hj; try (now destruct NE);
      try (apply gram_kills, kills0);
      try (rewrite image_gram; unfold m0, trows, srows, rhalf, l0, q0, bx, by0, bz;
           cbn [flat_map map app combine fold_right fst snd]; specu; field).
  - intros i vi Hi. unfold v0, s0 in *.
    idx i Hi; cbn [nth];
      try (rewrite gram_kills by apply kills0; ring);
      try (rewrite image_gram; unfold m0, trows, srows, rhalf, l0, q0, bx, by0, bz;
           cbn [flat_map map app combine fold_right fst snd]; specu; field).
  - intros i. unfold s0.
    destruct i as [|[|[|[|[|[|[|[|[|i]]]]]]]]]; cbn [nth]; lra.
  - intros i j H. unfold s0.
    destruct j as [|[|[|[|[|[|[|[|[|j]]]]]]]]]; destruct i as [|[|[|[|[|[|[|[|[|i]]]]]]]]];
      cbn [nth]; try lra; lia.
Qed.

Lemma x0_unit : unitdq x0.
Proof. split; unfold x0, q0; specu; field. Qed.
Lemma l0_consistent : Forall (consistent x0) l0.
Proof.
  apply Forall_cons; [|apply Forall_cons; [|apply Forall_nil]]; unfold consistent, x0, q0; cbn [fst snd];
    apply rdq_eq; apply rq_eq; specu; lra.
Qed.
Lemma l0_axes : two_axes l0.
Proof.
  exists (nth 0 l0 (dqone, dqone)), (nth 1 l0 (dqone, dqone)). cbn [l0 nth].
  split; [now left|]. split; [right; now left|]. cbn [fst snd dr qv]. intros E. specu. injection E as _ _ E. lra.
Qed.
(** a decomposition oracle that returns the given basis *)
Definition svd_const (v : list rdq) : list (@dquat XR) -> res (list (@T XR) * list (@dquat XR)) :=
  fun _ => Ok (map Fin s0, map inD v).
Lemma m0_built v : setup_t_matrix (svd_const v) (inD dqone :: hands l0) (inD dqone :: eyes l0) = Ok (map inD m0).
Proof.
  change (setup_t_matrix (svd_const v) (hands ((dqone, dqone) :: l0)) (eyes ((dqone, dqone) :: l0)) = Ok (map inD m0)).
  apply setup_t_in.
  - intros. now eexists.
  - assert (C : Forall (consistent x0) ((dqone, dqone) :: l0)).
    { apply Forall_cons; [|apply l0_consistent]. unfold consistent; cbn [fst snd]. now rewrite dqmul_1_l, dqmul_1_r. }
    rewrite Forall_forall in C. intros p I.
    destruct (consistent_scalars x0 p x0_unit (C p I)). apply scalars_close_eq; [lra|congruence|congruence].
  - now eexists.
Qed.

(** *** A degenerate experiment (only the identity pair): the matrix is zero, every orthonormal basis
    is an admissible V. *)
Definition m1 : list rdq := trows [(dqone, dqone)].
Definition s1 : list R := [0; 0; 0; 0; 0; 0].
Definition e1 : rq := RQ (RV 1 0 0) 0.
Definition e2 : rq := RQ (RV 0 1 0) 0.
Definition e3 : rq := RQ (RV 0 0 1) 0.
Definition v1 (P Q : R) : list rdq :=
  [RD (hscale (-4/5) e1) (hscale (3/5) e1); RD (hscale (- Q) e2) (hscale P e2);
   RD e3 hzero; RD hzero e3; RD hone hzero; RD hzero hone;
   RD (hscale (3/5) e1) (hscale (4/5) e1); RD (hscale P e2) (hscale Q e2)].
Lemma kills1 y : kills m1 y.
Proof.
  unfold kills, m1, trows, srows, rhalf. cbn [flat_map map app combine fst snd].
  destruct y as [[[] ?] [[] ?]].
  repeat (apply Forall_cons; [cbn [fst snd]; specu; ring|]). apply Forall_nil.
Qed.
Lemma svd1 P Q : P * P + Q * Q = 1 -> svd_spec m1 s1 (v1 P Q).
Proof.
  intros E. constructor.
  - reflexivity.
  - reflexivity.
  - intros [[[a1 a2 a3] a4] [[b1 b2 b3] b4]]. unfold v1, e1, e2, e3, dqsum. cbn [map fold_right].
    assert (D : Q * Q = 1 - P * P) by lra.
    apply rdq_eq; apply rq_eq; specu; cbn [fst snd]; ring_simplify [D]; field.
  - intros i j vi vj Hi Hj. unfold v1 in *.
    idx i Hi; idx j Hj; unfold e1, e2, e3; cbn [Nat.eqb]; specu; try lra.
  - intros. apply gram_kills, kills1.
  - intros i vi _. rewrite gram_kills by apply kills1. unfold s1.
    destruct i as [|[|[|[|[|[|[|i]]]]]]]; cbn [nth]; ring.
  - intros i. unfold s1. destruct i as [|[|[|[|[|[|[|i]]]]]]]; cbn [nth]; lra.
  - intros i j _. unfold s1.
    destruct i as [|[|[|[|[|[|[|i]]]]]]], j as [|[|[|[|[|[|[|j]]]]]]]; cbn [nth]; lra.
Qed.
