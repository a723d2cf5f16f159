(** * Basic facts about the exact instance. *)

From Coq Require Import Reals ZArith Bool List Lra Psatz.
From Verif Require Import Num Py XReal.
Import ListNotations.
Local Open Scope R_scope.

Lemma Rltb_iff a b : Rltb a b = true <-> a < b.
Proof. unfold Rltb; destruct (Rlt_dec a b); split; intros; try easy; lra. Qed.
Lemma Rltb_false a b : Rltb a b = false <-> b <= a.
Proof. unfold Rltb; destruct (Rlt_dec a b); split; intros; try easy; lra. Qed.
Lemma Rleb_iff a b : Rleb a b = true <-> a <= b.
Proof. unfold Rleb; destruct (Rle_dec a b); split; intros; try easy; lra. Qed.
Lemma Rleb_false a b : Rleb a b = false <-> b < a.
Proof. unfold Rleb; destruct (Rle_dec a b); split; intros; try easy; lra. Qed.
Lemma Reqb_iff a b : Reqb a b = true <-> a = b.
Proof. unfold Reqb; destruct (Req_EM_T a b); split; intros; try easy. Qed.
Lemma Reqb_false a b : Reqb a b = false <-> a <> b.
Proof. unfold Reqb; destruct (Req_EM_T a b); split; intros; try easy. Qed.

Lemma Rltb_t a b : a < b -> Rltb a b = true.
Proof. apply Rltb_iff. Qed.
Lemma Rltb_f a b : b <= a -> Rltb a b = false.
Proof. apply Rltb_false. Qed.
Lemma Rleb_t a b : a <= b -> Rleb a b = true.
Proof. apply Rleb_iff. Qed.
Lemma Rleb_f a b : b < a -> Rleb a b = false.
Proof. apply Rleb_false. Qed.
Lemma Reqb_t a b : a = b -> Reqb a b = true.
Proof. apply Reqb_iff. Qed.
Lemma Reqb_f a b : a <> b -> Reqb a b = false.
Proof. apply Reqb_false. Qed.
Lemma Reqb_refl a : Reqb a a = true.
Proof. now apply Reqb_t. Qed.

(** Literals *)
Lemma lit_fin m e : lit m e = Fin (Rlit m e).
Proof. reflexivity. Qed.
Lemma Rlit_1e8 : Rlit 1 (-8) = 1 / 100000000.
Proof. reflexivity. Qed.
Lemma Rlit_1e5 : Rlit 1 (-5) = 1 / 100000.
Proof. reflexivity. Qed.
Lemma Rlit_1e12 : Rlit 1 (-12) = 1 / 1000000000000.
Proof. reflexivity. Qed.
Lemma Rlit_1e16 : Rlit 1 (-16) = 1 / 10000000000000000.
Proof. reflexivity. Qed.
Lemma Rlit_1e7 : Rlit 1 (-7) = 1 / 10000000.
Proof. reflexivity. Qed.
Lemma Rlit_1e6 : Rlit 1 (-6) = 1 / 1000000.
Proof. reflexivity. Qed.
Lemma Rlit_half : Rlit 5 (-1) = 5 / 10.
Proof. reflexivity. Qed.

(** Finite reductions *)
Lemma xadd_fin a b : xadd (Fin a) (Fin b) = Fin (a + b). Proof. reflexivity. Qed.
Lemma xsub_fin a b : xsub (Fin a) (Fin b) = Fin (a - b). Proof. reflexivity. Qed.
Lemma xmul_fin a b : xmul (Fin a) (Fin b) = Fin (a * b). Proof. reflexivity. Qed.
Lemma xopp_fin a : xopp (Fin a) = Fin (- a). Proof. reflexivity. Qed.
Lemma xdiv_fin a b : b <> 0 -> xdiv (Fin a) (Fin b) = Fin (a / b).
Proof. intros; simpl; destruct (Req_EM_T b 0); easy. Qed.
Lemma xdiv_zero a : exists i, xdiv (Fin a) (Fin 0) = i /\ xfin i = false.
Proof.
  simpl. destruct (Req_EM_T 0 0); [|easy].
  unfold inf_signed. destruct (Rlt_dec 0 a), (Rlt_dec a 0); eexists; split; reflexivity.
Qed.
Lemma xsqrt_fin a : 0 <= a -> xsqrt (Fin a) = Fin (sqrt a).
Proof. intros; simpl; destruct (Rlt_dec a 0); [lra|easy]. Qed.
Lemma xacos_fin a : -1 <= a <= 1 -> xacos (Fin a) = Fin (acos a).
Proof. intros; simpl. destruct (Rle_dec (-1) a); [destruct (Rle_dec a 1)|]; easy || lra. Qed.
Lemma xltb_fin a b : xltb (Fin a) (Fin b) = Rltb a b. Proof. reflexivity. Qed.

Lemma Fin_inj a b : Fin a = Fin b -> a = b.
Proof. congruence. Qed.

(** A nan or infinite value does not become finite by adding/multiplying... only the facts used
    below are stated. *)
Lemma isclose_fin atol a b :
  isclose (N:=XR) (Fin atol) (Fin a) (Fin b) = Rleb (Rabs (a - b)) (atol + 1 / 100000 * Rabs b).
Proof. reflexivity. Qed.

Lemma isclose_refl atol a : 0 <= atol -> isclose (N:=XR) (Fin atol) (Fin a) (Fin a) = true.
Proof.
  intros. rewrite isclose_fin. apply Rleb_t. replace (a - a) with 0 by ring.
  rewrite Rabs_R0. pose proof (Rabs_pos a). lra.
Qed.

Lemma allclose_refl_fin atol (l : list R) :
  0 <= atol -> allclose (N:=XR) (Fin atol) (map Fin l) (map Fin l) = true.
Proof.
  intros; induction l; simpl map; [reflexivity|]. cbn [allclose].
  rewrite isclose_refl, IHl; auto.
Qed.

Lemma clip_fin lo hi x :
  clip (N:=XR) (Fin lo) (Fin hi) (Fin x) = Fin (Rmin (Rmax x lo) hi).
Proof.
  unfold clip; cbn [ltb XR xltb]. unfold Rltb.
  destruct (Rlt_dec x lo); cbn [xltb]; unfold Rltb.
  - destruct (Rlt_dec hi lo); f_equal; unfold Rmin, Rmax;
      repeat destruct (Rle_dec _ _); lra.
  - destruct (Rlt_dec hi x); f_equal; unfold Rmin, Rmax;
      repeat destruct (Rle_dec _ _); lra.
Qed.

(** bind / assert inversion *)
Lemma bind_ok {A B} (m : res A) (f : A -> res B) b :
  bind m f = Ok b <-> exists a, m = Ok a /\ f a = Ok b.
Proof. destruct m; simpl; split; intros H; [eauto| destruct H as (?&?&?); congruence | easy | destruct H as (?&?&?); easy]. Qed.
Lemma assert_ok {B} c (k : res B) b :
  bind (assert_ c) (fun _ => k) = Ok b <-> c = true /\ k = Ok b.
Proof. destruct c; simpl; split; intros; try tauto; try easy. Qed.
Lemma assert_true {B} (k : res B) c : c = true -> bind (assert_ c) (fun _ => k) = k.
Proof. now intros ->. Qed.
Lemma assert_false {B} (k : res B) c : c = false -> bind (assert_ c) (fun _ => k) = Err AssertionError.
Proof. now intros ->. Qed.
