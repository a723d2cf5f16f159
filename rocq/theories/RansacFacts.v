(** * Facts about the drivers on finite inputs. *)

From Coq Require Import Reals ZArith Bool List Lra Lia Psatz.
From Verif Require Import Num Py XReal XFacts Quat DualQuat HandEye Ransac Spec Embed QuatFacts QuatTrig
  QuatRot DualFacts ScrewFacts ListFacts HandEyeFacts KernelFacts CalibFacts.
Import ListNotations.
Local Open Scope R_scope.

Definition closeb (tol : R) (a b : rdq) : bool :=
  Rleb (Rabs (qs (dr a) - qs (dr b))) (tol + 1 / 100000 * Rabs (qs (dr b))) &&
  Rleb (Rabs (qs (dd a) - qs (dd b))) (tol + 1 / 100000 * Rabs (qs (dd b))).
Lemma closeb_iff tol a b : closeb tol a b = true <-> scalars_close tol a b.
Proof. unfold closeb, scalars_close, close_to. now rewrite andb_true_iff, !Rleb_iff. Qed.
Lemma scalar_parts_closeb tol a b : 0 <= tol ->
  scalar_parts_close (N:=XR) (Fin tol) (inD a) (inD b) = Ok (closeb tol a b).
Proof.
  intros T0. destruct (scalar_parts_close_in tol a b T0) as (c & -> & H). f_equal.
  apply eq_true_iff_eq. now rewrite H, closeb_iff.
Qed.
Lemma scalar_flags_in tol l : 0 <= tol ->
  scalar_flags (N:=XR) (Fin tol) (hands l) (eyes l) = Ok (map (fun p => closeb tol (snd p) (fst p)) l).
Proof.
  intros T0. unfold scalar_flags, hands, eyes. induction l as [|p l IH]; [easy|]. cbn [map for_pairs].
  rewrite scalar_parts_closeb by easy. cbn [bind]. rewrite IH. easy.
Qed.
Lemma combine_hands_eyes l : combine (hands l) (eyes l) = map (fun p => (inD (fst p), inD (snd p))) l.
Proof. unfold hands, eyes. induction l; cbn [map combine]; congruence. Qed.
Lemma compress_map {A B} (f : A -> B) l k : compress (map f l) k = map f (compress l k).
Proof. revert k; induction l as [|x l IH]; intros [|[] k]; cbn [map compress]; try easy. now rewrite IH. Qed.
Lemma compress_filter {A} (f : A -> bool) l : compress l (map f l) = filter f l.
Proof. induction l as [|x l IH]; [easy|]. cbn [map compress filter]. destruct (f x); now rewrite IH. Qed.
(** re-aligning both paths at position k *)
Definition realign (k : nat) (p0 : rdq * rdq) (l : list (rdq * rdq)) : list (rdq * rdq) :=
  rotl k (map (fun p => (rflip (dqmul (dqinv (fst p0)) (fst p)), rflip (dqmul (dqinv (snd p0)) (snd p)))) l).
Lemma align_hands l k p0 : nth_error l k = Some p0 -> tiny < hnorm (dr (fst p0)) ->
  align_paths_at_index (hands l) k = Ok (hands (realign k p0 l)).
Proof.
  intros H P. unfold hands. rewrite <- (map_map fst inD).
  rewrite (align_in (map fst l) k (fst p0)) by (rewrite ?nth_error_map, ?H; easy). f_equal.
  unfold realign. rewrite <- rotl_map, map_map, <- rotl_map. f_equal. rewrite !map_map. reflexivity.
Qed.
Lemma align_eyes l k p0 : nth_error l k = Some p0 -> tiny < hnorm (dr (snd p0)) ->
  align_paths_at_index (eyes l) k = Ok (eyes (realign k p0 l)).
Proof.
  intros H P. unfold eyes. rewrite <- (map_map snd inD).
  rewrite (align_in (map snd l) k (snd p0)) by (rewrite ?nth_error_map, ?H; easy). f_equal.
  unfold realign. rewrite <- rotl_map, map_map, <- rotl_map. f_equal. rewrite !map_map. reflexivity.
Qed.
Lemma realign_length k p0 l : length (realign k p0 l) = length l.
Proof. unfold realign. now rewrite rotl_length, map_length. Qed.

Lemma baseline_inliers_in l k p0 : nth_error l k = Some p0 ->
  tiny < hnorm (dr (fst p0)) -> tiny < hnorm (dr (snd p0)) ->
  baseline_inliers (hands l) (eyes l) k
  = Ok (map (fun p => (inD (fst p), inD (snd p))) (filter (fun p => closeb (1/100) (snd p) (fst p)) (realign k p0 l))).
Proof.
  intros H P1 P2. unfold baseline_inliers. rewrite (align_hands l k p0), (align_eyes l k p0) by easy. cbn [bind].
  change (@lit XR 1 (-2)) with (Fin (1 / 100)). rewrite scalar_flags_in by lra. cbn [bind].
  now rewrite combine_hands_eyes, compress_map, compress_filter.
Qed.
