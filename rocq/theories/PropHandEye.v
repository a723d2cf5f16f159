(** * Properties C22-C28: offset paths, path alignment, the hand-eye matrix, the calibration. *)

From Coq Require Import Reals ZArith Bool List Lra Lia Psatz.
From Verif Require Import Num Py XReal XFacts Quat DualQuat HandEye Spec Embed QuatFacts QuatTrig
  QuatRot DualFacts ScrewFacts ListFacts HandEyeFacts KernelFacts CalibFacts.
Import ListNotations.
Local Open Scope R_scope.

(** ** C22 *)
Theorem C22_offset_path : forall (l : list rdq) (x w : rdq),
  unitdq x -> unitdq w -> Forall unitdq l ->
  exists r, compute_dual_quaternions_with_offset (map inD l) (inD x) (inD w) = Ok (map inD r) /\
    Forall2 (fun a y => unitdq y /\ dqmul w y = dqmul a x) l r.
Proof.
  intros l x w Ux Uw Ul. exists (map (fun a => dqmul (dqmul (dqinv w) a) x) l). split.
  - unfold compute_dual_quaternions_with_offset. rewrite dinv_big by now apply unitdq_tiny. cbn [bind].
    rewrite (mapM_ok _ (fun d => dmul (dmul (inD (dqinv w)) d) (inD x))).
    + rewrite !map_map. f_equal. apply map_ext. intros a. now rewrite !dmul_in.
    + intros d I. apply in_map_iff in I as (a & <- & I). rewrite Forall_forall in Ul.
      rewrite !dmul_in.
      assert (U : unitdq (dqmul (dqmul (dqinv w) a) x)) by auto using unitdq_mul, unitdq_inv.
      rewrite dnormalize_unit by easy.
      rewrite dnorm_big by now apply unitdq_tiny. cbn [bind fst].
      rewrite unitdq_norm by easy. unfold n1. rewrite assert_true; [easy|].
      cbn [XR lit]. rewrite isclose_fin. apply Rleb_iff.
      change (Rlit 1 0) with 1. rewrite Rlit_1e8. replace (1 - 1) with 0 by ring.
      rewrite Rabs_R0, Rabs_R1. lra.
  - induction l as [|a l IH]; [constructor|]. apply Forall_cons_iff in Ul as [Ua Ul].
    cbn [map]. apply Forall2_cons; [|now apply IH]. split.
    + auto using unitdq_mul, unitdq_inv.
    + rewrite <- !dqmul_assoc, dqmul_inv_r, dqmul_1_l; [easy|]. now apply unitdq_n2.
Qed.
(** A base-world transform whose rotation part is (nearly) zero is rejected, whatever the path. *)
Theorem C22_bad_base : forall (l : list (@dquat XR)) (x : @dquat XR) (w : rdq),
  hnorm (dr w) <= 1 / 100000000 ->
  compute_dual_quaternions_with_offset l x (inD w) = Err AssertionError.
Proof.
  intros. unfold compute_dual_quaternions_with_offset. now rewrite dinv_small.
Qed.
Example C22_example :
  let x := dq_of (RQ (RV (3/5) 0 0) (4/5)) (RV 1 2 3) in
  let w := dq_of (RQ (RV 0 (3/5) 0) (-4/5)) (RV 4 0 1) in
  unitdq x /\ unitdq w /\ Forall unitdq [dqone; x; dqmul w x].
Proof.
  intros x w. assert (unitdq x) by (apply dq_of_unit; unfold unitq; specu; field).
  assert (unitdq w) by (apply dq_of_unit; unfold unitq; specu; field).
  repeat split; try apply H; try apply H0.
  repeat apply Forall_cons; auto using unitdq_mul, unitdq_one.
Qed.

(** ** C23 *)
Lemma dqmul_cancel_l p x y : hnorm2 (dr p) <> 0 -> dqmul p x = dqmul p y -> x = y.
Proof.
  intros H E. apply (f_equal (dqmul (dqinv p))) in E.
  now rewrite <- !dqmul_assoc, !dqmul_inv_l, !dqmul_1_l in E.
Qed.
Lemma tiny_n2 p : tiny < hnorm (dr p) -> hnorm2 (dr p) <> 0.
Proof. intros H. apply hnorm_pos_iff. unfold tiny in H. lra. Qed.

Theorem C23_align : forall (l : list rdq) (k : nat) (p : rdq),
  nth_error l k = Some p -> 1 / 100000000 < hnorm (dr p) ->
  exists r, align_paths_at_index (map inD l) k = Ok (map inD r) /\
    length r = length l /\ nth_error r 0 = Some dqone /\
    forall i, (i < length l)%nat -> exists x y,
      nth_error l ((k + i) mod length l) = Some x /\ nth_error r i = Some y /\
      0 <= qs (dr y) /\ (dqmul p y = x \/ (dqmul p y = dqneg x /\ 0 < qs (dr y))).
Proof.
  intros l k p Hk Hp. pose proof (tiny_n2 p Hp) as N.
  assert (LK : (k < length l)%nat) by (apply nth_error_Some; congruence).
  exists (rotl k (map (fun x => rflip (dqmul (dqinv p) x)) l)).
  split; [now apply align_in|]. rewrite rotl_length, map_length. split; [easy|].
  assert (ENT : forall i, (i < length l)%nat ->
    nth_error (rotl k (map (fun x => rflip (dqmul (dqinv p) x)) l)) i
    = option_map (fun x => rflip (dqmul (dqinv p) x)) (nth_error l ((k + i) mod length l))).
  { intros i Hi. rewrite rotl_nth by (rewrite map_length; lia). rewrite map_length. apply nth_error_map. }
  split.
  - rewrite ENT by lia. rewrite Nat.add_0_r, Nat.mod_small by easy. rewrite Hk. cbn [option_map].
    now rewrite dqmul_inv_l, rflip_one.
  - intros i Hi. rewrite (ENT i Hi).
    destruct (nth_error l ((k + i) mod length l)) as [x|] eqn:E.
    2:{ exfalso. apply nth_error_None in E. pose proof (Nat.mod_upper_bound (k + i) (length l)). lia. }
    exists x, (rflip (dqmul (dqinv p) x)). split; [easy|]. split; [easy|].
    split; [apply rflip_pos|]. unfold rflip.
    destruct (Rlt_dec (qs (dr (dqmul (dqinv p) x))) 0) as [L|L].
    + right. rewrite dqmul_neg_r, <- dqmul_assoc, dqmul_inv_r, dqmul_1_l by easy. split; [easy|].
      cbn [dqneg dr hneg qs]. lra.
    + left. now rewrite <- dqmul_assoc, dqmul_inv_r, dqmul_1_l.
Qed.

(** relative transforms are preserved up to sign *)
Theorem C23_relative : forall (l r : list rdq) (k i j : nat) (p xi xj yi yj z : rdq),
  nth_error l k = Some p -> 1 / 100000000 < hnorm (dr p) ->
  align_paths_at_index (map inD l) k = Ok (map inD r) ->
  (i < length l)%nat -> (j < length l)%nat ->
  nth_error l ((k + i) mod length l) = Some xi -> nth_error l ((k + j) mod length l) = Some xj ->
  nth_error r i = Some yi -> nth_error r j = Some yj ->
  dqmul xi z = xj -> dqmul yi z = yj \/ dqmul yi z = dqneg yj.
Proof.
  intros l r k i j p xi xj yi yj z Hk Hp HA Hi Hj Xi Xj Yi Yj E. pose proof (tiny_n2 p Hp) as N.
  destruct (C23_align l k p Hk Hp) as (r' & A' & _ & _ & F).
  rewrite HA in A'. injection A' as A'. apply inD_list_inj in A' as <-.
  destruct (F i Hi) as (x1 & y1 & X1 & Y1 & _ & S1). destruct (F j Hj) as (x2 & y2 & X2 & Y2 & _ & S2).
  rewrite Xi in X1; injection X1 as <-. rewrite Xj in X2; injection X2 as <-.
  rewrite Yi in Y1; injection Y1 as <-. rewrite Yj in Y2; injection Y2 as <-.
  assert (C : forall u v, dqmul p u = dqmul p v -> u = v) by (intros; eapply dqmul_cancel_l; eassumption).
  destruct S1 as [S1|[S1 _]], S2 as [S2|[S2 _]].
  - left. apply C. now rewrite <- dqmul_assoc, S1, S2.
  - right. apply C. rewrite <- dqmul_assoc, S1, dqmul_neg_r, S2, dqneg_neg. easy.
  - right. apply C. rewrite <- dqmul_assoc, S1, dqmul_neg_l, dqmul_neg_r, S2, E. easy.
  - left. apply C. rewrite <- dqmul_assoc, S1, dqmul_neg_l, S2, E. easy.
Qed.
Theorem C23_errors :
  (forall (N : Num) (l : list (@dquat N)) k, (length l <= k)%nat ->
     align_paths_at_index l k = Err IndexError) /\
  (forall (l : list rdq) k p, nth_error l k = Some p -> hnorm (dr p) <= 1 / 100000000 ->
     align_paths_at_index (map inD l) k = Err AssertionError).
Proof.
  split.
  - intros. unfold align_paths_at_index. now rewrite index_none.
  - intros. unfold align_paths_at_index. rewrite index_map, (index_some _ _ _ H). cbn [bind].
    now rewrite dinv_small.
Qed.
Example C23_example :
  let x := dq_of (RQ (RV (3/5) 0 0) (4/5)) (RV 1 2 3) in
  nth_error [dqone; x; dqmul x x] 1 = Some x /\ 1 / 100000000 < hnorm (dr x).
Proof.
  intros x. split; [easy|]. apply (unitdq_tiny x). apply dq_of_unit; unfold unitq; specu; field.
Qed.

(** ** C24 *)
(** The matrix built from exact motion pairs maps X and (0, rot X) to zero, and with two
    non-parallel axes and rot.w <> 0 nothing else. *)
Theorem C24_kernel : forall svd (l : list (rdq * rdq)) (m : list rdq) (x : rdq),
  unitdq x -> Forall (consistent x) l ->
  setup_t_matrix svd (hands l) (eyes l) = Ok (map inD m) ->
  length m = (6 * length l)%nat /\
  kills m x /\ kills m (RD hzero (dr x)) /\
  (qs (dr x) <> 0 -> two_axes l ->
   forall y, kills m y <-> exists al be, y = dqadd (dqscale al x) (dqscale be (RD hzero (dr x)))).
Proof.
  intros svd l m x U C ST. apply setup_t_inv, inD_list_inj in ST. subst m.
  split.
  { clear C. induction l as [|p l IH]; [easy|]. cbn [trows flat_map]. fold (trows l).
    rewrite app_length, IH. cbn [length]. change (length (srows (fst p) (snd p))) with 6%nat. lia. }
  assert (K : kills (trows l) x /\ kills (trows l) (RD hzero (dr x))).
  { rewrite !kills_trows. rewrite Forall_forall in C.
    split; apply Forall_forall; intros p I; apply (kernel_forward _ _ _ U (C p I)). }
  split; [apply K|]. split; [apply K|]. intros W TA y. split.
  - now apply kernel_converse.
  - intros (al & be & ->). destruct K as [K1 K2]. unfold kills in *. apply Forall_forall. intros r I.
    rewrite Forall_forall in K1, K2. rewrite dot8_add, !dot8_scale, (K1 r I), (K2 r I). ring.
Qed.
(** On exact data the matrix is always built, if the decompositions do not raise. *)
Theorem C24_built : forall svd (l : list (rdq * rdq)) (x : rdq),
  (forall m, exists r, svd m = Ok r) -> unitdq x -> Forall (consistent x) l ->
  exists m, setup_t_matrix svd (hands l) (eyes l) = Ok (map inD m).
Proof.
  intros svd l x SV U C. exists (trows l). apply setup_t_in.
  - intros p I. destruct (SV (map inD (srows (fst p) (snd p)))) as [r R]. now exists r.
  - intros p I. rewrite Forall_forall in C. destruct (consistent_scalars x p U (C p I)).
    now apply scalars_close_eq; [lra| |].
  - destruct (SV (map inD (trows l))) as [r R]. now exists r.
Qed.
Theorem C24_gate : forall svd (a b : rdq),
  ~ scalars_close (5 / 100) a b -> setup_s_matrix svd (inD a) (inD b) = Err AssertionError.
Proof. intros. now apply setup_s_rejects. Qed.
(** For a hand-eye rotation by a half turn (rot.w = 0) the converse fails: two motions with
    orthogonal axes, and a vector in the kernel that is no combination of X and (0, rot X). *)
Theorem C24_half_turn_refuted : exists (x y : rdq) (l : list (rdq * rdq)),
  unitdq x /\ Forall (consistent x) l /\ two_axes l /\
  (forall svd m, setup_t_matrix svd (hands l) (eyes l) = Ok (map inD m) -> kills m y) /\
  ~ exists al be, y = dqadd (dqscale al x) (dqscale be (RD hzero (dr x))).
Proof.
  set (x := RD (RQ (RV 0 0 1) 0) hzero). set (y := RD (RQ (RV 1 0 0) 0) hzero).
  set (a := RD (RQ (RV (3/5) 0 0) (4/5)) hzero). set (b := RD (RQ (RV (-3/5) 0 0) (4/5)) hzero).
  set (c := RD (RQ (RV 0 (3/5) 0) (4/5)) hzero). set (d := RD (RQ (RV 0 (-3/5) 0) (4/5)) hzero).
  exists x, y, [(a, b); (c, d)]. split; [split; unfold x; specu; ring|].
  split.
  { apply Forall_cons; [|apply Forall_cons; [|apply Forall_nil]]; unfold consistent, x, a, b, c, d; cbn [fst snd];
      apply rdq_eq; cbn [dqmul dr dd]; apply rq_eq; specu; lra. }
  split.
  { exists (a, b), (c, d). split; [now left|]. split; [right; now left|].
    unfold a, c; cbn. intros E. specu. injection E as _ _ E. lra. }
  split.
  - intros svd m ST. apply setup_t_inv, inD_list_inj in ST. subst m.
    rewrite kills_trows. apply Forall_cons; [|apply Forall_cons; [|apply Forall_nil]]; rewrite kills_srows;
      cbn [fst snd]; split; apply rv_eq; unfold y, a, b, c, d, up_vec; specu; lra.
  - intros (al & be & E). unfold x, y in E. apply (f_equal dr) in E. specu. injection E; intros. lra.
Qed.
Example C24_example :
  let q := RQ (RV 0 0 (3/5)) (4/5) in
  let x := dq_of q (RV 1 2 3) in
  let a := dq_of (RQ (RV (3/5) 0 0) (4/5)) (RV 5 0 0) in
  let c := dq_of (RQ (RV 0 (3/5) 0) (4/5)) (RV 0 1 0) in
  let l := [(a, dqmul (dqconj x) (dqmul a x)); (c, dqmul (dqconj x) (dqmul c x))] in
  unitdq x /\ Forall (consistent x) l /\ qs (dr x) <> 0 /\ two_axes l /\
  exists m, setup_t_matrix (fun _ => Ok ([], [])) (hands l) (eyes l) = Ok (map inD m).
Proof.
  intros q x a c l.
  assert (U : unitdq x) by (apply dq_of_unit; unfold unitq, q; specu; field).
  assert (C : Forall (consistent x) l).
  { assert (K : forall z, consistent x (z, dqmul (dqconj x) (dqmul z x))).
    { intros z. unfold consistent; cbn [fst snd]. rewrite <- dqmul_assoc, <- (unitdq_inv_conj x U).
      rewrite dqmul_inv_r, dqmul_1_l; [easy|]. now apply unitdq_n2. }
    apply Forall_cons; [|apply Forall_cons; [|apply Forall_nil]]; apply K. }
  split; [exact U|]. split; [exact C|]. split; [unfold x, q; cbn; lra|]. split.
  - exists (a, dqmul (dqconj x) (dqmul a x)), (c, dqmul (dqconj x) (dqmul c x)).
    split; [now left|]. split; [right; now left|].
    unfold a, c; cbn. intros E. specu. injection E as _ _ E. lra.
  - apply (C24_built _ l x); [|exact U|exact C]. intros m. now eexists.
Qed.
