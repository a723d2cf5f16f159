(** * Property C83: on real data the RANSAC calibration does not raise an exception, whatever the noise and the outliers. *)

From Coq Require Import Reals ZArith Bool List Lra Lia Psatz.
From Verif Require Import Num Py XReal XFacts Quat DualQuat HandEye Ransac Experiments Spec Embed QuatFacts QuatTrig
  QuatRot PropQuat DualFacts ScrewFacts PropDual ListFacts HandEyeFacts KernelFacts CalibFacts RansacFacts CalibExample
  PropCalib PropEval PropPrefilter PropBaseline PropRansac PropSampling PropTermination PropPerfect PropComplete.
From Coq Require Import Sorted.
Import ListNotations.
Local Open Scope R_scope.

(** ** specification *)
(** all rotations are unit quaternions; the dual parts are arbitrary *)
Definition unit_pair (p : rdq * rdq) : Prop := unitq (dr (fst p)) /\ unitq (dr (snd p)).
(** the decomposition routine may fail, but what it returns consists of real numbers *)
Definition real_vectors (svd : list (@dquat XR) -> res (list (@T XR) * list (@dquat XR))) : Prop :=
  forall m s v, svd m = Ok (s, v) -> exists vr, v = map inD vr.
(** configurations for n poses of which n_filtered are left by the prefilter *)
Record runnable (cfg : config XR) (n n_filtered : nat) : Prop := {
  ru_rej : exists t, ransac_sample_rejection_tolerance cfg = Fin t /\ 0 <= t;
  ru_pos : exists t, ransac_position_error_threshold_m cfg = Fin t /\ 0 < t;
  ru_ori : exists t, ransac_orientation_error_threshold_deg cfg = Fin t /\ 0 < t;
  ru_mode : ransac_inlier_classification cfg <> UnknownMethod;
  ru_size : (1 <= ransac_sample_size cfg < n)%nat;
  ru_rmse : ransac_inlier_classification cfg = RmseThreshold -> (2 <= ransac_sample_size cfg)%nat;
  ru_enough : enable_exhaustive_search cfg = false -> (ransac_sample_size cfg <= n_filtered)%nat;
  ru_abort : enable_exhaustive_search cfg = false -> ransac_enable_early_abort cfg = true ->
    exists p o, ransac_success_probability_threshold cfg = Fin p /\ ransac_outlier_probability cfg = Fin o /\ 0 < p < 1 /\ 0 < o < 1 }.

(** ** unit rotations *)
Lemma uq_norm q : unitq q -> hnorm q = 1.
Proof. apply unit_hnorm. Qed.
Lemma uq_tiny q : unitq q -> tiny < hnorm q.
Proof. intros U. rewrite uq_norm by easy. unfold tiny. lra. Qed.
Lemma uq_n2 a : unitq (dr a) -> hnorm2 (dr a) <> 0.
Proof. unfold unitq. intros ->. lra. Qed.
Lemma uq_mul a b : unitq (dr a) -> unitq (dr b) -> unitq (dr (dqmul a b)).
Proof. unfold unitq, dqmul; cbn [dr]. intros A B. rewrite hnorm2_mul, A, B. ring. Qed.
Lemma uq_neg a : unitq (dr a) -> unitq (dr (dqneg a)).
Proof. unfold unitq, dqneg; cbn [dr]. now rewrite hnorm2_neg. Qed.
Lemma uq_inv a : unitq (dr a) -> unitq (dr (dqinv a)).
Proof.
  unfold unitq, dqinv; cbn [dr]. intros U. unfold hinv. rewrite U. replace (/ 1) with 1 by field. now rewrite hscale_1, hnorm2_conj.
Qed.
Lemma uq_flip a : unitq (dr a) -> unitq (dr (rflip a)).
Proof. intros U. destruct (rflip_cases a) as [-> | ->]; [easy|now apply uq_neg]. Qed.
Lemma uq_normalize a : unitq (dr a) -> dqnormalize a = a.
Proof. intros U. unfold dqnormalize. rewrite uq_norm by easy. replace (/ 1) with 1 by field. apply dqscale_1. Qed.
Lemma uq_dnormalize a : unitq (dr a) -> dnormalize (inD a) = inD a.
Proof. intros U. rewrite dnormalize_in by (rewrite uq_norm by easy; lra). fold (dqnormalize a). now rewrite uq_normalize. Qed.
Lemma uq_to_pose a : unitq (dr a) -> to_pose (inD a) = (inD a, inP (trans_of a) (pos_w (dr a))).
Proof. intros U. rewrite to_pose_in by (rewrite uq_norm by easy; lra). cbv zeta. now rewrite uq_normalize. Qed.
Lemma pos_w_good q t : unitq q -> good_pose (t, pos_w q).
Proof.
  intros U. unfold good_pose; cbn [snd]. unfold pos_w. destruct (Rlt_dec _ _); [|now apply uq_tiny].
  apply uq_tiny. unfold unitq in *. now rewrite hnorm2_neg.
Qed.
Lemma trans_of_one : trans_of dqone = RV 0 0 0.
Proof. unfold trans_of, dqone. specu. apply rv_eq; cbn; ring. Qed.
Lemma pos_w_one : pos_w (dr dqone) = hone.
Proof. unfold pos_w, dqone; cbn [dr]. destruct (Rlt_dec _ _) as [H|]; [|easy]. exfalso. unfold hone in H. cbn in H. lra. Qed.

(** aligning a path with unit rotations *)
Lemma realign_unit k p0 l : Forall unit_pair l -> nth_error l k = Some p0 -> Forall unit_pair (realign k p0 l).
Proof.
  intros H N. apply nth_error_In in N. rewrite Forall_forall in *. destruct (H p0 N) as [A B].
  intros p I. unfold realign, rotl in I. apply in_app_or in I.
  assert (J : In p (map (fun p => (rflip (dqmul (dqinv (fst p0)) (fst p)), rflip (dqmul (dqinv (snd p0)) (snd p)))) l)).
  { rewrite <- (firstn_skipn k (map _ l)). apply in_or_app. tauto. }
  apply in_map_iff in J as (q & <- & Q). destruct (H q Q). split; cbn [fst snd]; auto using uq_flip, uq_mul, uq_inv.
Qed.
Lemma realign_head k p0 l : nth_error l k = Some p0 -> unit_pair p0 ->
  exists rest, realign k p0 l = (dqone, dqone) :: rest.
Proof.
  intros N [A B]. unfold realign, rotl. set (f := fun p : rdq * rdq => _).
  assert (E : nth_error (map f l) k = Some (dqone, dqone)).
  { rewrite nth_error_map, N. cbn [option_map]. f_equal. unfold f. rewrite !dqmul_inv_l by now apply uq_n2. now rewrite rflip_one. }
  destruct (skipn k (map f l)) as [|q r] eqn:S.
  - exfalso. rewrite <- (firstn_skipn k (map f l)), S, app_nil_r in E. assert (L : (k < length (firstn k (map f l)))%nat) by (apply nth_error_Some; congruence). rewrite firstn_length in L. lia.
  - assert (Q : nth_error (map f l) k = Some q).
    { rewrite <- (firstn_skipn k (map f l)), S. assert (L : (k < length (map f l))%nat) by (apply nth_error_Some; congruence).
      rewrite nth_error_app2; rewrite firstn_length; [|lia]. replace (k - Nat.min k (length (map f l)))%nat with 0%nat by lia. easy. }
    rewrite E in Q. injection Q as <-. now exists (r ++ firstn k (map f l)).
Qed.

(** ** comparing the two paths under a candidate with a unit rotation *)
Lemma aligned_any (x : rdq) (l : list (rdq * rdq)) : unitq (dr x) -> Forall unit_pair l -> l <> [] ->
  exists A B, get_aligned_poses (hands l) (eyes l) (inD x) = Ok (hands l, poses A, poses B) /\
    length A = length l /\ length B = length l /\ Forall good_pose A /\ Forall good_pose B /\
    (forall p rest, l = p :: rest -> fst p = dqone ->
       exists A' B', A = (RV 0 0 0, hone) :: A' /\ B = (RV 0 0 0, hone) :: B').
Proof.
  intros Ux H NE.
  set (y := if Rlt_dec (qs (dr (dqinv x))) 0 then dqneg (dqinv x) else dqinv x).
  assert (Uy : unitq (dr y)) by (unfold y; destruct (Rlt_dec _ _); auto using uq_neg, uq_inv).
  assert (Ey : bind (dinv (inD x)) (fun d => enforce_positive_w (dnormalize d)) = Ok (inD y)).
  { rewrite dinv_big by now apply uq_tiny. cbn [bind]. rewrite uq_dnormalize by now apply uq_inv.
    rewrite enforce_in by (apply uq_tiny; now apply uq_inv). reflexivity. }
  clearbody y.
  set (g := fun b v : rdq => let u := dqmul v y in if Rlt_dec (qs (dr u) * qs (dr b)) 0 then dqneg u else u).
  assert (Ug : forall p, In p l -> unitq (dr (g (fst p) (snd p)))).
  { intros p I. rewrite Forall_forall in H. destruct (H p I). unfold g. cbv zeta. destruct (Rlt_dec _ _); auto using uq_neg, uq_mul. }
  assert (FP : for_pairs (fun b v => let w_h := dnormalize (dmul v (inD y)) in
                Ok (if opposite_signs w_h b then dneg w_h else w_h)) (hands l) (eyes l)
             = Ok (map (fun p => inD (g (fst p) (snd p))) l)).
  { apply (for_pairs_in _ (fun b v => inD (g b v))). intros p I. rewrite Forall_forall in H.
    destruct (H p I) as (U1 & U2). rewrite dmul_in, uq_dnormalize by auto using uq_mul.
    cbv zeta. f_equal. unfold g. cbv zeta.
    pose proof (opposite_in (dqmul (snd p) y) (fst p)) as O.
    destruct (opposite_signs _ _), (Rlt_dec _ _) as [R|R]; try easy.
    - apply dneg_in.
    - destruct R. now apply O.
    - apply O in R. discriminate R. }
  destruct l as [|p0 rest]; [easy|]. set (l := p0 :: rest) in *.
  set (m := map (fun p => g (fst p) (snd p)) l). set (g0 := g (fst p0) (snd p0)).
  assert (M0 : nth_error m 0 = Some g0) by reflexivity.
  assert (U0 : unitq (dr g0)) by (apply (Ug p0); now left).
  set (z := fun p : rdq * rdq => rflip (dqmul (dqinv g0) (g (fst p) (snd p)))).
  assert (Uz : forall p, In p l -> unitq (dr (z p))) by (intros p I; unfold z; auto using uq_flip, uq_mul, uq_inv).
  assert (AL : align_paths_at_index (map (fun p => inD (g (fst p) (snd p))) l) 0 = Ok (map (fun p => inD (z p)) l)).
  { replace (map (fun p => inD (g (fst p) (snd p))) l) with (map inD m) by (unfold m; now rewrite map_map).
    rewrite (align_in m 0 _ M0) by now apply uq_tiny. rewrite rotl_0. f_equal. unfold m, z.
    rewrite !map_map. reflexivity. }
  exists (map (fun p => (trans_of (fst p), pos_w (dr (fst p)))) l), (map (fun p => (trans_of (z p), pos_w (dr (z p)))) l).
  split; [|split; [now rewrite map_length|split; [now rewrite map_length|split; [|split]]]].
  - unfold get_aligned_poses. rewrite assert_true by (unfold hands, eyes; rewrite !map_length; apply Nat.eqb_refl).
    destruct (dinv (inD x)) as [d|]; [|discriminate Ey]. cbn [bind] in Ey. cbn [bind]. rewrite Ey. cbn [bind].
    cbv zeta in FP. rewrite FP. cbn [bind]. rewrite AL. cbn [bind]. unfold hands, poses. rewrite !map_map. cbn [fst snd].
    assert (TP : forall p, In p l -> to_pose (inD (fst p)) = (inD (fst p), inP (trans_of (fst p)) (pos_w (dr (fst p))))).
    { intros p I. rewrite Forall_forall in H. apply uq_to_pose, (H p I). }
    assert (TZ : forall p, In p l -> to_pose (inD (z p)) = (inD (z p), inP (trans_of (z p)) (pos_w (dr (z p))))).
    { intros p I. now apply uq_to_pose, Uz. }
    f_equal. f_equal; [f_equal|]; apply map_ext_in; intros p I; rewrite ?TP, ?TZ by easy; reflexivity.
  - rewrite Forall_map, Forall_forall. intros p I. rewrite Forall_forall in H. apply pos_w_good, (H p I).
  - rewrite Forall_map, Forall_forall. intros p I. now apply pos_w_good, Uz.
  - intros p r E D. injection E as <- <-. unfold l. cbn [map]. rewrite D.
    assert (Z0 : z p0 = dqone). { unfold z. fold g0. rewrite dqmul_inv_l by now apply uq_n2. apply rflip_one. }
    rewrite Z0, trans_of_one, pos_w_one. eauto.
Qed.

Lemma evaluate_any (cfg : config XR) tp to A B : length A = length B -> A <> [] -> Forall good_pose A -> Forall good_pose B ->
  ransac_position_error_threshold_m cfg = Fin tp -> ransac_orientation_error_threshold_deg cfg = Fin to -> 0 < tp -> 0 < to ->
  exists rp ro flags, evaluate_alignment cfg (poses A) (poses B) = Ok (Fin rp, Fin ro, flags) /\ 0 <= rp /\ 0 <= ro /\
    length flags = length A /\
    (forall A' B', A = (RV 0 0 0, hone) :: A' -> B = (RV 0 0 0, hone) :: B' -> exists f, flags = true :: f).
Proof.
  intros L NE GA GB Tp To P0 O0.
  destruct (C31_evaluate cfg tp to A B L NE GA GB Tp To) as (es & fl & F & E & FF & P & LE).
  exists (rms (map fst es)), (rms (map snd es)), fl. split; [easy|]. split; [apply sqrt_pos|]. split; [apply sqrt_pos|].
  split; [apply Forall2_len in FF; congruence|].
  intros A' B' -> ->. cbn [combine] in F. inversion F as [|? e ? es' E0 F' Q1 Q2]; subst. inversion FF as [|? f ? fl' F0 _ Q3 Q4]; subst.
  exists fl'. f_equal. apply F0. unfold errors_of in E0. cbn [fst snd] in E0.
  assert (C : elementwise_close (canon hone) (canon hone)).
  { apply elementwise_close_iff. apply allclose_close4.
    refine (allclose_refl_fin _ [Spec.v1 (qv (canon hone)); v2 (qv (canon hone)); v3 (qv (canon hone)); qs (canon hone)] _). lra. }
  rewrite pose_error_close in E0; [|rewrite uq_norm by (unfold unitq; specu; ring); lra..|exact C].
  injection E0 as <- <-. replace (len3 (vsub (RV 0 0 0) (RV 0 0 0))) with 0; [lra|].
  unfold len3. specu. symmetry. rewrite <- sqrt_0. f_equal. ring.
Qed.

(** ** one calibration of an aligned path *)
Lemma calibrate_any svd (cfg : config XR) rest : real_vectors svd ->
  exists r, calibrate_normalized svd cfg (hands ((dqone, dqone) :: rest)) (eyes ((dqone, dqone) :: rest))
    = (eyes ((dqone, dqone) :: map rmatch rest), r) /\
  forall d sv bad, r = Ok (d, sv, bad) -> exists x, d = inD x /\ unitq (dr x).
Proof.
  intros RV. unfold calibrate_normalized. set (tol := hand_eye_calibration_tolerance cfg).
  pose proof (C26_wellformed svd tol (hands ((dqone, dqone) :: rest)) (eyes ((dqone, dqone) :: rest))) as W.
  unfold hands, eyes in *. cbn [map fst snd] in *. fold (hands rest) in *. fold (eyes rest) in *. pose proof (compute_in svd tol rest) as E. rewrite E in *.
  unfold eyes. eexists. split; [reflexivity|].
  intros d sv bad H. apply bind_ok in H as ([[d0 s0] b0] & H & K). injection K as <- <- <-.
  destruct (W _ _ _ _ RV (f_equal _ H)) as (_ & _ & _ & _ & x & _ & _ & _ & _ & _ & _ & -> & U & _).
  exists x. split; [now apply uq_dnormalize|easy].
Qed.
Lemma rmatch_unit p : unit_pair p -> unit_pair (rmatch p).
Proof. intros [A B]. split; unfold rmatch; cbn [fst snd]; [easy|]. destruct (Rlt_dec _ _); auto using uq_neg. Qed.
Lemma compress_unit l f : Forall unit_pair l -> Forall unit_pair (compress l f).
Proof.
  revert f; induction l as [|p l IH]; intros [|b f] H; cbn [compress]; try easy. inversion H; subst. destruct b; [constructor|]; auto.
Qed.
Lemma scatter_any l f k : Forall unit_pair l -> length f = length l -> Forall unit_pair k ->
  exists m, scatter (eyes l) f (eyes k) = eyes m /\ hands m = hands l /\ Forall unit_pair m.
Proof.
  unfold hands, eyes. revert f k; induction l as [|p l IH]; intros [|b f] k H L K; try discriminate L; [exists []; easy|].
  inversion H as [|? ? [H1 H2] H3]; subst. injection L as L. destruct b; [destruct k as [|q k]|].
  - destruct (IH f [] H3 L ltac:(constructor)) as (m & E & EH & U). exists (p :: m). cbn [map scatter] in *. rewrite E, EH.
    split; [easy|]. split; [easy|]. constructor; [split|]; easy.
  - inversion K as [|? ? [K1 K2] K3]; subst. destruct (IH f k H3 L K3) as (m & E & EH & U). exists ((fst p, snd q) :: m).
    cbn [map scatter fst snd]. rewrite E, EH. split; [easy|]. split; [easy|]. constructor; [split|]; easy.
  - destruct (IH f k H3 L K) as (m & E & EH & U). exists (p :: m). cbn [map scatter]. rewrite E, EH.
    split; [easy|]. split; [easy|]. constructor; [split|]; easy.
Qed.

(** ** one sample *)
Lemma good_sample_any tol l : 0 <= tol -> exists b, good_sample (N:=XR) (Fin tol) (eyes l) (hands l) = Ok b.
Proof.
  intros T0. unfold hands, eyes. induction l as [|p l IH]; [now exists true|]. cbn [map good_sample].
  rewrite scalar_parts_closeb by easy. cbn [bind]. destruct (closeb _ _ _); [exact IH|now exists false].
Qed.
Lemma closeb_one tol : 0 <= tol -> closeb tol dqone dqone = true.
Proof. intros T0. apply closeb_iff. now apply scalars_close_eq. Qed.
(** what the classification of the inliers yields *)
Lemma classify_any svd (cfg : config XR) rtol tp to sb sw a rest :
  real_vectors svd -> ransac_sample_rejection_tolerance cfg = Fin rtol -> 0 <= rtol ->
  ransac_position_error_threshold_m cfg = Fin tp -> ransac_orientation_error_threshold_deg cfg = Fin to -> 0 < tp -> 0 < to ->
  ransac_inlier_classification cfg <> UnknownMethod ->
  (ransac_inlier_classification cfg = RmseThreshold -> (2 <= ransac_sample_size cfg)%nat /\
     exists r, sb = hands ((dqone, dqone) :: r) /\ sw = eyes ((dqone, dqone) :: r)) ->
  a = (dqone, dqone) :: rest -> Forall unit_pair a ->
  exists c, classify svd cfg sb sw (hands a) (eyes a) = Ok c /\
    forall ab flags initial, c = Some (ab, flags, initial) ->
      ab = hands a /\ length flags = length a /\ (exists f, flags = true :: f) /\
      (forall d sv bad, initial = Some (d, sv, bad) -> exists x, d = inD x /\ unitq (dr x)).
Proof.
  intros RVC RT RT0 TP TO TP0 TO0 MD RM EA UA. unfold classify. destruct (ransac_inlier_classification cfg) eqn:MDE; [| |contradiction].
  - destruct (RM eq_refl) as (L2 & r & -> & ->). rewrite assert_true by now apply Nat.leb_le.
    destruct (calibrate_any svd cfg r RVC) as (res & -> & CX). cbn [snd].
    destruct res as [[[d sv] bad]|]; [|exists None; split; [reflexivity|discriminate]].
    destruct (CX d sv bad eq_refl) as (x & -> & UX).
    destruct (aligned_any x a UX UA ltac:(now rewrite EA)) as (A & B & G & LA & LB & GA & GB & HD). rewrite G. cbn [bind].
    destruct (evaluate_any cfg tp to A B) as (rp & ro & flags & EV & _ & _ & LF & F0); try easy; [congruence|intros ->; now rewrite EA in LA|].
    rewrite EV. cbn [bind]. destruct (HD _ _ EA eq_refl) as (A' & B' & EA' & EB'). destruct (F0 A' B' EA' EB') as (f & EF).
    assert (I0 : index flags 0 = Ok true) by (rewrite EF; reflexivity). rewrite I0. cbn [bind]. rewrite assert_true by easy.
    assert (CC : compress (hands a) flags = hands (compress a flags)) by apply compress_map.
    assert (CE : compress (eyes a) flags = eyes (compress a flags)) by apply compress_map.
    rewrite RT, CC, CE, scalar_flags_in by easy. cbn [bind].
    destruct (forallb _ _); eexists; (split; [reflexivity|]); [|discriminate].
    intros ab fl ini E. injection E as <- <- <-. split; [easy|]. split; [congruence|]. split; [eauto|].
    intros d sv' bad' E. injection E as <- _ _. eauto.
  - rewrite RT, flags_in by easy. cbn [bind]. eexists. split; [reflexivity|].
    intros ab fl ini E. injection E as <- <- <-. split; [easy|]. split; [now rewrite map_length|]. split; [|discriminate].
    rewrite EA. cbn [map fst snd]. rewrite closeb_one by easy. eauto.
Qed.

(** the verdict on a sample: the transform has a unit rotation, the errors are nonnegative numbers *)
Definition sound (cfg : config XR) (n : nat) (v : @verdict XR) : Prop :=
  match v with
  | Evaluated d rp ro k _ _ => (1 <= k <= n)%nat /\ (min_num_inliers cfg <= k)%nat /\
      (exists x, d = inD x /\ unitq (dr x)) /\ (exists p o, rp = Fin p /\ ro = Fin o /\ 0 <= p /\ 0 <= o)
  | _ => True
  end.
Lemma compress_length_le {A} (l : list A) f : (length (compress l f) <= length l)%nat.
Proof. revert f; induction l as [|x l IH]; intros [|b f]; cbn [compress length]; try lia. specialize (IH f). destruct b; cbn [length]; lia. Qed.

Theorem C83_sample : forall svd (cfg : config XR) (l lf : list (rdq * rdq)) (s : list nat),
  real_vectors svd -> Forall unit_pair l -> incl lf l -> (length lf <= length l)%nat -> runnable cfg (length l) (length lf) ->
  length s = ransac_sample_size cfg -> (forall i, In i s -> (i < length lf)%nat) ->
  exists v, evaluate_sample svd cfg (hands l) (eyes l) (hands lf) (eyes lf) s = Ok v /\ sound cfg (length l) v.
Proof.
  intros svd cfg l lf s RVC UL IN LL RU LS IX.
  destruct RU as [(rtol & RT & RT0) (tp & TP & TP0) (to & TO & TO0) MD SZ RM EN AB].
  destruct (mapM_index_total lf s IX) as (sub & SUB & ISUB & LSUB). assert (IL : incl sub l) by (eapply incl_tran; eauto).
  assert (US : Forall unit_pair sub) by (rewrite Forall_forall in *; auto).
  assert (SH : mapM (index (hands lf)) s = Ok (hands sub)) by exact (mapM_index_map _ _ _ _ SUB).
  assert (SE : mapM (index (eyes lf)) s = Ok (eyes sub)) by exact (mapM_index_map _ _ _ _ SUB).
  unfold evaluate_sample. rewrite SH, SE. cbn [bind].
  rewrite assert_true by (unfold eyes; rewrite map_length, LSUB, LS; apply Nat.eqb_refl).
  destruct s as [|k s']; [cbn in LS; lia|]. destruct sub as [|p1 sub']; [discriminate LSUB|]. set (sub := p1 :: sub') in *.
  assert (U1 : unit_pair p1) by (inversion US; easy).
  assert (A1 : align_paths_at_index (hands sub) 0 = Ok (hands (realign 0 p1 sub))) by (apply align_hands; [easy|now apply uq_tiny, U1]).
  assert (A2 : align_paths_at_index (eyes sub) 0 = Ok (eyes (realign 0 p1 sub))) by (apply align_eyes; [easy|now apply uq_tiny, U1]).
  destruct (realign_head 0 p1 sub eq_refl U1) as (rs & ERS).
  assert (PRE : exists good ab aw, (if (1 <? ransac_sample_size cfg)%nat then
                 do al_b <- align_paths_at_index (hands sub) 0;
                 do al_w <- align_paths_at_index (eyes sub) 0;
                 do good <- good_sample (ransac_sample_rejection_tolerance cfg) al_w al_b;
                 Ok (good, al_b, al_w)
               else Ok (true, hands sub, eyes sub)) = Ok (good, ab, aw) /\
               ((2 <= ransac_sample_size cfg)%nat -> ab = hands (realign 0 p1 sub) /\ aw = eyes (realign 0 p1 sub))).
  { destruct (Nat.ltb_spec 1 (ransac_sample_size cfg)) as [L|L].
    - rewrite A1, A2, RT. cbn [bind]. destruct (good_sample_any rtol (realign 0 p1 sub) RT0) as (b & ->). cbn [bind]. eauto 10.
    - exists true, (hands sub), (eyes sub). split; [easy|]. intros; lia. }
  destruct PRE as (good & sb & sw & PRE & PRE'). rewrite PRE. cbn [bind].
  destruct good; cbn [negb]; [|exists Prerejected; split; easy].
  unfold index at 1. cbn [nth_error bind].
  assert (LK : (k < length l)%nat) by (specialize (IX k (or_introl eq_refl)); lia).
  destruct (nth_error l k) as [p0|] eqn:N0; [|apply nth_error_None in N0; lia].
  assert (U0 : unit_pair p0) by (rewrite Forall_forall in UL; apply UL; now apply nth_error_In in N0).
  assert (B1 : align_paths_at_index (hands l) k = Ok (hands (realign k p0 l))) by (apply align_hands; [easy|now apply uq_tiny, U0]).
  assert (B2 : align_paths_at_index (eyes l) k = Ok (eyes (realign k p0 l))) by (apply align_eyes; [easy|now apply uq_tiny, U0]).
  rewrite B1, B2. cbn [bind].
  destruct (realign_head k p0 l N0 U0) as (rest & EA). pose proof (realign_unit k p0 l UL N0) as UA. pose proof (realign_length k p0 l) as LA.
  set (a := realign k p0 l) in *. clearbody a.
  destruct (classify_any svd cfg rtol tp to sb sw a rest RVC RT RT0 TP TO TP0 TO0 MD) as (c & CL & CS); [|exact EA|exact UA|].
  { intros MDE. specialize (RM MDE). split; [easy|]. destruct (PRE' RM) as [-> ->]. exists rs. now rewrite ERS. }
  rewrite CL. cbn [bind]. destruct c as [[[ab flags] initial]|]; [|exists Rejected; split; easy].
  destruct (CS ab flags initial eq_refl) as (-> & LF & (f & EF) & INI).
  assert (CC : compress (hands a) flags = hands (compress a flags)) by apply compress_map.
  assert (CE : compress (eyes a) flags = eyes (compress a flags)) by apply compress_map.
  cbv zeta. rewrite CC, CE. assert (LC : length (hands (compress a flags)) = length (compress a flags)) by (unfold hands; now rewrite map_length).
  rewrite LC. destruct (Nat.ltb_spec (length (compress a flags)) (min_num_inliers cfg)) as [MI|MI]; [exists Rejected; split; easy|].
  assert (CO : exists rc, compress a flags = (dqone, dqone) :: rc) by (rewrite EA, EF; cbn [compress]; eauto).
  destruct CO as (rc & ECO). pose proof (compress_unit a flags UA) as UCO. pose proof (compress_length_le a flags) as LCO.
  (* the refinement *)
  assert (REF : exists m r, (match ransac_model_refinement cfg, initial with
              | false, Some r => (eyes (compress a flags), Ok r)
              | _, _ => calibrate_normalized svd cfg (hands (compress a flags)) (eyes (compress a flags))
              end) = (eyes m, r) /\ hands m = hands (compress a flags) /\ Forall unit_pair m /\
              forall d sv bad, r = Ok (d, sv, bad) -> exists x, d = inD x /\ unitq (dr x)).
  { assert (CAL : exists m r, calibrate_normalized svd cfg (hands (compress a flags)) (eyes (compress a flags)) = (eyes m, r) /\
        hands m = hands (compress a flags) /\ Forall unit_pair m /\ forall d sv bad, r = Ok (d, sv, bad) -> exists x, d = inD x /\ unitq (dr x)).
    { rewrite ECO. destruct (calibrate_any svd cfg rc RVC) as (r & -> & RX). exists ((dqone, dqone) :: map rmatch rc), r.
      split; [easy|]. split; [|split; [|exact RX]].
      - unfold hands. cbn [map fst]. f_equal. apply hands_rmatch.
      - rewrite ECO in UCO. inversion UCO as [|? ? H1 H2]; subst. constructor; [easy|]. rewrite Forall_map.
        eapply Forall_impl; [|exact H2]. apply rmatch_unit. }
    destruct (ransac_model_refinement cfg); [exact CAL|]. destruct initial as [[[d sv] bad]|]; [|exact CAL].
    exists (compress a flags), (Ok (d, sv, bad)). split; [easy|]. split; [easy|]. split; [easy|].
    intros d' sv' bad' E. injection E as <- <- <-. eapply INI. reflexivity. }
  destruct REF as (m & r & REF & HM & UM & RX). rewrite REF. destruct r as [[[d sv] bad]|]; [|exists Rejected; split; easy].
  destruct (RX d sv bad eq_refl) as (x & -> & UX).
  assert (POS : exists A B h, (if ransac_evaluate_refined_model_on_inliers_only cfg
                          then get_aligned_poses (hands (compress a flags)) (eyes m) (inD x)
                          else get_aligned_poses (hands a) (scatter (eyes a) flags (eyes m)) (inD x)) = Ok (h, poses A, poses B) /\
                length A = length B /\ A <> [] /\ Forall good_pose A /\ Forall good_pose B).
  { assert (LM : length m = length (compress a flags)) by (apply (f_equal (@length _)) in HM; unfold hands in HM; now rewrite !map_length in HM).
    destruct (ransac_evaluate_refined_model_on_inliers_only cfg).
    - rewrite <- HM. destruct (aligned_any x m UX UM) as (A & B & G & L1 & L2 & G1 & G2 & _); [intros ->; rewrite ECO in LM; discriminate LM|].
      exists A, B, (hands m). split; [exact G|]. split; [congruence|]. split; [|easy]. intros ->. rewrite LM, ECO in L1. discriminate L1.
    - destruct (scatter_any a flags m UA LF UM) as (m' & -> & HM' & UM'). rewrite <- HM'.
      assert (LM' : length m' = length a) by (apply (f_equal (@length _)) in HM'; unfold hands in HM'; now rewrite !map_length in HM').
      destruct (aligned_any x m' UX UM') as (A & B & G & L1 & L2 & G1 & G2 & _); [intros ->; rewrite EA in LM'; discriminate LM'|].
      exists A, B, (hands m'). split; [exact G|]. split; [congruence|]. split; [|easy]. intros ->. rewrite LM', EA in L1. discriminate L1. }
  destruct POS as (A & B & h & POS & LAB & NEA & GA & GB). rewrite POS. cbn [bind].
  destruct (evaluate_any cfg tp to A B LAB NEA GA GB TP TO TP0 TO0) as (rp & ro & fl & EV & P0 & O0 & _). rewrite EV. cbn [bind].
  eexists. split; [reflexivity|]. cbn [sound]. rewrite <- LA. split; [rewrite ECO in *; cbn [length] in *; lia|]. split; [easy|].
  split; [eauto|]. exists rp, ro. easy.
Qed.

(** ** the search *)
Section Search83.
  Context (svd : list (@dquat XR) -> res (list (@T XR) * list (@dquat XR))) (draw : nat -> list nat) (cfg : config XR) (l lf : list (rdq * rdq)).
  Context (RVC : real_vectors svd) (UL : Forall unit_pair l) (IN : incl lf l) (LL : (length lf <= length l)%nat).
  Context (RU : runnable cfg (length l) (length lf)) (VD : valid_draws draw cfg (length lf)).
  Lemma sample_valid i s : sample_at draw cfg (length lf) i = Ok s -> length s = ransac_sample_size cfg /\ forall j, In j s -> (j < length lf)%nat.
  Proof.
    clear RVC UL IN LL RU. unfold sample_at. intros SA. destruct (enable_exhaustive_search cfg) eqn:X.
    - unfold index in SA. destruct (nth_error _ i) eqn:E; [|discriminate SA]. injection SA as ->. apply nth_error_In in E.
      apply combinations_in in E; [|apply PropComplete.seq_sorted]. destruct E as (E1 & E2 & E3). split; [easy|]. intros j J. apply E3, in_seq in J. lia.
    - destruct (length lf <? ransac_sample_size cfg)%nat; [discriminate SA|]. injection SA as <-. now apply VD.
  Qed.
  Lemma abort_any k : exists b, early_abort cfg k = Ok b.
  Proof.
    destruct (enable_exhaustive_search cfg) eqn:X; [exists false; unfold early_abort; now rewrite X|].
    destruct (ransac_enable_early_abort cfg) eqn:EA; [|exists false; unfold early_abort; now rewrite EA, andb_false_r].
    destruct (ru_abort _ _ _ RU X EA) as (p & o & A & B & C & D). pose proof (ru_size _ _ _ RU) as SZ.
    destruct (C38_bound cfg p o k A B C D ltac:(lia) X EA) as (b & E & _). eauto.
  Qed.
  Lemma step_any st : guard cfg (length lf) st = true ->
    exists p, (do sample <- sample_at draw cfg (length lf) (sample_number st);
         do v <- evaluate_sample svd cfg (hands l) (eyes l) (hands lf) (eyes lf) sample;
         account cfg sample v st) = Ok p.
  Proof.
    intros G. assert (SA : exists s, sample_at draw cfg (length lf) (sample_number st) = Ok s).
    { unfold guard in G. unfold sample_at. destruct (enable_exhaustive_search cfg) eqn:X.
      - apply Nat.ltb_lt in G. unfold index. destruct (nth_error _ _) eqn:E; [eauto|]. apply nth_error_None in E. lia.
      - pose proof (ru_enough _ _ _ RU X) as EN.
        replace (length lf <? ransac_sample_size cfg)%nat with false by (symmetry; apply Nat.ltb_ge; lia). eauto. }
    destruct SA as (s & SA). rewrite SA. cbn [bind]. destruct (sample_valid _ _ SA) as [V1 V2].
    destruct (C83_sample svd cfg l lf s RVC UL IN LL RU V1 V2) as (v & -> & _). cbn [bind].
    unfold account. destruct v; [eauto..|]. cbv zeta. destruct (abort_any (S (full_iterations st))) as (b & ->). cbn [bind]. eauto.
  Qed.
  Lemma loop_any fuel : forall st e, ransac_loop svd draw fuel cfg (hands l) (eyes l) (hands lf) (eyes lf) st <> Done (Err e).
  Proof.
    assert (LE : length (eyes lf) = length lf) by (unfold eyes; now rewrite map_length).
    induction fuel as [|fuel IH]; intros st e; cbn [ransac_loop]; [discriminate|]. rewrite LE.
    destruct (guard cfg (length lf) st) eqn:G; [|discriminate].
    destruct (step_any st G) as ([st' stop] & E). rewrite E. destruct stop; [discriminate|]. apply IH.
  Qed.
End Search83.

(** The search never raises: it returns a result or, in the random mode, goes on. *)
Theorem C83_never_raises : forall svd draw (cfg : config XR) (l : list (rdq * rdq)) bf wf fuel e,
  real_vectors svd -> Forall unit_pair l -> filtered cfg (hands l) (eyes l) = Ok (bf, wf) ->
  runnable cfg (length l) (length wf) -> valid_draws draw cfg (length wf) ->
  compute_RANSAC svd draw fuel cfg (hands l) (eyes l) <> Done (Err e).
Proof.
  intros svd draw cfg l bf wf fuel e RVC UL FIL RU VD.
  destruct (filtered_pairs cfg l _ _ FIL) as (lf & -> & -> & IN). pose proof (filtered_length cfg l lf FIL) as LL.
  assert (LE : length (eyes lf) = length lf) by (unfold eyes; now rewrite map_length). rewrite LE in *.
  assert (L1 : length (eyes l) = length l) by (unfold eyes; now rewrite map_length).
  assert (L2 : length (hands l) = length l) by (unfold hands; now rewrite map_length).
  pose proof (ru_size _ _ _ RU) as SZ.
  unfold compute_RANSAC. rewrite L1, L2, Nat.eqb_refl. cbn [assert_]. replace (ransac_sample_size cfg <? length l)%nat with true by (symmetry; apply Nat.ltb_lt; lia).
  cbn [assert_]. rewrite FIL. cbn [bind].
  pose proof (loop_any svd draw cfg l lf RVC UL IN LL RU VD fuel initial_state) as LA.
  destruct (ransac_loop _ _ _ _ _ _ _ _ _) as [[st|e']|]; try discriminate. now destruct (LA e').
Qed.
(** The exhaustive search returns a result. *)
Theorem C83_exhaustive : forall svd draw (cfg : config XR) (l : list (rdq * rdq)) bf wf,
  real_vectors svd -> Forall unit_pair l -> filtered cfg (hands l) (eyes l) = Ok (bf, wf) ->
  runnable cfg (length l) (length wf) -> enable_exhaustive_search cfg = true ->
  exists r, forall fuel, (binomial (length wf) (ransac_sample_size cfg) < fuel)%nat ->
    compute_RANSAC svd draw fuel cfg (hands l) (eyes l) = Done (Ok r).
Proof.
  intros svd draw cfg l bf wf RVC UL FIL RU X.
  assert (VD : valid_draws draw cfg (length wf)) by (intros X'; congruence).
  set (f0 := S (binomial (length wf) (ransac_sample_size cfg))).
  assert (NF : forall fuel, (binomial (length wf) (ransac_sample_size cfg) < fuel)%nat -> compute_RANSAC svd draw fuel cfg (hands l) (eyes l) <> OutOfFuel).
  { intros fuel FU. apply C35_exhaustive_terminates; [easy|]. intros bf' wf' F'. rewrite FIL in F'. injection F' as _ <-. exact FU. }
  destruct (compute_RANSAC svd draw f0 cfg (hands l) (eyes l)) as [[r|e]|] eqn:E.
  - exists r. intros fuel FU. replace fuel with (f0 + (fuel - f0))%nat by (unfold f0; lia). now apply C35_fuel_irrelevant.
  - exfalso. eapply C83_never_raises; eauto.
  - exfalso. apply (NF f0); [unfold f0; lia|exact E].
Qed.
(** What is returned: success means that at least one of the samples drawn was evaluated, and then the transform has
    a unit rotation, the errors are nonnegative numbers, and at least one and at least the demanded number of poses are
    inliers.  Without success both errors are infinite and there is no transform. *)
Theorem C83_result : forall svd draw (cfg : config XR) (l : list (rdq * rdq)) bf wf fuel r,
  real_vectors svd -> Forall unit_pair l -> filtered cfg (hands l) (eyes l) = Ok (bf, wf) ->
  runnable cfg (length l) (length wf) -> valid_draws draw cfg (length wf) ->
  compute_RANSAC svd draw fuel cfg (hands l) (eyes l) = Done (Ok r) ->
  exists h, history svd draw cfg (hands l) (eyes l) bf wf h /\ complete cfg wf h /\
    num_poses_after_filtering r = length wf /\
    ((success r = true /\ (exists s d rp ro k sv bad, In (s, Evaluated d rp ro k sv bad) h) /\
      exists x p o k, dq_H_E r = Some (inD x) /\ unitq (dr x) /\ rmse r = Some (Fin p, Fin o) /\ 0 <= p /\ 0 <= o /\
        num_inliers r = Some k /\ (1 <= k <= length l)%nat /\ (min_num_inliers cfg <= k)%nat)
     \/
     (success r = false /\ (forall s d rp ro k sv bad, ~ In (s, Evaluated d rp ro k sv bad) h) /\
      dq_H_E r = None /\ rmse r = Some (PInf, PInf) /\ num_inliers r = Some 0%nat)).
Proof.
  intros svd draw cfg l bf wf fuel r RVC UL FIL RU VD H.
  destruct (filtered_pairs cfg l _ _ FIL) as (lf & -> & -> & IN). pose proof (filtered_length cfg l lf FIL) as LL.
  assert (LE : length (eyes lf) = length lf) by (unfold eyes; now rewrite map_length). rewrite LE in *.
  assert (SND : forall h, history svd draw cfg (hands l) (eyes l) (hands lf) (eyes lf) h -> forall s v, In (s, v) h -> sound cfg (length l) v).
  { intros h HH s v I. apply In_nth_error in I as (i & I). destruct (HH i s v I) as [SA EV]. rewrite LE in SA.
    destruct (sample_valid draw cfg lf VD i s SA) as [V1 V2].
    destruct (C83_sample svd cfg l lf s RVC UL IN LL RU V1 V2) as (v' & E & SD). rewrite EV in E. injection E as ->. exact SD. }
  destruct (success r) eqn:SU.
  - destruct (C34_success XR svd draw cfg fuel _ _ r XR_strict_order H SU) as (bf & wf & h & s & d & rp & ro & k & sv & bad & F' & HH & CO & I & E & _).
    rewrite FIL in F'. injection F' as <- <-. exists h. split; [easy|]. split; [easy|].
    destruct (SND h HH _ _ I) as (K1 & K2 & (x & -> & UX) & (p & o & -> & -> & P0 & O0)).
    rewrite E. cbn [num_poses_after_filtering success dq_H_E rmse num_inliers]. split; [easy|]. left. split; [easy|]. split; [do 7 eexists; exact I|].
    exists x, p, o, k. rewrite uq_to_pose by easy. easy.
  - destruct (C34_failure XR svd draw cfg fuel _ _ r XR_strict_order H SU) as (bf & wf & h & F' & HH & CO & E & NB).
    rewrite FIL in F'. injection F' as <- <-. exists h. split; [easy|]. split; [easy|].
    rewrite E. cbn [num_poses_after_filtering success dq_H_E rmse num_inliers]. split; [easy|]. right. split; [easy|]. split; [|easy].
    intros s d rp ro k sv bad I. specialize (NB _ _ _ _ _ _ _ I).
    destruct (SND h HH _ _ I) as (_ & _ & _ & (p & o & -> & -> & _)). discriminate NB.
Qed.
(** The one thing that does raise in the random mode: the prefilter leaves fewer poses than a sample needs. *)
Theorem C83_too_few : forall (N : Num) svd draw (cfg : config N) b_h w_e bf wf fuel,
  length w_e = length b_h -> (ransac_sample_size cfg < length w_e)%nat ->
  filtered cfg b_h w_e = Ok (bf, wf) -> (length wf < ransac_sample_size cfg)%nat ->
  enable_exhaustive_search cfg = false -> (0 < ransac_max_number_iterations cfg)%nat ->
  compute_RANSAC svd draw (S fuel) cfg b_h w_e = Done (Err ValueError).
Proof.
  intros N svd draw cfg b_h w_e bf wf fuel L S FIL F X M. unfold compute_RANSAC.
  apply Nat.eqb_eq in L. apply Nat.ltb_lt in S. rewrite L, S, FIL. cbn [assert_ bind ransac_loop]. unfold guard, sample_at. rewrite X.
  cbn [initial_state full_iterations]. apply Nat.ltb_lt in M, F. now rewrite M, F.
Qed.
(** With the exhaustive search there is then nothing to look at, and the result says so. *)
Theorem C83_too_few_exhaustive : forall (N : Num) svd draw (cfg : config N) b_h w_e bf wf fuel,
  length w_e = length b_h -> (ransac_sample_size cfg < length w_e)%nat ->
  filtered cfg b_h w_e = Ok (bf, wf) -> (length wf < ransac_sample_size cfg)%nat -> enable_exhaustive_search cfg = true ->
  compute_RANSAC svd draw (S fuel) cfg b_h w_e = Done (Ok (mkResult false None (Some (ninf, ninf)) (Some 0%nat) (length wf) None (Some true))).
Proof.
  intros N svd draw cfg b_h w_e bf wf fuel L S FIL F X. unfold compute_RANSAC.
  apply Nat.eqb_eq in L. apply Nat.ltb_lt in S. rewrite L, S, FIL. cbn [assert_ bind ransac_loop]. unfold guard. rewrite X.
  assert (C : combinations (seq 0 (length wf)) (ransac_sample_size cfg) = []).
  { assert (B : forall n k, (n < k)%nat -> binomial n k = 0%nat).
    { induction n as [|n IH]; intros [|k] H; cbn [binomial]; try lia. rewrite !IH by lia. lia. }
    apply length_zero_iff_nil. rewrite combinations_length, seq_length. now apply B. }
  rewrite C. reflexivity.
Qed.
(** The shipped configurations are runnable. *)
Theorem C83_shipped : forall c n n_filtered,
  In c [get_RANSAC_classic_config true; get_RANSAC_classic_config false; get_RANSAC_scalar_part_inliers_config true;
        get_RANSAC_scalar_part_inliers_config false; get_exhaustive_search_pose_inliers_config;
        get_exhaustive_search_scalar_part_inliers_config] ->
  (4 <= n)%nat -> (enable_exhaustive_search (hand_config c) = false -> (3 <= n_filtered)%nat) -> runnable (hand_config c) n n_filtered.
Proof.
  intros c n nf I H1 H2. cbn [In] in I.
  repeat match type of I with _ \/ _ => destruct I as [<-|I] end; [..|contradiction];
  (constructor; try discriminate; try (cbn; lia); try (intros X; specialize (H2 X); cbn; lia);
   try (eexists; split; [apply lit_fin|cbn [Rlit]; lra]);
   try solve [intros _ _; exists (99/100), (5/10); split; [reflexivity|]; split; [reflexivity|]; lra]).
Qed.

(** Non-vacuity: four poses, the last of which is an outlier that is not even a rigid motion; all samples of two poses are
    looked at. *)
Definition cfg83 : config XR :=
  mkConfig (N:=XR) false 2 true false (lit 975 (-3)) 2 (lit 1 (-2)) 20 true (lit 5 (-1)) (lit 99 (-2))
    RmseThreshold (lit 2 (-2)) (lit 1 0) true false (lit 4 (-2)).
Definition l83 : list (rdq * rdq) := l65 ++ [(RD (RQ (RV (3/5) 0 0) (4/5)) (RQ (RV 1 2 3) 4), RD (RQ (RV 0 0 1) 0) hzero)].
Example C83_example : exists r, forall fuel, (6 < fuel)%nat ->
  compute_RANSAC (svd_const (v0 (3/5) (4/5))) (fun _ => []) fuel cfg83 (hands l83) (eyes l83) = Done (Ok r).
Proof.
  apply (C83_exhaustive (svd_const (v0 (3/5) (4/5))) (fun _ => []) cfg83 l83 (hands l83) (eyes l83)); try reflexivity.
  - intros m s v H. unfold svd_const in H. exists (v0 (3/5) (4/5)). congruence.
  - apply Forall_forall. intros p I. unfold l83, l65, l0 in I. cbn [In app] in I.
    destruct I as [<-|[<-|[<-|[<-|[]]]]]; split; cbn [fst snd]; unfold unitq, dqone; specu; lra.
  - constructor; try discriminate; try (cbn; lia); eexists; (split; [apply lit_fin|cbn [Rlit]; lra]).
Qed.
