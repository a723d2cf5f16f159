(** * Property C84: what the RANSAC calibration does with outliers. *)

From Coq Require Import Reals ZArith Bool List Lra Lia Psatz.
From Verif Require Import Num Py XReal XFacts Quat DualQuat HandEye Ransac Experiments Spec Embed QuatFacts QuatTrig
  QuatRot PropQuat DualFacts ScrewFacts PropDual ListFacts HandEyeFacts KernelFacts CalibFacts RansacFacts CalibExample
  PropCalib PropEval PropPrefilter PropBaseline PropRansac PropSampling PropTermination PropPerfect PropComplete
  FloatQuat StabilityFacts PropStability PropNoRaise.
From Coq Require Import Sorted.
Import ListNotations.
Local Open Scope R_scope.

(** ** specification *)
(** the pair p seen from the pair p0: the motions of the hand and of the eye between the two, with the sign convention of
    the alignment *)
Definition from_pair (p0 p : rdq * rdq) : rdq * rdq :=
  (rflip (dqmul (dqinv (fst p0)) (fst p)), rflip (dqmul (dqinv (snd p0)) (snd p))).
(** seen from p0, the pair p is no inlier for the scalar part test: one of the scalar parts of its two motions differs
    by more than the tolerance *)
Definition scalars_differ (tol : R) (p0 p : rdq * rdq) : Prop :=
  ~ scalars_close tol (snd (from_pair p0 p)) (fst (from_pair p0 p)).
(** ... for the test of the pose error: with the transform x the hand pose and the hand pose predicted from the eye are
    apart by at least one of the two thresholds *)
Definition pose_of (d : rdq) : rv * rq := (trans_of d, pos_w (dr d)).
Definition poses_differ (x : rdq) (tp to : R) (p0 p : rdq * rdq) : Prop :=
  let h := fst (from_pair p0 p) in let e := seen x (snd (from_pair p0 p)) in
  forall u err, (u = e \/ u = dqneg e) -> errors_of (pose_of h, pose_of u) err -> tp <= fst err \/ to <= snd err.
(** the pairs that are not genuine are recognised as outliers from p0 *)
Definition recognised (cfg : config XR) (x : rdq) (rtol tp to : R) (p0 : rdq * rdq) (l : list (rdq * rdq)) : Prop :=
  forall p, In p l ->
    (ransac_inlier_classification cfg = ScalarPartEquality -> scalars_differ rtol p0 p) /\
    (ransac_inlier_classification cfg = RmseThreshold -> poses_differ x tp to p0 p).

(** the genuine pairs in the order of the path aligned at position k, as seen from p0 *)
Definition genuine_from (good : rdq * rdq -> bool) (k : nat) (p0 : rdq * rdq) (l : list (rdq * rdq)) : list (rdq * rdq) :=
  map (from_pair p0) (filter good (rotl k l)).

(** ** lists *)
Lemma scatter_same {A} (l : list A) f : scatter l f (compress l f) = l.
Proof. revert f; induction l as [|a l IH]; intros [|[] f]; cbn; try easy; now rewrite IH. Qed.
Lemma filter_rotl_length {A} (f : A -> bool) k l : length (filter f (rotl k l)) = length (filter f l).
Proof.
  unfold rotl. rewrite filter_app, app_length, Nat.add_comm, <- app_length, <- filter_app. now rewrite firstn_skipn.
Qed.
Lemma filter_map_length {A B} (f : B -> bool) (g : A -> B) (h : A -> bool) l : (forall a, In a l -> f (g a) = h a) ->
  length (filter f (map g l)) = length (filter h l).
Proof.
  induction l as [|a l IH]; intros H; [easy|]. cbn [map filter]. rewrite (H a) by now left.
  destruct (h a); cbn [length]; rewrite IH; auto with datatypes.
Qed.
Lemma filter_map_in {A B} (f : B -> bool) (g : A -> B) (h : A -> bool) l : (forall a, In a l -> f (g a) = h a) ->
  filter f (map g l) = map g (filter h l).
Proof.
  induction l as [|a l IH]; intros H; [easy|]. cbn [map filter]. rewrite (H a) by now left.
  destruct (h a); cbn [map]; rewrite IH; auto with datatypes.
Qed.
Lemma realign_from k p0 l : realign k p0 l = rotl k (map (from_pair p0) l).
Proof. reflexivity. Qed.

(** ** the inliers that a test picks *)
Section Picked.
  Context (x : rdq) (l : list (rdq * rdq)) (good : rdq * rdq -> bool) (k : nat) (p0 : rdq * rdq) (F : rdq * rdq -> bool).
  Context (U : unitdq x) (P : perfect x (filter good l)) (NH : no_half_turn (filter good l)) (RI : rich (filter good l)).
  Context (N0 : nth_error l k = Some p0) (G0 : good p0 = true) (FG : forall p, In p l -> F (from_pair p0 p) = good p).
  Lemma picked_eq : compress (realign k p0 l) (map F (realign k p0 l)) = genuine_from good k p0 l.
  Proof.
    rewrite compress_filter, realign_from, rotl_map. apply filter_map_in. intros p I. apply FG. now apply in_rotl in I.
  Qed.
  Lemma picked : exists rest, let a := compress (realign k p0 l) (map F (realign k p0 l)) in
    a = (dqone, dqone) :: rest /\ length a = length (filter good l) /\ Forall (consistent x) a /\ two_axes a /\
    Forall (fun p => unitdq (fst p) /\ unitdq (snd p) /\ consistent_up_to_sign x p) a.
  Proof.
    assert (I0 : In p0 (filter good l)) by (apply filter_In; split; [now apply nth_error_In in N0|easy]).
    destruct (In_nth_error _ _ I0) as (k' & NK').
    destruct (realign_perfect x (filter good l) k' p0 U P NH NK') as [C1 C2]. pose proof (realign_axes x (filter good l) k' p0 U P RI NK') as TA.
    destruct (perfect_units x _ U P p0 I0) as [U1 U2]. destruct (realign_first k p0 l N0 U1 U2) as (rest & ER).
    rewrite compress_filter.
    assert (F1 : F (dqone, dqone) = true).
    { rewrite <- G0, <- (FG p0) by now apply nth_error_In in N0. f_equal. unfold from_pair.
      rewrite !dqmul_inv_l by now apply unitdq_n2. now rewrite rflip_one. }
    assert (SAME : forall p', In p' (filter F (realign k p0 l)) <-> In p' (realign k' p0 (filter good l))).
    { intros p'. rewrite filter_In, !realign_in. split.
      - intros ((p & I & ->) & FP). exists p. split; [|easy]. apply filter_In. split; [easy|]. rewrite <- FG by easy. exact FP.
      - intros (p & I & ->). apply filter_In in I as [I G]. split; [eauto|]. rewrite <- G. now apply FG. }
    exists (filter F rest). cbv zeta. split; [rewrite ER; cbn [filter]; now rewrite F1|].
    split; [rewrite realign_from, filter_rotl_length; now apply filter_map_length|].
    split; [rewrite Forall_forall in *; intros p' I; apply C1; now apply SAME|].
    split; [destruct TA as (p & q & Ip & Iq & NZ); exists p, q; split; [now apply SAME|split; [now apply SAME|easy]]|].
    rewrite Forall_forall in *; intros p' I; apply C2; now apply SAME.
  Qed.
End Picked.

Lemma pose_of_neg d : qs (dr d) <> 0 -> pose_of (dqneg d) = pose_of d.
Proof.
  intros NZ. unfold pose_of. f_equal.
  - destruct d as [[[] ?] [[] ?]]. unfold trans_of, dqneg. specu. apply rv_eq; cbn; ring.
  - destruct d as [[[a b c] w] e]. unfold pos_w, dqneg. cbn [dr hneg qs qv] in *.
    destruct (Rlt_dec w 0), (Rlt_dec (- w) 0); try lra; [reflexivity|]. unfold hneg. cbn. apply rq_eq; cbn; ring.
Qed.
Lemma same_pose_error d err : unitq (dr d) -> errors_of (pose_of d, pose_of d) err -> err = (0, 0).
Proof.
  intros U E. unfold errors_of, pose_of in E. cbn [fst snd] in E.
  assert (H : 1 / 100000000 < hnorm (pos_w (dr d))) by exact (pos_w_good (dr d) (trans_of d) U).
  rewrite pose_error_close in E; try exact H.
  2:{ apply elementwise_close_iff. apply allclose_close4. set (q := canon _).
      refine (allclose_refl_fin _ [Spec.v1 (qv q); v2 (qv q); v3 (qv q); qs q] _). lra. }
  assert (Z : len3 (vsub (trans_of d) (trans_of d)) = 0).
  { destruct (trans_of d) as [a b c]. unfold len3. specu. rewrite <- sqrt_0. f_equal. ring. }
  rewrite Z in E. injection E as E1 E2. destruct err. cbn [fst snd] in *. congruence.
Qed.
(** the flags that the pose errors under x give *)
Lemma error_flags (cfg : config XR) tp to x a rest : unitdq x -> Forall (fun p => unitdq (fst p) /\ unitdq (snd p)) a ->
  a = (dqone, dqone) :: rest ->
  ransac_position_error_threshold_m cfg = Fin tp -> ransac_orientation_error_threshold_deg cfg = Fin to ->
  exists ph pe rp ro F, get_aligned_poses (hands a) (eyes a) (inD x) = Ok (hands a, ph, pe) /\
    evaluate_alignment cfg ph pe = Ok (Fin rp, Fin ro, map F a) /\ 0 <= rp /\ 0 <= ro /\
    forall p, In p a -> exists u err, (u = seen x (snd p) \/ u = dqneg (seen x (snd p))) /\
      errors_of (pose_of (fst p), pose_of u) err /\ (F p = true <-> fst err < tp /\ snd err < to).
Proof.
  intros U UA EA TP TO. destruct (aligned_poses x a dqone dqone rest U UA EA) as (z & G & Z).
  assert (Z' : forall p, In p a -> z p = seen x (snd p) \/ z p = dqneg (seen x (snd p))).
  { intros p I. specialize (Z p I). assert (E : dqmul (dqconj dqone) (snd p) = snd p).
    { rewrite <- unitdq_inv_conj by apply unitdq_one. rewrite <- (dqmul_1_l (snd p)) at 1. rewrite <- dqmul_assoc.
      rewrite dqmul_inv_l by (apply unitdq_n2, unitdq_one). apply dqmul_1_l. }
    now rewrite E in Z. }
  set (A := map (fun p => (trans_of (fst p), pos_w (dr (fst p)))) a) in *. set (B := map (fun p => (trans_of (z p), pos_w (dr (z p)))) a) in *.
  assert (LAB : length A = length B) by (unfold A, B; now rewrite !map_length).
  assert (NA : A <> []) by (unfold A; rewrite EA; discriminate).
  assert (GA : Forall good_pose A).
  { unfold A. rewrite Forall_map, Forall_forall. rewrite Forall_forall in UA. intros p I. apply pos_w_good. apply (UA p I). }
  assert (GB : Forall good_pose B).
  { unfold B. rewrite Forall_map, Forall_forall. rewrite Forall_forall in UA. intros p I. apply pos_w_good.
    destruct (UA p I) as [_ U2]. assert (US := seen_unit x (snd p) U U2). destruct (Z' p I) as [-> | ->]; [apply US|apply unitdq_neg; exact US]. }
  destruct (C31_evaluate cfg tp to A B LAB NA GA GB TP TO) as (es & fl & FE & EV & FF & _ & LE).
  set (F := fun p : rdq * rdq => match compute_pose_error (inP (trans_of (fst p)) (pos_w (dr (fst p)))) (inP (trans_of (z p)) (pos_w (dr (z p)))) with
            | Ok (Fin e, Fin d) => Rltb d to && Rltb e tp | _ => false end).
  assert (K : fl = map F a /\ forall p, In p a -> exists err, errors_of (pose_of (fst p), pose_of (z p)) err /\ (F p = true <-> fst err < tp /\ snd err < to)).
  { unfold A, B in FE. clear - FE FF. revert es fl FE FF. induction a as [|p a IH]; intros es fl FE FF.
    - inversion FE; subst. inversion FF; subst. easy.
    - cbn [map combine] in FE. inversion FE as [|? e ? es' E0 FE']; subst. inversion FF as [|? f ? fl' F0 FF']; subst.
      destruct (IH es' fl' FE' FF') as [-> IH2].
      assert (FP : F p = true <-> fst e < tp /\ snd e < to).
      { unfold errors_of in E0. cbn [fst snd] in E0. unfold F. rewrite E0. rewrite andb_true_iff, !Rltb_iff. tauto. }
      split.
      + cbn [map]. f_equal. apply eq_true_iff_eq. rewrite FP. exact F0.
      + intros q [<-|I]; [|auto]. exists e. split; [exact E0|exact FP]. }
  destruct K as [-> K]. exists (poses A), (poses B), (rms (map fst es)), (rms (map snd es)), F.
  split; [exact G|]. split; [exact EV|]. split; [apply sqrt_pos|]. split; [apply sqrt_pos|].
  intros p I. destruct (K p I) as (err & E1 & E2). exists (z p), err. split; [now apply Z'|]. easy.
Qed.

(** ** one sample *)
(** A sample of genuine pairs, when the other pairs are recognised as outliers from the first pose of the sample and the
    decompositions are regular: the transform found is exactly the true one, the inliers are exactly the genuine pairs, and
    on them both errors are 0. *)
Theorem C84_clean_sample : forall svd (cfg : config XR) tol rtol tp to x (l lf : list (rdq * rdq)) (good : rdq * rdq -> bool) k s p0 sub p1,
  (forall m, exists r, svd m = Ok r) -> hand_eye_calibration_tolerance cfg = Fin tol -> 0 <= tol ->
  ransac_sample_rejection_tolerance cfg = Fin rtol -> 0 <= rtol ->
  ransac_position_error_threshold_m cfg = Fin tp -> ransac_orientation_error_threshold_deg cfg = Fin to -> 0 < tp -> 0 < to ->
  ransac_inlier_classification cfg <> UnknownMethod ->
  unitdq x -> 0 < qs (dr x) -> Forall (fun p => unitdq (fst p) /\ unitdq (snd p)) l ->
  (* the genuine pairs *)
  perfect x (filter good l) -> no_half_turn (filter good l) -> rich (filter good l) ->
  (min_num_inliers cfg <= length (filter good l))%nat ->
  (* the sample *)
  (1 <= ransac_sample_size cfg)%nat -> length (k :: s) = ransac_sample_size cfg -> nth_error l k = Some p0 -> good p0 = true ->
  mapM (index lf) (k :: s) = Ok (p1 :: sub) -> incl (p1 :: sub) (filter good l) ->
  recognised cfg x rtol tp to p0 (filter (fun p => negb (good p)) l) ->
  regular svd (trows (genuine_from good k p0 l)) ->
  (ransac_inlier_classification cfg = RmseThreshold -> (2 <= ransac_sample_size cfg)%nat /\ rich (p1 :: sub) /\ regular svd (trows (realign 0 p1 (p1 :: sub)))) ->
  exists rp ro sv bad, evaluate_sample svd cfg (hands l) (eyes l) (hands lf) (eyes lf) (k :: s)
    = Ok (Evaluated (inD x) (Fin rp) (Fin ro) (length (filter good l)) sv bad) /\ 0 <= rp /\ 0 <= ro /\
    (ransac_evaluate_refined_model_on_inliers_only cfg = true -> rp = 0 /\ ro = 0).
Proof.
  intros svd cfg tol rtol tp to x l lf good k s p0 sub0 p1 TOT T T0 RT RT0 TP TO TP0 TO0 MD U W UL P NH RI MI S1 LS N0 G0 SUB ISUB REC RG RM.
  set (sub := p1 :: sub0) in *.
  assert (SH : mapM (index (hands lf)) (k :: s) = Ok (hands sub)) by exact (mapM_index_map _ _ _ _ SUB).
  assert (SE : mapM (index (eyes lf)) (k :: s) = Ok (eyes sub)) by exact (mapM_index_map _ _ _ _ SUB).
  assert (LSUB : length sub = length (k :: s)).
  { clear - SUB. revert SUB. generalize sub, (k :: s). intros b a; revert b. induction a as [|i a IH]; intros b H; cbn [mapM] in H; [now injection H as <-|].
    apply bind_ok in H as (y & _ & H). apply bind_ok in H as (ys & Y & H). injection H as <-. cbn [length]. now rewrite (IH _ Y). }
  pose proof (perfect_units x _ U P) as UU.
  unfold evaluate_sample. rewrite SH, SE. cbn [bind].
  rewrite assert_true by (unfold eyes; rewrite map_length, LSUB, LS; apply Nat.eqb_refl).
  destruct (UU p1 (ISUB p1 (or_introl eq_refl))) as [U1 U2].
  assert (A1 : align_paths_at_index (hands sub) 0 = Ok (hands (realign 0 p1 sub))) by (apply align_hands; [easy|now apply unitdq_tiny]).
  assert (A2 : align_paths_at_index (eyes sub) 0 = Ok (eyes (realign 0 p1 sub))) by (apply align_eyes; [easy|now apply unitdq_tiny]).
  destruct (realign_perfect x sub 0 p1 U (perfect_incl x _ sub ISUB P) (no_half_turn_incl _ sub ISUB NH) eq_refl) as [CS CS'].
  assert (PRE : exists ab aw, (if (1 <? ransac_sample_size cfg)%nat then
                 do al_b <- align_paths_at_index (hands sub) 0;
                 do al_w <- align_paths_at_index (eyes sub) 0;
                 do good <- good_sample (ransac_sample_rejection_tolerance cfg) al_w al_b;
                 Ok (good, al_b, al_w)
               else Ok (true, hands sub, eyes sub)) = Ok (true, ab, aw) /\
               ((2 <= ransac_sample_size cfg)%nat -> ab = hands (realign 0 p1 sub) /\ aw = eyes (realign 0 p1 sub))).
  { destruct (Nat.ltb_spec 1 (ransac_sample_size cfg)) as [L|L].
    - rewrite A1, A2, RT. cbn [bind]. rewrite good_sample_in by (try easy; now apply (consistent_close rtol x)). cbn [bind]. eauto.
    - exists (hands sub), (eyes sub). split; [easy|]. intros; lia. }
  destruct PRE as (sb & sw & PRE & PRE'). rewrite PRE. cbn [bind negb]. unfold index at 1. cbn [nth_error bind].
  assert (I0 : In p0 (filter good l)) by (apply filter_In; split; [now apply nth_error_In in N0|easy]).
  destruct (UU p0 I0) as [U3 U4].
  assert (B1 : align_paths_at_index (hands l) k = Ok (hands (realign k p0 l))) by (apply align_hands; [easy|now apply unitdq_tiny]).
  assert (B2 : align_paths_at_index (eyes l) k = Ok (eyes (realign k p0 l))) by (apply align_eyes; [easy|now apply unitdq_tiny]).
  rewrite B1, B2. cbn [bind].
  destruct (realign_first k p0 l N0 U3 U4) as (rest & EA).
  assert (UA : Forall (fun p => unitdq (fst p) /\ unitdq (snd p)) (realign k p0 l)).
  { apply Forall_forall. intros p' I. apply realign_in in I as (p & I & ->). rewrite Forall_forall in UL. destruct (UL p I).
    split; cbn [fst snd]; apply rflip_unit; apply unitdq_mul; auto using unitdq_inv. }
  destruct (error_flags cfg tp to x (realign k p0 l) rest U UA EA TP TO) as (ph & pe & rpA & roA & FE & GP & EV & RP0 & RO0 & FEP).
  (* the inliers are the genuine pairs *)
  assert (GC : forall p, In p l -> good p = true -> consistent x (from_pair p0 p)).
  { intros p I G. destruct (In_nth_error _ _ I0) as (k' & NK'). destruct (realign_perfect x _ k' p0 U P NH NK') as [C1 _].
    rewrite Forall_forall in C1. apply C1. apply realign_in. exists p. split; [now apply filter_In|easy]. }
  assert (CLS : exists F initial, classify svd cfg sb sw (hands (realign k p0 l)) (eyes (realign k p0 l))
                    = Ok (Some (hands (realign k p0 l), map F (realign k p0 l), initial)) /\
      (forall p, In p l -> F (from_pair p0 p) = good p) /\ (forall r, initial = Some r -> fst (fst r) = inD x)).
  { unfold classify. destruct (ransac_inlier_classification cfg) eqn:MDE; [| |contradiction].
    - destruct (RM eq_refl) as (L2 & RSUB & RGS). destruct (PRE' L2) as [-> ->]. rewrite assert_true by (apply Nat.leb_le; lia).
      assert (FG : forall p, In p l -> FE (from_pair p0 p) = good p).
      { intros p I. assert (IR : In (from_pair p0 p) (realign k p0 l)) by (apply realign_in; exists p; easy).
        destruct (FEP _ IR) as (u & err & Hu & He & Hf). apply eq_true_iff_eq. rewrite Hf. split.
        - intros [X Y]. destruct (good p) eqn:G; [easy|]. exfalso.
          destruct (REC p) as [_ R]; [apply filter_In; split; [exact I|rewrite G; reflexivity]|]. specialize (R MDE u err Hu He). lra.
        - intros G. pose proof (GC p I G) as C. unfold consistent in C.
          rewrite Forall_forall in UA. destruct (UA _ IR) as [V1 V2].
          assert (SX : seen x (snd (from_pair p0 p)) = fst (from_pair p0 p)).
          { unfold seen. rewrite <- C. rewrite dqmul_assoc, <- unitdq_inv_conj by easy. rewrite dqmul_inv_r by now apply unitdq_n2. apply dqmul_1_r. }
          assert (EZ : err = (0, 0)).
          { assert (NZ : qs (dr (fst (from_pair p0 p))) <> 0).
            { assert (IG : In p (filter good l)) by (apply filter_In; split; [exact I|exact G]). assert (NM := NH p0 p I0 IG). unfold motion in NM. unfold from_pair. cbn [fst].
              destruct (rflip_cases (dqmul (dqinv (fst p0)) (fst p))) as [-> | ->]; [easy|]. unfold dqneg. cbn [dr hneg qs]. lra. }
            rewrite SX in Hu. apply (same_pose_error (fst (from_pair p0 p))); [apply V1|]. replace (pose_of (fst (from_pair p0 p))) with (pose_of u) at 2; [exact He|].
            destruct Hu as [-> | ->]; [reflexivity|now apply pose_of_neg]. }
          rewrite EZ. cbn [fst snd]. split; lra. }
      destruct (aligned_perfect x sub 0 _ _ U (perfect_incl x _ sub ISUB P) (no_half_turn_incl _ sub ISUB NH) RSUB A1 A2) as (a0 & rest0 & EA0 & EH0 & EE0 & _ & C0 & TA0 & _).
      assert (RA0 : regular svd (trows a0)).
      { replace a0 with (realign 0 p1 sub); [exact RGS|]. now apply pairs_eq. }
      rewrite EH0, EE0. destruct (calibrate_regular svd cfg tol x a0 rest0 TOT RA0 T T0 U W EA0 C0 TA0) as (sv & bad & CN). rewrite CN. cbn [snd].
      rewrite GP. cbn [bind]. rewrite EV. cbn [bind].
      assert (F1 : FE (dqone, dqone) = true).
      { rewrite <- G0, <- (FG p0) by now apply nth_error_In in N0. f_equal. unfold from_pair.
        rewrite !dqmul_inv_l by now apply unitdq_n2. now rewrite rflip_one. }
      assert (F0 : index (map FE (realign k p0 l)) 0 = Ok true) by (rewrite EA; unfold index; cbn; now rewrite F1).
      rewrite F0. cbn [bind]. rewrite assert_true by easy.
      assert (CC : compress (hands (realign k p0 l)) (map FE (realign k p0 l)) = hands (compress (realign k p0 l) (map FE (realign k p0 l)))) by apply compress_map.
      assert (CE : compress (eyes (realign k p0 l)) (map FE (realign k p0 l)) = eyes (compress (realign k p0 l) (map FE (realign k p0 l)))) by apply compress_map.
      rewrite RT, CC, CE, scalar_flags_in by easy. cbn [bind].
      destruct (picked x l good k p0 FE U P NH RI N0 G0 FG) as (rp' & _ & _ & CP & _).
      replace (forallb _ _) with true.
      + exists FE, (Some (inD x, sv, bad)). split; [easy|]. split; [easy|]. intros r E. now injection E as <-.
      + symmetry. apply forallb_forall. intros b I. apply in_map_iff in I as (p & <- & I). apply closeb_iff. revert p I. now apply (consistent_close rtol x).
    - rewrite RT, flags_in by easy. cbn [bind]. exists (fun p => closeb rtol (snd p) (fst p)), None. split; [reflexivity|]. split; [|easy].
      intros p I. apply eq_true_iff_eq. rewrite closeb_iff. split.
      + intros X. destruct (good p) eqn:G; [easy|]. exfalso. destruct (REC p) as [R _]; [apply filter_In; now rewrite G|]. now apply (R MDE).
      + intros G. destruct (consistent_scalars x _ U (GC p I G)). apply scalars_close_eq; [easy|congruence|congruence]. }
  destruct CLS as (F & initial & CL & FG & INI). rewrite CL. cbn [bind].
  destruct (picked x l good k p0 F U P NH RI N0 G0 FG) as (rc & ECO & LCO & CO & TA & CU). cbv zeta in ECO, LCO, CO, TA, CU.
  pose proof (picked_eq l good k p0 F FG) as PE.
  set (a := compress (realign k p0 l) (map F (realign k p0 l))) in *.
  assert (CC : compress (hands (realign k p0 l)) (map F (realign k p0 l)) = hands a) by apply compress_map.
  assert (CE : compress (eyes (realign k p0 l)) (map F (realign k p0 l)) = eyes a) by apply compress_map.
  cbv zeta. rewrite CC. assert (LC : length (hands a) = length a) by (unfold hands; now rewrite map_length). rewrite LC, LCO.
  replace (length (filter good l) <? min_num_inliers cfg)%nat with false by (symmetry; apply Nat.ltb_ge; lia).
  assert (REF : exists sv bad, match ransac_model_refinement cfg, initial with
              | false, Some r => (compress (eyes (realign k p0 l)) (map F (realign k p0 l)), Ok r)
              | _, _ => calibrate_normalized svd cfg (hands a) (compress (eyes (realign k p0 l)) (map F (realign k p0 l)))
              end = (compress (eyes (realign k p0 l)) (map F (realign k p0 l)), Ok (inD x, sv, bad))).
  { rewrite CE. rewrite <- PE in RG. destruct (calibrate_regular svd cfg tol x a rc TOT RG T T0 U W ECO CO TA) as (sv & bad & CN).
    destruct (ransac_model_refinement cfg); [eauto|]. destruct initial as [[[d sv'] bad']|]; [|eauto].
    specialize (INI _ eq_refl). cbn in INI. subst d. eauto. }
  destruct REF as (sv & bad & ->). rewrite scatter_same, CE.
  destruct (ransac_evaluate_refined_model_on_inliers_only cfg).
  - destruct (C32_zero_error cfg tp to x a U CU ltac:(rewrite ECO; eauto) TP TO) as (h & ph' & pe' & fl & G & EVZ & _).
    rewrite G. cbn [bind]. rewrite EVZ. cbn [bind]. exists 0, 0, sv, bad. split; [easy|]. split; [lra|]. split; [lra|]. easy.
  - rewrite GP. cbn [bind]. rewrite EV. cbn [bind]. exists rpA, roA, sv, bad. split; [easy|]. split; [easy|]. split; [easy|]. discriminate.
Qed.

(** ** the search *)
(** If one of the samples drawn was found exact, the search reports success and at least one of its two errors is 0.  If in
    addition the exact samples all have the transform x and all other evaluated samples have two positive errors, the
    result is x. *)
Theorem C84_search : forall svd draw (cfg : config XR) x (l : list (rdq * rdq)) bf wf fuel r,
  real_vectors svd -> Forall unit_pair l -> filtered cfg (hands l) (eyes l) = Ok (bf, wf) ->
  runnable cfg (length l) (length wf) -> valid_draws draw cfg (length wf) -> unitdq x ->
  compute_RANSAC svd draw fuel cfg (hands l) (eyes l) = Done (Ok r) ->
  exists h, history svd draw cfg (hands l) (eyes l) bf wf h /\ complete cfg wf h /\
    forall s n sv bad, In (s, Evaluated (inD x) (Fin 0) (Fin 0) n sv bad) h ->
      success r = true /\
      (exists p o, rmse r = Some (Fin p, Fin o) /\ (p = 0 \/ o = 0)) /\
      ((forall s' d p o n' sv' bad', In (s', Evaluated d (Fin p) (Fin o) n' sv' bad') h -> d = inD x \/ (0 < p /\ 0 < o)) ->
       dq_H_E r = Some (inD x)).
Proof.
  intros svd draw cfg x l bf wf fuel r RVC UL FIL RU VD U H.
  destruct (C83_result svd draw cfg l bf wf fuel r RVC UL FIL RU VD H) as (h0 & _ & _ & _ & RES).
  destruct (success r) eqn:SU.
  - destruct (C34_success XR svd draw cfg fuel _ _ r XR_strict_order H SU) as (bf' & wf' & h & s & d & rp & ro & k & sv & bad & F' & HH & CO & I & E & _ & _ & MIN).
    rewrite FIL in F'. injection F' as <- <-. exists h. split; [easy|]. split; [easy|].
    intros s' n' sv' bad' I'. split; [easy|].
    assert (FN : exists p o, rp = Fin p /\ ro = Fin o /\ 0 <= p /\ 0 <= o).
    { destruct RES as [(_ & _ & y & p & o & k' & _ & _ & RM & P0 & O0 & _)|(X & _)]; [|discriminate X].
      rewrite E in RM. cbn [rmse] in RM. exists p, o. injection RM as -> ->. easy. }
    destruct FN as (p & o & -> & -> & P0 & O0). pose proof (MIN _ _ _ _ _ _ _ I') as M.
    cbn [ltb XR xltb] in M. apply andb_false_iff in M.
    assert (PO : p = 0 \/ o = 0).
    { destruct M as [M|M]; [left|right]; destruct (Rle_lt_dec 0 0) as [_|]; try lra.
      - destruct (Rlt_dec 0 p) as [L|L]; [|lra]. rewrite Rltb_t in M by easy. discriminate M.
      - destruct (Rlt_dec 0 o) as [L|L]; [|lra]. rewrite Rltb_t in M by easy. discriminate M. }
    rewrite E. cbn [rmse dq_H_E]. split; [eauto|].
    intros ALL. destruct (ALL _ _ _ _ _ _ _ I) as [-> |[X Y]]; [|lra]. now rewrite to_pose_unit.
  - destruct (C34_failure XR svd draw cfg fuel _ _ r XR_strict_order H SU) as (bf' & wf' & h & F' & HH & CO & E & NB).
    rewrite FIL in F'. injection F' as <- <-. exists h. split; [easy|]. split; [easy|].
    intros s n sv bad I. specialize (NB _ _ _ _ _ _ _ I). discriminate NB.
Qed.

(** The exhaustive search: if one of the samples is found exact and every other evaluated sample has the same transform or
    two positive errors, the result is x. *)
Theorem C84_exhaustive : forall svd draw (cfg : config XR) x (l lf : list (rdq * rdq)) s n sv bad,
  real_vectors svd -> Forall unit_pair l -> filtered cfg (hands l) (eyes l) = Ok (hands lf, eyes lf) ->
  runnable cfg (length l) (length lf) -> enable_exhaustive_search cfg = true -> unitdq x ->
  subset (length lf) (ransac_sample_size cfg) s ->
  evaluate_sample svd cfg (hands l) (eyes l) (hands lf) (eyes lf) s = Ok (Evaluated (inD x) (Fin 0) (Fin 0) n sv bad) ->
  (forall s' d p o n' sv' bad', subset (length lf) (ransac_sample_size cfg) s' ->
     evaluate_sample svd cfg (hands l) (eyes l) (hands lf) (eyes lf) s' = Ok (Evaluated d (Fin p) (Fin o) n' sv' bad') ->
     d = inD x \/ (0 < p /\ 0 < o)) ->
  exists r, (forall fuel, (binomial (length lf) (ransac_sample_size cfg) < fuel)%nat ->
    compute_RANSAC svd draw fuel cfg (hands l) (eyes l) = Done (Ok r)) /\ success r = true /\ dq_H_E r = Some (inD x).
Proof.
  intros svd draw cfg x l lf s n sv bad RVC UL FIL RU X U SS EV ALL.
  assert (LE : length (eyes lf) = length lf) by (unfold eyes; now rewrite map_length).
  destruct (C83_exhaustive svd draw cfg l (hands lf) (eyes lf) RVC UL FIL) as (r & R); [now rewrite LE|easy|]. rewrite LE in R.
  exists r. split; [exact R|].
  assert (H := R (S (binomial (length lf) (ransac_sample_size cfg))) ltac:(lia)).
  destruct (C84_search svd draw cfg x l (hands lf) (eyes lf) _ r RVC UL FIL ltac:(now rewrite LE) ltac:(intros X'; congruence) U H) as (h & HH & CO & K).
  destruct (C35_subsets (N:=XR) draw cfg (length lf) X) as (ss & S1 & S2 & S3 & S4).
  assert (IH : In (s, Evaluated (inD x) (Fin 0) (Fin 0) n sv bad) h).
  { apply S4 in SS. destruct (In_nth_error _ _ SS) as (i & NI). 
    unfold complete in CO. rewrite X, LE in CO. rewrite combinations_length, seq_length in CO.
    assert (LI : (i < length h)%nat) by (rewrite CO, <- S3; apply nth_error_Some; congruence).
    destruct (nth_error h i) as [[s' v']|] eqn:NH; [|apply nth_error_None in NH; lia].
    destruct (HH _ _ _ NH) as [A B]. rewrite LE in A. apply S1 in A. rewrite NI in A. injection A as ->.
    rewrite EV in B. injection B as <-. now apply nth_error_In in NH. }
  destruct (K _ _ _ _ IH) as (SU & _ & DX). split; [easy|]. apply DX.
  intros s' d p o n' sv' bad' I'. apply In_nth_error in I' as (j & NJ). destruct (HH _ _ _ NJ) as [A B]. rewrite LE in A.
  apply S1 in A. apply nth_error_In in A. apply S4 in A. eapply ALL; eauto.
Qed.

(** The number of inliers plays no role in the choice: the first evaluated sample for which one of the two errors is 0 is
    the result, however many inliers and however small errors any later sample has. *)
Section Locked.
  Context (svd : list (@dquat XR) -> res (list (@T XR) * list (@dquat XR))) (draw : nat -> list nat) (cfg : config XR) (l lf : list (rdq * rdq)).
  Context (RVC : real_vectors svd) (UL : Forall unit_pair l) (IN : incl lf l) (LL : (length lf <= length l)%nat).
  Context (RU : runnable cfg (length l) (length lf)) (VD : valid_draws draw cfg (length lf)).
  Definition locked (st : @state XR) : Prop := best_rmse_position st = Fin 0 \/ best_rmse_orientation st = Fin 0.
  Definition same_best (st st' : @state XR) : Prop := best st' = best st /\ best_num_inliers st' = best_num_inliers st /\
    best_rmse_position st' = best_rmse_position st /\ best_rmse_orientation st' = best_rmse_orientation st.
  Lemma account_locked s v st st' stop : sound cfg (length l) v -> locked st -> account cfg s v st = Ok (st', stop) -> same_best st st'.
  Proof.
    intros SD LK A. unfold account in A. destruct v as [| |d rp ro n sv bad].
    - injection A as <- _. now unfold same_best.
    - injection A as <- _. now unfold same_best.
    - destruct SD as (_ & _ & _ & (p & o & -> & -> & P0 & O0)). cbv zeta in A. apply bind_ok in A as (b & _ & A). injection A as <- _.
      assert (NB : ltb (Num:=XR) (Fin p) (best_rmse_position st) && ltb (Num:=XR) (Fin o) (best_rmse_orientation st) = false)
        by (apply andb_false_iff; destruct LK as [-> | ->]; [left|right]; cbn [ltb XR xltb]; apply Rltb_f; easy).
      match goal with |- same_best st (if ?c then _ else _) => change c with (ltb (Num:=XR) (Fin p) (best_rmse_position st) && ltb (Num:=XR) (Fin o) (best_rmse_orientation st)) end.
      rewrite NB. now unfold same_best.
  Qed.
  Lemma loop_locked fuel : forall st st', locked st ->
    ransac_loop svd draw fuel cfg (hands l) (eyes l) (hands lf) (eyes lf) st = Done (Ok st') -> same_best st st'.
  Proof.
    assert (LE : length (eyes lf) = length lf) by (unfold eyes; now rewrite map_length).
    induction fuel as [|fuel IH]; intros st st' LK H; cbn [ransac_loop] in H; [discriminate H|]. rewrite LE in H.
    destruct (guard cfg (length lf) st) eqn:G; [|injection H as <-; now unfold same_best].
    destruct (sample_at draw cfg (length lf) (sample_number st)) as [s|] eqn:SA; [|discriminate H]. cbn [bind] in H.
    destruct (sample_valid draw cfg lf VD _ _ SA) as [V1 V2].
    destruct (C83_sample svd cfg l lf s RVC UL IN LL RU V1 V2) as (v & EV & SD). rewrite EV in H. cbn [bind] in H.
    destruct (account cfg s v st) as [[st1 stop]|] eqn:A; [|discriminate H].
    pose proof (account_locked _ _ _ _ _ SD LK A) as SB. destruct stop; [injection H as <-; exact SB|].
    destruct SB as (B1 & B2 & B3 & B4). assert (LK1 : locked st1) by (unfold locked; now rewrite B3, B4).
    destruct (IH st1 st' LK1 H) as (C1 & C2 & C3 & C4). unfold same_best. now rewrite C1, C2, C3, C4.
  Qed.
End Locked.
Theorem C84_first_exact_wins : forall svd draw (cfg : config XR) (l lf : list (rdq * rdq)) fuel r s d p o n sv bad,
  real_vectors svd -> Forall unit_pair l -> filtered cfg (hands l) (eyes l) = Ok (hands lf, eyes lf) ->
  runnable cfg (length l) (length lf) -> valid_draws draw cfg (length lf) ->
  (enable_exhaustive_search cfg = false -> (0 < ransac_max_number_iterations cfg)%nat) ->
  compute_RANSAC svd draw fuel cfg (hands l) (eyes l) = Done (Ok r) ->
  sample_at draw cfg (length lf) 0 = Ok s ->
  evaluate_sample svd cfg (hands l) (eyes l) (hands lf) (eyes lf) s = Ok (Evaluated d (Fin p) (Fin o) n sv bad) ->
  p = 0 \/ o = 0 ->
  success r = true /\ dq_H_E r = Some (fst (to_pose d)) /\ rmse r = Some (Fin p, Fin o) /\ num_inliers r = Some n.
Proof.
  intros svd draw cfg l lf fuel r s d p o n sv bad RVC UL FIL RU VD MX H SA EV Z.
  destruct (filtered_pairs cfg l _ _ FIL) as (lf' & E1 & E2 & IN). rewrite <- (pairs_eq lf lf' E1 E2) in IN. pose proof (filtered_length cfg l lf FIL) as LL.
  assert (LE : length (eyes lf) = length lf) by (unfold eyes; now rewrite map_length).
  unfold compute_RANSAC in H. destruct (assert_ _) as [[]|]; cbn [bind] in H; [|discriminate H].
  destruct (assert_ _) as [[]|]; cbn [bind] in H; [|discriminate H]. rewrite FIL in H.
  destruct (ransac_loop _ _ _ _ _ _ _ _ _) as [[st|]|] eqn:L; try discriminate H. injection H as <-.
  destruct fuel as [|fuel]; [discriminate L|]. cbn [ransac_loop] in L. rewrite LE in L.
  assert (G : guard cfg (length lf) (initial_state (N:=XR)) = true).
  { unfold guard, sample_at in *. destruct (enable_exhaustive_search cfg); apply Nat.ltb_lt; [|now apply MX].
    unfold index in SA. destruct (nth_error _ 0) eqn:E; [|discriminate SA]. apply nth_error_Some. cbn [initial_state sample_number]. congruence. }
  rewrite G in L. cbn [initial_state sample_number] in L. rewrite SA in L. cbn [bind] in L. rewrite EV in L. cbn [bind] in L.
  unfold account in L. cbv zeta in L. cbn [best_rmse_position best_rmse_orientation sample_number full_iterations] in L.
  change (@ninf XR) with PInf in L. cbn [ltb XR xltb andb] in L.
  match type of L with context [early_abort cfg ?k] => destruct (early_abort cfg k) as [stop|]; cbn [bind] in L; [|discriminate L] end.
  set (st1 := mkState _ _ _ _ _ _ _ _) in L.
  assert (SB : same_best st1 st).
  { destruct stop; [injection L as <-; now unfold same_best|].
    apply (loop_locked svd draw cfg l lf RVC UL IN LL RU VD fuel st1 st); [|exact L].
    unfold locked, st1. cbn. destruct Z as [-> | ->]; [now left|now right]. }
  destruct SB as (B1 & B2 & B3 & B4). unfold ransac_result. rewrite B1, B2, B3, B4. unfold st1. cbn. easy.
Qed.

(** ** Non-vacuity *)
(** Four poses of which the last one is an outlier: the hand moves by 20 along one axis while the eye makes half a turn. *)
Definition outlier84 : rdq * rdq := (RD hone (RQ (RV 10 0 0) 0), RD (RQ (RV 1 0 0) 0) hzero).
Definition l84 : list (rdq * rdq) := l65 ++ [outlier84].
Definition good84 (p : rdq * rdq) : bool := Rltb (Spec.v1 (qv (dd (fst p)))) 5.
Lemma good84_l84 : filter good84 l84 = l65.
Proof.
  unfold l84, l65, l0, outlier84, good84, dqone, hzero, vzero. cbn [app filter fst dd qv Spec.v1].
  rewrite (Rltb_t 0 5), (Rltb_f 10 5) by lra. reflexivity.
Qed.
Definition cfg84 : config XR :=
  mkConfig (N:=XR) false 3 false false (lit 975 (-3)) 1 (lit 1 (-2)) 20 true (lit 5 (-1)) (lit 99 (-2))
    ScalarPartEquality (lit 2 (-2)) (lit 1 0) true true (lit 4 (-2)).
Lemma l65_perfect : perfect x0 l65 /\ no_half_turn l65 /\ rich l65.
Proof.
  split; [|split].
  - exists (dqinv x0). split; [apply unitdq_inv, x0_unit|]. apply Forall_forall. intros p I. split.
    + now apply l65_unit.
    + left. rewrite dqmul_assoc. assert (C : consistent x0 p).
      { destruct I as [<-|I]; [unfold consistent; cbn [fst snd]; now rewrite dqmul_1_l, dqmul_1_r|].
        pose proof l0_consistent as F. rewrite Forall_forall in F. now apply F. }
      rewrite C, <- dqmul_assoc, dqmul_inv_l, dqmul_1_l by apply unitdq_n2, x0_unit. easy.
  - intros p q P Q. unfold motion. rewrite unitdq_inv_conj by now apply l65_unit. unfold l65, l0 in P, Q. cbn [In] in P, Q.
    destruct P as [<-|[<-|[<-|[]]]]; destruct Q as [<-|[<-|[<-|[]]]]; unfold dqone; cbn [fst snd]; specu; lra.
  - exists (dqone, dqone), (nth 0 l0 (dqone, dqone)), (nth 1 l0 (dqone, dqone)). unfold l65, l0. cbn [nth].
    split; [now left|]. split; [right; now left|]. split; [right; right; now left|]. unfold motion. rewrite !unitdq_inv_conj by (apply (l65_unit (dqone, dqone)); now left). unfold dqone. cbn [fst snd]. intros E. specu. injection E as _ _ E. lra.
Qed.
Lemma l84_unit : Forall (fun p => unitdq (fst p) /\ unitdq (snd p)) l84.
Proof.
  apply Forall_forall. intros p I. unfold l84, l65, l0, outlier84 in I. cbn [In app] in I.
  destruct I as [<-|[<-|[<-|[<-|[]]]]]; split; split; unfold unitq, dqone, hone; cbn [fst snd]; specu; lra.
Qed.
Lemma realign_l65_map : map (from_pair (dqone, dqone)) l65 = l65.
Proof. rewrite <- realign_l65 at 2. rewrite realign_from. now rewrite rotl_0. Qed.
Example C84_sample_example : exists sv bad,
  evaluate_sample (svd_const (v0 (3/5) (4/5))) cfg84 (hands l84) (eyes l84) (hands l84) (eyes l84) [0%nat]
  = Ok (Evaluated (inD x0) (Fin 0) (Fin 0) 3 sv bad).
Proof.
  destruct l65_perfect as (PF & NH & RI).
  destruct (C84_clean_sample (svd_const (v0 (3/5) (4/5))) cfg84 (4/100) (1/100) (2/100) 1 x0 l84 l84 good84 0 [] (dqone, dqone) [] (dqone, dqone))
    as (rp & ro & sv & bad & E & _ & _ & Z); rewrite ?good84_l84; try exact PF; try exact NH; try exact RI; try reflexivity; try (cbn; lia); try lra; try discriminate.
  - intros m. now eexists.
  - apply x0_unit.
  - cbn. lra.
  - exact l84_unit.
  - unfold good84, dqone. cbn. apply Rltb_t. lra.
  - intros p [<-|[]]. now left.
  - intros p I. apply filter_In in I as [I G].
    assert (E : p = outlier84).
    { unfold l84 in I. apply in_app_or in I as [I|[I|[]]]; [|easy]. exfalso.
      assert (G' : good84 p = true) by (rewrite <- good84_l84 in I; now apply filter_In in I). rewrite G' in G. discriminate G. }
    subst p. split; [|discriminate]. intros _ [H _]. unfold from_pair in H. cbn [fst snd] in H.
    replace (dqinv dqone) with dqone in H by (rewrite <- (dqmul_1_r (dqinv dqone)), dqmul_inv_l by (unfold dqone; specu; lra); easy).
    rewrite !dqmul_1_l in H. unfold outlier84 in H. cbn [fst snd] in H. rewrite !rflip_id in H by (unfold hone; cbn; lra).
    unfold Spec.close_to, hone in H. cbn in H. rewrite !Rabs_left, Rabs_right in H by lra. lra.
  - unfold genuine_from. rewrite rotl_0, good84_l84.
    assert (E : map (from_pair (dqone, dqone)) l65 = l65) by exact realign_l65_map. rewrite E.
    exists s0, (v0 (3/5) (4/5)), (RD (hscale (3/5) q0) (hscale (4/5) q0)). split; [reflexivity|]. split; [apply svd0; lra|].
    split; [reflexivity|]. unfold q0. specu. lra.
  - destruct (Z eq_refl) as [-> ->]. rewrite good84_l84 in E. exists sv, bad. exact E.
Qed.

(** the search, drawing the first pose again and again *)
Example C84_search_example : exists r, compute_RANSAC (svd_const (v0 (3/5) (4/5))) (fun _ => [0%nat]) 30 cfg84 (hands l84) (eyes l84) = Done (Ok r) /\
  dq_H_E r = Some (inD x0) /\ num_inliers r = Some 3%nat.
Proof.
  assert (RVC : real_vectors (svd_const (v0 (3/5) (4/5)))) by (intros m s v H; unfold svd_const in H; exists (v0 (3/5) (4/5)); congruence).
  assert (UL : Forall unit_pair l84) by (eapply Forall_impl; [|exact l84_unit]; intros p [[A _] [B _]]; split; easy).
  assert (RU : runnable cfg84 (length l84) (length l84)).
  { constructor; try discriminate; try (cbn; lia); try (eexists; split; [apply lit_fin|cbn [Rlit]; lra]).
    intros _ _. exists (99/100), (5/10). split; [reflexivity|]. split; [reflexivity|]. lra. }
  assert (VD : valid_draws (fun _ => [0%nat]) cfg84 (length l84)) by (intros _ i; split; [easy|]; intros j [<-|[]]; cbn; lia).
  destruct C84_sample_example as (sv & bad & EV).
  destruct (compute_RANSAC (svd_const (v0 (3/5) (4/5))) (fun _ => [0%nat]) 30 cfg84 (hands l84) (eyes l84)) as [[r|e]|] eqn:H.
  - exists r. split; [easy|].
    destruct (C84_first_exact_wins (svd_const (v0 (3/5) (4/5))) (fun _ => [0%nat]) cfg84 l84 l84 30 r [0%nat] (inD x0) 0 0 3 sv bad) as (_ & D & _ & N); try easy.
    + intros _. cbn. lia.
    + now left.
    + rewrite D, to_pose_unit by apply x0_unit. easy.
  - exfalso. eapply (C83_never_raises (svd_const (v0 (3/5) (4/5))) (fun _ => [0%nat]) cfg84 l84 (hands l84) (eyes l84) 30 e); try easy; unfold eyes; rewrite map_length; easy.
  - exfalso. destruct (C35_random_running (svd_const (v0 (3/5) (4/5))) (fun _ => [0%nat]) cfg84 30 (hands l84) (eyes l84) XR_strict_order eq_refl H) as (bf & wf & h & F & HH & LH & EB).
    change (filtered cfg84 (hands l84) (eyes l84)) with (@Ok (list (@dquat XR) * list (@dquat XR)) (hands l84, eyes l84)) in F. injection F as <- <-.
    assert (ALL : evaluations h = length h).
    { unfold evaluations. f_equal. assert (A : forall sv', In sv' h -> is_evaluated sv' = true).
      { intros [s v] I. apply In_nth_error in I as (i & NI). destruct (HH _ _ _ NI) as [SA E]. cbn in SA. injection SA as <-.
        pose proof (eq_trans (eq_sym EV) E) as EE. injection EE as <-. reflexivity. }
      clear - A. induction h as [|a h IH]; [easy|]. cbn [filter]. rewrite A by now left. f_equal. apply IH. intros; apply A; now right. }
    rewrite ALL, LH in EB. cbn in EB. lia.
Qed.
