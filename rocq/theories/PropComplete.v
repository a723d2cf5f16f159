(** * Property C65: on noise-free data the RANSAC calibration succeeds. *)

From Coq Require Import Reals ZArith Bool List Lra Lia Psatz.
From Verif Require Import Num Py XReal XFacts Quat DualQuat HandEye Ransac Experiments Spec Embed QuatFacts QuatTrig
  QuatRot DualFacts ScrewFacts ListFacts HandEyeFacts KernelFacts CalibFacts RansacFacts CalibExample
  PropCalib PropEval PropPrefilter PropBaseline PropRansac PropSampling PropTermination PropPerfect.
From Coq Require Import Sorted.
Import ListNotations.
Local Open Scope R_scope.

(** *** specification *)
(** The decomposition of m is exact, and its seventh vector (u, v) is not orthogonal in the sense u.v = 0,
    which the code cannot handle (C25). *)
Definition regular (svd : list (@dquat XR) -> res (list (@T XR) * list (@dquat XR))) (m : list rdq) : Prop :=
  exists s v v7, svd (map inD m) = Ok (map Fin s, map inD v) /\ svd_spec m s v /\
    nth_error v 6 = Some v7 /\ hdot (dr v7) (dd v7) <> 0.
(** the samples the search may look at *)
Definition sample_of (draw : nat -> list nat) (cfg : config XR) (n : nat) (s : list nat) : Prop :=
  exists i, sample_at draw cfg n i = Ok s.

(** *** one calibration *)
Lemma calibrate_regular svd (cfg : config XR) tol x a rest :
  (forall m, exists r, svd m = Ok r) -> regular svd (trows a) -> hand_eye_calibration_tolerance cfg = Fin tol -> 0 <= tol ->
  unitdq x -> 0 < qs (dr x) -> a = (dqone, dqone) :: rest -> Forall (consistent x) a -> two_axes a ->
  exists sv bad, calibrate_normalized svd cfg (hands a) (eyes a) = (eyes a, Ok (inD x, sv, bad)).
Proof.
  intros TOT (s & v & v7 & SE & SP & N7 & NZ) T T0 U W EA C TA. unfold calibrate_normalized. rewrite T.
  assert (M : map rmatch rest = rest).
  { rewrite EA in C. apply Forall_inv_tail in C. clear - C U. induction C as [|p l Cp _ IH]; [easy|]. cbn [map].
    now rewrite IH, (rmatch_consistent x). }
  assert (E : compute_hand_eye_calibration svd (Fin tol) (hands a) (eyes a) = (eyes a, calibrate svd (Fin tol) (hands a) (eyes a))).
  { rewrite EA. pose proof (compute_in svd (Fin tol) rest) as E. rewrite M in E. exact E. }
  rewrite E. assert (ST : setup_t_matrix svd (hands a) (eyes a) = Ok (map inD (trows a))).
  { apply setup_t_in.
    - intros p _. apply TOT.
    - rewrite Forall_forall in C. intros p I. destruct (consistent_scalars x p U (C p I)). apply scalars_close_eq; [lra|congruence|congruence].
    - apply TOT. }
  destruct (calibrate_exact svd tol x a (trows a) s v T0 U W C TA ST SE SP) as (v7' & N7' & EC).
  rewrite N7 in N7'. injection N7' as <-. rewrite EC. destruct (Req_EM_T _ _) as [Z|_]; [contradiction|]. cbn [bind].
  rewrite dnormalize_unit by easy. eauto.
Qed.

(** *** one sample *)
Lemma mapM_index_total {A} (l : list A) s : (forall i, In i s -> (i < length l)%nat) -> exists sub, mapM (index l) s = Ok sub /\ incl sub l /\ length sub = length s.
Proof.
  induction s as [|i s IH]; intros H; [exists []; easy|]. destruct IH as (sub & E & I & L); [intros; apply H; now right|].
  assert (Li := H i (or_introl eq_refl)). destruct (nth_error l i) as [y|] eqn:NY; [|apply nth_error_None in NY; lia].
  exists (y :: sub). cbn [mapM]. unfold index at 1. rewrite NY, E. cbn [bind]. split; [easy|]. split; [|cbn; now rewrite L].
  apply incl_cons; [now apply nth_error_In in NY|easy].
Qed.
Lemma mapM_index_map {A B} (f : A -> B) (l : list A) s sub : mapM (index l) s = Ok sub -> mapM (index (map f l)) s = Ok (map f sub).
Proof.
  revert sub. induction s as [|i s IH]; intros sub H; cbn [mapM] in *; [now injection H as <-|].
  apply bind_ok in H as (y & Y & H). apply bind_ok in H as (ys & YS & H). injection H as <-.
  rewrite index_map, Y. cbn [bind]. now rewrite (IH _ YS).
Qed.
Lemma good_sample_in tol l : 0 <= tol -> (forall p, In p l -> scalars_close tol (snd p) (fst p)) -> good_sample (N:=XR) (Fin tol) (eyes l) (hands l) = Ok true.
Proof.
  intros T0. unfold hands, eyes. induction l as [|p l IH]; intros H; [easy|]. cbn [map good_sample].
  rewrite scalar_parts_closeb by easy. cbn [bind]. assert (C : closeb tol (snd p) (fst p) = true) by (apply closeb_iff, H; now left).
  rewrite C. apply IH. intros; apply H; now right.
Qed.
Lemma consistent_close tol x l : 0 <= tol -> unitdq x -> Forall (consistent x) l -> forall p, In p l -> scalars_close tol (snd p) (fst p).
Proof.
  intros T0 U C p I. rewrite Forall_forall in C. destruct (consistent_scalars x p U (C p I)). apply scalars_close_eq; [easy|congruence|congruence].
Qed.
Lemma flags_in tol l : 0 <= tol ->
  for_pairs (fun b w => do sb <- scalar b; do sw <- scalar w; Ok (allclose (N:=XR) (Fin tol) (dq_list sw) (dq_list sb))) (hands l) (eyes l)
  = Ok (map (fun p => closeb tol (snd p) (fst p)) l).
Proof.
  intros T0. apply (for_pairs_in _ (fun a b => closeb tol b a)). intros p I.
  assert (E := scalar_parts_closeb tol (snd p) (fst p) T0). unfold scalar_parts_close in E.
  rewrite !scalar_in in *. cbn [bind] in *. exact E.
Qed.
Lemma pairs_eq (a b : list (rdq * rdq)) : hands a = hands b -> eyes a = eyes b -> a = b.
Proof.
  revert b. induction a as [|[u v] a IH]; intros [|[u' v'] b] H1 H2; try discriminate; [easy|].
  assert (E1 : inD u = inD u') by exact (f_equal (fun l => match l with d :: _ => d | [] => inD u end) H1).
  assert (E2 : inD v = inD v') by exact (f_equal (fun l => match l with d :: _ => d | [] => inD v end) H2).
  apply inD_inj in E1, E2. subst. f_equal. apply IH; [exact (f_equal (@tl _) H1)|exact (f_equal (@tl _) H2)].
Qed.
(** the decompositions the code computes for a sample are regular; with the rmse threshold the poses of the
    sample also have to determine the transform *)
Definition suitable (svd : list (@dquat XR) -> res (list (@T XR) * list (@dquat XR))) (cfg : config XR) (l lf : list (rdq * rdq)) (s : list nat) : Prop :=
  (forall k p, nth_error s 0 = Some k -> nth_error l k = Some p -> regular svd (trows (realign k p l))) /\
  (ransac_inlier_classification cfg = RmseThreshold -> (2 <= length s)%nat /\
     forall sub p, mapM (index lf) s = Ok sub -> nth_error sub 0 = Some p -> rich sub /\ regular svd (trows (realign 0 p sub))).
Lemma evaluate_suitable svd (cfg : config XR) tol rtol tp to x l lf s :
  (forall m, exists r, svd m = Ok r) -> hand_eye_calibration_tolerance cfg = Fin tol -> 0 <= tol ->
  ransac_sample_rejection_tolerance cfg = Fin rtol -> 0 <= rtol ->
  ransac_position_error_threshold_m cfg = Fin tp -> ransac_orientation_error_threshold_deg cfg = Fin to -> 0 < tp -> 0 < to ->
  ransac_inlier_classification cfg <> UnknownMethod ->
  unitdq x -> 0 < qs (dr x) -> perfect x l -> no_half_turn l -> rich l -> incl lf l -> (length lf <= length l)%nat ->
  (min_num_inliers cfg <= length l)%nat -> (1 <= ransac_sample_size cfg)%nat ->
  length s = ransac_sample_size cfg -> (forall i, In i s -> (i < length lf)%nat) -> suitable svd cfg l lf s ->
  exists sv bad, evaluate_sample svd cfg (hands l) (eyes l) (hands lf) (eyes lf) s = Ok (Evaluated (inD x) (Fin 0) (Fin 0) (length l) sv bad).
Proof.
  intros TOT T T0 RT RT0 TP TO TP0 TO0 MD U W P NH RI IN LL MI S1 LS IX (REG & RM).
  pose proof (perfect_units x l U P) as UU.
  destruct (mapM_index_total lf s IX) as (sub & SUB & ISUB & LSUB). assert (IL : incl sub l) by (eapply incl_tran; eauto).
  assert (SH : mapM (index (hands lf)) s = Ok (hands sub)) by exact (mapM_index_map _ _ _ _ SUB).
  assert (SE : mapM (index (eyes lf)) s = Ok (eyes sub)) by exact (mapM_index_map _ _ _ _ SUB).
  unfold evaluate_sample. rewrite SH, SE. cbn [bind].
  rewrite assert_true by (unfold eyes; rewrite map_length, LSUB, LS; apply Nat.eqb_refl).
  destruct s as [|k s']; [cbn in LS; lia|]. destruct sub as [|p1 sub']; [discriminate LSUB|]. set (sub := p1 :: sub') in *.
  assert (I1 : In p1 l) by (apply IL; now left). destruct (UU p1 I1) as [U1 U2].
  assert (A1 : align_paths_at_index (hands sub) 0 = Ok (hands (realign 0 p1 sub))) by (apply align_hands; [easy|now apply unitdq_tiny]).
  assert (A2 : align_paths_at_index (eyes sub) 0 = Ok (eyes (realign 0 p1 sub))) by (apply align_eyes; [easy|now apply unitdq_tiny]).
  destruct (realign_perfect x sub 0 p1 U (perfect_incl x l sub IL P) (no_half_turn_incl l sub IL NH) eq_refl) as [CS CS'].
  (* the sample passes the first test *)
  assert (PRE : exists ab aw, (if (1 <? ransac_sample_size cfg)%nat then
                 do al_b <- align_paths_at_index (hands sub) 0;
                 do al_w <- align_paths_at_index (eyes sub) 0;
                 do good <- good_sample (ransac_sample_rejection_tolerance cfg) al_w al_b;
                 Ok (good, al_b, al_w)
               else Ok (true, hands sub, eyes sub)) = Ok (true, ab, aw) /\
               ((2 <= ransac_sample_size cfg)%nat -> ab = hands (realign 0 p1 sub) /\ aw = eyes (realign 0 p1 sub))).
  { destruct (Nat.ltb_spec 1 (ransac_sample_size cfg)) as [L|L].
    - rewrite A1, A2, RT. cbn [bind]. rewrite good_sample_in by (try easy; now apply (consistent_close rtol x)). cbn [bind]. eauto.
    - exists (hands sub), (eyes sub). split; [easy|]. intros; lia. }
  destruct PRE as (sb & sw & PRE & PRE'). rewrite PRE. cbn [bind negb]. unfold index at 1. cbn [nth_error bind].
  (* the whole path, aligned at the first index *)
  assert (LK : (k < length l)%nat) by (specialize (IX k (or_introl eq_refl)); lia).
  destruct (nth_error l k) as [p0|] eqn:N0; [|apply nth_error_None in N0; lia].
  destruct (UU p0 ltac:(now apply nth_error_In in N0)) as [U3 U4].
  assert (B1 : align_paths_at_index (hands l) k = Ok (hands (realign k p0 l))) by (apply align_hands; [easy|now apply unitdq_tiny]).
  assert (B2 : align_paths_at_index (eyes l) k = Ok (eyes (realign k p0 l))) by (apply align_eyes; [easy|now apply unitdq_tiny]).
  rewrite B1, B2. cbn [bind].
  destruct (aligned_perfect x l k _ _ U P NH RI B1 B2) as (a & rest & EA & EH & EE & LA & C & TA & F). rewrite EH, EE in *.
  assert (RA : a = realign k p0 l).
  { now apply pairs_eq. }
  assert (RG : regular svd (trows a)) by (rewrite RA; now apply (REG k p0)).
  assert (LH : length (hands a) = length a) by (unfold hands; now rewrite map_length).
  assert (LE : length (eyes a) = length a) by (unfold eyes; now rewrite map_length).
  destruct (C32_zero_error cfg tp to x a U F ltac:(subst a; eauto) TP TO) as (h & ph & pe & fl & G & EV & LF & FT). specialize (FT TP0 TO0).
  assert (GH : h = hands a).
  { destruct (C32_equal_poses x a U F ltac:(subst a; eauto)) as (ph' & pe' & G' & _). rewrite G in G'.
    apply (f_equal (fun r => match r with Ok (d, _, _) => d | Err _ => h end)) in G'. exact G'. }
  subst h.
  (* all poses are inliers *)
  assert (CLS : exists flags initial, classify svd cfg sb sw (hands a) (eyes a) = Ok (Some (hands a, flags, initial)) /\
      length flags = length a /\ Forall (fun f => f = true) flags /\ (forall r, initial = Some r -> fst (fst r) = inD x)).
  { unfold classify. destruct (ransac_inlier_classification cfg) eqn:MDE; [| |contradiction].
    - destruct (RM eq_refl) as (L2 & RS). destruct (RS sub p1 SUB eq_refl) as (RSUB & RGS). destruct (PRE' ltac:(lia)) as [-> ->].
      rewrite assert_true by (apply Nat.leb_le; lia).
      destruct (aligned_perfect x sub 0 _ _ U (perfect_incl x l sub IL P) (no_half_turn_incl l sub IL NH) RSUB A1 A2) as (a0 & rest0 & EA0 & EH0 & EE0 & _ & C0 & TA0 & _).
      assert (RA0 : regular svd (trows a0)).
      { replace a0 with (realign 0 p1 sub); [exact RGS|]. now apply pairs_eq. }
      rewrite EH0, EE0. destruct (calibrate_regular svd cfg tol x a0 rest0 TOT RA0 T T0 U W EA0 C0 TA0) as (sv & bad & CN). rewrite CN. cbn [snd].
      rewrite G. cbn [bind]. rewrite EV. cbn [bind].
      assert (F0 : index fl 0 = Ok true). { unfold index. destruct fl as [|f fl]; [rewrite EA in LF; discriminate LF|]. cbn. inversion FT; subst; easy. }
      rewrite F0. cbn [bind assert_]. rewrite !compress_true by (try easy; congruence). rewrite RT, scalar_flags_in by easy. cbn [bind].
      replace (forallb _ _) with true.
      + exists fl, (Some (inD x, sv, bad)). split; [easy|]. split; [easy|]. split; [easy|]. intros r E. now injection E as <-.
      + symmetry. apply forallb_forall. intros b I. apply in_map_iff in I as (p & <- & I). apply closeb_iff. now apply (consistent_close rtol x a).
    - rewrite RT, flags_in by easy. cbn [bind]. eexists _, None. split; [reflexivity|]. rewrite map_length. split; [easy|]. split; [|easy].
      apply Forall_forall. intros b I. apply in_map_iff in I as (p & <- & I). apply closeb_iff. now apply (consistent_close rtol x a). }
  destruct CLS as (flags & initial & -> & LFL & FL & INI). cbn [bind].
  rewrite !compress_true by (try easy; congruence). rewrite LH, LA. replace (length l <? min_num_inliers cfg)%nat with false by (symmetry; apply Nat.ltb_ge; lia).
  assert (REF : exists sv bad, match ransac_model_refinement cfg, initial with
              | false, Some r => (eyes a, Ok r)
              | _, _ => calibrate_normalized svd cfg (hands a) (eyes a)
              end = (eyes a, Ok (inD x, sv, bad))).
  { destruct (calibrate_regular svd cfg tol x a rest TOT RG T T0 U W EA C TA) as (sv & bad & CN).
    destruct (ransac_model_refinement cfg); [eauto|]. destruct initial as [[[d sv'] bad']|]; [|eauto].
    specialize (INI _ eq_refl). cbn in INI. subst d. eauto. }
  destruct REF as (sv & bad & ->). cbn [bind].
  rewrite scatter_true by (try easy; congruence).
  assert (EVL : (if ransac_evaluate_refined_model_on_inliers_only cfg then get_aligned_poses (hands a) (eyes a) (inD x) else get_aligned_poses (hands a) (eyes a) (inD x)) = Ok (hands a, ph, pe))
    by (destruct (ransac_evaluate_refined_model_on_inliers_only cfg); exact G).
  rewrite EVL. cbn [bind]. rewrite EV. cbn [bind]. eauto.
Qed.

(** *** the search *)
Lemma filtered_length (cfg : config XR) l lf : filtered cfg (hands l) (eyes l) = Ok (hands lf, eyes lf) -> (length lf <= length l)%nat.
Proof.
  intros H. unfold filtered in H. assert (L : length (hands lf) = length lf) by (unfold hands; now rewrite map_length). rewrite <- L. clear L.
  destruct (prefilter_poses_enabled cfg).
  - apply bind_ok in H as (k & K & H). rewrite split_maps in H.
    assert (E : map fst k = hands lf) by exact (f_equal (fun r => match r with Ok (a, _) => a | Err _ => hands lf end) H). rewrite <- E, map_length. clear H E.
    rewrite combine_hands_eyes in K.
    destruct (C29_prefilter XR (prefilter_dot_product_threshold cfg) (map (fun p => (inD (fst p), inD (snd p))) l)) as (keep & _ & _ & E).
    rewrite E in K. destruct (Nat.leb 2 (count_true keep)); [|discriminate K]. injection K as <-.
    rewrite compress_map, map_length. clear. revert keep. induction l as [|p l IH]; intros [|[] f]; cbn; try lia.
    + specialize (IH f). lia.
    + specialize (IH f). lia.
  - assert (E : hands l = hands lf) by exact (f_equal (fun r => match r with Ok (a, _) => a | Err _ => hands lf end) H).
    rewrite <- E. unfold hands. rewrite map_length. lia.
Qed.
Section Search.
  Context (svd : list (@dquat XR) -> res (list (@T XR) * list (@dquat XR))) (draw : nat -> list nat) (cfg : config XR) (x : rdq) (l lf : list (rdq * rdq)).
  Context (EVAL : forall s, sample_of draw cfg (length lf) s ->
    exists sv bad, evaluate_sample svd cfg (hands l) (eyes l) (hands lf) (eyes lf) s = Ok (Evaluated (inD x) (Fin 0) (Fin 0) (length l) sv bad)).
  Context (ABORT : forall k, exists b, early_abort cfg k = Ok b).
  Context (ENOUGH : (ransac_sample_size cfg <= length lf)%nat).
  Definition found (st : @state XR) : Prop :=
    (exists s sv, best st = Some (inD x, s, sv)) /\ best_num_inliers st = length l /\ best_rmse_position st = Fin 0 /\ best_rmse_orientation st = Fin 0.
  Definition todo (st : @state XR) : nat :=
    (if enable_exhaustive_search cfg then length (combinations (seq 0 (length lf)) (ransac_sample_size cfg)) - sample_number st
     else ransac_max_number_iterations cfg - full_iterations st)%nat.
  Lemma step_found st s : sample_of draw cfg (length lf) s -> found st \/ st = initial_state ->
    exists st' stop, (do v <- evaluate_sample svd cfg (hands l) (eyes l) (hands lf) (eyes lf) s; account cfg s v st) = Ok (st', stop) /\
      found st' /\ sample_number st' = S (sample_number st) /\ full_iterations st' = S (full_iterations st).
  Proof.
    intros SO F. destruct (EVAL s SO) as (sv & bad & ->). cbn [bind]. unfold account. cbv zeta.
    destruct (ABORT (S (full_iterations st))) as (b & ->). cbn [bind].
    destruct F as [(FB & FN & FP & FO)| ->].
    - rewrite FP, FO. cbn [ltb XR xltb]. rewrite Rltb_f by lra. cbn [andb]. eexists _, _. split; [reflexivity|]. unfold found; cbn. rewrite FN. repeat split; eauto.
    - cbn [initial_state best_rmse_position best_rmse_orientation]. change (@ninf XR) with PInf. cbn [ltb XR xltb andb].
      eexists _, _. split; [reflexivity|]. unfold found; cbn. repeat split; eauto.
  Qed.
  Lemma loop_found : forall fuel st, (todo st < fuel)%nat -> found st \/ (st = initial_state /\ guard cfg (length lf) st = true) ->
    exists st', found st' /\ forall more, ransac_loop svd draw (more + fuel) cfg (hands l) (eyes l) (hands lf) (eyes lf) st = Done (Ok st').
  Proof.
    induction fuel as [|fuel IH]; intros st TD F; [lia|]. 
    destruct (guard cfg (length lf) st) eqn:G.
    - assert (SA : exists s, sample_at draw cfg (length lf) (sample_number st) = Ok s).
      { unfold guard in G. unfold sample_at. destruct (enable_exhaustive_search cfg).
        - apply Nat.ltb_lt in G. unfold index. destruct (nth_error _ _) eqn:E; [eauto|]. apply nth_error_None in E. lia.
        - replace (length lf <? ransac_sample_size cfg)%nat with false by (symmetry; apply Nat.ltb_ge; lia). eauto. }
      destruct SA as (s & SA).
      destruct (step_found st s ltac:(now exists (sample_number st)) ltac:(tauto)) as (st' & stop & E & F' & SN & FI).
      assert (LE : length (eyes lf) = length lf) by (unfold eyes; now rewrite map_length).
      destruct stop.
      + exists st'. split; [easy|]. intros more. rewrite Nat.add_succ_r. cbn [ransac_loop]. rewrite LE, G, SA. cbn [bind]. now rewrite E.
      + destruct (IH st') as (st2 & F2 & L2); [|now left|].
        * unfold todo, guard in *. destruct (enable_exhaustive_search cfg); apply Nat.ltb_lt in G; lia.
        * exists st2. split; [easy|]. intros more. rewrite Nat.add_succ_r. cbn [ransac_loop]. rewrite LE, G, SA. cbn [bind]. rewrite E. apply L2.
    - destruct F as [F|[_ F]]; [|discriminate F]. exists st. split; [easy|]. intros more. rewrite Nat.add_succ_r. cbn [ransac_loop].
      assert (LE : length (eyes lf) = length lf) by (unfold eyes; now rewrite map_length). now rewrite LE, G.
  Qed.
End Search.

(** *** the theorem *)
(** a configuration the search can run with *)
Record usable (cfg : config XR) (n n_filtered : nat) : Prop := {
  us_tol : exists t, hand_eye_calibration_tolerance cfg = Fin t /\ 0 <= t;
  us_rej : exists t, ransac_sample_rejection_tolerance cfg = Fin t /\ 0 <= t;
  us_pos : exists t, ransac_position_error_threshold_m cfg = Fin t /\ 0 < t;
  us_ori : exists t, ransac_orientation_error_threshold_deg cfg = Fin t /\ 0 < t;
  us_mode : ransac_inlier_classification cfg <> UnknownMethod;
  us_inliers : (min_num_inliers cfg <= n)%nat;
  us_size : (1 <= ransac_sample_size cfg < n)%nat;
  us_enough : (ransac_sample_size cfg <= n_filtered)%nat;
  us_iterations : enable_exhaustive_search cfg = false -> (1 <= ransac_max_number_iterations cfg)%nat;
  us_abort : enable_exhaustive_search cfg = false -> ransac_enable_early_abort cfg = true ->
    exists p o, ransac_success_probability_threshold cfg = Fin p /\ ransac_outlier_probability cfg = Fin o /\ 0 < p < 1 /\ 0 < o < 1 }.
(** what random.sample may return for a population of n: as many indices as asked for, all of them below n *)
Definition valid_draws (draw : nat -> list nat) (cfg : config XR) (n : nat) : Prop :=
  enable_exhaustive_search cfg = false -> forall i, length (draw i) = ransac_sample_size cfg /\ forall j, In j (draw i) -> (j < n)%nat.
Lemma binomial_pos n : forall k, (k <= n)%nat -> (0 < binomial n k)%nat.
Proof. induction n as [|n IH]; intros [|k] H; cbn [binomial]; try lia. specialize (IH k ltac:(lia)). lia. Qed.
Lemma seq_sorted n : forall o, StronglySorted lt (seq o n).
Proof.
  induction n as [|n IH]; intros o; cbn [seq]; constructor; [apply IH|]. apply Forall_forall. intros i I. apply in_seq in I. lia.
Qed.
Theorem C65_succeeds : forall svd draw (cfg : config XR) (x : rdq) (l lf : list (rdq * rdq)),
  unitdq x -> 0 < qs (dr x) -> perfect x l -> no_half_turn l -> rich l ->
  filtered cfg (hands l) (eyes l) = Ok (hands lf, eyes lf) -> usable cfg (length l) (length lf) ->
  valid_draws draw cfg (length lf) ->
  (forall m, exists r, svd m = Ok r) -> (forall s, sample_of draw cfg (length lf) s -> suitable svd cfg l lf s) ->
  exists r fuel0, (forall fuel, (fuel0 <= fuel)%nat -> compute_RANSAC svd draw fuel cfg (hands l) (eyes l) = Done (Ok r)) /\
    success r = true /\ dq_H_E r = Some (inD x) /\ rmse r = Some (Fin 0, Fin 0) /\ num_inliers r = Some (length l) /\
    num_poses_after_filtering r = length lf.
Proof.
  intros svd draw cfg x l lf U W P NH RI FIL US VD TOT SU.
  destruct US as [(tol & T & T0) (rtol & RT & RT0) (tp & TP & TP0) (to & TO & TO0) MD MI S1 EN IT AB].
  pose proof (filtered_length cfg l lf FIL) as LL.
  assert (IN : incl lf l).
  { destruct (filtered_pairs cfg l _ _ FIL) as (lf' & E1 & E2 & IN). now rewrite (pairs_eq lf lf' E1 E2). }
  assert (EVAL : forall s, sample_of draw cfg (length lf) s ->
    exists sv bad, evaluate_sample svd cfg (hands l) (eyes l) (hands lf) (eyes lf) s = Ok (Evaluated (inD x) (Fin 0) (Fin 0) (length l) sv bad)).
  { intros s SO. assert (V : length s = ransac_sample_size cfg /\ forall i, In i s -> (i < length lf)%nat).
    { destruct SO as (i & SA). unfold sample_at in SA. destruct (enable_exhaustive_search cfg) eqn:X.
      - unfold index in SA. destruct (nth_error _ i) eqn:E; [|discriminate SA]. injection SA as ->. apply nth_error_In in E.
        apply combinations_in in E; [|apply seq_sorted]. destruct E as (E1 & E2 & E3). split; [easy|]. intros j J. apply E3, in_seq in J. lia.
      - destruct (length lf <? ransac_sample_size cfg)%nat; [discriminate SA|]. injection SA as <-. now apply VD. }
    eapply evaluate_suitable; eauto; try apply V; try apply SU; try easy. }
  assert (ABORT : forall k, exists b, early_abort cfg k = Ok b).
  { intros k. destruct (enable_exhaustive_search cfg) eqn:X; [exists false; unfold early_abort; now rewrite X|].
    destruct (ransac_enable_early_abort cfg) eqn:EA; [|exists false; unfold early_abort; now rewrite EA, andb_false_r].
    destruct (AB eq_refl eq_refl) as (p & o & A & B & C & D). destruct (C38_bound cfg p o k A B C D ltac:(lia) X EA) as (b & E & _). eauto. }
  assert (G : guard cfg (length lf) (initial_state (N:=XR)) = true).
  { unfold guard. destruct (enable_exhaustive_search cfg); apply Nat.ltb_lt; cbn.
    - rewrite combinations_length, seq_length. now apply binomial_pos.
    - specialize (IT eq_refl). lia. }
  destruct (loop_found svd draw cfg x l lf EVAL ABORT EN (S (todo cfg lf initial_state)) initial_state) as (st & FD & LP); [lia|now right|].
  exists (ransac_result (length (eyes lf)) st), (S (todo cfg lf initial_state)). split.
  - intros fuel FU. unfold compute_RANSAC.
    assert (L1 : length (eyes l) = length l) by (unfold eyes; now rewrite map_length).
    assert (L2 : length (hands l) = length l) by (unfold hands; now rewrite map_length).
    rewrite L1, L2, Nat.eqb_refl. cbn [assert_]. replace (ransac_sample_size cfg <? length l)%nat with true by (symmetry; apply Nat.ltb_lt; lia).
    cbn [assert_]. rewrite FIL. cbn [bind]. specialize (LP (fuel - S (todo cfg lf initial_state))%nat).
    replace (fuel - S (todo cfg lf initial_state) + S (todo cfg lf initial_state))%nat with fuel in LP by lia.
    now rewrite LP.
  - destruct FD as ((s & sv & B) & FN & FP & FO). unfold ransac_result. rewrite B, FN, FP, FO. cbn [success dq_H_E rmse num_inliers num_poses_after_filtering].
    rewrite to_pose_unit by easy. unfold eyes. rewrite map_length. easy.
Qed.
(** The shipped RANSAC and exhaustive-search configurations are usable for paths of at least ten poses of which at
    least three survive the prefilter. *)
Theorem C65_shipped : forall c n n_filtered,
  In c [get_RANSAC_classic_config true; get_RANSAC_classic_config false; get_RANSAC_scalar_part_inliers_config true;
        get_RANSAC_scalar_part_inliers_config false; get_exhaustive_search_pose_inliers_config;
        get_exhaustive_search_scalar_part_inliers_config] ->
  (10 <= n)%nat -> (3 <= n_filtered)%nat -> usable (hand_config c) n n_filtered.
Proof.
  intros c n nf I H1 H2. cbn [In] in I.
  repeat match type of I with _ \/ _ => destruct I as [<-|I] end; [..|contradiction];
  (constructor; try discriminate; try (cbn; lia);
   try (eexists; split; [apply lit_fin|cbn [Rlit]; lra]);
   try solve [intros _ _; exists (99/100), (5/10); split; [reflexivity|]; split; [reflexivity|]; lra]).
Qed.
(** Non-vacuity: three poses, samples of one pose drawn at random (always the first one here), no prefilter. *)
Definition cfg65 : config XR :=
  mkConfig (N:=XR) false 3 false false (lit 975 (-3)) 1 (lit 1 (-2)) 20 true (lit 5 (-1)) (lit 99 (-2))
    ScalarPartEquality (lit 2 (-2)) (lit 1 0) true false (lit 4 (-2)).
Definition l65 : list (rdq * rdq) := (dqone, dqone) :: l0.
Lemma realign_l65 : realign 0 (dqone, dqone) l65 = l65.
Proof.
  unfold realign, rotl. cbn [skipn firstn]. rewrite app_nil_r. rewrite <- (map_id l65) at 2. apply map_ext_in. intros [a b] I. cbn [fst snd].
  replace (dqinv dqone) with dqone by (rewrite <- (dqmul_1_r (dqinv dqone)), dqmul_inv_l by (unfold dqone; specu; lra); easy).
  rewrite !dqmul_1_l. unfold l65, l0 in I. cbn [In] in I.
  destruct I as [E|[E|[E|[]]]]; injection E as <- <-; rewrite !rflip_id; try easy; unfold dqone; specu; lra.
Qed.
Lemma l65_unit p : In p l65 -> unitdq (fst p).
Proof. intros I. unfold l65, l0 in I. cbn [In] in I. destruct I as [<-|[<-|[<-|[]]]]; cbn [fst]; split; unfold dqone; specu; lra. Qed.
Example C65_example : exists r fuel0, (forall fuel, (fuel0 <= fuel)%nat ->
    compute_RANSAC (svd_const (v0 (3/5) (4/5))) (fun _ => [0%nat]) fuel cfg65 (hands l65) (eyes l65) = Done (Ok r)) /\ dq_H_E r = Some (inD x0).
Proof.
  destruct (C65_succeeds (svd_const (v0 (3/5) (4/5))) (fun _ => [0%nat]) cfg65 x0 l65 l65) as (r & f & H & _ & D & _); eauto.
  - apply x0_unit.
  - cbn; lra.
  - exists (dqinv x0). split; [apply unitdq_inv, x0_unit|]. apply Forall_forall. intros p I. split.
    + now apply l65_unit.
    + left. rewrite dqmul_assoc. assert (C : consistent x0 p).
      { destruct I as [<-|I]; [unfold consistent; cbn [fst snd]; now rewrite dqmul_1_l, dqmul_1_r|].
        pose proof l0_consistent as F. rewrite Forall_forall in F. now apply F. }
      rewrite C, <- dqmul_assoc, dqmul_inv_l, dqmul_1_l by apply unitdq_n2, x0_unit. easy.
  - intros p q P Q. unfold motion. rewrite unitdq_inv_conj by now apply l65_unit. unfold l65, l0 in P, Q. cbn [In] in P, Q.
    destruct P as [<-|[<-|[<-|[]]]]; destruct Q as [<-|[<-|[<-|[]]]]; unfold dqone; cbn [fst snd]; specu; lra.
  - exists (dqone, dqone), (nth 0 l0 (dqone, dqone)), (nth 1 l0 (dqone, dqone)). unfold l65, l0. cbn [nth].
    split; [now left|]. split; [right; now left|]. split; [right; right; now left|]. unfold motion. rewrite !unitdq_inv_conj by (apply (l65_unit (dqone, dqone)); now left). unfold dqone. cbn [fst snd]. intros E. specu. injection E as _ _ E. lra.
  - constructor; try discriminate; try (cbn; lia).
    1-4: eexists; split; [apply lit_fin|cbn [Rlit]; lra].
    intros _ _. exists (99/100), (5/10). split; [reflexivity|]. split; [reflexivity|]. lra.
  - intros _ i. split; [easy|]. intros j [<-|[]]. cbn. lia.
  - intros m. now eexists.
  - intros s (i & S). cbn in S. injection S as <-. split; [|discriminate].
    intros k p K P. injection K as <-. injection P as <-. rewrite realign_l65.
    exists s0, (v0 (3/5) (4/5)), (RD (hscale (3/5) q0) (hscale (4/5) q0)). split; [reflexivity|]. split; [apply svd0; lra|].
    split; [reflexivity|]. unfold q0. specu. lra.
Qed.
