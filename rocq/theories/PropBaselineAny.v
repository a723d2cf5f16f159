(** * Property C85: the baseline calibration on arbitrary poses with unit rotations: which exception, or which result. *)

From Coq Require Import Reals ZArith Bool List Lra Lia Psatz.
From Verif Require Import Num Py XReal XFacts Quat DualQuat HandEye Ransac Experiments Spec Embed QuatFacts QuatTrig
  QuatRot PropQuat DualFacts ScrewFacts PropDual ListFacts HandEyeFacts KernelFacts CalibFacts RansacFacts CalibExample
  PropCalib PropEval PropPrefilter PropBaseline PropRansac PropSampling PropTermination PropPerfect PropComplete
  FloatQuat StabilityFacts PropStability PropNoRaise PropOutliers.
Import ListNotations.
Local Open Scope R_scope.

(** ** specification *)
(** seen from the pair p0, the scalar parts of the motions of hand and eye agree up to 1/100 *)
Definition agree (p0 p : rdq * rdq) : Prop := scalars_close (1/100) (snd (from_pair p0 p)) (fst (from_pair p0 p)).
(** n of the pairs of the list agree with p0 *)
Definition supporters (p0 : rdq * rdq) (l : list (rdq * rdq)) (n : nat) : Prop :=
  exists g, (forall p, g p = true <-> agree p0 p) /\ n = length (filter g l).
(** the list with the eye poses turned to the sign of the hand poses: where the scalar parts have opposite signs *)
Definition same_signs (p : rdq * rdq) : rdq * rdq :=
  (fst p, if Rlt_dec (qs (dr (snd p)) * qs (dr (fst p))) 0 then dqneg (snd p) else snd p).

(** ** proofs *)
Definition agreeb (p0 p : rdq * rdq) : bool := closeb (1/100) (snd (from_pair p0 p)) (fst (from_pair p0 p)).
Lemma agreeb_iff p0 p : agreeb p0 p = true <-> agree p0 p.
Proof. apply closeb_iff. Qed.
Lemma supporters_iff p0 l n : supporters p0 l n <-> n = length (filter (agreeb p0) l).
Proof.
  split; [|intros ->; exists (agreeb p0); split; [apply agreeb_iff|easy]].
  intros (g & G & ->). f_equal. apply filter_ext. intros p. apply eq_true_iff_eq. now rewrite G, agreeb_iff.
Qed.
Lemma agree_self p0 : unit_pair p0 -> from_pair p0 p0 = (dqone, dqone).
Proof. intros [A B]. unfold from_pair. rewrite !dqmul_inv_l by (now apply uq_n2). now rewrite rflip_one. Qed.

Section Any.
  Context (svd : list (@dquat XR) -> res (list (@T XR) * list (@dquat XR))) (cfg : config XR) (l lf : list (rdq * rdq)).
  Context (RVC : real_vectors svd) (UL : Forall unit_pair l)
    (FIL : filtered cfg (hands (map same_signs l)) (eyes (map same_signs l)) = Ok (hands lf, eyes lf)).

  Lemma unit_signs : Forall unit_pair (map same_signs l).
  Proof. clear - UL. apply Forall_forall. intros p I. apply in_map_iff in I as (q & <- & Q). rewrite Forall_forall in UL. now apply (rmatch_unit q), UL. Qed.
  Lemma sub_signs : incl lf (map same_signs l) /\ (length lf <= length l)%nat.
  Proof.
    clear RVC UL. destruct (filtered_pairs cfg _ _ _ FIL) as (lf' & E1 & E2 & IN). rewrite <- (pairs_eq lf lf' E1 E2) in IN.
    split; [easy|]. rewrite <- (map_length same_signs l). eapply filtered_length; eauto.
  Qed.
  Lemma unit_lf : Forall unit_pair lf.
  Proof. destruct sub_signs as [IN _]. pose proof unit_signs as U. rewrite Forall_forall in *. auto. Qed.
  Definition inl (j : nat) (p0 : rdq * rdq) : list (rdq * rdq) := filter (fun p => closeb (1/100) (snd p) (fst p)) (realign j p0 lf).
  Lemma inl_count j p0 : length (inl j p0) = length (filter (agreeb p0) lf).
  Proof.
    unfold inl. rewrite realign_from. rewrite filter_rotl_length. apply filter_map_length. easy.
  Qed.
  Lemma inl_ok j p0 : nth_error lf j = Some p0 ->
    baseline_inliers (hands lf) (eyes lf) j = Ok (map (fun p => (inD (fst p), inD (snd p))) (inl j p0)).
  Proof.
    intros N. assert (U : unit_pair p0) by (pose proof unit_lf as U; rewrite Forall_forall in U; apply U; now apply nth_error_In in N).
    destruct U. apply baseline_inliers_in; auto using uq_tiny.
  Qed.
End Any.

Definition real_thresholds (cfg : config XR) : Prop :=
  (exists t, ransac_position_error_threshold_m cfg = Fin t /\ 0 < t) /\ (exists t, ransac_orientation_error_threshold_deg cfg = Fin t /\ 0 < t).

Theorem C85_baseline : forall svd (cfg : config XR) (l lf : list (rdq * rdq)),
  real_vectors svd -> Forall unit_pair l -> enable_exhaustive_search cfg = false -> real_thresholds cfg ->
  filtered cfg (hands (map same_signs l)) (eyes (map same_signs l)) = Ok (hands lf, eyes lf) ->
  let out := snd (compute_BASELINE svd cfg (hands l) (eyes l)) in
  (* no pose at all *)
  (lf = [] -> out = Err UnboundLocalError) /\
  (* no pair has enough supporters *)
  (lf <> [] -> (forall p n, In p lf -> supporters p lf n -> (n <= min_num_inliers cfg)%nat) -> out = Err AssertionError) /\
  (* pair number j is the first with enough supporters *)
  (forall j p n, nth_error lf j = Some p -> supporters p lf n -> (min_num_inliers cfg < n)%nat ->
     (forall i q m, (i < j)%nat -> nth_error lf i = Some q -> supporters q lf m -> (m <= min_num_inliers cfg)%nat) ->
     ((n <= j)%nat -> out = Err IndexError) /\
     ((j < n)%nat -> exists r, out = Ok r /\ num_poses_after_filtering r = length lf /\
        ((success r = true /\ num_inliers r = Some n /\
          exists x e1 e2, dq_H_E r = Some (inD x) /\ unitq (dr x) /\ rmse r = Some (Fin e1, Fin e2) /\ 0 <= e1 /\ 0 <= e2)
         \/ (success r = false /\ dq_H_E r = None /\ rmse r = None /\ num_inliers r = None)))).
Proof.
  intros svd cfg l lf RVC UL X ((tp & TP & TP0) & (to & TO & TO0)) FIL out.
  pose proof (unit_signs l UL) as US. destruct (sub_signs cfg l lf FIL) as [IN LL]. pose proof (unit_lf cfg l lf UL FIL) as UF.
  assert (L1 : length (eyes l) = length (hands l)) by (unfold hands, eyes; now rewrite !map_length).
  assert (L2 : length (eyes lf) = length lf) by (unfold eyes; now rewrite map_length).
  assert (MS : match_signs (hands l) (eyes l) = (eyes (map same_signs l), false)) by apply match_signs_in.
  assert (HS : hands (map same_signs l) = hands l) by (unfold hands; rewrite map_map; now apply map_ext).
  pose proof FIL as FIL'. rewrite HS in FIL'.
  assert (FIL2 : filtered cfg (hands l) (fst (match_signs (hands l) (eyes l))) = Ok (hands lf, eyes lf)) by now rewrite MS.
  assert (COUNT : forall i q, nth_error lf i = Some q -> exists l', baseline_inliers (hands lf) (eyes lf) i = Ok l' /\ supporters q lf (length l')).
  { intros i q N. eexists. split; [exact (inl_ok cfg l lf UL FIL i q N)|]. rewrite map_length, inl_count. now apply supporters_iff. }
  assert (UNIQ : forall q m m', supporters q lf m -> supporters q lf m' -> m = m').
  { intros q m m' A B. apply supporters_iff in A, B. congruence. }
  split; [|split].
  - intros ->. unfold out, compute_BASELINE. rewrite L1, Nat.eqb_refl, MS. cbn [negb snd]. rewrite FIL'. cbn [bind].
    unfold baseline_select. rewrite X. reflexivity.
  - intros NE H. unfold out. apply (C33_too_few_inliers svd cfg _ _ (hands lf) (eyes lf)); try easy.
    + intros E. apply NE. apply length_zero_iff_nil. rewrite <- L2, E. easy.
    + intros i I. rewrite L2 in I. destruct (nth_error lf i) as [q|] eqn:Q; [|apply nth_error_None in Q; lia].
      destruct (COUNT i q Q) as (l' & E & S). exists l'. split; [easy|]. apply (H q); [now apply nth_error_In in Q|easy].
  - intros j p n J S M H. assert (JW : (j < length (eyes lf))%nat) by (rewrite L2; apply nth_error_Some; congruence).
    pose proof (inl_ok cfg l lf UL FIL j p J) as BI. set (li := inl lf j p) in *.
    assert (EN : n = length li) by (unfold li; rewrite inl_count; now apply supporters_iff).
    assert (EARLY : forall i, (i < j)%nat -> exists l', baseline_inliers (hands lf) (eyes lf) i = Ok l' /\ (length l' <= min_num_inliers cfg)%nat).
    { intros i I. destruct (nth_error lf i) as [q|] eqn:Q; [|apply nth_error_None in Q; rewrite L2 in JW; lia].
      destruct (COUNT i q Q) as (l' & E & SP). exists l'. split; [easy|]. now apply (H i q). }
    split.
    + intros K. unfold out. eapply (C33_index_error svd cfg _ _ (hands lf) (eyes lf) j); eauto; rewrite map_length; lia.
    + intros K. unfold out, compute_BASELINE. rewrite L1, Nat.eqb_refl, MS. cbn [negb snd]. rewrite FIL'. cbn [bind].
      unfold baseline_select. rewrite X.
      rewrite (baseline_first_find cfg (hands lf) (eyes lf) (length (eyes lf)) 0 j (map (fun p => (inD (fst p), inD (snd p))) li));
        [|lia|lia|easy|rewrite map_length; lia|intros; apply EARLY; lia].
      cbn [bind]. rewrite split_maps, !map_map. cbn [fst snd].
      change (map (fun x => inD (fst x)) li) with (hands li). change (map (fun x => inD (snd x)) li) with (eyes li).
      (* the supporters *)
      assert (UP : unit_pair p) by (rewrite Forall_forall in UF; apply UF; now apply nth_error_In in J).
      assert (UR : Forall unit_pair (realign j p lf)) by now apply realign_unit.
      assert (UI : Forall unit_pair li) by (unfold li, inl; rewrite Forall_forall in *; intros q Q; apply filter_In in Q as [Q _]; now apply UR).
      destruct (realign_head j p lf J UP) as (rest & RH).
      assert (LI : exists rest', li = (dqone, dqone) :: rest').
      { unfold li, inl. rewrite RH. cbn [filter fst snd]. rewrite closeb_one by lra. eauto. }
      destruct LI as (rest' & LI).
      destruct (nth_error li j) as [pj|] eqn:PJ; [|apply nth_error_None in PJ; lia].
      assert (UJ : unit_pair pj) by (rewrite Forall_forall in UI; apply UI; now apply nth_error_In in PJ).
      rewrite (align_hands li j pj PJ) by (apply uq_tiny, UJ). rewrite (align_eyes li j pj PJ) by (apply uq_tiny, UJ). cbn [bind].
      destruct (calibrate_any svd cfg rest' RVC) as (r & C & D). rewrite <- LI in C. rewrite C.
      destruct r as [[[d sv] bad]|e]; [|eexists; split; [reflexivity|]; cbn; split; [congruence|right; easy]].
      destruct (D d sv bad eq_refl) as (x & -> & UX).
      assert (EV : forall a, Forall unit_pair a -> a <> [] -> exists b' pb pw rp ro fl,
        get_aligned_poses (hands a) (eyes a) (inD x) = Ok (b', pb, pw) /\ evaluate_alignment cfg pb pw = Ok (Fin rp, Fin ro, fl) /\ 0 <= rp /\ 0 <= ro).
      { intros a UA NA. destruct (aligned_any x a UX UA NA) as (A & B & E & LA & LB & GA & GB & _).
        destruct (evaluate_any cfg tp to A B ltac:(congruence) ltac:(intros ->; destruct a; [easy|discriminate LA]) GA GB TP TO TP0 TO0) as (rp & ro & fl & EVL & R1 & R2 & _).
        exists (hands a), (poses A), (poses B), rp, ro, fl. easy. }
      assert (PS : exists b' pb pw rp ro fl,
        (if ransac_evaluate_refined_model_on_inliers_only cfg then get_aligned_poses (hands li) (eyes ((dqone, dqone) :: map rmatch rest')) (inD x)
         else do b_al <- align_paths_at_index (hands l) j; do w_al <- align_paths_at_index (eyes (map same_signs l)) j; get_aligned_poses b_al w_al (inD x))
        = Ok (b', pb, pw) /\ evaluate_alignment cfg pb pw = Ok (Fin rp, Fin ro, fl) /\ 0 <= rp /\ 0 <= ro).
      { destruct (ransac_evaluate_refined_model_on_inliers_only cfg).
        - set (a := (dqone, dqone) :: map rmatch rest').
          replace (hands li) with (hands a).
          + apply EV; [|easy]. rewrite LI in UI. inversion UI; subst. constructor; [easy|]. apply Forall_forall. intros q Q.
            apply in_map_iff in Q as (q' & <- & Q). apply rmatch_unit. match goal with H : Forall unit_pair rest' |- _ => rewrite Forall_forall in H; now apply H end.
          + rewrite LI. unfold a, hands. cbn [map fst]. f_equal. rewrite map_map. now apply map_ext.
        - destruct (nth_error (map same_signs l) j) as [qj|] eqn:QJ; [|apply nth_error_None in QJ; rewrite map_length in QJ; lia].
          assert (UQ : unit_pair qj) by (rewrite Forall_forall in US; apply US; now apply nth_error_In in QJ).
          rewrite <- HS. rewrite (align_hands _ j qj QJ) by (apply uq_tiny, UQ). rewrite (align_eyes _ j qj QJ) by (apply uq_tiny, UQ). cbn [bind].
          apply EV; [now apply realign_unit|]. destruct (realign_head j qj _ QJ UQ) as (rr & ->). discriminate. }
      destruct PS as (b' & pb & pw & rp & ro & fl & PS & EVL & R1 & R2).
      rewrite PS. cbn [bind]. rewrite EVL. cbn [bind]. rewrite uq_to_pose by easy. eexists. split; [reflexivity|]. cbn.
      split; [congruence|]. left. split; [easy|]. rewrite map_length. split; [congruence|]. now exists x, rp, ro.
Qed.

(** The prefilter is the only other source of an exception: it ends the calibration if it leaves fewer than two pairs. *)
Theorem C85_prefilter : forall (N : Num) svd (cfg : config N) b_h w_e e, length w_e = length b_h ->
  filtered cfg b_h (fst (match_signs b_h w_e)) = Err e ->
  e = AssertionError /\ snd (compute_BASELINE svd cfg b_h w_e) = Err AssertionError.
Proof.
  intros N svd cfg b_h w_e e L F. assert (E : e = AssertionError).
  { unfold filtered in F. destruct (prefilter_poses_enabled cfg); [|discriminate F].
    destruct (C29_prefilter N (prefilter_dot_product_threshold cfg) (combine b_h (fst (match_signs b_h w_e)))) as (keep & _ & _ & P).
    rewrite P in F. destruct (_ <=? _)%nat; cbn [bind] in F; [now destruct (split _)|]. now injection F as <-. }
  subst e. split; [easy|]. unfold compute_BASELINE. rewrite L, Nat.eqb_refl. cbn [negb].
  destruct (match_signs b_h w_e) as [w' s]. cbn [fst snd] in *. now rewrite F.
Qed.
(** All cases together: these are the only exceptions, and every one of them comes with its reason. *)
Theorem C85_exceptions : forall svd (cfg : config XR) (l : list (rdq * rdq)) e,
  real_vectors svd -> Forall unit_pair l -> enable_exhaustive_search cfg = false -> real_thresholds cfg ->
  snd (compute_BASELINE svd cfg (hands l) (eyes l)) = Err e ->
  (e = UnboundLocalError /\ l = []) \/ e = AssertionError \/ (e = IndexError /\ (min_num_inliers cfg + 2 <= length l)%nat).
Proof.
  intros svd cfg l e RVC UL X TH H.
  assert (MS : match_signs (hands l) (eyes l) = (eyes (map same_signs l), false)) by apply match_signs_in.
  assert (HS : hands (map same_signs l) = hands l) by (unfold hands; rewrite map_map; now apply map_ext).
  assert (L1 : length (eyes l) = length (hands l)) by (unfold hands, eyes; now rewrite !map_length).
  destruct (filtered cfg (hands (map same_signs l)) (eyes (map same_signs l))) as [[bf wf]|e'] eqn:F.
  - destruct (filtered_pairs cfg _ _ _ F) as (lf & -> & -> & IN).
    destruct (sub_signs cfg l lf F) as [_ LL].
    destruct (C85_baseline svd cfg l lf RVC UL X TH F) as (A & B & C). cbv zeta in A, B, C. rewrite H in A, B, C.
    destruct lf as [|q0 lf0] eqn:LF.
    + injection (A eq_refl) as ->.
      assert (l = [] \/ l <> []) as [-> |NE] by (destruct l; [now left|now right]); [now left|].
      exfalso. unfold filtered in F. destruct (prefilter_poses_enabled cfg).
      * destruct (prefilter_using_screw_axis _ _) as [k|] eqn:K; [|discriminate F]. cbn [bind] in F. rewrite split_maps in F. injection F as F1 F2.
        apply C29_kept in K as [[K _] _]. apply (f_equal (@length _)) in F1. rewrite map_length in F1. cbn in F1. lia.
      * injection F as F1 _. apply (f_equal (@length _)) in F1. unfold hands in F1. rewrite !map_length in F1. cbn in F1. now destruct l.
    + rewrite <- LF in *. assert (NE : lf <> []) by (rewrite LF; discriminate). specialize (B NE).
      assert (NL : l <> []) by (intros ->; cbn in LL; rewrite LF in LL; cbn in LL; lia).
      (* the first pair with enough supporters, if any *)
      assert (D : (forall p n, In p lf -> supporters p lf n -> (n <= min_num_inliers cfg)%nat) \/
        exists j p n, nth_error lf j = Some p /\ supporters p lf n /\ (min_num_inliers cfg < n)%nat /\
          forall i q m, (i < j)%nat -> nth_error lf i = Some q -> supporters q lf m -> (m <= min_num_inliers cfg)%nat).
      { assert (G : forall k, (forall i q m, (i < k)%nat -> nth_error lf i = Some q -> supporters q lf m -> (m <= min_num_inliers cfg)%nat) \/
          exists j p n, nth_error lf j = Some p /\ supporters p lf n /\ (min_num_inliers cfg < n)%nat /\
          forall i q m, (i < j)%nat -> nth_error lf i = Some q -> supporters q lf m -> (m <= min_num_inliers cfg)%nat).
        { induction k as [|k [IH|IH]]; [left; intros; lia| |now right].
          destruct (nth_error lf k) as [p|] eqn:P.
          - destruct (Nat.le_gt_cases (length (filter (agreeb p) lf)) (min_num_inliers cfg)) as [Q|Q].
            + left. intros i q m I N S. destruct (Nat.eq_dec i k) as [->|]; [|apply (IH i q m); [lia|easy|easy]].
              rewrite P in N. injection N as <-. apply supporters_iff in S. lia.
            + right. exists k, p, (length (filter (agreeb p) lf)). split; [easy|]. split; [now apply supporters_iff|easy].
          - left. intros i q m I N S. destruct (Nat.eq_dec i k) as [->|]; [congruence|apply (IH i q m); [lia|easy|easy]]. }
        destruct (G (length lf)) as [G'|G']; [left|now right]. intros p n I S. apply In_nth_error in I as (i & I).
        apply (G' i p n); [apply nth_error_Some; congruence|easy|easy]. }
      destruct D as [D|(j & p & n & J & S & M & EA)]; [injection (B D) as ->; right; now left|].
      destruct (C j p n J S M EA) as [C1 C2]. destruct (Nat.le_gt_cases n j) as [K|K].
      * injection (C1 K) as ->. right; right. split; [easy|].
        assert ((j < length lf)%nat) by (apply nth_error_Some; congruence). lia.
      * destruct (C2 K) as (r & E & _). discriminate E.
  - assert (F' : filtered cfg (hands l) (fst (match_signs (hands l) (eyes l))) = Err e') by (rewrite MS, <- HS; exact F).
    destruct (C85_prefilter XR svd cfg _ _ e' L1 F') as [_ E]. rewrite H in E. injection E as ->. right; now left.
Qed.

(** ** Outliers *)
(** If the first pair with enough supporters is genuine and only genuine pairs support it, the result is exactly the
    calibration of the genuine pairs; measured on the inliers both errors are 0. *)
Theorem C85_outliers : forall svd (cfg : config XR) tol x (l lf : list (rdq * rdq)) (good : rdq * rdq -> bool) j p,
  real_vectors svd -> (forall m, exists r, svd m = Ok r) -> hand_eye_calibration_tolerance cfg = Fin tol -> 0 <= tol ->
  unitdq x -> 0 < qs (dr x) -> Forall unit_pair l -> enable_exhaustive_search cfg = false -> real_thresholds cfg ->
  filtered cfg (hands (map same_signs l)) (eyes (map same_signs l)) = Ok (hands lf, eyes lf) ->
  (* the genuine pairs *)
  perfect x (filter good lf) -> no_half_turn (filter good lf) -> rich (filter good lf) ->
  (min_num_inliers cfg < length (filter good lf))%nat ->
  (* the pair j *)
  nth_error lf j = Some p -> good p = true -> (j < length (filter good lf))%nat ->
  (forall q, In q lf -> good q = false -> ~ agree p q) ->
  (forall i q m, (i < j)%nat -> nth_error lf i = Some q -> supporters q lf m -> (m <= min_num_inliers cfg)%nat) ->
  regular svd (trows (genuine_from good j p lf)) ->
  exists r, snd (compute_BASELINE svd cfg (hands l) (eyes l)) = Ok r /\ success r = true /\ dq_H_E r = Some (inD x) /\
    num_inliers r = Some (length (filter good lf)) /\
    (ransac_evaluate_refined_model_on_inliers_only cfg = true -> rmse r = Some (Fin 0, Fin 0)).
Proof.
  intros svd cfg tol x l lf good j p RVC TOT T T0 U W UL X TH FIL P NH RI MI J G JL OUT EARLY RG.
  destruct (sub_signs cfg l lf FIL) as [IN LL].
  assert (MS : match_signs (hands l) (eyes l) = (eyes (map same_signs l), false)) by apply match_signs_in.
  assert (HS : hands (map same_signs l) = hands l) by (unfold hands; rewrite map_map; now apply map_ext).
  assert (I0 : In p (filter good lf)) by (apply filter_In; split; [now apply nth_error_In in J|easy]).
  assert (GC : forall q, In q lf -> good q = true -> consistent x (from_pair p q)).
  { intros q I GQ. destruct (In_nth_error _ _ I0) as (k' & NK'). destruct (realign_perfect x _ k' p U P NH NK') as [C1 _].
    rewrite Forall_forall in C1. apply C1. apply realign_in. exists q. split; [now apply filter_In|easy]. }
  set (F := fun q : rdq * rdq => closeb (1/100) (snd q) (fst q)).
  assert (FG : forall q, In q lf -> F (from_pair p q) = good q).
  { intros q I. apply eq_true_iff_eq. unfold F. rewrite closeb_iff. split.
    - intros A. destruct (good q) eqn:E; [easy|]. now destruct (OUT q I E).
    - intros GQ. destruct (consistent_scalars x _ U (GC q I GQ)). apply scalars_close_eq; [lra|congruence|congruence]. }
  destruct (picked x lf good j p F U P NH RI J G FG) as (rc & ECO & LCO & CO & TA & CU). cbv zeta in ECO, LCO, CO, TA, CU.
  pose proof (picked_eq lf good j p F FG) as PE.
  set (a := compress (realign j p lf) (map F (realign j p lf))) in *.
  assert (EA : a = inl lf j p) by (unfold a, inl; now rewrite compress_filter).
  pose proof (inl_ok cfg l lf UL FIL j p J) as BI. rewrite <- EA in BI.
  assert (SUP : supporters p lf (length a)) by (rewrite EA, inl_count; now apply supporters_iff).
  rewrite <- LCO in *. clear LCO.
  destruct (C85_baseline svd cfg l lf RVC UL X TH FIL) as (_ & _ & C). cbv zeta in C.
  destruct (C j p (length a) J SUP MI EARLY) as [_ C2]. destruct (C2 JL) as (r & R & _). clear C C2. exists r. split; [exact R|].
  destruct (C33_selects_first svd cfg _ _ r X R) as (_ & bf & wf & j' & li & F' & _ & JW & BI' & MI' & _ & EARLY' & K).
  rewrite MS in F'. cbn [fst] in F'. rewrite <- HS, FIL in F'. injection F' as <- <-.
  assert (L2 : length (eyes lf) = length lf) by (unfold eyes; now rewrite map_length).
  assert (EJ : j' = j).
  { destruct (Nat.lt_trichotomy j' j) as [Lt|[->|Gt]]; [|easy|].
    - exfalso. destruct (nth_error lf j') as [q|] eqn:Q; [|apply nth_error_None in Q; rewrite L2 in JW; lia].
      pose proof (inl_ok cfg l lf UL FIL j' q Q) as B. rewrite BI' in B. injection B as ->.
      rewrite map_length, inl_count in MI'. specialize (EARLY j' q _ Lt Q ltac:(now apply supporters_iff)). lia.
    - destruct (EARLY' j Gt) as (l' & B & Lt). rewrite BI in B. injection B as <-. rewrite map_length in Lt. lia. }
  subst j'. rewrite BI in BI'. injection BI' as <-. rewrite !map_map in K. cbn [fst snd] in K.
  change (map (fun x => inD (fst x)) a) with (hands a) in K. change (map (fun x => inD (snd x)) a) with (eyes a) in K.
  rewrite <- PE in RG. destruct (calibrate_regular svd cfg tol x a rc TOT RG T T0 U W ECO CO TA) as (sv & bad & CN).
  rewrite CN in K. cbn [fst snd] in K. destruct K as (SU & D & NI & _ & _ & b_al & w_al & b' & pb & pw & rp & ro & fl & SRC & GA & EV & RM).
  rewrite map_length in NI. rewrite D, to_pose_unit by easy. split; [easy|]. split; [easy|]. split; [easy|].
  intros IO. rewrite IO in SRC. destruct SRC as [-> ->]. destruct TH as ((tp & TP & _) & (to & TO & _)).
  destruct (C32_zero_error cfg tp to x a U CU ltac:(rewrite ECO; eauto) TP TO) as (h & ph' & pe' & fl' & G' & EVZ & _).
  rewrite G' in GA. injection GA as <- <- <-. rewrite EVZ in EV. injection EV as <- <- _. exact RM.
Qed.

(** ** Non-vacuity: the four poses of C84, of which the last is an outlier *)
Definition cfg85 : config XR :=
  mkConfig (N:=XR) true 2 false false (lit 975 (-3)) 1 (lit 1 (-2)) 20 true (lit 5 (-1)) (lit 99 (-2))
    ScalarPartEquality (lit 2 (-2)) (lit 1 0) true true (lit 4 (-2)).
Lemma l84_signs : map same_signs l84 = l84.
Proof.
  assert (A : Forall (fun p : rdq * rdq => 0 <= qs (dr (snd p)) * qs (dr (fst p))) l84).
  { apply Forall_forall. intros p I. unfold l84, l65, l0, outlier84 in I. cbn [In app] in I.
    destruct I as [<-|[<-|[<-|[<-|[]]]]]; unfold dqone, hone; cbn [fst snd]; specu; lra. }
  rewrite <- (map_id l84) at 2. apply map_ext_in. intros [h e] I. rewrite Forall_forall in A. specialize (A _ I).
  unfold same_signs. cbn [fst snd] in *. destruct (Rlt_dec _ _); [lra|easy].
Qed.
Example C85_example : exists r, snd (compute_BASELINE (svd_const (v0 (3/5) (4/5))) cfg85 (hands l84) (eyes l84)) = Ok r /\
  success r = true /\ dq_H_E r = Some (inD x0) /\ num_inliers r = Some 3%nat /\ rmse r = Some (Fin 0, Fin 0).
Proof.
  destruct l65_perfect as (PF & NH & RI).
  destruct (C85_outliers (svd_const (v0 (3/5) (4/5))) cfg85 (4/100) x0 l84 l84 good84 0 (dqone, dqone)) as (r & R & SU & D & NI & Z);
    rewrite ?good84_l84, ?l84_signs; try exact PF; try exact NH; try exact RI; try reflexivity; try (cbn; lia); try lra; try discriminate.
  - intros m s v H. unfold svd_const in H. exists (v0 (3/5) (4/5)). congruence.
  - intros m. now eexists.
  - apply x0_unit.
  - unfold x0, q0. cbn. lra.
  - eapply Forall_impl; [|exact l84_unit]. intros p [[A _] [B _]]; split; easy.
  - split; (eexists; split; [apply lit_fin|cbn [Rlit]; lra]).
  - unfold good84, dqone. cbn. apply Rltb_t. lra.
  - intros q I G [H _].
    assert (E : q = outlier84).
    { unfold l84 in I. apply in_app_or in I as [I|[I|[]]]; [|easy]. exfalso.
      assert (G' : good84 q = true) by (rewrite <- good84_l84 in I; now apply filter_In in I). congruence. }
    subst q. unfold from_pair in H. cbn [fst snd] in H.
    replace (dqinv dqone) with dqone in H by (rewrite <- (dqmul_1_r (dqinv dqone)), dqmul_inv_l by (unfold dqone; specu; lra); easy).
    rewrite !dqmul_1_l in H. unfold outlier84 in H. cbn [fst snd] in H. rewrite !rflip_id in H by (unfold hone; cbn; lra).
    unfold Spec.close_to, hone in H. cbn in H. rewrite !Rabs_left, Rabs_right in H by lra. lra.
  - unfold genuine_from. rewrite rotl_0, good84_l84, realign_l65_map.
    exists s0, (v0 (3/5) (4/5)), (RD (hscale (3/5) q0) (hscale (4/5) q0)). split; [reflexivity|]. split; [apply svd0; lra|].
    split; [reflexivity|]. unfold q0. specu. lra.
  - rewrite good84_l84 in NI. exists r. repeat (split; [assumption|]). now apply Z.
Qed.
