(** * Property C86, continued: how near the result of the baseline calibration is to the true calibration. *)

From Coq Require Import Reals ZArith Bool List Lra Lia Psatz.
From Verif Require Import Num Py XReal XFacts Quat DualQuat HandEye Ransac Spec Embed QuatFacts QuatTrig
  QuatRot PropQuat DualFacts ScrewFacts PropDual ListFacts HandEyeFacts KernelFacts CalibFacts RansacFacts CalibExample
  PropCalib PropEval PropPrefilter PropBaseline PropRansac PropSampling PropPerfect PropComplete FloatQuat StabilityFacts PropStability
  PropNoRaise PropOutliers PropBaselineAny PropAccuracy.
Import ListNotations.
Local Open Scope R_scope.

Lemma baseline_first_inv (cfg : config XR) bf wf todo : forall j j' inls, baseline_first cfg bf wf todo j = Ok (j', inls) ->
  baseline_inliers bf wf j' = Ok inls /\ (min_num_inliers cfg < length inls)%nat.
Proof.
  induction todo as [|todo IH]; intros j j' inls H; cbn [baseline_first] in H; [discriminate H|].
  destruct (baseline_inliers bf wf j) as [i|] eqn:B; cbn [bind] in H; [|discriminate H].
  destruct (min_num_inliers cfg <? length i)%nat eqn:L.
  - injection H as <- <-. apply Nat.ltb_lt in L. easy.
  - destruct (j + 1 <? length wf)%nat; cbn [assert_ bind] in H; [|discriminate H]. eapply IH; eauto.
Qed.
Lemma preimages (u l : list (rdq * rdq)) : incl u (map same_signs l) -> exists u', incl u' l /\ u = map same_signs u'.
Proof.
  induction u as [|p u IH]; intros I; [exists []; easy|].
  destruct IH as (u' & I' & ->); [intros q Q; apply I; now right|].
  assert (P : In p (map same_signs l)) by (apply I; now left). apply in_map_iff in P as (p' & <- & P).
  exists (p' :: u'). split; [|easy]. intros q [<- |Q]; auto.
Qed.
Lemma same_signs_pm p : fst (same_signs p) = fst p /\ (snd (same_signs p) = snd p \/ snd (same_signs p) = dqneg (snd p)).
Proof. split; [easy|]. unfold same_signs. cbn [snd]. destruct (Rlt_dec _ _); auto. Qed.
Lemma conj_pm a b : (a = b \/ a = dqneg b) -> dqconj a = dqconj b \/ dqconj a = dqneg (dqconj b).
Proof.
  intros [-> | ->]; [now left|right]. destruct b as [[[] ?] [[] ?]]. unfold dqconj, dqneg. apply rdq_eq; cbn [dr dd]; apply rq_eq; specu; ring.
Qed.
(** the motions between the pairs with matched signs are those between the pairs themselves, up to signs *)
Lemma from_signs p0 p : unitdq (fst p0) -> unitdq (snd p0) ->
  (fst (from_pair (same_signs p0) (same_signs p)) = hand_motion p0 p \/ fst (from_pair (same_signs p0) (same_signs p)) = dqneg (hand_motion p0 p)) /\
  (snd (from_pair (same_signs p0) (same_signs p)) = eye_motion p0 p \/ snd (from_pair (same_signs p0) (same_signs p)) = dqneg (eye_motion p0 p)).
Proof.
  intros U1 U2. destruct (same_signs_pm p0) as [F0 S0]. destruct (same_signs_pm p) as [F S].
  unfold from_pair, hand_motion, eye_motion. cbn [fst snd]. rewrite F0, F. split.
  - rewrite unitdq_inv_conj by easy. apply rflip_pm.
  - assert (UQ : unitdq (snd (same_signs p0))) by (now apply (pm_unit _ (snd p0))). rewrite (unitdq_inv_conj _ UQ).
    eapply pm_trans; [apply rflip_pm|]. apply pm_mul; [now apply conj_pm|easy].
Qed.

(** Any success of the baseline calibration, on any data with unit poses: [used] are the pairs on which the errors
    were measured, p0 is the pair from which the motions were taken; the certificate is the one for RANSAC. *)
Theorem C86_baseline : forall svd (cfg : config XR) (l : list (rdq * rdq)) r tp to x (a d b e : R),
  real_vectors svd -> Forall (fun p => unitdq (fst p) /\ unitdq (snd p)) l -> unitdq x ->
  ransac_position_error_threshold_m cfg = Fin tp -> ransac_orientation_error_threshold_deg cfg = Fin to ->
  (forall p0 p, In p0 l -> In p l -> measured x a d b e (hand_motion p0 p) (eye_motion p0 p)) ->
  snd (compute_BASELINE svd cfg (hands l) (eyes l)) = Ok r -> success r = true ->
  exists x' p0 used rp ro k, dq_H_E r = Some (inD x') /\ unitq (dr x') /\ rmse r = Some (Fin rp, Fin ro) /\ num_inliers r = Some k /\
    In p0 l /\ incl used l /\ (min_num_inliers cfg < k)%nat /\
    length used = (if ransac_evaluate_refined_model_on_inliers_only cfg then k else length l) /\
    (ransac_evaluate_refined_model_on_inliers_only cfg = false -> incl l used) /\
    (forall p q, In p used -> In q used ->
      let m := eye_motion p0 p in let n := eye_motion p0 q in
      let N := sqrt (INR (length used)) in
      let rho := d + e + (N * ro * (PI / 180) + 1 / 10000) / 2 in
      let P := a + b + 2 * e * len3 (trans_of x) + N * rp in
      let c := len3 (cross3 (qv (dr m)) (qv (dr n))) in
      rho < 2 * Rabs (qs (dr m)) -> rho < 2 * Rabs (qs (dr n)) ->
      (forall v, c * len3 (vsub (hrot (dr x) v) (hrot (dr x') v)) <= 2 * rho * len3 v) /\
      c * (c * len3 (vsub (trans_of x) (trans_of x')))
        <= c * (P + 2 * rho * len3 (trans_of x')) + rho * (len3 (trans_of m) + len3 (trans_of n))).
Proof.
  intros svd cfg l r tp to x a d b e RVC UL Ux TP TO ME H SU.
  assert (UP : Forall unit_pair l) by (eapply Forall_impl; [|exact UL]; intros p [[A _] [B _]]; now split).
  pose proof (unit_signs l UP) as US.
  assert (L1 : length (eyes l) = length (hands l)) by (unfold hands, eyes; now rewrite !map_length).
  assert (MS : match_signs (hands l) (eyes l) = (eyes (map same_signs l), false)) by apply match_signs_in.
  assert (HS : hands (map same_signs l) = hands l) by (unfold hands; rewrite map_map; now apply map_ext).
  unfold compute_BASELINE in H. rewrite L1, Nat.eqb_refl, MS in H. cbn [negb snd] in H. rewrite <- HS in H.
  destruct (filtered cfg (hands (map same_signs l)) (eyes (map same_signs l))) as [[bf wf]|] eqn:FIL; cbn [bind] in H; [|discriminate H].
  destruct (filtered_pairs cfg _ _ _ FIL) as (lf & -> & -> & IN).
  unfold baseline_select in H. destruct (enable_exhaustive_search cfg).
  { destruct (baseline_best _ _ _ _ _ _) as [[]|]; discriminate H. }
  destruct (baseline_first cfg (hands lf) (eyes lf) (length (eyes lf)) 0) as [[j inls]|] eqn:BF; cbn [bind] in H; [|discriminate H].
  apply baseline_first_inv in BF as [BI MI].
  assert (J : exists p, nth_error lf j = Some p).
  { unfold baseline_inliers in BI. apply bind_ok in BI as (w & W & BI). apply bind_ok in BI as (v & V & _). exact (align_inv lf j v V). }
  destruct J as (p & J). rewrite (inl_ok cfg l lf UP FIL j p J) in BI. set (li := inl lf j p) in *. injection BI as <-. rewrite map_length in MI.
  rewrite split_maps, !map_map in H. cbn [fst snd] in H.
  change (map (fun x => inD (fst x)) li) with (hands li) in H. change (map (fun x => inD (snd x)) li) with (eyes li) in H.
  pose proof (unit_lf cfg l lf UP FIL) as UF.
  assert (UPp : unit_pair p) by (rewrite Forall_forall in UF; apply UF; now apply nth_error_In in J).
  assert (UR : Forall unit_pair (realign j p lf)) by now apply realign_unit.
  assert (UI : Forall unit_pair li) by (unfold li, inl; rewrite Forall_forall in *; intros q Q; apply filter_In in Q as [Q _]; now apply UR).
  destruct (realign_head j p lf J UPp) as (rest & RH).
  assert (LI : exists rest', li = (dqone, dqone) :: rest').
  { unfold li, inl. rewrite RH. cbn [filter fst snd]. rewrite closeb_one by lra. eauto. }
  destruct LI as (rest' & LI).
  destruct (align_paths_at_index (hands li) j) as [?|]; cbn [bind] in H; [|discriminate H].
  destruct (align_paths_at_index (eyes li) j) as [?|]; cbn [bind] in H; [|discriminate H].
  destruct (calibrate_any svd cfg rest' RVC) as (rr & C & D). rewrite <- LI in C. rewrite C in H.
  destruct rr as [[[dqr sv] bad]|er]; [|injection H as <-; discriminate SU].
  destruct (D dqr sv bad eq_refl) as (x' & -> & UX).
  apply bind_ok in H as ([[b' pb] pw] & PS & H). apply bind_ok in H as ([[rp ro] fl] & EV & H). rewrite uq_to_pose in H by easy. cbn [fst] in H.
  rewrite map_length in H.
  apply (f_equal (fun o => match o with Ok v => v | Err _ => r end)) in H. cbv beta iota in H. subst r. cbn [success dq_H_E rmse num_inliers].
  (* the pairs used *)
  assert (G : exists p0 used m, In p0 l /\ incl used l /\
    length used = (if ransac_evaluate_refined_model_on_inliers_only cfg then length li else length l) /\
    (ransac_evaluate_refined_model_on_inliers_only cfg = false -> incl l used) /\
    Forall2 (fun q p => (fst q = hand_motion p0 p \/ fst q = dqneg (hand_motion p0 p)) /\ (snd q = eye_motion p0 p \/ snd q = dqneg (eye_motion p0 p))) m used /\
    (exists h0 e0 m1, m = (h0, e0) :: m1 /\ (e0 = dqone \/ e0 = dqneg dqone)) /\
    get_aligned_poses (hands m) (eyes m) (inD x') = Ok (b', pb, pw)).
  { rewrite Forall_forall in UL.
    assert (PM : forall p0 u, In p0 l -> Forall2 (fun q p => (fst q = hand_motion p0 p \/ fst q = dqneg (hand_motion p0 p)) /\ (snd q = eye_motion p0 p \/ snd q = dqneg (eye_motion p0 p)))
       (map (from_pair (same_signs p0)) (map same_signs u)) u).
    { intros p0 u I0. destruct (UL p0 I0). induction u as [|q u IH]; cbn [map]; constructor; [|easy]. now apply from_signs. }
    destruct (ransac_evaluate_refined_model_on_inliers_only cfg).
    - assert (EL : li = map (from_pair p) (filter (agreeb p) (rotl j lf))).
      { unfold li, inl. rewrite realign_from, rotl_map. generalize (rotl j lf). clear. intros u.
        induction u as [|q u IH]; [easy|]. cbn [map filter]. change (closeb (1/100) (snd (from_pair p q)) (fst (from_pair p q))) with (agreeb p q).
        destruct (agreeb p q); cbn [map]; now rewrite IH. }
      assert (IU : incl (filter (agreeb p) (rotl j lf)) (map same_signs l)).
      { intros q Q. apply filter_In in Q as [Q _]. apply in_rotl in Q. now apply IN. }
      destruct (preimages _ _ IU) as (u & IUl & EU).
      assert (Ip : In p (map same_signs l)) by (apply IN; now apply nth_error_In in J).
      apply in_map_iff in Ip as (p0 & <- & I0).
      exists p0, u, ((dqone, dqone) :: map rmatch rest'). split; [easy|]. split; [easy|].
      split; [rewrite EL, EU, !map_length; easy|]. split; [discriminate|]. split; [|split].
      + specialize (PM p0 u I0). rewrite <- EU, <- EL, LI in PM. inversion PM as [|? q0 ? u1 PM0 PM1]; subst. constructor; [easy|].
        clear - PM1. revert u1 PM1. induction rest' as [|q rest' IH]; intros [|u0 u1] PM1; inversion PM1 as [|? ? ? ? [P1 P2] P3]; subst; cbn [map]; constructor; auto.
        split; [exact P1|]. unfold rmatch. cbn [snd]. destruct (Rlt_dec _ _); [|easy]. destruct P2 as [-> | ->]; rewrite ?dqneg_neg; auto.
      + exists dqone, dqone, (map rmatch rest'). auto.
      + rewrite <- PS. f_equal. rewrite LI. unfold hands. cbn [map fst]. f_equal. rewrite map_map. now apply map_ext.
    - apply bind_ok in PS as (b_al & AB & PS). apply bind_ok in PS as (w_al & AW & PS).
      destruct (align_inv (map same_signs l) j b_al AB) as (qj & QJ).
      assert (UQ : unit_pair qj) by (rewrite Forall_forall in US; apply US; now apply nth_error_In in QJ).
      rewrite (align_hands _ j qj QJ) in AB by (apply uq_tiny, UQ). rewrite (align_eyes _ j qj QJ) in AW by (apply uq_tiny, UQ).
      injection AB as <-. injection AW as <-.
      assert (Iq : In qj (map same_signs l)) by now apply nth_error_In in QJ.
      destruct (realign_head j qj _ QJ UQ) as (rr & EH).
      assert (ER : realign j qj (map same_signs l) = map (from_pair qj) (map same_signs (rotl j l))) by (rewrite realign_from, !rotl_map; easy).
      apply in_map_iff in Iq as (p0 & <- & I0).
      exists p0, (rotl j l), (realign j (same_signs p0) (map same_signs l)). split; [easy|].
      split; [intros q Q; now apply in_rotl in Q|]. split; [apply rotl_length|]. split; [intros _ q Q; now apply in_rotl|].
      split; [rewrite ER; now apply PM|]. split; [exists dqone, dqone, rr; auto|exact PS]. }
  destruct G as (p0 & used & m & I0 & IU & LU & ALL & F2 & HD & GA).
  rewrite Forall_forall in UL. destruct (UL p0 I0) as [V1 V2].
  destruct (certificate cfg tp to x x' p0 used m a d b e rp ro b' pb pw fl) as (rp1 & ro1 & -> & -> & CE); auto.
  { intros q Q. destruct (UL q (IU q Q)). auto. }
  exists x', p0, used, rp1, ro1, (length li). do 9 (split; [easy|]). exact CE.
Qed.

(** The hypotheses are met: a run of the baseline calibration that succeeds on measured data. *)
Example C86_baseline_example : exists r tp to, snd (compute_BASELINE (svd_const (v0 (3/5) (4/5))) cfg85 (hands l65) (eyes l65)) = Ok r /\
  real_vectors (svd_const (v0 (3/5) (4/5))) /\ Forall (fun p => unitdq (fst p) /\ unitdq (snd p)) l65 /\ unitdq x0 /\
  ransac_position_error_threshold_m cfg85 = Fin tp /\ ransac_orientation_error_threshold_deg cfg85 = Fin to /\
  (forall p0 p, In p0 l65 -> In p l65 -> measured x0 (1/1000) (1/1000) (1/1000) (1/1000) (hand_motion p0 p) (eye_motion p0 p)) /\
  success r = true /\ dq_H_E r = Some (inD x0).
Proof.
  destruct l65_perfect as (PF & NH & RI).
  assert (U : Forall (fun p => unitdq (fst p) /\ unitdq (snd p)) l65).
  { pose proof l84_unit as F. unfold l84 in F. apply Forall_app in F. tauto. }
  assert (SG : map same_signs l65 = l65).
  { pose proof l84_signs as S. unfold l84 in S. rewrite map_app in S. apply app_inj_tail in S. tauto. }
  assert (FT : filter (fun _ => true) l65 = l65) by (unfold l65; reflexivity).
  destruct (C85_outliers (svd_const (v0 (3/5) (4/5))) cfg85 (4/100) x0 l65 l65 (fun _ => true) 0 (dqone, dqone)) as (r & R & SU & D & _);
    rewrite ?SG, ?FT; try exact PF; try exact NH; try exact RI; try reflexivity; try (cbn; lia); try lra; try discriminate.
  - intros m s v H. unfold svd_const in H. exists (v0 (3/5) (4/5)). congruence.
  - intros m. now eexists.
  - apply x0_unit.
  - unfold x0, q0. cbn. lra.
  - eapply Forall_impl; [|exact U]. intros p [[A _] [B _]]; split; easy.
  - split; (eexists; split; [apply lit_fin|cbn [Rlit]; lra]).
  - unfold genuine_from. rewrite rotl_0, FT, realign_l65_map.
    exists s0, (v0 (3/5) (4/5)), (RD (hscale (3/5) q0) (hscale (4/5) q0)). split; [reflexivity|]. split; [apply svd0; lra|].
    split; [reflexivity|]. unfold q0. specu. lra.
  - exists r, (2/100), 1. split; [exact R|].
    split; [intros m s v H; unfold svd_const in H; exists (v0 (3/5) (4/5)); congruence|].
    split; [exact U|]. split; [apply x0_unit|].
    split; [change (lit (Num:=XR) 2 (-2) = Fin (2/100)); rewrite lit_fin; f_equal; cbn [Rlit]; lra|].
    split; [change (lit (Num:=XR) 1 0 = Fin 1); rewrite lit_fin; f_equal; cbn [Rlit]; lra|].
    split; [|easy]. intros p0 p I0 I. apply (perfect_measured x0 l65); try lra; try easy; apply x0_unit.
Qed.
