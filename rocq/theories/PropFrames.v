(** * Property C91: the choice of the two reference frames does not matter. *)

From Coq Require Import Reals ZArith Bool String List Lra Lia Psatz.
From Verif Require Import Num Py XReal XFacts Quat DualQuat HandEye Ransac TimeAlign CsvIo Experiments Extrinsic Cli Spec Embed
  QuatFacts QuatTrig QuatRot DualFacts ScrewFacts ListFacts HandEyeFacts KernelFacts CalibFacts RansacFacts
  PropCalib PropEval PropPrefilter PropBaseline PropRansac PropSampling PropTermination PropDriver PropPerfect PropExtrinsic CalibExample PropComplete PropCli PropNoRaise.
Import ListNotations.
Local Open Scope R_scope.
Local Open Scope list_scope.

(** ** Specification *)
(** ds' is the path ds seen from another reference frame; each pose may have either sign *)
Definition reframed (g : rdq) (ds ds' : list rdq) : Prop :=
  unitdq g /\ Forall unitdq ds /\ Forall2 (fun d d' => d' = dqmul g d \/ d' = dqneg (dqmul g d)) ds ds'.
(** no two poses of the path are a half turn apart *)
Definition no_half_turns (ds : list rdq) : Prop := forall d e, In d ds -> In e ds -> qs (dr (dqmul (dqinv d) e)) <> 0.

(** ** Facts *)
Lemma reframed_length g l l' : reframed g l l' -> List.length l' = List.length l.
Proof. intros (_ & _ & F). symmetry. eapply Forall2_len; eauto. Qed.
Lemma reframed_units g l l' : reframed g l l' -> Forall unitdq l'.
Proof.
  intros (G & U & F). revert U. induction F as [|d d' l l' S F IH]; intros U; [easy|]. inversion U; subst. constructor; [|auto].
  destruct S as [-> | ->]; auto using unitdq_neg, unitdq_mul.
Qed.
Lemma reframed_nth g l l' k : reframed g l l' ->
  match nth_error l k with
  | Some d => exists d', nth_error l' k = Some d' /\ unitdq d /\ In d l /\ (d' = dqmul g d \/ d' = dqneg (dqmul g d))
  | None => nth_error l' k = None
  end.
Proof.
  intros (_ & U & F). revert k U. induction F as [|d d' l l' S F IH]; intros [|k] U; try easy; inversion U; subst.
  - cbn. exists d'. auto.
  - cbn [nth_error]. specialize (IH k H2). destruct (nth_error l k); [|easy]. destruct IH as (x & X & V & I & Y). exists x. split; [easy|]. split; [easy|]. split; [now right|easy].
Qed.
Lemma motion_reframed g d d' e e' : unitdq g -> unitdq d -> qs (dr (dqmul (dqinv d) e)) <> 0 ->
  d' = dqmul g d \/ d' = dqneg (dqmul g d) -> e' = dqmul g e \/ e' = dqneg (dqmul g e) ->
  rflip (dqmul (dqinv d') e') = rflip (dqmul (dqinv d) e).
Proof.
  intros G D NH HD HE.
  assert (M : dqmul (dqinv (dqmul g d)) (dqmul g e) = dqmul (dqinv d) e).
  { rewrite dqinv_mul by easy. rewrite dqmul_assoc, <- (dqmul_assoc (dqinv g)), dqmul_inv_l, dqmul_1_l by now apply unitdq_n2. easy. }
  assert (NG : qs (dr (dqneg (dqmul (dqinv d) e))) <> 0) by (cbn [dqneg dr hneg qs]; lra).
  destruct HD as [-> | ->], HE as [-> | ->]; rewrite ?dqinv_neg by auto using unitdq_mul; rewrite ?dqmul_neg_l, ?dqmul_neg_r, ?dqneg_neg, M, ?rflip_neg by easy; easy.
Qed.
Lemma align_reframed g l l' k : reframed g l l' -> no_half_turns l ->
  align_paths_at_index (map inD l') k = align_paths_at_index (map inD l) k.
Proof.
  intros R NH. pose proof (reframed_nth g l l' k R) as K. destruct (nth_error l k) as [d|] eqn:D.
  - destruct K as (d' & D' & U & I & S). pose proof (reframed_units g l l' R) as U'.
    rewrite (align_in l k d D) by now apply unitdq_tiny.
    rewrite (align_in l' k d' D') by (apply unitdq_tiny; rewrite Forall_forall in U'; apply U'; eapply nth_error_In; eauto).
    do 3 f_equal. destruct R as (G & _ & F).
    assert (A : forall m m', incl m l -> Forall2 (fun d d' => d' = dqmul g d \/ d' = dqneg (dqmul g d)) m m' ->
      map (fun x => rflip (dqmul (dqinv d') x)) m' = map (fun x => rflip (dqmul (dqinv d) x)) m).
    { clear F. intros m m' IN F. induction F as [|e e' m m' T F IH]; [easy|]. cbn [map]. f_equal.
      - apply (motion_reframed g); auto. apply NH; [easy|]. apply IN. now left.
      - apply IH. intros x X. apply IN. now right. }
    apply A; [apply incl_refl|easy].
  - unfold align_paths_at_index, index. rewrite !nth_error_map, D, K. easy.
Qed.
Lemma sub_reframed g l l' s : reframed g l l' ->
  (exists e, mapM (index (map inD l)) s = Err e /\ mapM (index (map inD l')) s = Err e) \/
  exists x x', mapM (index (map inD l)) s = Ok (map inD x) /\ mapM (index (map inD l')) s = Ok (map inD x') /\ reframed g x x' /\ incl x l.
Proof.
  intros R. pose proof R as (G & U & F). induction s as [|i s IH].
  - right. exists [], []. split; [easy|]. split; [easy|]. split; [|easy]. split; [easy|]. split; constructor.
  - cbn [mapM]. assert (IX : forall m : list rdq, index (map inD m) i = match nth_error m i with Some d => Ok (inD d) | None => Err IndexError end) by (intros m; unfold index; rewrite nth_error_map; now destruct (nth_error m i)).
    rewrite !IX. clear IX. pose proof (reframed_nth g l l' i R) as K. destruct (nth_error l i) as [d|].
    + destruct K as (d' & -> & UD & I & S). cbn [bind]. destruct IH as [(e & -> & ->)|(x & x' & -> & -> & (_ & UX & FX) & IX)].
      * left. now exists e.
      * right. exists (d :: x), (d' :: x'). cbn [bind map]. split; [easy|]. split; [easy|]. split; [split; [easy|]; split; constructor; auto|].
        intros y [<-|Y]; auto.
    + rewrite K. cbn [bind]. left. now exists IndexError.
Qed.
Lemma no_half_turns_sub l x : incl x l -> no_half_turns l -> no_half_turns x.
Proof. intros I NH d e D E. apply NH; auto. Qed.

Section Same.
  Context (svd : list (@dquat XR) -> res (list xr * list (@dquat XR))) (g h : rdq) (b b' w w' : list rdq).
  Context (B : reframed g b b') (W : reframed h w w') (NB : no_half_turns b) (NW : no_half_turns w).

  Lemma evaluate_reframed cfg s :
    evaluate_sample svd cfg (map inD b') (map inD w') (map inD b') (map inD w') s = evaluate_sample svd cfg (map inD b) (map inD w) (map inD b) (map inD w) s.
  Proof.
    unfold evaluate_sample.
    destruct (sub_reframed h w w' s W) as [(e & -> & ->)|(y & y' & -> & -> & RY & IY)]; [easy|]. cbn [bind].
    destruct (sub_reframed g b b' s B) as [(e & -> & ->)|(x & x' & -> & -> & RX & IX)]; [easy|]. cbn [bind].
    rewrite !map_length, (reframed_length _ _ _ RY). destruct (List.length y =? ransac_sample_size cfg)%nat; [|easy]. cbn [assert_ bind].
    rewrite (align_reframed g x x' 0 RX (no_half_turns_sub _ _ IX NB)), (align_reframed h y y' 0 RY (no_half_turns_sub _ _ IY NW)).
    destruct (1 <? ransac_sample_size cfg)%nat eqn:Z.
    - destruct (align_paths_at_index (map inD x) 0); [|easy]. cbn [bind]. destruct (align_paths_at_index (map inD y) 0); [|easy]. cbn [bind].
      destruct (good_sample _ _ _) as [good|]; [|easy]. cbn [bind]. destruct good; [|easy]. cbn [negb].
      destruct (index s 0) as [i0|]; [|easy]. cbn [bind]. now rewrite (align_reframed g b b' i0 B NB), (align_reframed h w w' i0 W NW).
    - cbn [bind negb]. destruct (index s 0) as [i0|]; [|easy]. cbn [bind]. rewrite (align_reframed g b b' i0 B NB), (align_reframed h w w' i0 W NW).
      destruct (align_paths_at_index (map inD b) i0) as [ab|]; [|easy]. cbn [bind]. destruct (align_paths_at_index (map inD w) i0) as [aw|]; [|easy]. cbn [bind].
      replace (classify svd cfg (map inD x') (map inD y') ab aw) with (classify svd cfg (map inD x) (map inD y) ab aw); [easy|].
      unfold classify. destruct (ransac_inlier_classification cfg); try easy.
      apply Nat.ltb_ge in Z. replace (2 <=? ransac_sample_size cfg)%nat with false; [easy|]. symmetry. now apply Nat.leb_gt; lia.
  Qed.
  Lemma loop_reframed draw cfg : forall fuel st,
    ransac_loop svd draw fuel cfg (map inD b') (map inD w') (map inD b') (map inD w') st = ransac_loop svd draw fuel cfg (map inD b) (map inD w) (map inD b) (map inD w) st.
  Proof.
    induction fuel as [|fuel IH]; intros st; [easy|]. cbn [ransac_loop]. rewrite !map_length, (reframed_length _ _ _ W).
    destruct (guard _ _ _); [|easy]. destruct (sample_at draw cfg _ _) as [s|]; [|easy]. cbn [bind]. rewrite evaluate_reframed.
    destruct (evaluate_sample _ _ _ _ _ _ _) as [v|]; [|easy]. cbn [bind]. destruct (account _ _ _ _) as [[st' []]|]; auto.
  Qed.
  Lemma inliers_reframed j : baseline_inliers (map inD b') (map inD w') j = baseline_inliers (map inD b) (map inD w) j.
  Proof. unfold baseline_inliers. now rewrite (align_reframed g b b' j B NB), (align_reframed h w w' j W NW). Qed.
  Lemma first_reframed cfg : forall todo j, baseline_first cfg (map inD b') (map inD w') todo j = baseline_first cfg (map inD b) (map inD w) todo j.
  Proof.
    induction todo as [|n IH]; intros j; [easy|]. cbn [baseline_first]. rewrite inliers_reframed, !map_length, (reframed_length _ _ _ W).
    destruct (baseline_inliers _ _ _) as [inls|]; [|easy]. cbn [bind]. now rewrite IH.
  Qed.
  Lemma best_reframed : forall todo j n o, baseline_best (map inD b') (map inD w') todo j n o = baseline_best (map inD b) (map inD w) todo j n o.
  Proof.
    induction todo as [|n IH]; intros j c o; [easy|]. cbn [baseline_best]. rewrite inliers_reframed.
    destruct (baseline_inliers _ _ _) as [inls|]; [|easy]. cbn [bind]. now rewrite !IH.
  Qed.
  Lemma select_reframed cfg : baseline_select cfg (map inD b') (map inD w') = baseline_select cfg (map inD b) (map inD w).
  Proof. unfold baseline_select. rewrite !map_length, (reframed_length _ _ _ W), first_reframed, best_reframed. easy. Qed.
End Same.

(** ** The program: also with its prefilter, because it first expresses both paths from their first poses. *)
Lemma from_first_reframed g ds ds' : reframed g ds ds' -> no_half_turn_from_first ds -> from_first ds' = from_first ds.
Proof.
  intros (G & U & F) NH. destruct F as [|d0 d0' ds ds' S F]; [easy|]. unfold from_first. inversion U as [|? ? U0 _]; subst.
  assert (NHT : forall d, In d (d0 :: ds) -> qs (dr (dqmul (dqinv d0) d)) <> 0) by (intros; now apply NH). clear NH U.
  cbn [map]. f_equal; [apply (motion_reframed g); auto; apply NHT; now left|].
  assert (H : forall l l', incl l ds -> Forall2 (fun d d' => d' = dqmul g d \/ d' = dqneg (dqmul g d)) l l' ->
    map (fun d => rflip (dqmul (dqinv d0') d)) l' = map (fun d => rflip (dqmul (dqinv d0) d)) l).
  { clear F. intros l l' I F. induction F as [|d d' l l' S' F IH]; [easy|]. cbn [map]. f_equal; [apply (motion_reframed g); auto; apply NHT; right; apply I; now left|].
    apply IH. intros x X. apply I. now right. }
  apply H; [apply incl_refl|easy].
Qed.
Theorem C91_program : forall svd fuel (a a' : calibration_args) fs g h ds ds' es es',
  hand_poses a fs ds -> eye_poses a fs es -> hand_poses a' fs ds' -> eye_poses a' fs es' ->
  reframed g ds ds' -> reframed h es es' ->
  no_half_turn_from_first ds -> no_half_turn_from_first es -> ds <> [] -> List.length ds = List.length es ->
  extrinsics_output_csv_file a' = extrinsics_output_csv_file a -> time_offset_input_csv_file a' = time_offset_input_csv_file a ->
  calibration_output_json_file a' = calibration_output_json_file a ->
  (calibration_output_json_file a <> None -> time_offset_input_csv_file a <> None) ->
  compute_hand_eye_calibration_py svd fuel a' fs = compute_hand_eye_calibration_py svd fuel a fs.
Proof.
  intros svd fuel a a' fs g h ds ds' es es' H E H' E' SD SE ND NE N0 L X T J JT.
  pose proof (reframed_length _ _ _ SD) as L1. pose proof (reframed_length _ _ _ SE) as L2.
  unfold compute_hand_eye_calibration_py. rewrite (load_in a fs ds es H E N0 L JT).
  rewrite (load_in a' fs ds' es' H' E'); [|intros ->; now destruct ds|congruence|now rewrite J, T].
  rewrite (from_first_reframed g ds ds' SD ND), (from_first_reframed h es es' SE NE).
  unfold write_extrinsics, write_calibration. now rewrite X, T, J.
Qed.

(** ** The functions, without the prefilter *)
Theorem C91_ransac : forall svd draw fuel (cfg : config XR) g h b b' w w',
  prefilter_poses_enabled cfg = false -> reframed g b b' -> reframed h w w' -> no_half_turns b -> no_half_turns w ->
  compute_RANSAC svd draw fuel cfg (map inD b') (map inD w') = compute_RANSAC svd draw fuel cfg (map inD b) (map inD w).
Proof.
  intros svd draw fuel cfg g h b b' w w' P B W NB NW. unfold compute_RANSAC, filtered. rewrite P, !map_length, (reframed_length _ _ _ B), (reframed_length _ _ _ W).
  destruct (List.length w =? List.length b)%nat; [|easy]. cbn [assert_ bind]. destruct (ransac_sample_size cfg <? List.length w)%nat; [|easy]. cbn [assert_ bind].
  rewrite (loop_reframed svd g h b b' w w' B W NB NW). destruct (ransac_loop _ _ _ _ _ _ _ _ _) as [[st|]|]; try easy. now rewrite !map_length, (reframed_length _ _ _ W).
Qed.

Lemma matched_eyes (b w : list rdq) : List.length w = List.length b ->
  exists v, match_signs (map inD b) (map inD w) = (map inD v, false) /\ Forall2 (fun x y => y = x \/ y = dqneg x) w v.
Proof.
  intros L. rewrite <- (hands_combine b w) by easy. rewrite <- (eyes_combine b w) by easy. rewrite match_signs_in.
  exists (map snd (map rmatch (combine b w))). split; [unfold eyes; now rewrite !map_map|].
  revert w L. induction b as [|x b IH]; intros [|y w] L; try discriminate L; [constructor|]. cbn [combine map]. constructor; [|apply IH; now injection L].
  unfold rmatch. cbn [fst snd]. destruct (Rlt_dec _ _); auto.
Qed.
Lemma matched_reframed h w w' v v' : reframed h w w' -> Forall2 (fun x y => y = x \/ y = dqneg x) w v -> Forall2 (fun x y => y = x \/ y = dqneg x) w' v' -> reframed h v v'.
Proof.
  intros (H & U & F) V V'. split; [easy|]. revert v v' U V V'. induction F as [|d d' w w' S F IH]; intros v v' U V V'; [inversion V; subst; inversion V'; subst; split; constructor|].
  inversion V as [|? y ? l1 Y V1]; subst. inversion V' as [|? y' ? l2 Y' V2]; subst.
  inversion U as [|? ? U1 U2]; subst. destruct (IH l1 l2) as [A1 A2]; auto. split; constructor; auto.
  - destruct Y as [-> | ->]; auto using unitdq_neg.
  - destruct Y as [-> | ->], S as [-> | ->], Y' as [-> | ->]; rewrite ?dqmul_neg_r, ?dqneg_neg; auto.
Qed.
Lemma matched_no_half w v : Forall unitdq w -> Forall2 (fun x y => y = x \/ y = dqneg x) w v -> no_half_turns w -> no_half_turns v.
Proof.
  intros U F NH. assert (I : forall y, In y v -> exists x, In x w /\ (y = x \/ y = dqneg x)).
  { clear - F. induction F as [|x y w v S F IH]; [easy|]. intros z [<-|Z]; [exists x; split; [now left|easy]|]. destruct (IH z Z) as (u & I & S'). exists u. split; [now right|easy]. }
  intros d e D E. destruct (I d D) as (d0 & D0 & SD), (I e E) as (e0 & E0 & SE). specialize (NH d0 e0 D0 E0). rewrite Forall_forall in U. specialize (U d0 D0).
  assert (NG : qs (dr (dqneg (dqmul (dqinv d0) e0))) <> 0) by (cbn [dqneg dr hneg qs]; lra).
  destruct SD as [-> | ->], SE as [-> | ->]; rewrite ?dqinv_neg by easy; rewrite ?dqmul_neg_l, ?dqmul_neg_r, ?dqneg_neg; easy.
Qed.
Theorem C91_baseline : forall svd (cfg : config XR) g h b b' w w',
  prefilter_poses_enabled cfg = false -> reframed g b b' -> reframed h w w' -> no_half_turns b -> no_half_turns w ->
  snd (compute_BASELINE svd cfg (map inD b') (map inD w')) = snd (compute_BASELINE svd cfg (map inD b) (map inD w)).
Proof.
  intros svd cfg g h b b' w w' P B W NB NW. unfold compute_BASELINE. rewrite !map_length, (reframed_length _ _ _ B), (reframed_length _ _ _ W).
  destruct (List.length w =? List.length b)%nat eqn:L; [|easy]. cbn [negb]. apply Nat.eqb_eq in L.
  destruct (matched_eyes b w L) as (v & -> & V). destruct (matched_eyes b' w') as (v' & -> & V'); [now rewrite (reframed_length _ _ _ B), (reframed_length _ _ _ W)|].
  cbn [snd]. pose proof (matched_reframed h w w' v v' W V V') as RV. pose proof (matched_no_half w v (proj1 (proj2 W)) V NW) as NV.
  unfold filtered. rewrite P. cbn [bind]. rewrite (select_reframed g h b b' v v' B RV NB NV).
  destruct (baseline_select _ _ _) as [[j inls]|]; [|easy]. cbn [bind]. destruct (split inls) as [ib iw].
  destruct (align_paths_at_index ib j); [|easy]. cbn [bind]. destruct (align_paths_at_index iw j); [|easy]. cbn [bind].
  destruct (calibrate_normalized svd cfg ib iw) as [iw' [[[dq sv] bad]|]]; rewrite !map_length, (reframed_length _ _ _ RV); [|easy].
  now rewrite (align_reframed g b b' j B NB), (align_reframed h v v' j RV NV).
Qed.

(** ** With the prefilter the functions do depend on the frames: it compares the poses themselves, not the motions.
    A path that stands still and then turns once: seen from one frame the prefilter gives up, seen from another the same
    search returns a result. *)
Definition fR : rdq := RD (RQ (RV 0 0 (4 / 5)) (3 / 5)) hzero.
Definition fG : rdq := RD (RQ (RV 1 0 0) 0) hzero.
Definition fRest : list rdq := [dqone; dqone; dqone; fR].
Definition fTurned : list rdq := [fG; fG; fG; RD (RQ (RV (3 / 5) (- (4 / 5)) 0) 0) hzero].
Lemma fRest_reframed : reframed fG fRest fTurned.
Proof.
  split; [unfold unitdq, unitq, fG; specu; lra|]. split.
  - unfold fRest, fR, dqone, unitdq, unitq. repeat (apply Forall_cons; [specu; lra|]). apply Forall_nil.
  - unfold fRest, fTurned, fG, fR. repeat (apply Forall2_cons || apply Forall2_nil); left; apply rdq_eq; unfold dqmul, dqone; cbn [dr dd]; apply rq_eq; specu; lra.
Qed.
Lemma fRest_no_half : no_half_turns fRest.
Proof.
  assert (U : unitdq dqone /\ unitdq fR) by (unfold unitdq, unitq, dqone, fR; specu; lra). destruct U as [U1 U2].
  intros d e D E. assert (C : d = dqone \/ d = fR) by (cbn in D; intuition congruence). assert (C' : e = dqone \/ e = fR) by (cbn in E; intuition congruence).
  destruct C as [-> | ->], C' as [-> | ->]; rewrite unitdq_inv_conj by easy; unfold dqmul, dqconj, dqone, fR; cbn [dr dd]; specu; lra.
Qed.
Lemma turned_axes a b : In a fTurned -> In b fTurned ->
  leb (vnorm (axis_of (inD a))) (lit 1 (-12)) = false /\
  vdot (unit_axis (inD a)) (unit_axis (inD b)) = Fin (dot3 (qv (dr a)) (qv (dr b)) / (len3 (qv (dr a)) * len3 (qv (dr b)))).
Proof.
  intros A B. assert (H : forall x, In x fTurned -> unitq (dr x) /\ 1 / 1000000000000 < 2 * (acos (qs (dr x)) * (180 / PI)) /\ qs (dr x) <> -1).
  { intros x X. assert (C : x = fG \/ x = RD (RQ (RV (3 / 5) (- (4 / 5)) 0) 0) hzero) by (cbn in X; intuition congruence).
    assert (Q : qs (dr x) = 0) by (destruct C as [-> | ->]; easy). rewrite Q, acos_0. pose proof PI_RGT_0.
    replace (2 * (PI / 2 * (180 / PI))) with 180 by (field; lra). split; [|lra]. destruct C as [-> | ->]; unfold unitq, fG; specu; lra. }
  destruct (H a A) as (A1 & A2 & A3), (H b B) as (B1 & B2 & B3). now apply C29_axes.
Qed.
Theorem C91_prefilter : forall svd draw, real_vectors svd ->
  let cfg := hand_config (get_exhaustive_search_scalar_part_inliers_config (N:=XR)) in
  exists g b b', reframed g b b' /\ no_half_turns b /\
    (forall fuel, compute_RANSAC svd draw fuel cfg (map inD b) (map inD b) = Done (Err AssertionError)) /\
    exists r, forall fuel, (4 < fuel)%nat -> compute_RANSAC svd draw fuel cfg (map inD b') (map inD b') = Done (Ok r).
Proof.
  intros svd draw RV cfg. exists fG, fRest, fTurned. split; [apply fRest_reframed|]. split; [apply fRest_no_half|]. split.
  - intros fuel. unfold compute_RANSAC. cbn [fRest map List.length Nat.eqb assert_ bind]. change (ransac_sample_size cfg) with 1%nat. cbn [Nat.ltb Nat.leb assert_].
    unfold filtered. change (prefilter_poses_enabled cfg) with true. cbv iota. fold (map inD fRest).
    destruct (C29_prefilter XR (prefilter_dot_product_threshold cfg) (combine (map inD fRest) (map inD fRest))) as (keep & L & K & E).
    assert (E' : prefilter_using_screw_axis (prefilter_dot_product_threshold cfg) (combine (map inD fRest) (map inD fRest)) = Err AssertionError).
    { rewrite E. cbn in L. destruct keep as [|k0 [|k1 [|k2 [|k3 [|? ?]]]]]; try discriminate L.
      assert (D : forall k, (k < 3)%nat -> nth_error [k0; k1; k2; k3] k <> Some true).
      { intros k LK T. assert (P : nth_error (combine (map inD fRest) (map inD fRest)) k = Some (inD dqone, inD dqone)) by (destruct k as [|[|[|k]]]; [easy..|lia]).
        apply (K k _ P) in T as (T & _). cbn [fst] in T. rewrite C29_identity_dropped in T by now left. discriminate T. }
      assert (k0 = false) as -> by (destruct k0; [now destruct (D 0%nat); [lia|]|easy]). assert (k1 = false) as -> by (destruct k1; [now destruct (D 1%nat); [lia|]|easy]).
      assert (k2 = false) as -> by (destruct k2; [now destruct (D 2%nat); [lia|]|easy]). now destruct k3. }
    cbn [fRest map combine] in E'. cbn [fRest map combine]. rewrite E'. reflexivity.
  - set (l := combine fTurned fTurned).
    assert (EH : map inD fTurned = hands l) by (unfold l; now rewrite hands_combine). assert (EE : map inD fTurned = eyes l) by (unfold l; now rewrite eyes_combine).
    destruct (C29_prefilter XR (prefilter_dot_product_threshold cfg) (combine (hands l) (eyes l))) as (keep & L & K & E).
    assert (LL : List.length keep = 4%nat) by (rewrite L; reflexivity).
    destruct keep as [|k0 [|k1 [|k2 [|k3 [|? ?]]]]]; try discriminate LL.
    assert (P : forall k, (k < 3)%nat -> nth_error (combine (hands l) (eyes l)) k = Some (inD fG, inD fG)) by (intros [|[|[|k]]] H; [easy..|lia]).
    assert (P3 : nth_error (combine (hands l) (eyes l)) 3 = Some (inD (nth 3 fTurned dqone), inD (nth 3 fTurned dqone))) by reflexivity.
    assert (IG : In fG fTurned) by now left. assert (I3 : In (nth 3 fTurned dqone) fTurned) by (cbn; tauto).
    assert (T0 : k0 = true).
    { assert (X : nth_error [k0; k1; k2; k3] 0 = Some true); [|now injection X].
      apply (K 0%nat _ (P 0%nat ltac:(lia))). cbn [fst snd]. destruct (turned_axes fG fG IG IG) as [A _]. split; [exact A|]. split; [exact A|]. intros; lia. }
    assert (T3 : k3 = true).
    { assert (X : nth_error [k0; k1; k2; k3] 3 = Some true); [|now injection X].
      apply (K 3%nat _ P3). cbn [fst snd]. destruct (turned_axes _ fG I3 IG) as [A _]. split; [exact A|]. split; [exact A|].
      intros i q LI Q _. rewrite P in Q by lia. injection Q as <-. cbn [fst snd]. destruct (turned_axes fG _ IG I3) as [_ ->].
      assert (F : ltb (prefilter_dot_product_threshold cfg) (Fin (dot3 (qv (dr fG)) (qv (dr (nth 3 fTurned dqone))) / (len3 (qv (dr fG)) * len3 (qv (dr (nth 3 fTurned dqone)))))) = false); [|split; exact F].
      assert (L1 : len3 (qv (dr fG)) = 1) by (unfold len3, fG; specu; match goal with |- sqrt ?x = 1 => replace x with 1 by lra end; apply sqrt_1).
      assert (L2 : len3 (qv (dr (nth 3 fTurned dqone))) = 1) by (unfold len3; cbn [nth fTurned]; specu; match goal with |- sqrt ?x = 1 => replace x with 1 by lra end; apply sqrt_1).
      rewrite L1, L2. cbn [nth fTurned fG dr qv]. change (prefilter_dot_product_threshold cfg) with (lit (Num:=XR) 95 (-2)). rewrite lit_fin. cbn [ltb XR xltb].
      unfold Rltb. destruct (Rlt_dec _ _) as [H|]; [|easy]. exfalso. revert H. cbn [Rlit]. specu. lra. }
    assert (FIL : filtered cfg (hands l) (eyes l) = Ok (split (compress (combine (hands l) (eyes l)) [k0; k1; k2; k3]))).
    { unfold filtered. change (prefilter_poses_enabled cfg) with true. cbv iota. rewrite E. replace (2 <=? count_true [k0; k1; k2; k3])%nat with true; [reflexivity|].
      subst k0 k3. now destruct k1, k2. }
    destruct (split (compress (combine (hands l) (eyes l)) [k0; k1; k2; k3])) as [bf wf] eqn:SP.
    assert (LW : (List.length wf <= 4)%nat).
    { apply (f_equal (fun x => List.length (snd x))) in SP. rewrite split_length_r in SP. cbn [snd] in SP. rewrite <- SP. subst k0 k3. now destruct k1, k2; cbn; lia. }
    assert (UL : Forall unit_pair l).
    { apply Forall_forall. intros [x y] I. apply in_combine_l in I as I1. apply in_combine_r in I as I2.
      pose proof (reframed_units _ _ _ fRest_reframed) as U. rewrite Forall_forall in U. split; [apply (U x)|apply (U y)]; easy. }
    destruct (C83_exhaustive svd draw cfg l bf wf RV UL FIL) as (r & R).
    + apply C83_shipped; [cbn; tauto|cbn; lia|discriminate].
    + reflexivity.
    + exists r. intros fuel FU. rewrite EH at 1. rewrite EE. apply R.
      assert (B1 : forall n, binomial n 1 = n) by (induction n as [|n IH]; [easy|]; cbn [binomial] in *; rewrite IH; destruct n; cbn; lia).
      change (ransac_sample_size cfg) with 1%nat. rewrite B1. lia.
Qed.

(** ** Examples: every four paths of rigid motions can be in the files; a path and its view from another frame *)
Example C91_files_example : forall ds es ds' es', Forall unitdq ds -> Forall unitdq es -> Forall unitdq ds' -> Forall unitdq es' ->
  exists (a a' : calibration_args) fs, hand_poses a fs ds /\ eye_poses a fs es /\ hand_poses a' fs ds' /\ eye_poses a' fs es' /\
    extrinsics_output_csv_file a' = extrinsics_output_csv_file a /\ time_offset_input_csv_file a' = time_offset_input_csv_file a /\
    calibration_output_json_file a' = calibration_output_json_file a /\ extrinsics_output_csv_file a = Some "out.csv"%string.
Proof.
  intros ds es ds' es' D E D' E'. pose (rows := map (fun d : rdq => (0, (trans_of d, dr d)))).
  assert (R : forall l, Forall unitdq l -> Forall readable (rows l) /\ map transform (rows l) = l).
  { intros l U. unfold rows. split.
    - apply Forall_forall. intros r I. apply in_map_iff in I as (d & <- & I). rewrite Forall_forall in U. unfold readable. cbn [snd]. rewrite unitdq_norm by auto. lra.
    - rewrite map_map. rewrite <- (map_id l) at 2. apply map_ext_in. intros d I. rewrite Forall_forall in U. specialize (U d I). unfold transform. cbn [fst snd].
      rewrite unitdq_norm, Rinv_1 by easy. replace (hscale 1 (dr d)) with (dr d); [now apply dq_of_trans|]. destruct (dr d) as [[x y z] w]. unfold hscale, vscale. cbn [qv qs Spec.v1 v2 v3]. now rewrite !Rmult_1_l. }
  pose (fs := fun p : string => if String.eqb p "1" then Some (table (rows ds)) else if String.eqb p "2" then Some (table (rows es))
    else if String.eqb p "3" then Some (table (rows ds')) else if String.eqb p "4" then Some (table (rows es')) else None).
  exists (mkCalibrationArgs (Some "1"%string) None (Some "2"%string) None (Some "out.csv"%string) None None None),
    (mkCalibrationArgs (Some "3"%string) None (Some "4"%string) None (Some "out.csv"%string) None None None), fs.
  destruct (R ds D) as [R1 M1], (R es E) as [R2 M2], (R ds' D') as [R3 M3], (R es' E') as [R4 M4].
  repeat split; unfold hand_poses, eye_poses; cbn.
  - rewrite <- M1. now apply (provides_direct _ _ _ "1").
  - rewrite <- M2. now apply (provides_direct _ _ _ "2").
  - rewrite <- M3. now apply (provides_direct _ _ _ "3").
  - rewrite <- M4. now apply (provides_direct _ _ _ "4").
Qed.
Example C91_example : reframed fG fRest fTurned /\ no_half_turns fRest /\ no_half_turn_from_first fRest /\ fTurned <> fRest /\
  prefilter_poses_enabled (hand_config (get_RANSAC_classic_config (N:=XR) false)) = false.
Proof.
  split; [apply fRest_reframed|]. split; [apply fRest_no_half|]. split.
  - intros d0 d D I. apply fRest_no_half; [|easy]. now apply nth_error_In in D.
  - split; [|easy]. unfold fTurned, fRest. intros H. apply (f_equal (fun l => qs (dr (hd dqone l)))) in H. cbn in H. lra.
Qed.
