(** * Properties C74, C34 and C29, continued: the flag in the results of both calibrations, samples rejected at once, and
    the prefilter on real data. *)

From Coq Require Import Reals ZArith Bool List Lra Lia.
From Verif Require Import Num Py XReal XFacts Quat DualQuat HandEye Ransac Spec Embed QuatFacts QuatTrig QuatRot DualFacts
  ScrewFacts ListFacts HandEyeFacts CalibFacts RansacFacts PropRansac PropBaseline PropPrefilter PropSingular
  PropTermination PropComplete CalibExample PropCalib PropNoRaise PropOutliers.
Import ListNotations.

(** one of the first six singular values is below 0.5 or a later one is above *)
Definition flagged {N : Num} (s : list (@T N)) : Prop := exists i x, nth_error s i = Some x /\
  ((i < 6)%nat /\ ltb x (lit 5 (-1)) = true \/ (6 <= i)%nat /\ ltb (lit 5 (-1)) x = true).

Section Reported.
  Context {N : Num}.
  Lemma normalized_flag svd (cfg : config N) b_h w_e w dq s bad :
    calibrate_normalized svd cfg b_h w_e = (w, Ok (dq, s, bad)) ->
    (exists t v, svd t = Ok (s, v)) /\ (bad = true <-> flagged s).
  Proof.
    unfold calibrate_normalized. intros H.
    destruct (compute_hand_eye_calibration svd (hand_eye_calibration_tolerance cfg) b_h w_e) as [w' [[[d s'] bad']|e]] eqn:C; [|discriminate H].
    cbn [bind] in H. injection H as <- <- <- <-. destruct (C74_flag _ _ _ _ _ _ _ _ C) as ((t & v & _ & S) & B). split; [eauto|exact B].
  Qed.

  (** A successful RANSAC calibration reports the singular values of one decomposition, and the flag is about them; a failed
      one reports none, and the flag is raised. *)
  Theorem C74_reported : forall svd draw (cfg : config N) fuel b_h w_e r, strict_order N ->
    compute_RANSAC svd draw fuel cfg b_h w_e = Done (Ok r) ->
    if success r then exists s bad t v, singular_values r = Some s /\ bad_singular r = Some bad /\ svd t = Ok (s, v) /\ (bad = true <-> flagged s)
    else singular_values r = None /\ bad_singular r = Some true.
  Proof.
    intros svd draw cfg fuel b_h w_e r SO H. destruct (success r) eqn:SU.
    - destruct (C34_success N svd draw cfg fuel _ _ r SO H SU) as (bf & wf & h & s & d & rp & ro & k & sv & bad & _ & HH & _ & I & -> & _).
      apply In_nth_error in I as (i & I). destruct (HH _ _ _ I) as [_ EV].
      destruct (C34_evaluated N _ _ _ _ _ _ _ _ _ _ _ _ _ EV) as (_ & _ & i0 & ab0 & aw & _ & _ & _ & ab & flags & initial & _ & CLS & inl_w & b_ev & w_ev & b' & pb & pw & fl & SRC & _).
      cbn [singular_values bad_singular].
      assert (K : (exists t v, svd t = Ok (sv, v)) /\ (bad = true <-> flagged sv)).
      { destruct SRC as [[_ C]|(_ & IN & _)]; [now apply normalized_flag in C|].
        destruct (ransac_inlier_classification cfg); [|destruct CLS as (_ & X & _); congruence|contradiction].
        destruct CLS as (sb & sw & asb & asw & r0 & pb0 & pw0 & rp0 & ro0 & _ & _ & _ & _ & C & IN' & _).
        rewrite IN' in IN. injection IN as ->.
        destruct (calibrate_normalized svd cfg asb asw) as [w' c] eqn:CN. cbn [snd] in C. subst c. now apply normalized_flag in CN. }
      destruct K as ((t & v & S) & B). exists sv, bad, t, v. easy.
    - destruct (C34_failure N svd draw cfg fuel _ _ r SO H SU) as (bf & wf & h & _ & _ & _ & -> & _). easy.
  Qed.
  Theorem C74_reported_baseline : forall svd (cfg : config N) b_h w_e r,
    snd (compute_BASELINE svd cfg b_h w_e) = Ok r ->
    if success r then exists s bad t v, singular_values r = Some s /\ bad_singular r = Some bad /\ svd t = Ok (s, v) /\ (bad = true <-> flagged s)
    else singular_values r = None /\ bad_singular r = None.
  Proof.
    intros svd cfg b_h w_e r H. unfold compute_BASELINE in H.
    destruct (length w_e =? length b_h)%nat; cbn [negb] in H; [|discriminate H].
    destruct (match_signs b_h w_e) as [w' sh]. cbn [snd] in H.
    apply bind_ok in H as ([bf wf] & _ & H). apply bind_ok in H as ([j l] & _ & H).
    destruct (split l) as [ib iw]. apply bind_ok in H as (y1 & _ & H). apply bind_ok in H as (y2 & _ & H).
    destruct (calibrate_normalized svd cfg ib iw) as [iw' [[[dq sv] bad]|e]] eqn:C; [|injection H as <-; easy].
    apply normalized_flag in C as ((t & v & S) & B).
    apply bind_ok in H as ([[b' pb] pw] & _ & H). apply bind_ok in H as ([[rp ro] fl] & _ & H). injection H as <-.
    cbn [success singular_values bad_singular]. exists sv, bad, t, v. easy.
  Qed.
End Reported.

(** ** Samples that are rejected before the paths are looked at *)
Section Prerejected.
  Context {N : Num}.
  (** two poses whose scalar parts differ *)
  Definition disagree (atol : @T N) (w b : dquat) : Prop :=
    exists sw sb, scalar w = Ok sw /\ scalar b = Ok sb /\ allclose atol (dq_list sw) (dq_list sb) = false.
  Lemma good_sample_false atol : forall w b, good_sample (N:=N) atol w b = Ok false ->
    exists j x y, nth_error w j = Some x /\ nth_error b j = Some y /\ disagree atol x y.
  Proof.
    induction w as [|x w IH]; intros [|y b] H; cbn [good_sample] in H; try discriminate H.
    apply bind_ok in H as (ok & C & H). unfold scalar_parts_close in C.
    apply bind_ok in C as (sx & SX & C). apply bind_ok in C as (sy & SY & C).
    remember (allclose atol (dq_list sx) (dq_list sy)) as a eqn:A. symmetry in A. injection C as <-. destruct a.
    - destruct (IH b H) as (j & x' & y' & J). now exists (S j), x', y'.
    - exists 0%nat, x, y. split; [easy|]. split; [easy|]. now exists sx, sy.
  Qed.
  Lemma good_sample_true atol : forall w b, good_sample (N:=N) atol w b = Ok true ->
    forall j x y, nth_error w j = Some x -> nth_error b j = Some y -> ~ disagree atol x y.
  Proof.
    induction w as [|x w IH]; intros [|y b] H j x' y' X Y; try (destruct j; discriminate).
    cbn [good_sample] in H. apply bind_ok in H as (ok & C & H). unfold scalar_parts_close in C.
    apply bind_ok in C as (sx & SX & C). apply bind_ok in C as (sy & SY & C).
    remember (allclose atol (dq_list sx) (dq_list sy)) as a eqn:A. symmetry in A. injection C as <-. destruct a; [|discriminate H].
    destruct j as [|j]; [|now apply (IH b H j)].
    injection X as <-. injection Y as <-. intros (sw & sb & E1 & E2 & E3). congruence.
  Qed.
  (** A sample of two or more poses is rejected at once exactly if, after moving its first pose to the origin, the scalar
      parts of one of its pairs differ; a sample of one pose never is. *)
  Theorem C34_prerejected : forall svd (cfg : config N) b_h w_e bf wf s v,
    evaluate_sample svd cfg b_h w_e bf wf s = Ok v ->
    (v = Prerejected <->
     (1 < ransac_sample_size cfg)%nat /\
     exists sb sw ab aw j w b, mapM (index bf) s = Ok sb /\ mapM (index wf) s = Ok sw /\
       align_paths_at_index sb 0 = Ok ab /\ align_paths_at_index sw 0 = Ok aw /\
       nth_error aw j = Some w /\ nth_error ab j = Some b /\ disagree (ransac_sample_rejection_tolerance cfg) w b).
  Proof.
    intros * H. unfold evaluate_sample in H.
    apply bind_ok in H as (sw & SW & H). apply bind_ok in H as (sb & SB & H). apply assert_ok in H as [_ H].
    apply bind_ok in H as ([[good al_b] al_w] & PRE & H).
    assert (G : v = Prerejected <-> good = false).
    { destruct good; cbn [negb] in H; [|injection H as <-; easy]. split; [|discriminate]. intros ->.
      apply bind_ok in H as (i & _ & H). apply bind_ok in H as (ab0 & _ & H). apply bind_ok in H as (aw & _ & H).
      apply bind_ok in H as (cls & _ & H). destruct cls as [[[ab flags] initial]|]; [|discriminate H].
      destruct (length (compress ab flags) <? min_num_inliers cfg)%nat; [discriminate H|].
      match type of H with context [let (_, _) := ?M in _] => destruct M as [inl_w refined] end.
      destruct refined as [[[dq' sv'] bad']|]; [|discriminate H].
      apply bind_ok in H as ([[b' pb] pw] & _ & H). apply bind_ok in H as ([[rp' ro'] fl] & _ & H). discriminate H. }
    rewrite G. destruct (Nat.ltb_spec 1 (ransac_sample_size cfg)) as [L|L].
    - apply bind_ok in PRE as (x1 & P1 & PRE). apply bind_ok in PRE as (x2 & P2 & PRE).
      apply bind_ok in PRE as (g & P3 & PRE). injection PRE as -> <- <-. split.
      + intros ->. split; [easy|]. destruct (good_sample_false _ _ _ P3) as (j & w & b & J1 & J2 & D).
        exists sb, sw, x1, x2, j, w, b. easy.
      + intros (_ & sb' & sw' & ab & aw & j & w & b & E1 & E2 & E3 & E4 & J1 & J2 & D).
        rewrite SB in E1. injection E1 as <-. rewrite SW in E2. injection E2 as <-.
        rewrite P1 in E3. injection E3 as <-. rewrite P2 in E4. injection E4 as <-.
        destruct good; [|easy]. now destruct (good_sample_true _ _ _ P3 j w b J1 J2).
    - injection PRE as <- <- <-. split; [discriminate|]. intros [X _]. lia.
  Qed.

  (** The counters that are printed at the end of the search: every sample drawn is counted once, and the samples counted
      as rejected early and as evaluated are those. *)
  Definition is_prerejected (x : list nat * verdict) : bool := match snd x with Prerejected => true | _ => false end.
  Theorem C34_counters : forall svd draw (cfg : config N) fuel b_h w_e bf wf st,
    ransac_loop svd draw fuel cfg b_h w_e bf wf initial_state = Done (Ok st) ->
    exists h, history svd draw cfg b_h w_e bf wf h /\ sample_number st = length h /\ full_iterations st = evaluations h /\
      prerejected_samples st = length (filter is_prerejected h).
  Proof.
    intros svd draw cfg fuel b_h w_e bf wf st.
    assert (STEP : forall h s0, history svd draw cfg b_h w_e bf wf h /\ sample_number s0 = length h /\ full_iterations s0 = evaluations h /\ prerejected_samples s0 = length (filter is_prerejected h) ->
      ransac_loop svd draw fuel cfg b_h w_e bf wf s0 = Done (Ok st) ->
      exists h, history svd draw cfg b_h w_e bf wf h /\ sample_number st = length h /\ full_iterations st = evaluations h /\ prerejected_samples st = length (filter is_prerejected h)).
    { induction fuel as [|fuel IH]; intros h s0 I L; [discriminate L|]. cbn [ransac_loop] in L. destruct (guard cfg (length wf) s0).
      2: { injection L as <-. now exists h. }
      destruct I as (H & SN & FI & PR). destruct (sample_at draw cfg (length wf) (sample_number s0)) as [s|] eqn:SA; [|discriminate L]. cbn [bind] in L.
      destruct (evaluate_sample svd cfg b_h w_e bf wf s) as [v|] eqn:EV; [|discriminate L]. cbn [bind] in L.
      destruct (account cfg s v s0) as [[s1 stop]|] eqn:AC; [|discriminate L].
      assert (I' : history svd draw cfg b_h w_e bf wf (h ++ [(s, v)]) /\ sample_number s1 = length (h ++ [(s, v)]) /\ full_iterations s1 = evaluations (h ++ [(s, v)]) /\ prerejected_samples s1 = length (filter is_prerejected (h ++ [(s, v)]))).
      { split; [apply history_snoc; [exact H|now rewrite <- SN|exact EV]|]. rewrite app_length, evaluations_snoc, filter_app, app_length. rewrite <- SN, <- FI, <- PR.
        destruct v as [| |dq rp ro n sv bad]; cbn [account] in AC.
        - injection AC as <- _. cbn. lia.
        - injection AC as <- _. cbn. lia.
        - apply bind_ok in AC as (b & _ & AC). injection AC as <- _. destruct (ltb rp _ && _); cbn; lia. }
      destruct stop; [|now apply (IH _ _ I')]. injection L as <-. now exists (h ++ [(s, v)]). }
    apply (STEP []). split; [intros [|i] ? ? X; discriminate X|]. easy.
  Qed.
End Prerejected.

(** ** Prefiltering of real data *)
Local Open Scope R_scope.
(** the angle of the rotation in degrees, for the sign of the quaternion that is given *)
Definition spin (a : rdq) : R := if Req_EM_T (qs (dr a)) (-1) then 0 else 2 * (acos (qs (dr a)) * (180 / PI)).
(** the axis of a motion: the direction of its rotation axis or, if it does not rotate, of its translation *)
Definition direction (v : rv) : rv := vscale (/ len3 v) v.
Definition axis (a : rdq) : option rv :=
  if Rlt_dec (1 / 1000000000000) (spin a) then Some (direction (qv (dr a)))
  else if Rlt_dec (1 / 1000000000000) (2 * len3 (qv (dd a))) then Some (direction (qv (dd a)))
  else None.

Lemma direction_len v : 0 < len3 v -> len3 (direction v) = 1.
Proof. intros H. unfold direction. rewrite len3_scale by (left; now apply Rinv_0_lt_compat). field. lra. Qed.
Lemma axis_norm a : unitq (dr a) ->
  axis_of (inD a) = inV (match axis a with Some u => u | None => vzero end) /\
  match axis a with Some u => len3 u = 1 | None => True end.
Proof.
  intros U. unfold axis. destruct (Rlt_dec _ (spin a)) as [T|T].
  - assert (T' : eps12 < turn_mod (qs (dr a))) by exact T. destruct (screw_axis_rot a U T') as [S E]. unfold axis_of. rewrite E.
    split; [easy|]. now apply direction_len.
  - assert (T' : turn_mod (qs (dr a)) <= eps12) by (apply Rnot_lt_le; exact T). unfold axis_of. rewrite (screw_axis_norot a U T').
    change eps12 with (1 / 1000000000000). destruct (Rlt_dec _ (2 * len3 _)); [|easy]. split; [easy|]. apply direction_len. lra.
Qed.
Lemma axis_some a u : unitq (dr a) -> axis a = Some u ->
  leb (vnorm (axis_of (inD a))) (lit 1 (-12)) = false /\ unit_axis (inD a) = inV u.
Proof.
  intros U A. destruct (axis_norm a U) as [E L]. rewrite A in E, L. unfold unit_axis. rewrite E, vnorm_in, L. split.
  - cbn [leb XR lit xleb]. change (Rlit 1 (-12)) with (1 / 1000000000000). unfold Rleb. destruct (Rle_dec _ _); [lra|easy].
  - unfold vdivs, inV. cbn [vx vy vz div XR]. rewrite !xdiv_fin by lra. unfold Rdiv. now rewrite Rinv_1, !Rmult_1_r.
Qed.
Lemma axis_none a : unitq (dr a) -> axis a = None -> leb (vnorm (axis_of (inD a))) (lit 1 (-12)) = true.
Proof.
  intros U A. destruct (axis_norm a U) as [E _]. rewrite A in E. rewrite E, vnorm_in.
  replace (len3 vzero) with 0 by (unfold len3; replace (dot3 vzero vzero) with 0 by (specu; ring); now rewrite sqrt_0).
  cbn [leb XR lit xleb]. change (Rlit 1 (-12)) with (1 / 1000000000000). unfold Rleb. destruct (Rle_dec _ _); [easy|lra].
Qed.
Lemma dot_in thr u v : ltb (Num:=XR) (Fin thr) (vdot (inV u) (inV v)) = false <-> dot3 u v <= thr.
Proof.
  unfold vdot, inV. cbn [vx vy vz mul add XR xmul xadd ltb xltb].
  change (Spec.v1 u * Spec.v1 v + Spec.v2 u * Spec.v2 v + Spec.v3 u * Spec.v3 v) with (dot3 u v). unfold Rltb. destruct (Rlt_dec thr (dot3 u v)); split; intros; try easy; lra.
Qed.
(** On unit rotations: a pair is kept exactly if both motions have an axis and neither is within the angle given by the
    threshold (the cosine) of the axis of an earlier kept pair.  Opposite axes are far apart. *)
Theorem C29_real : forall thr (l : list (rdq * rdq)), Forall unit_pair l ->
  exists keep, length keep = length l /\
    (forall k p, nth_error l k = Some p ->
       (nth_error keep k = Some true <->
        exists u v, axis (fst p) = Some u /\ axis (snd p) = Some v /\
          forall i q u' v', (i < k)%nat -> nth_error l i = Some q -> nth_error keep i = Some true ->
            axis (fst q) = Some u' -> axis (snd q) = Some v' -> dot3 u' u <= thr /\ dot3 v' v <= thr)) /\
    prefilter_using_screw_axis (N:=XR) (Fin thr) (map (fun p => (inD (fst p), inD (snd p))) l)
    = if (2 <=? count_true keep)%nat then Ok (compress (map (fun p => (inD (fst p), inD (snd p))) l) keep) else Err AssertionError.
Proof.
  intros thr l UL. set (inP := fun p : rdq * rdq => (inD (fst p), inD (snd p))).
  destruct (C29_prefilter XR (Fin thr) (map inP l)) as (keep & L & K & E). rewrite map_length in L.
  exists keep. split; [easy|]. split; [|exact E].
  assert (UP : forall i p, nth_error l i = Some p -> unitq (dr (fst p)) /\ unitq (dr (snd p))).
  { intros i p I. apply nth_error_In in I. rewrite Forall_forall in UL. now apply UL. }
  assert (AX : forall i p, nth_error l i = Some p -> nth_error keep i = Some true -> exists u v, axis (fst p) = Some u /\ axis (snd p) = Some v).
  { intros i p I KI. destruct (UP _ _ I) as [U1 U2].
    assert (I' : nth_error (map inP l) i = Some (inP p)) by now apply map_nth_error.
    apply (K _ _ I') in KI as (A & B & _). cbn [inP fst snd] in A, B.
    destruct (axis (fst p)) as [u|] eqn:E1; [|rewrite (axis_none _ U1 E1) in A; discriminate A].
    destruct (axis (snd p)) as [v|] eqn:E2; [|rewrite (axis_none _ U2 E2) in B; discriminate B]. eauto. }
  intros k p I. assert (I' : nth_error (map inP l) k = Some (inP p)) by now apply map_nth_error.
  destruct (UP _ _ I) as [U1 U2]. split.
  - intros KK. destruct (AX _ _ I KK) as (u & v & A1 & A2). exists u, v. split; [easy|]. split; [easy|].
    intros i q u' v' LI IQ KI B1 B2. destruct (UP _ _ IQ) as [V1 V2].
    apply (K _ _ I') in KK as (_ & _ & S).
    specialize (S i (inP q) LI (map_nth_error inP _ _ IQ) KI). cbn [inP fst snd] in S.
    rewrite (proj2 (axis_some _ _ U1 A1)), (proj2 (axis_some _ _ U2 A2)), (proj2 (axis_some _ _ V1 B1)), (proj2 (axis_some _ _ V2 B2)) in S.
    now rewrite !dot_in in S.
  - intros (u & v & A1 & A2 & S). apply (K _ _ I'). cbn [inP fst snd].
    rewrite (proj1 (axis_some _ _ U1 A1)), (proj1 (axis_some _ _ U2 A2)). split; [easy|]. split; [easy|].
    intros i q LI IQ KI. rewrite nth_error_map in IQ. destruct (nth_error l i) as [q0|] eqn:IQ0; [|discriminate IQ]. injection IQ as <-.
    destruct (AX _ _ IQ0 KI) as (u' & v' & B1 & B2). destruct (UP _ _ IQ0) as [V1 V2]. unfold inP. cbn [fst snd].
    rewrite (proj2 (axis_some _ _ U1 A1)), (proj2 (axis_some _ _ U2 A2)), (proj2 (axis_some _ _ V1 B1)), (proj2 (axis_some _ _ V2 B2)), !dot_in.
    now apply (S i q0).
Qed.
(** Non-vacuity: half turns about x and y and the identity, on both sides; the identity is dropped *)
Example C29_real_example : exists keep,
  let a := RD (RQ (RV 1 0 0) 0) hzero in let b := RD (RQ (RV 0 1 0) 0) hzero in
  let l := [(a, a); (dqone, dqone); (b, b)] in
  prefilter_using_screw_axis (N:=XR) (Fin (1/2)) (map (fun p => (inD (fst p), inD (snd p))) l) = Ok (compress (map (fun p => (inD (fst p), inD (snd p))) l) keep)
  /\ keep = [true; false; true].
Proof.
  intros. set (a := RD (RQ (RV 1 0 0) 0) hzero). set (b := RD (RQ (RV 0 1 0) 0) hzero).
  assert (SP : forall v, spin (RD (RQ v 0) hzero) = 180).
  { intros v. unfold spin. cbn [dr qs]. destruct (Req_EM_T 0 (-1)) as [X|_]; [lra|]. rewrite acos_0. field. apply PI_neq0. }
  assert (A : forall v, len3 v = 1 -> axis (RD (RQ v 0) hzero) = Some v).
  { intros v V. unfold axis. rewrite SP. destruct (Rlt_dec _ 180) as [_|X]; [|lra]. cbn [dr qv]. unfold direction. rewrite V.
    f_equal. destruct v. specu. apply rv_eq; cbn; field. }
  assert (L1 : len3 (RV 1 0 0) = 1) by (unfold len3; replace (dot3 (RV 1 0 0) (RV 1 0 0)) with 1 by (specu; ring); apply sqrt_1).
  assert (L2 : len3 (RV 0 1 0) = 1) by (unfold len3; replace (dot3 (RV 0 1 0) (RV 0 1 0)) with 1 by (specu; ring); apply sqrt_1).
  assert (A1 : axis a = Some (RV 1 0 0)) by now apply A.
  assert (A2 : axis b = Some (RV 0 1 0)) by now apply A.
  assert (A0 : axis dqone = None).
  { unfold axis, spin, dqone, hone, hzero. cbn [dr dd qs qv]. destruct (Req_EM_T 1 (-1)) as [X|_]; [lra|]. rewrite acos_1.
    destruct (Rlt_dec _ (2 * (0 * _))) as [X|_]; [lra|].
    replace (len3 vzero) with 0 by (unfold len3; replace (dot3 vzero vzero) with 0 by (specu; ring); now rewrite sqrt_0).
    destruct (Rlt_dec _ _); [lra|easy]. }
  destruct (C29_real (1/2) [(a, a); (dqone, dqone); (b, b)]) as (keep & L & K & E).
  { repeat constructor; unfold unit_pair, unitq, a, b, dqone; cbn [fst snd]; specu; ring. }
  exists keep. cbv zeta. rewrite E.
  assert (KE : keep = [true; false; true]).
  { destruct keep as [|k0 [|k1 [|k2 [|]]]]; try discriminate L.
    pose proof (K 0%nat _ eq_refl) as K0. pose proof (K 1%nat _ eq_refl) as K1. pose proof (K 2%nat _ eq_refl) as K2. cbn [nth_error fst snd] in K0, K1, K2.
    assert (k0 = true).
    { assert (X : Some k0 = Some true) by (apply K0; exists (RV 1 0 0), (RV 1 0 0); split; [easy|]; split; [easy|]; intros; lia). congruence. }
    assert (k1 = false).
    { destruct k1; [|easy]. destruct (proj1 K1 eq_refl) as (u & v & X & _). rewrite A0 in X. discriminate X. }
    assert (k2 = true).
    { assert (X : Some k2 = Some true).
      { apply K2. exists (RV 0 1 0), (RV 0 1 0). split; [easy|]. split; [easy|]. intros i q u' v' I Q KI B1 B2.
        destruct i as [|[|i]]; [| |lia]; cbn [nth_error] in Q, KI.
        - injection Q as <-. cbn [fst snd] in B1, B2. rewrite A1 in B1, B2. injection B1 as <-. injection B2 as <-. specu. lra.
        - congruence. }
      congruence. }
    now subst. }
  rewrite KE. cbn. easy.
Qed.

(** Non-vacuity of C74_reported and C34_prerejected: the search of C84's example, and three poses every pair of which is rejected. *)
Example C74_reported_example : exists r s bad, compute_RANSAC (svd_const (v0 (3/5) (4/5))) (fun _ => [0%nat]) 30 cfg84 (hands l84) (eyes l84) = Done (Ok r) /\
  success r = true /\ singular_values r = Some s /\ bad_singular r = Some bad /\ (bad = true <-> flagged s).
Proof.
  destruct C84_search_example as (r & R & D & _). pose proof (C74_reported _ _ _ _ _ _ r XR_strict_order R) as H.
  destruct (success r) eqn:SU.
  - destruct H as (s & bad & t & v & H1 & H2 & _ & H3). now exists r, s, bad.
  - exfalso. destruct (C34_failure XR _ _ _ _ _ _ r XR_strict_order R SU) as (bf & wf & h & _ & _ & _ & -> & _). discriminate D.
Qed.
Example C34_prerejected_example : exists sb sw ab aw j w b,
  mapM (index (hands stuck)) [0; 1]%nat = Ok sb /\ mapM (index (eyes stuck)) [0; 1]%nat = Ok sw /\
  align_paths_at_index sb 0 = Ok ab /\ align_paths_at_index sw 0 = Ok aw /\
  nth_error aw j = Some w /\ nth_error ab j = Some b /\ disagree (N:=XR) (lit 1 (-2)) w b.
Proof.
  apply (C34_prerejected (fun _ => Err LinAlgError) (stuck_cfg 1) (hands stuck) (eyes stuck) (hands stuck) (eyes stuck) [0; 1]%nat Prerejected); [|easy].
  apply (stuck_pair 1 _ 0 1 (turned 1) dqone); try reflexivity; try apply unitdq_one; try (apply turned_unit; lra).
  unfold turned, dqone. specu. lra.
Qed.
(** Non-vacuity of C34_counters: the search of C84's example. *)
Example C34_counters_example : exists bf wf st h,
  ransac_loop (svd_const (v0 (3/5) (4/5))) (fun _ => [0%nat]) 30 cfg84 (hands l84) (eyes l84) bf wf initial_state = Done (Ok st) /\
  sample_number st = length h /\ full_iterations st = evaluations h /\ prerejected_samples st = length (filter is_prerejected h).
Proof.
  destruct C84_search_example as (r & R & _). unfold compute_RANSAC in R.
  match type of R with match ?m with _ => _ end = _ => destruct m as [[bf wf]|]; [|discriminate R] end.
  match type of R with match ?m with _ => _ end = _ => destruct m as [[st|]|] eqn:L; try discriminate R end.
  destruct (C34_counters _ _ _ _ _ _ _ _ st L) as (h & _ & H). now exists bf, wf, st, h.
Qed.
