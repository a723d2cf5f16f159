(** * Properties C34-C36 and C38: the RANSAC driver, for every sampling history. *)

From Coq Require Import Reals ZArith Bool List Lra Lia Sorted.
From Verif Require Import Num Py XReal XFacts Quat DualQuat HandEye Ransac Spec Embed DualFacts
  ListFacts HandEyeFacts CalibFacts RansacFacts QuatFacts PropPrefilter PropBaseline.
Import ListNotations.

(** The comparison of the scalar type is a strict partial order (true of IEEE doubles with NaN). *)
Definition strict_order (N : Num) : Prop :=
  (forall x : @T N, ltb x x = false) /\
  (forall x y z : @T N, ltb x y = true -> ltb y z = true -> ltb x z = true).
Lemma XR_strict_order : strict_order XR.
Proof.
  split.
  - intros [r| | |]; cbn [ltb XR xltb]; try easy. apply Rltb_f. lra.
  - intros [x| | |] [y| | |] [z| | |]; cbn [ltb XR xltb]; try easy. rewrite !Rltb_iff. lra.
Qed.

Section Any.
  Context {N : Num}.
  Context (svd : list dquat -> res (list T * list dquat)) (draw : nat -> list nat).
  Context (cfg : config N) (b_h w_e bf wf : list dquat).

  (** A history: the samples drawn so far, in order, each with its evaluation. *)
  Definition history (h : list (list nat * verdict)) : Prop :=
    forall i s v, nth_error h i = Some (s, v) ->
      sample_at draw cfg (length wf) i = Ok s /\ evaluate_sample svd cfg b_h w_e bf wf s = Ok v.
  Definition is_evaluated (x : list nat * verdict) : bool :=
    match snd x with Evaluated _ _ _ _ _ _ => true | _ => false end.
  Definition evaluations (h : list (list nat * verdict)) : nat := length (filter is_evaluated h).
  (** no evaluated sample of the history is strictly below (p, o) in both components *)
  Definition none_below (h : list (list nat * verdict)) (p o : T) : Prop :=
    forall s dq rp ro n sv bad, In (s, Evaluated dq rp ro n sv bad) h -> ltb rp p && ltb ro o = false.

  Definition invariant (h : list (list nat * verdict)) (st : state) : Prop :=
    history h /\ sample_number st = length h /\ full_iterations st = evaluations h /\
    none_below h (best_rmse_position st) (best_rmse_orientation st) /\
    match best st with
    | None => best_rmse_position st = ninf /\ best_rmse_orientation st = ninf /\
              best_num_inliers st = 0 /\ best_bad st = true
    | Some (dq, s, sv) =>
        In (s, Evaluated dq (best_rmse_position st) (best_rmse_orientation st) (best_num_inliers st) sv (best_bad st)) h /\
        ltb (best_rmse_position st) ninf && ltb (best_rmse_orientation st) ninf = true
    end.

  Lemma invariant_initial : invariant [] initial_state.
  Proof.
    split; [intros [|i] s v H; discriminate H|]. cbn. repeat split; easy.
  Qed.

  Lemma history_snoc h s v : history h -> sample_at draw cfg (length wf) (length h) = Ok s ->
    evaluate_sample svd cfg b_h w_e bf wf s = Ok v -> history (h ++ [(s, v)]).
  Proof.
    intros H S E i s' v' Hi. destruct (lt_dec i (length h)) as [L|L].
    - rewrite nth_error_app1 in Hi by easy. now apply H.
    - rewrite nth_error_app2 in Hi by lia. destruct (i - length h) as [|k] eqn:K; [|destruct k; discriminate Hi].
      injection Hi as <- <-. now replace i with (length h) by lia.
  Qed.
  Lemma evaluations_snoc h s v :
    evaluations (h ++ [(s, v)]) = evaluations h + match v with Evaluated _ _ _ _ _ _ => 1 | _ => 0 end.
  Proof.
    unfold evaluations. rewrite filter_app, app_length. f_equal. unfold is_evaluated; cbn [filter snd]. now destruct v.
  Qed.

  Lemma invariant_step h st s v st' stop : strict_order N -> invariant h st ->
    sample_at draw cfg (length wf) (sample_number st) = Ok s ->
    evaluate_sample svd cfg b_h w_e bf wf s = Ok v ->
    account cfg s v st = Ok (st', stop) -> invariant (h ++ [(s, v)]) st'.
  Proof.
    intros [IRR TR] (H & SN & FI & NB & B) S E A. rewrite SN in S.
    assert (H' : history (h ++ [(s, v)])) by now apply history_snoc.
    assert (NBX : forall p o, none_below h p o ->
              match v with Evaluated _ rp ro _ _ _ => ltb rp p && ltb ro o = false | _ => True end ->
              none_below (h ++ [(s, v)]) p o).
    { intros p o NB' NV s0 dq rp ro n sv bad I. apply in_app_or in I as [I|[I|[]]]; [eapply NB'; eauto|].
      injection I as -> ->. exact NV. }
    destruct v as [| |dq rp ro n sv bad]; cbn [account] in A.
    - injection A as <- <-. split; [easy|]. cbn. rewrite app_length, evaluations_snoc. cbn.
      split; [lia|]. split; [lia|]. split; [now apply NBX|].
      destruct (best st) as [[[? ?] ?]|]; [|easy]. split; [apply in_or_app; left|]; apply B.
    - injection A as <- <-. split; [easy|]. cbn. rewrite app_length, evaluations_snoc. cbn.
      split; [lia|]. split; [lia|]. split; [now apply NBX|].
      destruct (best st) as [[[? ?] ?]|]; [|easy]. split; [apply in_or_app; left|]; apply B.
    - apply bind_ok in A as (stop' & _ & A). injection A as <- <-.
      destruct (ltb rp (best_rmse_position st) && ltb ro (best_rmse_orientation st)) eqn:BT.
      + split; [easy|]. cbn. rewrite app_length, evaluations_snoc. cbn. split; [lia|]. split; [lia|]. split.
        * apply NBX; [|now rewrite IRR]. intros s0 dq0 rp0 ro0 n0 sv0 bad0 I.
          specialize (NB s0 dq0 rp0 ro0 n0 sv0 bad0 I). apply andb_true_iff in BT as [B1 B2].
          apply andb_false_iff. destruct (ltb rp0 rp) eqn:E1; [|now left]. destruct (ltb ro0 ro) eqn:E2; [|now right].
          exfalso. rewrite (TR _ _ _ E1 B1), (TR _ _ _ E2 B2) in NB. discriminate NB.
        * split; [apply in_or_app; right; now left|].
          apply andb_true_iff in BT as [B1 B2]. apply andb_true_iff.
          destruct (best st) as [[[? ?] ?]|].
          -- destruct B as [_ B]. apply andb_true_iff in B as [B3 B4]. split; eapply TR; eauto.
          -- destruct B as (EB1 & EB2 & _). now rewrite <- EB1, <- EB2 in *.
      + split; [easy|]. cbn. rewrite app_length, evaluations_snoc. cbn. split; [lia|]. split; [lia|].
        split; [now apply NBX|].
        destruct (best st) as [[[? ?] ?]|]; [|easy]. split; [apply in_or_app; left|]; apply B.
  Qed.

  (** All samples have been drawn: the loop ended because the combinations were exhausted or
      (random mode) ransac_max_number_iterations samples were evaluated or early abort fired. *)
  Definition complete (h : list (list nat * verdict)) : Prop :=
    if enable_exhaustive_search cfg then
      length h = length (combinations (seq 0 (length wf)) (ransac_sample_size cfg))
    else
      evaluations h = ransac_max_number_iterations cfg \/
      (evaluations h < ransac_max_number_iterations cfg /\ early_abort cfg (evaluations h) = Ok true /\
       ransac_enable_early_abort cfg = true).
  Definition in_bounds (st : state) : Prop :=
    if enable_exhaustive_search cfg then
      sample_number st <= length (combinations (seq 0 (length wf)) (ransac_sample_size cfg))
    else full_iterations st <= ransac_max_number_iterations cfg.
  Lemma early_abort_true k : early_abort cfg k = Ok true ->
    enable_exhaustive_search cfg = false /\ ransac_enable_early_abort cfg = true.
  Proof.
    unfold early_abort. intros H. destruct (negb (enable_exhaustive_search cfg) && ransac_enable_early_abort cfg) eqn:E.
    - apply andb_true_iff in E as [E1 E2]. now apply negb_true_iff in E1.
    - discriminate H.
  Qed.
  Lemma account_bounds s v st st' stop : account cfg s v st = Ok (st', stop) ->
    guard cfg (length wf) st = true -> in_bounds st' /\
    (stop = true -> early_abort cfg (full_iterations st') = Ok true).
  Proof.
    intros A G. unfold guard in G. unfold in_bounds.
    assert (C : sample_number st' = S (sample_number st) /\
               full_iterations st <= full_iterations st' <= S (full_iterations st) /\
               (stop = true -> early_abort cfg (full_iterations st') = Ok true)).
    { destruct v; cbn [account] in A.
      - injection A as <- <-. cbn. split; [lia|]. split; [lia|easy].
      - injection A as <- <-. cbn. split; [lia|]. split; [lia|easy].
      - apply bind_ok in A as (stop' & S & A). injection A as <- <-.
        destruct (ltb _ _ && ltb _ _); cbn; (split; [lia|]); (split; [lia|]); intros ->; easy. }
    destruct C as (C1 & C2 & C3). split; [|easy].
    destruct (enable_exhaustive_search cfg); apply Nat.ltb_lt in G; lia.
  Qed.

  Lemma loop_invariant fuel h st st' : strict_order N -> invariant h st -> in_bounds st ->
    ransac_loop svd draw fuel cfg b_h w_e bf wf st = Done (Ok st') ->
    exists h', invariant (h ++ h') st' /\ complete (h ++ h').
  Proof.
    intros SO. revert h st; induction fuel as [|fuel IH]; intros h st I IB H; cbn [ransac_loop] in H; [discriminate H|].
    destruct (guard cfg (length wf) st) eqn:G.
    2:{ injection H as <-. exists []. rewrite app_nil_r. split; [easy|]. destruct I as (_ & I1 & I2 & _).
        unfold complete, in_bounds, guard in *. destruct (enable_exhaustive_search cfg); apply Nat.ltb_ge in G; lia. }
    destruct (sample_at draw cfg (length wf) (sample_number st)) as [s|] eqn:S; cbn [bind] in H; [|discriminate H].
    destruct (evaluate_sample svd cfg b_h w_e bf wf s) as [v|] eqn:E; cbn [bind] in H; [|discriminate H].
    destruct (account cfg s v st) as [[st1 stop]|] eqn:A; [|discriminate H].
    pose proof (invariant_step _ _ _ _ _ _ SO I S E A) as I1.
    destruct (account_bounds _ _ _ _ _ A G) as [IB1 ST].
    destruct stop.
    - injection H as <-. exists [(s, v)]. split; [easy|]. specialize (ST eq_refl).
      destruct (early_abort_true _ ST) as [X Y]. unfold complete, in_bounds in *. rewrite X in *.
      destruct I1 as (_ & _ & I1 & _). rewrite I1 in *. lia || (destruct (Nat.eq_dec (evaluations (h ++ [(s, v)])) (ransac_max_number_iterations cfg)); [now left|right; split; [lia|easy]]).
    - destruct (IH _ _ I1 IB1 H) as (h' & I2). exists ((s, v) :: h'). now rewrite <- app_assoc in I2.
  Qed.
End Any.

(** ** C34 *)
Theorem C34_success : forall (N : Num) svd draw (cfg : config N) fuel (b_h w_e : list dquat) r,
  strict_order N ->
  compute_RANSAC svd draw fuel cfg b_h w_e = Done (Ok r) -> success r = true ->
  exists bf wf h s dq rp ro n sv bad,
    filtered cfg b_h w_e = Ok (bf, wf) /\ history svd draw cfg b_h w_e bf wf h /\ complete cfg wf h /\
    In (s, Evaluated dq rp ro n sv bad) h /\
    r = mkResult true (Some (fst (to_pose dq))) (Some (rp, ro)) (Some n) (length wf) (Some sv) (Some bad) /\
    ltb rp ninf = true /\ ltb ro ninf = true /\
    (forall s' dq' rp' ro' n' sv' bad', In (s', Evaluated dq' rp' ro' n' sv' bad') h ->
       ltb rp' rp && ltb ro' ro = false).
Proof.
  intros N svd draw cfg fuel b_h w_e r SO H SU. unfold compute_RANSAC in H.
  destruct (assert_ _) as [[]|]; cbn [bind] in H; [|discriminate H].
  destruct (assert_ _) as [[]|]; cbn [bind] in H; [|discriminate H].
  destruct (filtered cfg b_h w_e) as [[bf wf]|]; [|discriminate H].
  destruct (ransac_loop _ _ _ _ _ _ _ _ _) as [[st|]|] eqn:L; try discriminate H. injection H as <-.
  apply (loop_invariant svd draw cfg b_h w_e bf wf fuel []) in L as (h & I & CO);
    [|easy|apply invariant_initial|unfold in_bounds; destruct (enable_exhaustive_search cfg); cbn; lia].
  destruct I as (HI & _ & _ & NB & B). unfold ransac_result in *.
  destruct (best st) as [[[dq s] sv]|]; [|discriminate SU]. destruct B as [B F]. apply andb_true_iff in F.
  exists bf, wf, h, s, dq, (best_rmse_position st), (best_rmse_orientation st), (best_num_inliers st), sv, (best_bad st).
  split; [easy|]. split; [easy|]. split; [easy|]. split; [easy|]. split; [easy|]. split; [easy|]. split; [easy|]. exact NB.
Qed.
Theorem C34_failure : forall (N : Num) svd draw (cfg : config N) fuel (b_h w_e : list dquat) r,
  strict_order N ->
  compute_RANSAC svd draw fuel cfg b_h w_e = Done (Ok r) -> success r = false ->
  exists bf wf h,
    filtered cfg b_h w_e = Ok (bf, wf) /\ history svd draw cfg b_h w_e bf wf h /\ complete cfg wf h /\
    r = mkResult false None (Some (ninf, ninf)) (Some 0) (length wf) None (Some true) /\
    (forall s dq rp ro n sv bad, In (s, Evaluated dq rp ro n sv bad) h -> ltb rp ninf && ltb ro ninf = false).
Proof.
  intros N svd draw cfg fuel b_h w_e r SO H SU. unfold compute_RANSAC in H.
  destruct (assert_ _) as [[]|]; cbn [bind] in H; [|discriminate H].
  destruct (assert_ _) as [[]|]; cbn [bind] in H; [|discriminate H].
  destruct (filtered cfg b_h w_e) as [[bf wf]|]; [|discriminate H].
  destruct (ransac_loop _ _ _ _ _ _ _ _ _) as [[st|]|] eqn:L; try discriminate H. injection H as <-.
  apply (loop_invariant svd draw cfg b_h w_e bf wf fuel []) in L as (h & I & CO);
    [|easy|apply invariant_initial|unfold in_bounds; destruct (enable_exhaustive_search cfg); cbn; lia].
  destruct I as (HI & _ & _ & NB & B). unfold ransac_result in *.
  destruct (best st) as [[[dq s] sv]|]; [discriminate SU|]. destruct B as (B1 & B2 & B3 & B4).
  exists bf, wf, h. split; [easy|]. split; [easy|]. split; [easy|]. rewrite B1, B2 in *. rewrite B3, B4. split; [easy|]. exact NB.
Qed.

(** Inputs of different lengths, and a sample size that is not smaller than the number of poses, are
    rejected.  All other inputs reach the search: with no iterations allowed it reports failure. *)
Theorem C34_rejects : forall (N : Num) svd draw (cfg : config N) fuel (b_h w_e : list dquat),
  (length w_e <> length b_h \/ length w_e <= ransac_sample_size cfg ->
     compute_RANSAC svd draw fuel cfg b_h w_e = Done (Err AssertionError)) /\
  (length w_e = length b_h -> ransac_sample_size cfg < length w_e ->
     enable_exhaustive_search cfg = false -> ransac_max_number_iterations cfg = 0 -> 0 < fuel ->
     forall bf wf, filtered cfg b_h w_e = Ok (bf, wf) ->
     compute_RANSAC svd draw fuel cfg b_h w_e =
       Done (Ok (mkResult false None (Some (ninf, ninf)) (Some 0) (length wf) None (Some true)))).
Proof.
  intros N svd draw cfg fuel b_h w_e. unfold compute_RANSAC. split.
  - intros [H|H]; [apply Nat.eqb_neq in H; now rewrite H|]. apply Nat.ltb_ge in H. rewrite H.
    now destruct (length w_e =? length b_h).
  - intros L1 L2 X M F bf wf FI. apply Nat.eqb_eq in L1. apply Nat.ltb_lt in L2. rewrite L1, L2, FI. cbn [assert_ bind].
    destruct fuel as [|fuel]; [lia|]. cbn [ransac_loop]. unfold guard. rewrite X, M. cbn. reflexivity.
Qed.

(** What an evaluated sample is. *)
Theorem C34_evaluated : forall (N : Num) svd (cfg : config N) (b_h w_e bf wf : list dquat) s dq rp ro n sv bad,
  evaluate_sample svd cfg b_h w_e bf wf s = Ok (Evaluated dq rp ro n sv bad) ->
  length s = ransac_sample_size cfg /\ min_num_inliers cfg <= n /\
  exists i aligned_b aligned_w,
    nth_error s 0 = Some i /\
    align_paths_at_index b_h i = Ok aligned_b /\ align_paths_at_index w_e i = Ok aligned_w /\
    exists ab flags initial, n = length (compress ab flags) /\
    (* how the inliers were found *)
    match ransac_inlier_classification cfg with
    | ScalarPartEquality => ab = aligned_b /\ initial = None /\ length flags = length aligned_b /\
        forall j b, nth_error aligned_b j = Some b -> exists w sb sw f, nth_error aligned_w j = Some w /\
          scalar b = Ok sb /\ scalar w = Ok sw /\ nth_error flags j = Some f /\
          f = allclose (ransac_sample_rejection_tolerance cfg) (dq_list sw) (dq_list sb)
    | RmseThreshold => exists sb sw asb asw r0 pb pw rp0 ro0,
        mapM (index bf) s = Ok sb /\ mapM (index wf) s = Ok sw /\
        align_paths_at_index sb 0 = Ok asb /\ align_paths_at_index sw 0 = Ok asw /\
        snd (calibrate_normalized svd cfg asb asw) = Ok r0 /\ initial = Some r0 /\
        get_aligned_poses aligned_b aligned_w (fst (fst r0)) = Ok (ab, pb, pw) /\
        evaluate_alignment cfg pb pw = Ok (rp0, ro0, flags) /\ nth_error flags 0 = Some true /\
        forall j w, nth_error (compress aligned_w flags) j = Some w ->
          exists b, nth_error (compress ab flags) j = Some b /\
            scalar_parts_close (ransac_sample_rejection_tolerance cfg) w b = Ok true
    | UnknownMethod => False
    end /\
    (* where the transform comes from *)
    exists inl_w b_ev w_ev b' pb pw fl,
      ((ransac_model_refinement cfg = true \/ initial = None) /\
         calibrate_normalized svd cfg (compress ab flags) (compress aligned_w flags) = (inl_w, Ok (dq, sv, bad)) \/
       ransac_model_refinement cfg = false /\ initial = Some (dq, sv, bad) /\ inl_w = compress aligned_w flags) /\
      (* what it was evaluated on *)
      (if ransac_evaluate_refined_model_on_inliers_only cfg
       then b_ev = compress ab flags /\ w_ev = inl_w
       else b_ev = ab /\ w_ev = scatter aligned_w flags inl_w) /\
      get_aligned_poses b_ev w_ev dq = Ok (b', pb, pw) /\ evaluate_alignment cfg pb pw = Ok (rp, ro, fl).
Proof.
  intros N svd cfg b_h w_e bf wf s dq rp ro n sv bad H. unfold evaluate_sample in H.
  apply bind_ok in H as (sw & SW & H). apply bind_ok in H as (sb & SB & H).
  apply assert_ok in H as [L H]. apply Nat.eqb_eq in L. rewrite (mapM_length _ _ _ SW) in L. split; [easy|].
  apply bind_ok in H as ([[good al_b] al_w] & PRE & H).
  destruct good; cbn [negb] in H; [|discriminate H].
  apply bind_ok in H as (i & I & H). apply bind_ok in H as (ab0 & AB & H). apply bind_ok in H as (aw & AW & H).
  apply bind_ok in H as (cls & CL & H). destruct cls as [[[ab flags] initial]|]; [|discriminate H].
  destruct (length (compress ab flags) <? min_num_inliers cfg)%nat eqn:M; [discriminate H|]. apply Nat.ltb_ge in M.
  assert (I' : nth_error s 0 = Some i) by (unfold index in I; destruct (nth_error s 0); [now inversion I|discriminate I]).
  destruct (match ransac_model_refinement cfg with
            | true => calibrate_normalized svd cfg (compress ab flags) (compress aw flags)
            | false => match initial with
                       | Some r => (compress aw flags, Ok r)
                       | None => calibrate_normalized svd cfg (compress ab flags) (compress aw flags) end
            end) as [inl_w refined] eqn:RF.
  destruct refined as [[[dq' sv'] bad']|]; [|discriminate H].
  apply bind_ok in H as ([[b' pb] pw] & G & H). apply bind_ok in H as ([[rp' ro'] fl] & EV & H).
  injection H as -> -> -> <- -> ->. split; [easy|].
  exists i, ab0, aw. split; [easy|]. split; [easy|]. split; [easy|].
  exists ab, flags, initial. split; [easy|]. split.
  - unfold classify in CL. destruct (ransac_inlier_classification cfg).
    + apply assert_ok in CL as [K CL]. apply Nat.leb_le in K.
      destruct (snd (calibrate_normalized svd cfg al_b al_w)) as [[[dq0 sv0] bad0]|] eqn:C0; [|discriminate CL].
      apply bind_ok in CL as ([[ab1 pb0] pw0] & G0 & CL). apply bind_ok in CL as ([[rp0 ro0] fl0] & EV0 & CL).
      apply bind_ok in CL as (f0 & F0 & CL). apply assert_ok in CL as [F1 CL]. subst f0.
      apply bind_ok in CL as (ok & OK & CL). destruct (forallb _ ok) eqn:FA; [|discriminate CL].
      injection CL as <- <- <-.
      assert (K2 : (1 <? ransac_sample_size cfg)%nat = true) by (apply Nat.ltb_lt; lia). rewrite K2 in PRE.
      apply bind_ok in PRE as (x1 & P1 & PRE). apply bind_ok in PRE as (x2 & P2 & PRE).
      apply bind_ok in PRE as (g & P3 & PRE). injection PRE as -> <- <-.
      exists sb, sw, x1, x2, (dq0, sv0, bad0), pb0, pw0, rp0, ro0.
      repeat (split; [easy|]). split.
      { unfold index in F0. destruct (nth_error fl0 0); [now inversion F0|discriminate F0]. }
      intros j w Hj. unfold scalar_flags in OK.
      destruct (for_pairs_short _ _ _ _ OK j w Hj) as (b & c & Hb & C & Hc). exists b. split; [easy|].
      rewrite C. f_equal. rewrite forallb_forall in FA. apply FA. eapply nth_error_In; eauto.
    + apply bind_ok in CL as (fl0 & F & CL). injection CL as <- <- <-.
      split; [easy|]. split; [easy|]. split; [now apply for_pairs_length in F|].
      intros j b Hj. destruct (for_pairs_short _ _ _ _ F j b Hj) as (w & f & Hw & E & Hf).
      apply bind_ok in E as (vb & E1 & E). apply bind_ok in E as (vw & E2 & E). injection E as <-.
      now exists w, vb, vw, (allclose (ransac_sample_rejection_tolerance cfg) (dq_list vw) (dq_list vb)).
    + discriminate CL.
  - exists inl_w.
    assert (SRC : (ransac_model_refinement cfg = true \/ initial = None) /\
         calibrate_normalized svd cfg (compress ab flags) (compress aw flags) = (inl_w, Ok (dq, sv, bad)) \/
       ransac_model_refinement cfg = false /\ initial = Some (dq, sv, bad) /\ inl_w = compress aw flags).
    { destruct (ransac_model_refinement cfg); [now left; split; [left|]|].
      destruct initial as [r0|]; [right; injection RF as <- ->; easy|left; split; [now right|easy]]. }
    destruct (ransac_evaluate_refined_model_on_inliers_only cfg).
    + exists (compress ab flags), inl_w, b', pb, pw, fl. split; [exact SRC|]. easy.
    + exists ab, (scatter aw flags inl_w), b', pb, pw, fl. split; [exact SRC|]. easy.
Qed.
