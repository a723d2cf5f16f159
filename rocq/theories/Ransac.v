(** * Model of the BASELINE and RANSAC drivers,
    python/hand_eye_calibration/dual_quaternion_hand_eye_calibration.py, lines 464-963

    Printing, plotting (config.visualize) and the runtime entry of the result are not modelled. *)

From Coq Require Import ZArith List Bool Arith.
From Verif Require Import Num Py Quat DualQuat HandEye.
Import ListNotations.
Local Open Scope num_scope.

(** itertools.combinations (lexicographic order) *)
Fixpoint combinations {A} (l : list A) (k : nat) : list (list A) :=
  match k with
  | O => [[]]
  | S k' =>
      match l with
      | [] => []
      | x :: l' => map (cons x) (combinations l' k') ++ combinations l' k
      end
  end.

Section Ransac.
  Context {N : Num}.
  Context (svd : list dquat -> res (list T * list dquat)).

  (** the result tuple (success, dq_H_E, (rmse_position, rmse_orientation), num_inliers,
      num_poses_after_filtering, runtime, singular_values, bad_singular_values); None stands for
      Python's None *)
  Record result := mkResult {
    success : bool;
    dq_H_E : option dquat;
    rmse : option (T * T);
    num_inliers : option nat;
    num_poses_after_filtering : nat;
    singular_values : option (list T);
    bad_singular : option bool;
  }.

  (** the prefilter call :493-498, :657-667 (deep copies, B_H first) *)
  Definition filtered (cfg : config N) (b_h w_e : list dquat) : res (list dquat * list dquat) :=
    if prefilter_poses_enabled cfg then
      do l <- prefilter_using_screw_axis (prefilter_dot_product_threshold cfg) (combine b_h w_e);
      Ok (split l)
    else Ok (b_h, w_e).

  (** np.allclose(W_E.scalar().dq, B_H.scalar().dq, atol) for every pair of two lists *)
  Definition scalar_flags (atol : T) (b_h w_e : list dquat) : res (list bool) :=
    for_pairs (fun w b => scalar_parts_close atol w b) w_e b_h.

  (** compute_hand_eye_calibration followed by normalize() on the result, as in the try blocks
      :573-580, :763-770, :837-844.  The first component is the mutated W_E list. *)
  Definition calibrate_normalized (cfg : config N) (b_h w_e : list dquat)
    : list dquat * res (dquat * list T * bool) :=
    let '(w_e', r) := compute_hand_eye_calibration svd (hand_eye_calibration_tolerance cfg) b_h w_e in
    (w_e', do r' <- r; let '(d, s, bad) := r' in Ok (dnormalize d, s, bad)).

  (** ** compute_hand_eye_calibration_BASELINE :464-625 *)

  (** :515-536: the pairs (B_H, W_E) of the paths aligned at j whose scalar parts agree *)
  Definition baseline_inliers (bf wf : list dquat) (j : nat) : res (list (dquat * dquat)) :=
    do w_al <- align_paths_at_index wf j;
    do b_al <- align_paths_at_index bf j;
    do flags <- scalar_flags (lit 1 (-2)) b_al w_al;
    Ok (compress (combine b_al w_al) flags).

  (** :514-557, non-exhaustive: [todo] start indices remain, from j on.  Result: best_idx and the
      inliers.  With no pose at all the loop body never runs and the inlier variables are unbound
      (:564). *)
  Fixpoint baseline_first (cfg : config N) (bf wf : list dquat) (todo j : nat)
    : res (nat * list (dquat * dquat)) :=
    match todo with
    | O => Err UnboundLocalError
    | S todo' =>
        do inls <- baseline_inliers bf wf j;
        if (min_num_inliers cfg <? length inls)%nat then Ok (j, inls)
        else
          assert (j + 1 <? length wf)%nat;
          baseline_first cfg bf wf todo' (S j)
    end.

  (** :514-546, exhaustive.  [best] is (best_idx, inliers) once an index was accepted;
      best_num_inliers is an int that starts at min_num_inliers - 1 *)
  Fixpoint baseline_best (bf wf : list dquat) (todo j : nat) (best_num : Z)
           (best : option (nat * list (dquat * dquat))) : res (option (nat * list (dquat * dquat))) :=
    match todo with
    | O => Ok best
    | S todo' =>
        do inls <- baseline_inliers bf wf j;
        let c := Z.of_nat (length inls) in
        if (best_num <? c)%Z then baseline_best bf wf todo' (S j) c (Some (j, inls))
        else baseline_best bf wf todo' (S j) best_num best
    end.

  (** :501-562 *)
  Definition baseline_select (cfg : config N) (bf wf : list dquat) : res (nat * list (dquat * dquat)) :=
    if enable_exhaustive_search cfg then
      do best <- baseline_best bf wf (length wf) 0 (Z.of_nat (min_num_inliers cfg) - 1) None;
      match best with
      | None => Err AssertionError            (* :560 *)
      | Some _ => Err NameError               (* :561, best_dq_W_E_vec_filtered is never defined *)
      end
    else baseline_first cfg bf wf (length wf) 0.

  (** First component: the caller's W_E list, whose elements are sign-flipped in place. *)
  Definition compute_BASELINE (cfg : config N) (b_h w_e : list dquat) : list dquat * res result :=
    if negb (length w_e =? length b_h)%nat then (w_e, Err AssertionError)
    else
      let '(w_e, _) := match_signs b_h w_e in              (* :484-489 *)
      (w_e,
       do bw <- filtered cfg b_h w_e;
       let '(bf, wf) := bw in
       do sel <- baseline_select cfg bf wf;
       let '(best_idx, inls) := sel in
       let '(inl_b, inl_w) := split inls in
       do _ <- align_paths_at_index inl_b best_idx;         (* :564 *)
       do _ <- align_paths_at_index inl_w best_idx;         (* :565 *)
       let '(inl_w, cal) := calibrate_normalized cfg inl_b inl_w in
       match cal with
       | Err _ => Ok (mkResult false None None None (length wf) None None)      (* :581-588 *)
       | Ok (dq, sv, bad) =>
           do ps <- (if ransac_evaluate_refined_model_on_inliers_only cfg then
                       get_aligned_poses inl_b inl_w dq
                     else
                       do b_al <- align_paths_at_index b_h best_idx;
                       do w_al <- align_paths_at_index w_e best_idx;
                       get_aligned_poses b_al w_al dq);
           let '(_, poses_B_H, poses_W_H) := ps in
           do ev <- evaluate_alignment cfg poses_B_H poses_W_H;
           let '(rmse_position, rmse_orientation, _) := ev in
           let dq := fst (to_pose dq) in                    (* :611, normalises in place *)
           Ok (mkResult true (Some dq) (Some (rmse_position, rmse_orientation))
                        (Some (length inls)) (length wf) (Some sv) (Some bad))
       end).

  (** ** compute_hand_eye_calibration_RANSAC :628-963 *)

  (** What happens to one sample in the body of the while loop :716-867 *)
  Inductive verdict :=
  | Prerejected                                            (* :740-745 *)
  | Rejected                                               (* the other [continue]s *)
  | Evaluated (dq : dquat) (rmse_position rmse_orientation : T) (inliers : nat)
              (sv : list T) (bad : bool).

  (** what the inlier classification :754-823 yields: None for [continue]; otherwise the B_H list
      (normalised by get_aligned_poses in the rmse case), the flags and the initial model *)
  Definition classify (cfg : config N) (samples_b samples_w aligned_b aligned_w : list dquat)
    : res (option (list dquat * list bool * option (dquat * list T * bool))) :=
    match ransac_inlier_classification cfg with
    | RmseThreshold =>
        assert (2 <=? ransac_sample_size cfg)%nat;
        match snd (calibrate_normalized cfg samples_b samples_w) with
        | Err _ => Ok None
        | Ok (dq, sv, bad) =>
            do ps <- get_aligned_poses aligned_b aligned_w dq;
            let '(aligned_b, poses_B_H, poses_W_H) := ps in
            do ev <- evaluate_alignment cfg poses_B_H poses_W_H;
            let '(_, _, flags) := ev in
            do f0 <- index flags 0;
            assert f0;
            (* :790-798, scalar parts are computed for the flagged pairs only *)
            do ok <- scalar_flags (ransac_sample_rejection_tolerance cfg)
                                  (compress aligned_b flags) (compress aligned_w flags);
            if forallb (fun b => b) ok then Ok (Some (aligned_b, flags, Some (dq, sv, bad)))
            else Ok None
        end
    | ScalarPartEquality =>
        do flags <- for_pairs (fun b w => do sb <- scalar b; do sw <- scalar w;
                       Ok (allclose (ransac_sample_rejection_tolerance cfg) (dq_list sw) (dq_list sb)))
                     aligned_b aligned_w;
        Ok (Some (aligned_b, flags, None))
    | UnknownMethod => Err AssertionError
    end.

  (** :733-742: stops at the first bad pair *)
  Fixpoint good_sample (atol : T) (w_e b_h : list dquat) : res bool :=
    match w_e, b_h with
    | w :: w_e', b :: b_h' =>
        do ok <- scalar_parts_close atol w b;
        if ok then good_sample atol w_e' b_h' else Ok false
    | _, _ => Ok true
    end.

  Definition evaluate_sample (cfg : config N) (b_h w_e bf wf : list dquat) (sample : list nat) : res verdict :=
    do samples_w <- mapM (index wf) sample;
    do samples_b <- mapM (index bf) sample;
    assert (length samples_w =? ransac_sample_size cfg)%nat;
    (* :722-745; for a sample size of 1 the aligned samples are not computed (and not used) *)
    do pre <- (if (1 <? ransac_sample_size cfg)%nat then
                 do al_b <- align_paths_at_index samples_b 0;
                 do al_w <- align_paths_at_index samples_w 0;
                 do good <- good_sample (ransac_sample_rejection_tolerance cfg) al_w al_b;
                 Ok (good, al_b, al_w)
               else Ok (true, samples_b, samples_w));
    let '(good, al_b, al_w) := pre in
    if negb good then Ok Prerejected
    else
      do first <- index sample 0;
      do aligned_b <- align_paths_at_index b_h first;
      do aligned_w <- align_paths_at_index w_e first;
      do cls <- classify cfg al_b al_w aligned_b aligned_w;
      match cls with
      | None => Ok Rejected
      | Some (aligned_b, flags, initial) =>
          let inl_b := compress aligned_b flags in
          let inl_w := compress aligned_w flags in
          let n := length inl_b in
          if (n <? min_num_inliers cfg)%nat then Ok Rejected
          else
            (* :836-852: the refinement negates elements of inl_w, which are elements of aligned_w *)
            let '(inl_w, refined) :=
              match ransac_model_refinement cfg, initial with
              | false, Some r => (inl_w, Ok r)
              | _, _ => calibrate_normalized cfg inl_b inl_w
              end in
            match refined with
            | Err _ => Ok Rejected
            | Ok (dq, sv, bad) =>
                do ps <- (if ransac_evaluate_refined_model_on_inliers_only cfg
                          then get_aligned_poses inl_b inl_w dq
                          else get_aligned_poses aligned_b (scatter aligned_w flags inl_w) dq);
                let '(_, poses_B_H, poses_W_H) := ps in
                do ev <- evaluate_alignment cfg poses_B_H poses_W_H;
                let '(rp, ro, _) := ev in
                Ok (Evaluated dq rp ro n sv bad)
            end
      end.

  (** the result variables :676-683 and the counters :698-700 *)
  Record state := mkState {
    best : option (dquat * list nat * list T);   (* dq_H_E, sample, singular values *)
    best_bad : bool;
    best_num_inliers : nat;
    best_rmse_position : T;
    best_rmse_orientation : T;
    sample_number : nat;
    full_iterations : nat;
    prerejected_samples : nat;
  }.
  Definition initial_state : state := mkState None true 0 ninf ninf 0 0 0.

  (** math.log and float division, :902-903 *)
  Definition math_log (x : T) : res T := if x <=? n0 then Err ValueError else Ok (lnn x).
  Definition float_div (x y : T) : res T := if y =? n0 then Err ZeroDivisionError else Ok (x / y).
  Definition required_iterations (cfg : config N) : res T :=
    let w := n1 - ransac_outlier_probability cfg in
    let w_pow_s := powi w (ransac_sample_size cfg) in
    do a <- math_log (n1 - ransac_success_probability_threshold cfg);
    do b <- math_log (n1 - w_pow_s);
    float_div a b.
  (** :898-908; the flag says whether to break *)
  Definition early_abort (cfg : config N) (iterations : nat) : res bool :=
    if negb (enable_exhaustive_search cfg) && ransac_enable_early_abort cfg then
      do r <- required_iterations cfg;
      Ok (of_nat iterations >? r)
    else Ok false.

  (** bookkeeping after one sample: the counters and :869-908 *)
  Definition account (cfg : config N) (sample : list nat) (v : verdict) (st : state) : res (state * bool) :=
    let k := S (sample_number st) in
    match v with
    | Prerejected =>
        Ok (mkState (best st) (best_bad st) (best_num_inliers st) (best_rmse_position st)
                    (best_rmse_orientation st) k (full_iterations st) (S (prerejected_samples st)), false)
    | Rejected =>
        Ok (mkState (best st) (best_bad st) (best_num_inliers st) (best_rmse_position st)
                    (best_rmse_orientation st) k (full_iterations st) (prerejected_samples st), false)
    | Evaluated dq rp ro n sv bad =>
        let fi := S (full_iterations st) in
        let st' :=
          if (rp <? best_rmse_position st) && (ro <? best_rmse_orientation st)
          then mkState (Some (dq, sample, sv)) bad n rp ro k fi (prerejected_samples st)
          else mkState (best st) (best_bad st) (best_num_inliers st) (best_rmse_position st)
                       (best_rmse_orientation st) k fi (prerejected_samples st) in
        do stop <- early_abort cfg fi;
        Ok (st', stop)
    end.

  (** The random number generator: [draw i] is what the i-th call of random.sample returns. *)
  Context (draw : nat -> list nat).

  (** :709-713.  random.sample raises ValueError when the population is too small.  (Sampling from
      a set raises TypeError from Python 3.11 on; the package targets Python 2 and 3.5.) *)
  Definition sample_at (cfg : config N) (n_filtered i : nat) : res (list nat) :=
    if enable_exhaustive_search cfg then
      index (combinations (seq 0 n_filtered) (ransac_sample_size cfg)) i
    else if (n_filtered <? ransac_sample_size cfg)%nat then Err ValueError
    else Ok (draw i).

  (** the while condition :701-704 *)
  Definition guard (cfg : config N) (n_filtered : nat) (st : state) : bool :=
    if enable_exhaustive_search cfg then
      (sample_number st <? length (combinations (seq 0 n_filtered) (ransac_sample_size cfg)))%nat
    else (full_iterations st <? ransac_max_number_iterations cfg)%nat.

  Fixpoint ransac_loop (fuel : nat) (cfg : config N) (b_h w_e bf wf : list dquat) (st : state)
    : outcome state :=
    match fuel with
    | O => OutOfFuel
    | S fuel' =>
        if guard cfg (length wf) st then
          match (do sample <- sample_at cfg (length wf) (sample_number st);
                 do v <- evaluate_sample cfg b_h w_e bf wf sample;
                 account cfg sample v st) with
          | Err e => Done (Err e)
          | Ok (st', true) => Done (Ok st')
          | Ok (st', false) => ransac_loop fuel' cfg b_h w_e bf wf st'
          end
        else Done (Ok st)
    end.

  (** the result tuple :916-963 *)
  Definition ransac_result (n_filtered : nat) (st : state) : result :=
    match best st with
    | None =>
        mkResult false None (Some (best_rmse_position st, best_rmse_orientation st))
                 (Some (best_num_inliers st)) n_filtered None (Some (best_bad st))
    | Some (dq, _, sv) =>
        mkResult true (Some (fst (to_pose dq)))             (* :941 normalises in place *)
                 (Some (best_rmse_position st, best_rmse_orientation st))
                 (Some (best_num_inliers st)) n_filtered (Some sv) (Some (best_bad st))
    end.

  (** The inputs are never modified: alignment and prefiltering copy. *)
  Definition compute_RANSAC (fuel : nat) (cfg : config N) (b_h w_e : list dquat) : outcome result :=
    match (assert (length w_e =? length b_h)%nat;
           assert (ransac_sample_size cfg <? length w_e)%nat;
           filtered cfg b_h w_e) with
    | Err e => Done (Err e)
    | Ok (bf, wf) =>
        match ransac_loop fuel cfg b_h w_e bf wf initial_state with
        | OutOfFuel => OutOfFuel
        | Done (Err e) => Done (Err e)
        | Done (Ok st) => Done (Ok (ransac_result (length wf) st))
        end
    end.
End Ransac.
