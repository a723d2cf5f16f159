(** * Model of the experiment driver hand_eye_calibration_experiments/bin/compute_set_of_hand_eye_calibrations.py

    Line numbers refer to that file.  The calibration of a pair (reading, time alignment and
    compute_hand_eye_calibration_BASELINE / _RANSAC, modelled in CsvIo, TimeAlign and Ransac) and the
    external batch_estimator are parameters, so that everything below holds whatever they do.
    Printing and plotting are not modelled; the result files are modelled in RunFiles. *)

From Coq Require Import ZArith String List Bool.
From Verif Require Import Num Py Quat DualQuat HandEye TimeAlign Ransac Extrinsic Verification Experiments.
Import ListNotations.
Local Open Scope num_scope.
Local Open Scope list_scope.

Section Driver.
  Context {N : Num}.

  (** compute_loop_error, calibration_verification.py:58-105, on results that may be None:
      None.inverse() raises AttributeError and dq_tmp *= None fails the assertion of
      DualQuaternion.__mul__ (dual_quaternion.py:76) *)
  Definition compute_loop_error_opt (results : list (option dquat)) (num_poses_sets : Z) : res (T * T) :=
    do first <- py_index results 0;
    do middle <- chain_middle results num_poses_sets (Z.to_nat (num_poses_sets - 2)) 0 0;
    do last <- py_index results (num_poses_sets - 2);
    do last_inverse <- match last with Some d => dinv d | None => Err AttributeError end;
    let chain := [Some didentity; first] ++ middle ++ [Some last_inverse] in
    assert (Z.of_nat (length chain) =? num_poses_sets + 1)%Z;
    do chain <- mapM (fun c => match c with Some d => Ok d | None => Err AssertionError end) chain;
    let poses_to_plot := chain_poses didentity chain in
    do p0 <- py_index poses_to_plot 0;
    do p1 <- py_index poses_to_plot (-1);
    compute_pose_error p0 p1.

  (** a pose file: its name and its time stamped poses *)
  Record pose_set := mkSet { set_name : string; set_poses : list (@stamped N) }.

  (** what the batch estimator did: a non-zero exit code makes run() raise (:230-243), otherwise
      the JSON file is read (it may be missing) *)
  Inductive estimation := EstFailed | EstNoFile | EstWritten (runtime : T) (j : @json N).

  (** the time offset, the number of aligned poses, the calibration result and its runtime :129-194 *)
  Context (calibrate : algorithm -> nat -> pose_set * pose_set -> nat -> res (T * nat * @result N * T)).
  Context (estimate : algorithm -> nat -> pose_set * pose_set -> nat -> @json N -> estimation).

  (** what one pair appends to the result lists *)
  Record pair_row := mkPairRow {
    p_names : string * string;
    p_success : bool;
    p_rmse : cell N * cell N;
    p_inliers : option nat;
    p_initial : nat;
    p_kept : nat;
    p_runtime : T;
    p_singular : option (list T);
    p_bad : option bool;
    p_opt_success : bool;
    p_opt_runtime : T;
    p_dq : option (@dquat N);
  }.

  (** the rmse pair as cells; a failed baseline returns (None, None) *)
  Definition rmse_cells (r : option (T * T)) : cell N * cell N :=
    match r with Some (p, o) => (CNum p, CNum o) | None => (CNone, CNone) end.

  (** the body of the loop over pairs :118-310 *)
  Definition run_pair (a : algorithm) (iteration : nat) (pair : pose_set * pose_set) (pose_pair_idx : nat) : res pair_row :=
    do cal <- calibrate a iteration pair pose_pair_idx;
    let '(time_offset_initial_guess, num_initial, r, runtime) := cal in
    let row := mkPairRow (set_name (fst pair), set_name (snd pair)) (success r) in
    if enable_optimization a then
      (* :208-210: writeJson calls to_pose on the initial guess *)
      do guess <- match dq_H_E r with Some d => Ok d | None => Err AttributeError end;
      let '(_, file) := write_json (mkCalib time_offset_initial_guess guess) false in
      match estimate a iteration pair pose_pair_idx file with
      | EstFailed =>
          Ok (row (CInt (-1), CInt (-1)) (Some O) num_initial (num_poses_after_filtering r) runtime
                  (singular_values r) (bad_singular r) false n0 None)
      | EstNoFile => Err OSError
      | EstWritten opt_runtime j =>
          do optimized <- from_json j false;
          do ev <- evaluate_calibration (set_poses (fst pair)) (set_poses (snd pair)) (pose_dq optimized)
                     (Extrinsic.time_offset optimized) (hand_config (base a));
          let '(rmse_position, rmse_orientation, num_inliers_optimized) := ev in
          Ok (row (CNum rmse_position, CNum rmse_orientation) (Some num_inliers_optimized) num_initial
                  (num_poses_after_filtering r) runtime (singular_values r) (bad_singular r)
                  (negb (num_inliers_optimized =? 0)%nat) opt_runtime (Some (fst (to_pose (pose_dq optimized)))))
      end
    else
      Ok (row (rmse_cells (rmse r)) (num_inliers r) num_initial (num_poses_after_filtering r) runtime
              (singular_values r) (bad_singular r) true n0 (option_map (fun d => fst (to_pose d)) (dq_H_E r))).

  (** the append calls :197-203, :281-308 *)
  Definition push (e : entry N) (p : pair_row) : entry N :=
    mkEntry (e_name e) (e_iteration e) (e_prefiltering_enabled e)
      (e_dataset_names e ++ [p_names p]) (e_success e ++ [p_success p]) (e_rmse e ++ [p_rmse p])
      (e_num_inliers e ++ [p_inliers p]) (e_num_initial_poses e ++ [p_initial p])
      (e_num_poses_kept e ++ [p_kept p]) (e_runtimes e ++ [p_runtime p])
      (e_loop_error_position e) (e_loop_error_orientation e)
      (e_singular_values e ++ [p_singular p]) (e_bad_singular_value e ++ [p_bad p])
      (e_optimization_enabled e) (e_optimization_success e ++ [p_opt_success p])
      (e_optimization_runtime e ++ [p_opt_runtime p])
      (e_spoiled_angle e ++ [None]) (e_spoiled_translation e ++ [None]) (e_spoiled_time e ++ [None]).
  Fixpoint run_pairs (a : algorithm) (iteration : nat) (pairs : list (pose_set * pose_set)) (idx : nat)
      (e : entry N) (dqs : list (option dquat)) : res (entry N * list (option dquat)) :=
    match pairs with
    | [] => Ok (e, dqs)
    | p :: pairs' =>
        do row <- run_pair a iteration p idx;
        run_pairs a iteration pairs' (S idx) (push e row) (dqs ++ [p_dq row])
    end.
  Definition set_loop_error (e : entry N) (position orientation : T) : entry N :=
    mkEntry (e_name e) (e_iteration e) (e_prefiltering_enabled e) (e_dataset_names e) (e_success e) (e_rmse e)
      (e_num_inliers e) (e_num_initial_poses e) (e_num_poses_kept e) (e_runtimes e)
      (CNum position) (CNum orientation) (e_singular_values e) (e_bad_singular_value e)
      (e_optimization_enabled e) (e_optimization_success e) (e_optimization_runtime e)
      (e_spoiled_angle e) (e_spoiled_translation e) (e_spoiled_time e).

  (** set_of_pose_pairs :75 *)
  Definition pose_pairs (sets : list pose_set) : list (pose_set * pose_set) :=
    flat_map (fun c => match c with [x; y] => [(x, y)] | _ => [] end) (combinations sets 2).

  (** one iteration :109-325: the result entry and the transforms *)
  Definition run_iteration (a : algorithm) (iteration : nat) (sets : list pose_set)
    : res (entry N * list (option dquat)) :=
    let pairs := pose_pairs sets in
    do r <- run_pairs a iteration pairs 0 (init_from_configs new_entry a (Z.of_nat iteration)) [];
    let '(e, dqs) := r in
    assert (length dqs =? length pairs)%nat;
    do _ <- check_length e (length pairs);
    if (count_true (e_optimization_success e) =? length pairs)%nat then
      do loop <- compute_loop_error_opt dqs (Z.of_nat (length sets));
      Ok (set_loop_error e (fst loop) (snd loop), dqs)
    else Ok (e, dqs).
  (** the lines appended to the result file :329, :355 *)
  Definition iteration_lines (a : algorithm) (iteration : nat) (sets : list pose_set) : res (list (list (cell N))) :=
    do r <- run_iteration a iteration sets;
    mapM (line_cells (fst r)) (seq 0 (length (pose_pairs sets))).

  (** :64-79, :98-355: everything a run appends to the result file *)
  Definition iterations_of (a : algorithm) (num_iterations : nat) : nat :=
    let c := hand_config (base a) in
    if enable_exhaustive_search c || use_baseline_approach c then 1%nat else num_iterations.
  Definition run_experiments (sets : list pose_set) (absolute_flags : option (list bool)) (num_iterations : nat)
    : res (list (list (cell N))) :=
    assert (2 <=? length sets)%nat;
    let flags := match absolute_flags with Some l => l | None => map (fun _ => false) sets end in
    assert (length flags =? length sets)%nat;
    do ls <- mapM (fun a => do ls <- mapM (fun it => iteration_lines a it sets) (seq 0 (iterations_of a num_iterations));
                            Ok (List.concat ls)) get_all_configs;
    Ok (List.concat ls).
End Driver.
