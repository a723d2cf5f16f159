(** * Model of the perturbation sweep hand_eye_calibration_experiments/bin/optimization_experiments.py

    Line numbers refer to that file; spoil_initial_guess (:44-97) is in Synthetic, the result file in
    RunFiles.  As in Driver, the calibration of a pair and the external batch_estimator are parameters;
    printing and plotting are left out. *)

From Coq Require Import ZArith String List Bool DecimalString.
From Verif Require Import Num Py Quat DualQuat HandEye TimeAlign Ransac Extrinsic Verification Experiments Driver Synthetic.
Import ListNotations.
Local Open Scope num_scope.
Local Open Scope list_scope.

(** The executions of Pool.map(f, range(n)), :537-541.  [ws] gives the tasks of each worker process in
    the order in which it executes them; [f w r i] is the outcome of task i as the r-th task of worker w,
    when the tasks before it have returned.  Results are in the order of the inputs; an exception of any
    task reaches the caller. *)
Definition runs_as (ws : list (list nat)) (w r i : nat) : Prop := exists l, nth_error ws w = Some l /\ nth_error l r = Some i.
Inductive pool_map {A} (ws : list (list nat)) (f : nat -> nat -> nat -> res A) (n : nat) : res (list A) -> Prop :=
| pm_ok : forall out, length out = n ->
    (forall w r i, runs_as ws w r i -> exists x, f w r i = Ok x /\ nth_error out i = Some x) -> pool_map ws f n (Ok out)
| pm_raise : forall w r i e, runs_as ws w r i -> f w r i = Err e ->
    (forall r' i', (r' < r)%nat -> runs_as ws w r' i' -> exists x, f w r' i' = Ok x) -> pool_map ws f n (Err e).

(** str() of a non-negative int *)
Definition show_nat (n : nat) : string := NilZero.string_of_uint (Nat.to_uint n).
(** initial_guess_calibration_file :263-275 and optimized_calibration_file :293-303; [offsets] is the
    text of the three drawn offsets.  The [iteration] in the name is the global loop variable of :522 (see
    [experiment_file]), not the argument iteration_idx. *)
Definition sweep_file (result_directory algorithm : string) (run iteration pair : nat) (offsets suffix : string) : string :=
  (result_directory ++ "/optimization/" ++ algorithm ++ "_run_" ++ show_nat run ++ "_it_" ++ show_nat iteration
   ++ "_pose_pair_" ++ show_nat pair ++ "_" ++ offsets ++ "_" ++ suffix)%string.

Section Sweep.
  Context {N : Num}.
  (** see Driver; the estimator is given the index of the experiment, the pair and its is_absolute flags *)
  Context (calibrate : algorithm -> nat -> pose_set * pose_set -> nat -> res (T * nat * @result N * T)).
  Context (estimate : nat -> pose_set * pose_set -> bool * bool -> nat -> @json N -> estimation).

  (** ** compute_initial_guess_for_all_pairs :103-204 *)
  (** the append calls :192-198 *)
  Definition push_guess (e : entry N) (pair : pose_set * pose_set) (num_initial : nat) (r : @result N) (runtime : T) : entry N :=
    mkEntry (e_name e) (e_iteration e) (e_prefiltering_enabled e)
      (e_dataset_names e ++ [(set_name (fst pair), set_name (snd pair))]) (e_success e ++ [success r]) (e_rmse e)
      (e_num_inliers e) (e_num_initial_poses e ++ [num_initial]) (e_num_poses_kept e ++ [num_poses_after_filtering r])
      (e_runtimes e ++ [runtime]) (e_loop_error_position e) (e_loop_error_orientation e)
      (e_singular_values e ++ [singular_values r]) (e_bad_singular_value e ++ [bad_singular r])
      (e_optimization_enabled e) (e_optimization_success e) (e_optimization_runtime e)
      (e_spoiled_angle e) (e_spoiled_translation e) (e_spoiled_time e).
  (** a guess: the transform, None if the calibration failed, and the time offset *)
  Definition guess := (option (@dquat N) * T)%type.
  Fixpoint initial_guesses (a : algorithm) (pairs : list (pose_set * pose_set)) (idx : nat) (e : entry N) (gs : list guess)
    : res (list guess * entry N) :=
    match pairs with
    | [] => Ok (gs, e)
    | p :: pairs' =>
        do cal <- calibrate a 0 p idx;
        let '(time_offset, num_initial, r, runtime) := cal in
        initial_guesses a pairs' (S idx) (push_guess e p num_initial r runtime) (gs ++ [(dq_H_E r, time_offset)])
    end.

  (** ** run_optimization_experiment :207-391 *)
  (** np.random.uniform and random.uniform *)
  Definition uniform (range : T * T) (u : T) : T := fst range + (snd range - fst range) * u.
  (** The random numbers of one call of spoil_initial_guess.  numpy's generator gives eight numbers of
      [0, 1), in the order :48, :52, :57, quaternion.py:126; Python's gives the sign :49 and a number of
      [0, 1) for the angle, quaternion.py:130 (not modelled: how choice and uniform share its stream). *)
  Definition draw (np : nat -> T) (py : nat -> bool * T) (k : nat) (time angle translation : T * T) : spoil_draw :=
    let u i := np (8 * k + i)%nat in
    let unit_ := (lit (-1) 0, n1) in
    mkSpoil (uniform time (u 0%nat)) (if fst (py k) then lit (-1) 0 else n1)
      (mkV (uniform unit_ (u 1%nat)) (uniform unit_ (u 2%nat)) (uniform unit_ (u 3%nat)))
      (uniform translation (u 4%nat))
      (mkV (uniform unit_ (u 5%nat)) (uniform unit_ (u 6%nat)) (uniform unit_ (u 7%nat)))
      (uniform angle (snd (py k))).

  (** an element of input_data :525-526 *)
  Record experiment := mkExperiment {
    x_time : T * T; x_angle : T * T; x_translation : T * T; x_iteration : nat; x_index : nat }.

  (** what one pair appends to the entry :256-261, :364-367, and the transform :362 *)
  Record sweep_row := mkSweepRow {
    s_angle : T; s_translation : list T; s_time : T;
    s_opt_success : bool; s_rmse : cell N * cell N; s_inliers : nat; s_opt_runtime : T; s_dq : option (@dquat N) }.
  (** :231-367 for one pair; to_pose :359 also runs for a result that could not be evaluated.  Simplified:
      to_pose :65 normalises the guess in place in the worker process; here every task starts from the
      guess as computed. *)
  Definition sweep_pair (a : algorithm) (x : experiment) (pair : pose_set * pose_set) (flags : bool * bool)
    (g : guess) (d : spoil_draw) (pose_pair_idx : nat) : res sweep_row :=
    do initial <- match fst g with Some dq => Ok dq | None => Err AttributeError end;
    do spoiled <- spoil_initial_guess (snd g) initial (x_angle x) (x_translation x) d;
    let '(_, (time_offset_spoiled, dq_spoiled, (translation, angle, time))) := spoiled in
    let row := mkSweepRow angle [vx translation; vy translation; vz translation] time in
    let '(_, file) := write_json (mkCalib time_offset_spoiled dq_spoiled) false in
    match estimate (x_index x) pair flags pose_pair_idx file with
    | EstFailed => Ok (row false (CInt (-1), CInt (-1)) O n0 None)
    | EstNoFile => Err OSError
    | EstWritten opt_runtime j =>
        do optimized <- from_json j false;
        do ev <- evaluate_calibration (set_poses (fst pair)) (set_poses (snd pair)) (pose_dq optimized)
                   (Extrinsic.time_offset optimized) (hand_config (base a));
        let '(rmse_position, rmse_orientation, num_inliers_optimized) := ev in
        Ok (row (negb (num_inliers_optimized =? 0)%nat) (CNum rmse_position, CNum rmse_orientation)
                num_inliers_optimized opt_runtime (Some (fst (to_pose (pose_dq optimized)))))
    end.
  Definition push_row (e : entry N) (r : sweep_row) : entry N :=
    mkEntry (e_name e) (e_iteration e) (e_prefiltering_enabled e) (e_dataset_names e) (e_success e)
      (e_rmse e ++ [s_rmse r]) (e_num_inliers e ++ [Some (s_inliers r)]) (e_num_initial_poses e) (e_num_poses_kept e)
      (e_runtimes e) (e_loop_error_position e) (e_loop_error_orientation e) (e_singular_values e) (e_bad_singular_value e)
      (e_optimization_enabled e) (e_optimization_success e ++ [s_opt_success r]) (e_optimization_runtime e ++ [s_opt_runtime r])
      (e_spoiled_angle e ++ [Some (s_angle r)]) (e_spoiled_translation e ++ [Some (s_translation r)])
      (e_spoiled_time e ++ [Some (s_time r)]).
  Definition set_iteration (e : entry N) (i : nat) : entry N :=
    mkEntry (e_name e) (Z.of_nat i) (e_prefiltering_enabled e) (e_dataset_names e) (e_success e) (e_rmse e)
      (e_num_inliers e) (e_num_initial_poses e) (e_num_poses_kept e) (e_runtimes e)
      (e_loop_error_position e) (e_loop_error_orientation e) (e_singular_values e) (e_bad_singular_value e)
      (e_optimization_enabled e) (e_optimization_success e) (e_optimization_runtime e)
      (e_spoiled_angle e) (e_spoiled_translation e) (e_spoiled_time e).
  (** the loop over zip(...) :217-369; [k] counts the calls of spoil_initial_guess by this process *)
  Fixpoint sweep_pairs (a : algorithm) (x : experiment) (np : nat -> T) (py : nat -> bool * T)
    (todo : list ((pose_set * pose_set) * (bool * bool) * guess)) (pose_pair_idx k : nat) (e : entry N) (dqs : list (option dquat))
    : res (entry N * list (option dquat)) :=
    match todo with
    | [] => Ok (e, dqs)
    | (files, flags, g) :: todo' =>
        do row <- sweep_pair a x files flags g (draw np py k (x_time x) (x_angle x) (x_translation x)) pose_pair_idx;
        sweep_pairs a x np py todo' (S pose_pair_idx) (S k) (push_row e row) (dqs ++ [s_dq row])
    end.
  Definition run_optimization_experiment (a : algorithm) (num_poses_sets : nat)
    (todo : list ((pose_set * pose_set) * (bool * bool) * guess)) (template : entry N) (x : experiment)
    (np : nat -> T) (py : nat -> bool * T) (k : nat) : res (entry N * list (option dquat)) :=
    do r <- sweep_pairs a x np py todo 0 k (set_iteration template (x_iteration x)) [];
    let '(e, dqs) := r in
    let num_pose_pairs := length todo in
    assert (length dqs =? num_pose_pairs)%nat;
    do _ <- check_length e num_pose_pairs;
    if (count_true (e_optimization_success e) =? num_pose_pairs)%nat then
      do loop <- compute_loop_error_opt dqs (Z.of_nat num_poses_sets);
      Ok (set_loop_error e (fst loop) (snd loop), dqs)
    else Ok (e, dqs).

  (** ** __main__ :394-554 *)
  (** the nested loops :516-528 *)
  Fixpoint numbered (i : nat) (l : list ((T * T) * (T * T) * (T * T) * nat)) : list experiment :=
    match l with
    | [] => []
    | (t, a, s, it) :: l' => mkExperiment t a s it i :: numbered (S i) l'
    end.
  Definition input_data (time_ranges angle_ranges translation_ranges : list (T * T)) (num_iterations : nat) : list experiment :=
    numbered 0 (flat_map (fun t => flat_map (fun a => flat_map (fun s => map (fun it => (t, a, s, it)) (seq 0 num_iterations))
      translation_ranges) angle_ranges) time_ranges).
  (** plot_type = "angle_translation_complete" :478-487, :491-494 *)
  Definition time_offset_ranges : list (T * T) := [(n0, n0)].
  Definition angle_offset_ranges : list (T * T) :=
    map (fun i => (lit (15 * Z.of_nat i) 0 / lit 180 0 * npi, lit (15 * Z.of_nat (S i)) 0 / lit 180 0 * npi)) (seq 0 12).
  Definition translation_offset_ranges : list (T * T) :=
    map (fun i => (lit (Z.of_nat i) (-1), lit (Z.of_nat (S i)) (-1))) (seq 0 10).

  (** the files of pair [pair] of experiment x: in a worker the global [iteration] still has the last
      value of the loop :522, num_iterations - 1 *)
  Definition experiment_file (result_directory : string) (num_iterations : nat) (x : experiment) (pair : nat)
    (offsets suffix : string) : string :=
    sweep_file result_directory (algorithm_name (N:=N) get_spoiled_config) (x_index x) (num_iterations - 1) pair offsets suffix.

  Definition flag_pairs (flags : list bool) : list (bool * bool) :=
    flat_map (fun c => match c with [x; y] => [(x, y)] | _ => [] end) (combinations flags 2).
  (** up to the pool :415-535: the experiments, what they have in common, and the template *)
  Definition prepare (sets : list pose_set) (absolute_flags : option (list bool)) (num_iterations : Z)
    : res (list experiment * list ((pose_set * pose_set) * (bool * bool) * guess) * entry N) :=
    assert (2 <=? length sets)%nat;
    let flags := match absolute_flags with Some l => l | None => map (fun _ => false) sets end in
    assert (length flags =? length sets)%nat;
    let pairs := pose_pairs sets in
    assert (length pairs =? length (flag_pairs flags))%nat;
    do g <- initial_guesses get_spoiled_config pairs 0 (init_from_configs new_entry get_spoiled_config 0) [];
    let '(gs, template) := g in
    assert (0 <? num_iterations)%Z;
    Ok (input_data time_offset_ranges angle_offset_ranges translation_offset_ranges (Z.to_nat num_iterations),
        combine (combine pairs (flag_pairs flags)) gs, template).
  (** Task i as the r-th of worker w.  The workers are forked at :537, so each starts with a copy of
      the numpy generator of the parent; multiprocessing reseeds only Python's own generator. *)
  Definition task (sets : list pose_set) (xs : list experiment) (todo : list ((pose_set * pose_set) * (bool * bool) * guess))
    (template : entry N) (np : nat -> T) (py : nat -> nat -> bool * T) (w r i : nat) : res (entry N) :=
    do x <- index xs i;
    do out <- run_optimization_experiment get_spoiled_config (length sets) todo template x np (py w) (r * length todo);
    Ok (fst out).
  (** a run, :415-552: the lines appended to the result file or the exception *)
  Inductive sweep (sets : list pose_set) (absolute_flags : option (list bool)) (num_iterations : Z)
    (ws : list (list nat)) (np : nat -> T) (py : nat -> nat -> bool * T) : res (list (list (cell N))) -> Prop :=
  | sw_prepare : forall e, prepare sets absolute_flags num_iterations = Err e ->
      sweep sets absolute_flags num_iterations ws np py (Err e)
  | sw_raise : forall xs todo template e, prepare sets absolute_flags num_iterations = Ok (xs, todo, template) ->
      pool_map ws (task sets xs todo template np py) (length xs) (Err e) ->
      sweep sets absolute_flags num_iterations ws np py (Err e)
  | sw_done : forall xs todo template out ls, prepare sets absolute_flags num_iterations = Ok (xs, todo, template) ->
      pool_map ws (task sets xs todo template np py) (length xs) (Ok out) ->
      mapM (fun e => mapM (line_cells e) (seq 0 (length todo))) out = ls ->
      sweep sets absolute_flags num_iterations ws np py (do ls <- ls; Ok (List.concat ls)).
End Sweep.
