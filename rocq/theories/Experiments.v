(** * Model of the experiment tables: algorithm configurations
      (hand_eye_calibration/python/hand_eye_calibration/algorithm_config.py and
      hand_eye_calibration_experiments/python/hand_eye_calibration_experiments/all_algorithm_configs.py),
      result entries (experiment_results.py) and result aggregation
      (experiment_plotting_tools.py:collect_data_from_csv).

    Plotting is not modelled. *)

From Coq Require Import ZArith String Ascii List Bool.
From Verif Require Import Num Py Quat DualQuat HandEye TimeAlign.
Import ListNotations.
Local Open Scope num_scope.
Local Open Scope string_scope.
Local Open Scope list_scope.

(** ** Configurations *)
Section Configs.
  Context {N : Num}.

  (** hand_eye_config together with its algorithm_name attribute (HandEyeConfig is [config]) *)
  Record named_config := mkNamed { config_name : string; time_config : @filtering_config N; hand_config : config N }.

  (** get_basic_config, algorithm_config.py:6-55, as a function of what the other functions set *)
  Definition basic_with (name : string) (baseline exhaustive prefilter : bool) (sample : nat)
      (classification : inlier_method) : named_config :=
    mkNamed name
      (mkFiltering 25 (lit 995 (-1)) 25 (lit 99 0))
      (mkConfig baseline 10 exhaustive prefilter (lit 95 (-2)) sample (lit 1 (-2)) 20 true (lit 5 (-1))
                (lit 99 (-2)) classification (lit 2 (-2)) (lit 1 0) true false (lit 4 (-2))).
  Definition get_basic_config : named_config := basic_with "" false false false 3 ScalarPartEquality.
  (** :58-80 *)
  Definition get_RANSAC_classic_config (prefilter : bool) : named_config :=
    basic_with (if prefilter then "RC_filter" else "RC_no_filter") false false prefilter 3 RmseThreshold.
  (** :83-104 *)
  Definition get_RANSAC_scalar_part_inliers_config (prefilter : bool) : named_config :=
    basic_with (if prefilter then "RS_filter" else "RS_no_filter") false false prefilter 1 ScalarPartEquality.
  (** :107-126 *)
  Definition get_exhaustive_search_pose_inliers_config : named_config :=
    basic_with "EC" false true true 3 RmseThreshold.
  (** :129-148 *)
  Definition get_exhaustive_search_scalar_part_inliers_config : named_config :=
    basic_with "ES" false true true 1 ScalarPartEquality.
  (** :151-169 *)
  Definition get_baseline_config (prefilter : bool) : named_config :=
    basic_with (if prefilter then "baseline_filter" else "baseline_no_filter") true false prefilter 3 ScalarPartEquality.

  (** (algorithm_name, time_alignment_config, hand_eye_config, optimization_config);
      all_algorithm_configs.py:13-17 *)
  Record algorithm := mkAlgorithm {
    algorithm_name : string;
    base : named_config;
    enable_optimization : bool;
    optimization_only : bool;
  }.
  (** the five get_*_and_optimization_config, all_algorithm_configs.py:45-140 *)
  Definition with_optimization (c : named_config) (opt : bool) : algorithm :=
    mkAlgorithm (config_name c ++ (if opt then "_opt" else "_no_opt"))%string c opt false.
  (** get_all_configs :20-41 *)
  Definition get_all_configs : list algorithm :=
    [ with_optimization (get_baseline_config true) true;
      with_optimization (get_baseline_config false) true;
      with_optimization (get_baseline_config true) false;
      with_optimization (get_baseline_config false) false;
      with_optimization (get_RANSAC_classic_config true) false;
      with_optimization (get_RANSAC_classic_config false) false;
      with_optimization (get_RANSAC_classic_config true) true;
      with_optimization (get_RANSAC_classic_config false) true;
      with_optimization (get_RANSAC_scalar_part_inliers_config true) false;
      with_optimization (get_RANSAC_scalar_part_inliers_config false) false;
      with_optimization (get_RANSAC_scalar_part_inliers_config true) true;
      with_optimization (get_RANSAC_scalar_part_inliers_config false) true;
      with_optimization get_exhaustive_search_pose_inliers_config false;
      with_optimization get_exhaustive_search_pose_inliers_config true;
      with_optimization get_exhaustive_search_scalar_part_inliers_config false;
      with_optimization get_exhaustive_search_scalar_part_inliers_config true ].
  (** get_optimization_with_spoiled_initial_calibration_config :143-157 *)
  Definition get_spoiled_config : algorithm :=
    mkAlgorithm "optimization_w_spoiled_init_calibration" get_exhaustive_search_scalar_part_inliers_config true true.
End Configs.

(** method_name_dict, experiment_plotting_tools.py:46-64 *)
Definition method_name_dict : list (string * string) :=
  [ ("baseline_filter_opt", "PF_B_O");
    ("baseline_no_filter_opt", "B_O");
    ("baseline_filter_no_opt", "PF_B");
    ("baseline_no_filter_no_opt", "B");
    ("EC_no_opt", "PF_EC");
    ("EC_opt", "PF_EC_O");
    ("ES_no_opt", "PF_ES");
    ("ES_opt", "PF_ES_O");
    ("RC_filter_no_opt", "PF_RC");
    ("RC_no_filter_no_opt", "RC");
    ("RC_filter_opt", "PF_RC_O");
    ("RC_no_filter_opt", "RC_O");
    ("RS_filter_no_opt", "PF_RS");
    ("RS_no_filter_no_opt", "RS");
    ("RS_filter_opt", "PF_RS_O");
    ("RS_no_filter_opt", "RS_O");
    ("optimization_w_spoiled_init_calibration", "S_PF_ES_O") ].

(** Python dictionaries with string keys, in insertion order *)
Section Dict.
  Context {V : Type}.
  Definition dict := list (string * V).
  Fixpoint dict_get (d : dict) (k : string) : option V :=
    match d with
    | [] => None
    | (k', v) :: d' => if String.eqb k' k then Some v else dict_get d' k
    end.
  (** d[k] *)
  Definition dict_item (d : dict) (k : string) : res V :=
    match dict_get d k with Some v => Ok v | None => Err KeyError end.
  (** d[k] = v *)
  Fixpoint dict_set (d : dict) (k : string) (v : V) : dict :=
    match d with
    | [] => [(k, v)]
    | (k', v') :: d' => if String.eqb k' k then (k', v) :: d' else (k', v') :: dict_set d' k v
    end.
End Dict.
Arguments dict V : clear implicits.

(** ** Result entries, experiment_results.py *)
Section Results.
  Context {N : Num}.

  (** a value passed to str.format *)
  Inductive cell :=
  | CStr (s : string) | CInt (z : Z) | CBool (b : bool) | CNum (x : T) | CNone | CArr (l : list T).

  (** class ResultEntry :7-29; None stands for Python's None.  rmse pairs are pairs of cells: they
      hold floats, the ints (-1, -1) or (None, None). *)
  Record entry := mkEntry {
    e_name : string;
    e_iteration : Z;
    e_prefiltering_enabled : bool;
    e_dataset_names : list (string * string);
    e_success : list bool;
    e_rmse : list (cell * cell);
    e_num_inliers : list (option nat);
    e_num_initial_poses : list nat;
    e_num_poses_kept : list nat;
    e_runtimes : list T;
    e_loop_error_position : cell;
    e_loop_error_orientation : cell;
    e_singular_values : list (option (list T));
    e_bad_singular_value : list (option bool);
    e_optimization_enabled : bool;
    e_optimization_success : list bool;
    e_optimization_runtime : list T;
    e_spoiled_angle : list (option T);
    e_spoiled_translation : list (option (list T));
    e_spoiled_time : list (option T);
  }.
  (** __init__ :9-29 *)
  Definition new_entry : entry :=
    mkEntry "" (-1) false [] [] [] [] [] [] [] (CInt (-1)) (CInt (-1)) [] [] false [] [] [] [] [].
  (** init_from_configs :31-35.  [self.prefiltering] is a new attribute that nothing reads, so it
      is not represented; prefiltering_enabled keeps its initial value. *)
  Definition init_from_configs (e : entry) (a : algorithm) (iteration : Z) : entry :=
    mkEntry (algorithm_name a) iteration (e_prefiltering_enabled e) (e_dataset_names e) (e_success e)
      (e_rmse e) (e_num_inliers e) (e_num_initial_poses e) (e_num_poses_kept e) (e_runtimes e)
      (e_loop_error_position e) (e_loop_error_orientation e) (e_singular_values e) (e_bad_singular_value e)
      (enable_optimization a) (e_optimization_success e) (e_optimization_runtime e)
      (e_spoiled_angle e) (e_spoiled_translation e) (e_spoiled_time e).

  (** check_length :37-65 *)
  Definition check_length (e : entry) (n : nat) : res unit :=
    assert (length (e_dataset_names e) =? n)%nat;
    assert (length (e_success e) =? n)%nat;
    assert (length (e_rmse e) =? n)%nat;
    assert (length (e_num_inliers e) =? n)%nat;
    assert (length (e_num_initial_poses e) =? n)%nat;
    assert (length (e_num_poses_kept e) =? n)%nat;
    assert (length (e_runtimes e) =? n)%nat;
    assert (length (e_singular_values e) =? n)%nat;
    assert (length (e_bad_singular_value e) =? n)%nat;
    assert (length (e_optimization_success e) =? n)%nat;
    assert (length (e_optimization_runtime e) =? n)%nat;
    assert (length (e_spoiled_angle e) =? n)%nat;
    assert (length (e_spoiled_translation e) =? n)%nat;
    assert (length (e_spoiled_time e) =? n)%nat;
    Ok tt.

  (** get_header :67-92 (adjacent literals are concatenated) *)
  Definition newline : string := String (ascii_of_nat 10) "".
  Definition get_header : string :=
    ("algorithm_name,"
     ++ "num_pose_pairs,"
     ++ "iteration_num,"
     ++ "prefiltering,"
     ++ "poses_B_H_csv_file,"
     ++ "poses_W_E_csv_file,"
     ++ "success,"
     ++ "position_rmse,"
     ++ "orientation_rmse,"
     ++ "num_inliers,"
     ++ "num_input_poses,"
     ++ "num_poses"
     ++ "after_filtering,"
     ++ "runtime_s,"
     ++ "loop_error_position_m,"
     ++ "loop_error_orientation_deg,"
     ++ "singular_values,"
     ++ "bad_singular_values,"
     ++ "optimization_enabled,"
     ++ "optimization_success,"
     ++ "optimization_runtime_s,"
     ++ "spoiled_initial_guess_angle_offset,"
     ++ "spoiled_initial_guess_translation_offset,"
     ++ "spoiled_initial_guess_time_offset"
     ++ newline)%string.

  Definition opt_cell {A} (f : A -> cell) (o : option A) : cell :=
    match o with Some a => f a | None => CNone end.
  (** the arguments of format in write_pose_pair_to_csv_line :94-121 *)
  Definition line_cells (e : entry) (i : nat) : res (list cell) :=
    do singular_values <- index (e_singular_values e) i;
    do names <- index (e_dataset_names e) i;
    do success <- index (e_success e) i;
    do rmse <- index (e_rmse e) i;
    do num_inliers <- index (e_num_inliers e) i;
    do num_initial_poses <- index (e_num_initial_poses e) i;
    do num_poses_kept <- index (e_num_poses_kept e) i;
    do runtime <- index (e_runtimes e) i;
    do bad_singular_value <- index (e_bad_singular_value e) i;
    do optimization_success <- index (e_optimization_success e) i;
    do optimization_runtime <- index (e_optimization_runtime e) i;
    do angle <- index (e_spoiled_angle e) i;
    do translation <- index (e_spoiled_translation e) i;
    do time <- index (e_spoiled_time e) i;
    Ok [ CStr (e_name e);
         CInt (Z.of_nat i);
         CInt (e_iteration e);
         CBool (e_prefiltering_enabled e);
         CStr (fst names);
         CStr (snd names);
         CBool success;
         fst rmse;
         snd rmse;
         opt_cell (fun n => CInt (Z.of_nat n)) num_inliers;
         CInt (Z.of_nat num_initial_poses);
         CInt (Z.of_nat num_poses_kept);
         CNum runtime;
         e_loop_error_position e;
         e_loop_error_orientation e;
         match singular_values with None => CStr "" | Some l => CArr l end;
         opt_cell CBool bad_singular_value;
         CBool (e_optimization_enabled e);
         CBool optimization_success;
         CNum optimization_runtime;
         opt_cell CNum angle;
         opt_cell CArr translation;
         opt_cell CNum time ].
  (** the format string "{},{},...\n" has 23 placeholders: text of a line, given the rendering of
      values by str.format ([show], numpy's array_str for arrays) *)
  Fixpoint join_str (sep : string) (l : list string) : string :=
    match l with
    | [] => ""
    | [s] => s
    | s :: l' => (s ++ sep ++ join_str sep l')%string
    end.
  Definition csv_line (show : cell -> string) (e : entry) (i : nat) : res string :=
    do cells <- line_cells e i;
    Ok (join_str "," (map show cells) ++ newline)%string.
End Results.
Arguments cell N : clear implicits.
Arguments entry N : clear implicits.

(** ** collect_data_from_csv, experiment_plotting_tools.py:5-165 *)

(** the names of the columns the reader expects :6-30 *)
Definition reader_columns : list string :=
  [ "algorithm_name"; "num_pose_pairs"; "iteration_num"; "prefiltering"; "poses_B_H_csv_file";
    "poses_W_E_csv_file"; "success"; "position_rmse"; "orientation_rmse"; "num_inliers";
    "num_input_poses"; "num_posesafter_filtering"; "runtime_s"; "loop_error_position_m";
    "loop_error_orientation_deg"; "singular_values"; "bad_singular_values"; "optimization_enabled";
    "optimization_success"; "optimization_runtime_s"; "spoiled_initial_guess_angle_offset";
    "spoiled_initial_guess_translation_offset"; "spoiled_initial_guess_time_offset"; "dataset" ].

Section Collect.
  Context {N : Num}.

  (** the fields of a row that the loop uses; [r_translation] is the outcome of :95-102: 0 for
      "None", otherwise the norm of the parsed vector or the parser's exception *)
  Record row := mkRow {
    r_method : string;
    r_success : bool;
    r_position_rmse : T;
    r_orientation_rmse : T;
    r_runtime : T;
    r_loop_error_position : T;
    r_loop_error_orientation : T;
    r_bad_singular_values : bool;
    r_runtime_optimization : T;
    r_angle : T;
    r_translation : res T;
    r_time : T;
    r_dataset : string;
  }.

  (** :33-44: genfromtxt returns a 0-dimensional array for a single row, which cannot be iterated;
      np.append flattens.  [files] are the rows of the files; an empty list of files or
      get_header=False leaves [data] unbound. *)
  Definition load (files : list (list row)) (get_header : bool) : res (list row) :=
    match files with
    | [] => Err UnboundLocalError
    | first :: rest =>
        if negb get_header then Err UnboundLocalError
        else match first, rest with
             | [_], [] => Err TypeError
             | _, _ => Ok (List.concat files)
             end
    end.

  (** the local variables :66-81 *)
  Record table := mkTable {
    t_methods : list string;
    t_datasets : list string;
    t_position_per : dict (dict (list T));
    t_orientation_per : dict (dict (list T));
    t_position : list (list T);
    t_orientation : list (list T);
    t_runtimes : list (list T);
    t_runtimes_per : dict (dict (list T));
    t_loop_position : list T;
    t_loop_orientation : list T;
    t_angles : list T;
    t_translations : list T;
    t_times : list T;
  }.
  Definition empty_table : table := mkTable [] [] [] [] [] [] [] [] [] [] [] [] [].

  (** l.index(s): the first position *)
  Fixpoint str_index (l : list string) (s : string) : option nat :=
    match l with
    | [] => None
    | x :: l' => if String.eqb x s then Some O else option_map S (str_index l' s)
    end.
  (** :129-133 and its two repetitions: create missing dictionaries and lists, then append *)
  Definition per_append (d : dict (dict (list T))) (dataset method : string) (x : T) : dict (dict (list T)) :=
    let inner := match dict_get d dataset with Some i => i | None => [] end in
    let l := match dict_get inner method with Some l => l | None => [] end in
    dict_set d dataset (dict_set inner method (l ++ [x])).
  (** position_rmses[index].append(x) *)
  Fixpoint append_at (l : list (list T)) (i : nat) (x : T) : list (list T) :=
    match l, i with
    | [], _ => []
    | y :: l', O => (y ++ [x]) :: l'
    | y :: l', S i' => y :: append_at l' i' x
    end.

  (** the loop body :82-156.  max_index (max_index_ds) is the length of methods (datasets). *)
  Definition collect_row (t : table) (r : row) : res table :=
    do translation <- r_translation r;
    let runtime := r_runtime r + r_runtime_optimization r in
    do method <- dict_item method_name_dict (r_method r);
    if negb (r_success r) || r_bad_singular_values r then Ok t
    else
      let dataset := r_dataset r in
      let datasets := match str_index (t_datasets t) dataset with
                      | Some _ => t_datasets t
                      | None => t_datasets t ++ [dataset]
                      end in
      let '(idx, methods, position, orientation, runtimes) :=
        match str_index (t_methods t) method with
        | Some i => (i, t_methods t, t_position t, t_orientation t, t_runtimes t)
        | None => (length (t_methods t), t_methods t ++ [method],
                   t_position t ++ [[]], t_orientation t ++ [[]], t_runtimes t ++ [[]])
        end in
      Ok (mkTable methods datasets
            (per_append (t_position_per t) dataset method (r_position_rmse r))
            (per_append (t_orientation_per t) dataset method (r_orientation_rmse r))
            (append_at position idx (r_position_rmse r))
            (append_at orientation idx (r_orientation_rmse r))
            (append_at runtimes idx runtime)
            (per_append (t_runtimes_per t) dataset method runtime)
            (t_loop_position t ++ [r_loop_error_position r])
            (t_loop_orientation t ++ [r_loop_error_orientation r])
            (t_angles t ++ [r_angle r])
            (t_translations t ++ [translation])
            (t_times t ++ [r_time r])).
  Fixpoint collect_rows (t : table) (data : list row) : res table :=
    match data with
    | [] => Ok t
    | r :: data' => do t' <- collect_row t r; collect_rows t' data'
    end.
  Definition collect_data_from_csv (files : list (list row)) (get_header : bool) : res table :=
    do data <- load files get_header;
    collect_rows empty_table data.
End Collect.
Arguments row N : clear implicits.
Arguments table N : clear implicits.
