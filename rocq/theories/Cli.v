(** * Model of the command line programs bin/compute_aligned_poses.py and bin/compute_hand_eye_calibration.py and of
      scripts/compute_complete_handeye_calibration.sh, as functions on a file system.

    Files hold values: a csv file the table of its numbers, a JSON file its value (the text layers are CsvText.v and
    the header of Extrinsic.v).  Opening a file for writing always works.  Plots are not modelled. *)

From Coq Require Import ZArith String Ascii List Bool.
From Verif Require Import Num Py Quat DualQuat HandEye Ransac TimeAlign CsvIo Experiments Extrinsic.
Import ListNotations.
Local Open Scope num_scope.
Local Open Scope string_scope.
Local Open Scope list_scope.

Section Cli.
  Context {N : Num}.

  Inductive content :=
  | Csv (rows : list (list T))
  | Json (j : json (N:=N)).
  Definition files : Type := string -> option content.
  Definition put (fs : files) (path : string) (c : content) : files :=
    fun p => if String.eqb p path then Some c else fs p.

  (** argparse's type=bool is the function bool on the argument string: true unless the string is empty
      (compute_hand_eye_calibration.py:55, compute_aligned_poses.py:51).  None: flag not given, default False. *)
  Definition parse_bool (arg : option string) : bool :=
    match arg with None => false | Some s => negb (String.eqb s "") end.

  (** np.array(list(csv_reader)).astype(float): OSError for a missing file, ValueError for rows of different lengths
      or other text (csv_io.py:14-17, bash_utils.py:38-41, compute_hand_eye_calibration.py:79-82) *)
  Definition read_table (fs : files) (path : string) : res (list (list T)) :=
    match fs path with
    | None => Err OSError
    | Some (Json _) => Err ValueError
    | Some (Csv rows) =>
        match rows with
        | [] => Ok []
        | r :: _ => if forallb (fun r' => Nat.eqb (List.length r') (List.length r)) rows then Ok rows else Err ValueError
        end
    end.
  (** a row [t, x, y, z, qx, qy, qz, qw] *)
  Definition row_of (s : @stamped N) : list T :=
    let p := snd s in
    [fst s; vx (pos p); vy (pos p); vz (pos p); qx (ori p); qy (ori p); qz (ori p); qw (ori p)].
  Definition stamped_of (row : list T) : option stamped :=
    match row with
    | t :: x :: y :: z :: a :: b :: c :: w :: _ => Some (t, mkPose (mkV x y z) (mkQ a b c w))
    | _ => None
    end.
  (** np.savetxt of a vector: one number per line (csv_io.py:35-36) *)
  Definition savetxt_vector (v : list T) : content := Csv (map (fun x => [x]) v).

  (** ** compute_aligned_poses.py *)
  Record aligned_args := mkAlignedArgs {
    poses_B_H_csv_file : string;
    poses_W_E_csv_file : string;
    out_B_H_csv_file : string;                   (* --aligned_poses_B_H_csv_file *)
    out_W_E_csv_file : string;                   (* --aligned_poses_W_E_csv_file *)
    time_offset_output_csv_file : option string;
    quaternion_format : string;                  (* default Hamilton *)
  }.
  (** csv_io.py:13-32.  Simplified: a table with fewer than eight columns counts as unreadable, and further columns
      are ignored (they would enter the norm at :25). *)
  Definition read_stamped (fs : files) (path : string) : res (list stamped) :=
    do rows <- read_table fs path;
    mapM (fun row => match stamped_of row with Some s => Ok s | None => Err ValueError end) rows.
  (** :57-108.  The files are written after everything has been computed, in this order. *)
  Definition compute_aligned_poses_py (a : aligned_args) (fs : files) : files * option exn :=
    match (do jpl <- (if String.eqb (quaternion_format a) "JPL" then Ok true
                      else if String.eqb (quaternion_format a) "Hamilton" then Ok false
                      else Err AssertionError);
           do rows_B_H <- read_stamped fs (poses_B_H_csv_file a);
           do _ <- read_time_stamped_poses rows_B_H jpl;
           do rows_W_E <- read_stamped fs (poses_W_E_csv_file a);
           compute_aligned_poses_main rows_B_H rows_W_E jpl) with
    | Err e => (fs, Some e)
    | Ok (aligned_B_H, aligned_W_E, time_offset) =>
        let fs := put fs (out_B_H_csv_file a) (Csv (map row_of aligned_B_H)) in
        let fs := put fs (out_W_E_csv_file a) (Csv (map row_of aligned_W_E)) in
        let fs := match time_offset_output_csv_file a with
                  | Some path => put fs path (savetxt_vector [time_offset])
                  | None => fs
                  end in
        (fs, None)
    end.

  (** ** compute_hand_eye_calibration.py *)
  Context (svd : list dquat -> res (list T * list dquat)).
  Record calibration_args := mkCalibrationArgs {
    aligned_poses_B_H_csv_file : option string;
    aligned_poses_H_B_csv_file : option string;
    aligned_poses_W_E_csv_file : option string;
    aligned_poses_E_W_csv_file : option string;
    extrinsics_output_csv_file : option string;
    time_offset_input_csv_file : option string;
    calibration_output_json_file : option string;
    visualize : option string;
  }.
  Definition given {A} (o : option A) : bool := match o with Some _ => true | None => false end.
  (** :78-92, :94-109: pose[1:] has at least seven elements, or indexing it raises IndexError *)
  Definition read_dual_quaternions (fs : files) (path : string) (invert : bool) : res (list dquat) :=
    do rows <- read_table fs path;
    mapM (fun row => match stamped_of row with
                     | None => Err IndexError
                     | Some s => let d := from_pose_vector (snd s) in if invert then dinv d else Ok d
                     end) rows.
  (** :60-130, up to the configuration.  open(None) raises TypeError, but the assertions exclude it.  The plot at
      :118-128 normalises all poses in place. *)
  Definition load (a : calibration_args) (fs : files) : res (list dquat * list dquat) :=
    assert (xorb (given (aligned_poses_B_H_csv_file a)) (given (aligned_poses_H_B_csv_file a)));
    assert (xorb (given (aligned_poses_W_E_csv_file a)) (given (aligned_poses_E_W_csv_file a)));
    assert (negb (given (calibration_output_json_file a)) || given (time_offset_input_csv_file a));
    do b <- match aligned_poses_B_H_csv_file a, aligned_poses_H_B_csv_file a with
            | Some path, _ => read_dual_quaternions fs path false
            | None, Some path => read_dual_quaternions fs path true
            | None, None => Err TypeError
            end;
    do w <- match aligned_poses_W_E_csv_file a, aligned_poses_E_W_csv_file a with
            | Some path, _ => read_dual_quaternions fs path false
            | None, Some path => read_dual_quaternions fs path true
            | None, None => Err TypeError
            end;
    assert (List.length b =? List.length w)%nat;
    do b <- align_paths_at_index b 0;
    do w <- align_paths_at_index w 0;
    if parse_bool (visualize a)
    then Ok (map (fun d => fst (to_pose d)) b, map (fun d => fst (to_pose d)) w)
    else Ok (b, w).
  (** :145-158.  dq_H_E is None after a failed calibration; None.to_pose() raises AttributeError.  to_pose normalises
      dq_H_E in place. *)
  Definition pose_list (p : pose) : list T :=
    [vx (pos p); vy (pos p); vz (pos p); qx (ori p); qy (ori p); qz (ori p); qw (ori p)].
  Definition write_extrinsics (a : calibration_args) (dq : option dquat) (fs : files) : files * option dquat * option exn :=
    match extrinsics_output_csv_file a with
    | None => (fs, dq, None)
    | Some path =>
        match dq with
        | None => (fs, dq, Some AttributeError)
        | Some d => let '(d, p) := to_pose d in (put fs path (savetxt_vector (pose_list p)), Some d, None)
        end
    end.
  Definition write_calibration (a : calibration_args) (dq : option dquat) (fs : files) : files * option exn :=
    match calibration_output_json_file a, time_offset_input_csv_file a with
    | Some path, Some offset_path =>
        match (do rows <- read_table fs offset_path;
               do row <- index rows 0;
               do t <- index row 0;
               match dq with
               | None => Err AttributeError
               | Some d => Ok (mkCalib t (from_pose_vector (snd (to_pose d))))
               end) with
        | Err e => (fs, Some e)
        | Ok c => (put fs path (Json (snd (write_json c false))), None)
        end
    | _, _ => (fs, None)
    end.
  (** :132-158; the configuration is fixed in the source, :134 *)
  Definition compute_hand_eye_calibration_py (fuel : nat) (a : calibration_args) (fs : files) : outcome (files * option exn) :=
    let cfg := hand_config get_exhaustive_search_scalar_part_inliers_config in
    match load a fs with
    | Err e => Done (Ok (fs, Some e))
    | Ok (b, w) =>
        match (if use_baseline_approach cfg then Done (snd (compute_BASELINE svd cfg b w))
               else compute_RANSAC svd (fun _ => []) fuel cfg b w) with
        | OutOfFuel => OutOfFuel
        | Done (Err e) => Done (Ok (fs, Some e))
        | Done (Ok r) =>
            let '(fs, dq, e) := write_extrinsics a (dq_H_E r) fs in
            match e with
            | Some e => Done (Ok (fs, Some e))
            | None => Done (Ok (write_calibration a dq fs))
            end
        end
    end.

  (** ** compute_complete_handeye_calibration.sh
      The arguments are paths of files.  Files are identified by the text of their path, without a leading "./". *)
  Fixpoint has_slash (s : string) : bool :=
    match s with EmptyString => false | String c s => Ascii.eqb c "/" || has_slash s end.
  (** :3-10: dirname/aligned_basename, that is, "aligned_" inserted behind the last slash.  Simplified: paths that end
      with a slash are not split correctly. *)
  Fixpoint aligned_path (arg : string) : string :=
    match arg with
    | EmptyString => "aligned_"
    | String c s => if has_slash s then String c (aligned_path s)
                    else if Ascii.eqb c "/" then String c ("aligned_" ++ s)
                    else "aligned_" ++ arg
    end.
  (** :13-18 *)
  Definition script_aligned_args (argA argB : string) : aligned_args :=
    mkAlignedArgs argA argB (aligned_path argA) (aligned_path argB) (Some "time_offset.csv") "Hamilton".
  (** :20-25 *)
  Definition script_calibration_args (argA argB : string) : calibration_args :=
    mkCalibrationArgs (Some (aligned_path argA)) None (Some (aligned_path argB)) None
      None (Some "time_offset.csv") (Some "calibration.json") (Some "0").
  (** The batch estimator is an external program: from what it finds in its input files to what it writes to the
      output file, if anything, and whether it exits with status 0. *)
  Context (estimator : option content -> option content -> option content -> option content * bool).
  (** :27-32 *)
  Definition script_estimate (argA argB : string) (fs : files) : files * bool :=
    let '(out, ok) := estimator (fs argA) (fs argB) (fs "calibration.json") in
    (match out with Some c => put fs "calibration_optimized.json" c | None => fs end, ok).
  (** The script does not look at exit codes; its own is that of the last command.  The two optional exceptions are
      those of the two programs. *)
  Definition script (fuel : nat) (argA argB : string) (fs : files) : outcome (files * (option exn * option exn) * bool) :=
    let '(fs, e1) := compute_aligned_poses_py (script_aligned_args argA argB) fs in
    match compute_hand_eye_calibration_py fuel (script_calibration_args argA argB) fs with
    | OutOfFuel => OutOfFuel
    | Done (Err e) => Done (Err e)
    | Done (Ok (fs, e2)) =>
        let '(fs, ok) := script_estimate argA argB fs in
        Done (Ok (fs, (e1, e2), ok))
    end.
End Cli.
