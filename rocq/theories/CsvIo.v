(** * Model of python/hand_eye_calibration/csv_io.py (numeric part) and of the main program of
      bin/compute_aligned_poses.py

    A row [t, x, y, z, qx, qy, qz, qw] is (t, pose), as in TimeAlign.v; files with another number
    of columns are not modelled.  The text layer is CsvText.v. *)

From Coq Require Import ZArith List Bool.
From Verif Require Import Num Py Quat DualQuat TimeAlign.
Import ListNotations.
Local Open Scope num_scope.

Section CsvIo.
  Context {N : Num}.

  (** csv_io.py:25 pose[3:] /= np.linalg.norm(pose[3:]), in place: [pose] is a view of the row *)
  Definition normalise_row (r : stamped) : stamped :=
    let p := snd r in (fst r, mkPose (pos p) (qdivs (ori p) (qnorm (ori p)))).
  (** csv_io.py:26-30 *)
  Definition read_quaternion (jpl : bool) (r : stamped) : quat :=
    let q := ori (snd r) in
    if jpl then mkQ (- qx q) (- qy q) (- qz q) (qw q) else q.
  (** read_time_stamped_poses_from_csv_file csv_io.py:19-32, on the parsed numbers.  For an empty
      file the array has one dimension and [:, 0] raises IndexError :20. *)
  Definition read_time_stamped_poses (rows : list stamped) (jpl : bool)
    : res (list stamped * list T * list quat) :=
    match rows with
    | [] => Err IndexError
    | _ =>
        let times := map fst rows in
        let rows := map normalise_row rows in
        Ok (rows, times, map (read_quaternion jpl) rows)
    end.

  (** bin/compute_aligned_poses.py:57-100: file contents and --quaternion_format to the written
      arrays and the time offset *)
  Definition compute_aligned_poses_main (rows_B_H rows_W_E : list stamped) (jpl : bool)
    : res (list stamped * list stamped * T) :=
    do a <- read_time_stamped_poses rows_B_H jpl;
    let '(poses_B_H, times_B_H, quaternions_B_H) := a in
    do b <- read_time_stamped_poses rows_W_E jpl;
    let '(poses_W_E, times_W_E, quaternions_W_E) := b in
    do time_offset <- calculate_time_offset times_B_H quaternions_B_H times_W_E quaternions_W_E default_filtering;
    do aligned <- compute_aligned_poses poses_B_H poses_W_E time_offset;
    Ok (fst aligned, snd aligned, time_offset).
End CsvIo.
