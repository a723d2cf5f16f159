(** * The windows that time_alignment.py and evaluate_alignment show with plotting switched on:
    plot_angular_velocities, plot_input_data and plot_time_stamped_poses of time_alignment_plotting_tools.py and
    plot_alignment_errors of hand_eye_calibration_plotting_tools.py; plot_results is in Views.v.

    A window is what is handed to plt.plot, panel by panel: a colour and the values over their index.  Not modelled:
    titles of panels, sizes, fonts, and that matplotlib itself may refuse to draw. *)

From Coq Require Import String List Bool ZArith.
From Verif Require Import Num Py Quat DualQuat HandEye TimeAlign Views.
Import ListNotations.

Section Windows.
  Context {N : Num}.
  Local Open Scope num_scope.

  Definition plotted : Type := string * list T.
  Inductive window :=
  | Panels (title : string) (panels : list (list plotted))
  | OffsetWindow (f : offset_figure N).

  (** What a function shows, in order, and what it returns: the windows shown before an exception count too. *)
  Definition shows (A : Type) : Type := list window * res A.
  Definition quiet {A} (r : res A) : shows A := ([], r).
  Definition show (w : window) : shows unit := ([w], Ok tt).
  Definition then_ {A B} (m : shows A) (k : A -> shows B) : shows B :=
    match snd m with
    | Err e => (fst m, Err e)
    | Ok a => (fst m ++ fst (k a), snd (k a))
    end.

  (** the three columns of an array of vectors *)
  Definition curves3 (l : list vec3) : list plotted :=
    [("r"%string, map vx l); ("g"%string, map vy l); ("b"%string, map vz l)].
  Definition curves4 (l : list quat) : list plotted :=
    [("r"%string, map qx l); ("g"%string, map qy l); ("b"%string, map qz l); ("c"%string, map qw l)].

  (** plot_angular_velocities, time_alignment_plotting_tools.py:124-156 *)
  Definition plot_angular_velocities (title : string) (before after : list vec3) : window :=
    Panels title [curves3 before; curves3 after].

  (** the columns of np.array([quat.q for quat in ...]); the array of an empty list has one dimension and no columns *)
  Definition quaternion_curves (l : list quat) : res (list plotted) :=
    match l with [] => Err IndexError | _ => Ok (curves4 l) end.
  (** plot_input_data :159-224 *)
  Definition plot_input_data (quaternions_A quaternions_B quaternions_A_interp quaternions_B_interp : list quat)
      (norms_A norms_B norms_A_filtered norms_B_filtered : list T) : res window :=
    do a1 <- quaternion_curves quaternions_A;
    do a2 <- quaternion_curves quaternions_A_interp;
    do b1 <- quaternion_curves quaternions_B;
    do b2 <- quaternion_curves quaternions_B_interp;
    Ok (Panels "Input Data [A = top, B = bottom]"
          [a1; a2; [("r"%string, norms_A)]; [("r"%string, norms_A_filtered)];
           b1; b2; [("b"%string, norms_B)]; [("b"%string, norms_B_filtered)]]).

  (** filter_and_smooth_angular_velocity, time_alignment.py:23-44, with plot=True *)
  Definition filter_and_smooth_shown (v : list vec3) (kernel_size : nat) (clip_percentile : T) : shows (list vec3) :=
    then_ (quiet (filter_and_smooth v kernel_size clip_percentile)) (fun smoothed =>
    then_ (show (plot_angular_velocities "Angular Velocities" v smoothed)) (fun _ =>
    quiet (Ok smoothed))).
  (** compute_angular_velocity_norms :103-121 with plot=True *)
  Definition compute_angular_velocity_norms_shown (quaternions : list quat) (samples : list T)
      (smoothing_kernel_size : nat) (clipping_percentile : T) : shows (list T) :=
    match quaternions with
    | [] => quiet (Err ValueError)
    | _ =>
        then_ (quiet (angular_velocities quaternions samples)) (fun velocity =>
        then_ (filter_and_smooth_shown velocity smoothing_kernel_size clipping_percentile) (fun filtered =>
        quiet (do norms <- mapM (fun i => do v <- index filtered i; Ok (vnorm v)) (seq 0 (length quaternions - 1));
               assert (length norms =? length quaternions - 1)%nat;
               Ok norms)))
    end.
  (** calculate_time_offset :124-180 with plot=True *)
  Definition calculate_time_offset_shown (times_A : list T) (quaternions_A : list quat)
      (times_B : list T) (quaternions_B : list quat) (cfg : filtering_config) : shows T :=
    let dt_A := mean (diff times_A) in
    let dt_B := mean (diff times_B) in
    let dt := if dt_A >=? dt_B then dt_A else dt_B in
    then_ (quiet (resample_quaternions times_A quaternions_A dt)) (fun ra =>
    let '(qA, samples_A) := ra in
    then_ (quiet (resample_quaternions times_B quaternions_B dt)) (fun rb =>
    let '(qB, samples_B) := rb in
    then_ (compute_angular_velocity_norms_shown qA samples_A (smoothing_kernel_size_A cfg) (clipping_percentile_A cfg)) (fun norms_A =>
    then_ (compute_angular_velocity_norms_shown qB samples_B (smoothing_kernel_size_B cfg) (clipping_percentile_B cfg)) (fun norms_B =>
    let length_before := length samples_A in
    let samples_A := firstn (length norms_A) samples_A in
    let samples_B := firstn (length norms_B) samples_B in
    then_ (quiet (assert_ (length samples_A =? length_before - 1)%nat)) (fun _ =>
    (* :168-173 *)
    then_ (quiet (plot_input_data quaternions_A quaternions_B qA qB norms_A norms_B norms_A norms_B)) (fun w =>
    then_ (show w) (fun _ =>
    then_ (quiet (offset_with_plot samples_A norms_A samples_B norms_B)) (fun r =>
    then_ (show (OffsetWindow (snd r))) (fun _ =>
    quiet (Ok (fst r))))))))))).

  (** plot_time_stamped_poses :77-121 *)
  Definition pose_curves (l : list stamped) : list (list plotted) :=
    [curves4 (map (fun p => ori (snd p)) l); curves3 (map (fun p => pos (snd p)) l)].
  Definition plot_time_stamped_poses (title : string) (poses_A poses_B : list stamped) : window :=
    Panels (title ++ " [A = top, B = bottom]")%string (pose_curves poses_A ++ pose_curves poses_B).
  (** compute_aligned_poses, time_alignment.py:219-301, with plot=True *)
  Definition compute_aligned_poses_shown (poses_A poses_B : list stamped) (time_offset : T)
    : shows (list stamped * list stamped) :=
    then_ (quiet (compute_aligned_poses poses_A poses_B time_offset)) (fun aligned =>
    then_ (show (plot_time_stamped_poses "Time Aligned Aligned Poses" (fst aligned) (snd aligned))) (fun _ =>
    quiet (Ok aligned))).

  (** plot_alignment_errors, hand_eye_calibration_plotting_tools.py:120-146 *)
  Definition plot_alignment_errors (errors_position : list T) (rmse_pose : T) (errors_orientation : list T) (rmse_orientation : T) : res window :=
    assert (length errors_position =? length errors_orientation)%nat;
    let num_error_values := length errors_position in
    Ok (Panels "Alignment Evaluation"
          [[("r"%string, errors_position); ("k"%string, repeat (rmse_pose * n1) num_error_values)];
           [("r"%string, errors_orientation); ("k"%string, repeat (rmse_orientation * n1) num_error_values)]]).
  (** evaluate_alignment, dual_quaternion_hand_eye_calibration.py:377-423, with visualize=True *)
  Definition evaluate_alignment_shown (cfg : config N) (poses_A poses_B : list pose) : shows (T * T * list bool) :=
    then_ (quiet (assert_ (length poses_A =? length poses_B)%nat)) (fun _ =>
    then_ (quiet (for_pairs compute_pose_error poses_A poses_B)) (fun errs =>
    let inlier_list := map (fun e => (snd e <? ransac_orientation_error_threshold_deg cfg)
                                     && (fst e <? ransac_position_error_threshold_m cfg)) errs in
    let num_poses := of_nat (length poses_A) in
    then_ (quiet (math_sqrt (sumn (map (fun e => fst e * fst e) errs) / num_poses))) (fun rmse_pose =>
    then_ (quiet (math_sqrt (sumn (map (fun e => snd e * snd e) errs) / num_poses))) (fun rmse_orientation =>
    then_ (quiet (plot_alignment_errors (map fst errs) rmse_pose (map snd errs) rmse_orientation)) (fun w =>
    then_ (show w) (fun _ =>
    quiet (Ok (rmse_pose, rmse_orientation, inlier_list)))))))).
End Windows.
Arguments window : clear implicits.
Arguments plotted : clear implicits.
