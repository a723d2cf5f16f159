(** * What the plotting tools draw: hand_eye_calibration/hand_eye_calibration_plotting_tools.py
    (plot_poses, compute_bbox_3D), the visualisation at the end of the RANSAC calibration
    (dual_quaternion_hand_eye_calibration.py) and plot_results of time_alignment_plotting_tools.py.

    A figure is the list of what is handed to matplotlib.  Not modelled: window sizes, fonts, titles,
    the projection of the arrows, and that matplotlib itself may refuse to draw (axis limits that are
    not finite; versions without plt.hold). *)

From Coq Require Import String List Bool ZArith.
From Verif Require Import Num Py Quat DualQuat HandEye TimeAlign.
Import ListNotations.

(** l[::n] of a Python list or numpy array: every n-th element from the first on, for a negative n
    from the last backwards; ValueError for n = 0. *)
Fixpoint take_every {A} (skip n : nat) (l : list A) : list A :=
  match l with
  | [] => []
  | a :: l' => match skip with O => a :: take_every n n l' | S k => take_every k n l' end
  end.
Definition slice_step {A} (n : Z) (l : list A) : res (list A) :=
  if (n =? 0)%Z then Err ValueError
  else if (0 <? n)%Z then Ok (take_every 0 (Z.to_nat n - 1) l)
  else Ok (take_every 0 (Z.to_nat (- n) - 1) (rev l)).

Section Views.
  Context {N : Num}.
  Local Open Scope num_scope.

  (** np.minimum and np.maximum: nan wins *)
  Definition np_min (a b : T) : T := if negb (a =? a) then a else if negb (b =? b) then b else if b <? a then b else a.
  Definition np_max (a b : T) : T := if negb (a =? a) then a else if negb (b =? b) then b else if b >? a then b else a.
  (** np.amin, np.amax of a one-dimensional array; ValueError if it is empty *)
  Definition amin (l : list T) : res T := match l with [] => Err ValueError | a :: l' => Ok (fold_left np_min l' a) end.
  Definition amax (l : list T) : res T := match l with [] => Err ValueError | a :: l' => Ok (fold_left np_max l' a) end.
  (** the same with axis=0 for an array with three columns *)
  Definition amin3 (l : list vec3) : res vec3 :=
    do x <- amin (map vx l); do y <- amin (map vy l); do z <- amin (map vz l); Ok (mkV x y z).
  Definition amax3 (l : list vec3) : res vec3 :=
    do x <- amax (map vx l); do y <- amax (map vy l); do z <- amax (map vz l); Ok (mkV x y z).

  (** compute_bbox_3D :27-34: (maximum, minimum) *)
  Definition compute_bbox_3D (poses_list : list (list pose)) : res (vec3 * vec3) :=
    do boxes <- mapM (fun poses => do lo <- amin3 (map pos poses); do hi <- amax3 (map pos poses); Ok (lo, hi)) poses_list;
    do hi <- amax3 (map snd boxes);
    do lo <- amin3 (map fst boxes);
    Ok (hi, lo).

  (** what is added to the axes, with its colour *)
  Inductive drawing :=
  | Line (colour : string) (points : list vec3)
  | Marker (colour : string) (point : vec3)
  | Arrow (colour : string) (from to : vec3).
  (** the common limits of the three axes and the drawings, in order *)
  Record figure := mkFigure { axis_min : T; axis_max : T; drawings : list drawing }.

  (** :46 *)
  Definition colours : list string := ["r"; "g"; "b"; "c"; "m"; "k"]%string.

  Definition vadd3 (a b : vec3) : vec3 := mkV (vx a + vx b) (vy a + vy b) (vz a + vz b).
  (** one arrow :79-89, :91-101, :103-113 *)
  Definition arrow (size : T) (p : pose) (colour : string) (axis : vec3) : drawing :=
    let r := rotate_vector (ori p) axis in
    Arrow colour (pos p) (vadd3 (pos p) (mkV (vx r * size) (vy r * size) (vz r * size))).
  (** the loop over the poses :70-113 *)
  Definition draw_pose (plot_arrows : bool) (size : T) (colour : string) (p : pose) : list drawing :=
    Marker colour (pos p) ::
    (if plot_arrows
     then [arrow size p "r" (mkV n1 n0 n0); arrow size p "g" (mkV n0 n1 n0); arrow size p "b" (mkV n0 n0 n1)]
     else []).
  (** plot_poses :37-117; each trajectory is an array with seven columns.  The colour of trajectory i
      is colors[i], which exists after the assertion :49. *)
  Definition plot_poses (poses_list : list (list pose)) (plot_arrows : bool) : res figure :=
    assert (length poses_list <? length colours)%nat;
    do bbox <- compute_bbox_3D poses_list;
    let '(bbox_max, bbox_min) := bbox in
    let arrow_size := vnorm (vsub3 bbox_max bbox_min) * lit 5 (-2) in
    do lo <- amin [vx bbox_min; vy bbox_min; vz bbox_min];
    do hi <- amax [vx bbox_max; vy bbox_max; vz bbox_max];
    Ok (mkFigure lo hi
          (flat_map (fun cp => Line (fst cp) (map pos (snd cp)) :: flat_map (draw_pose plot_arrows arrow_size (fst cp)) (snd cp))
                    (combine colours poses_list))).

  (** the end of compute_hand_eye_calibration_RANSAC with config.visualize (:925-939 of
      dual_quaternion_hand_eye_calibration.py), and compute_verification's (:38-53 of
      calibration_verification.py), which has the same calls in another order.  The error plot inside
      evaluate_alignment (:419-421) asserts that two arrays made with the same shape have the same shape. *)
  Definition visualize_alignment (cfg : config N) (every_nth : Z) (dq_b_h dq_w_e : list dquat) (dq_H_E : dquat) : res figure :=
    do w_e <- align_paths_at_index dq_w_e 0;
    do b_h <- align_paths_at_index dq_b_h 0;
    do poses <- get_aligned_poses b_h w_e dq_H_E;
    let '(_, poses_b_h, poses_w_h) := poses in
    do _ <- evaluate_alignment cfg poses_b_h poses_w_h;
    do some_b_h <- slice_step every_nth poses_b_h;
    do some_w_h <- slice_step every_nth poses_w_h;
    plot_poses [some_b_h; some_w_h] true.

  (** ** plot_results :15-74 of time_alignment_plotting_tools.py *)
  (** plt.plot(x, y): ValueError if the lengths differ *)
  Definition curve {A} (x : list A) (y : list T) : res (list (A * T)) :=
    if (length x =? length y)%nat then Ok (combine x y) else Err ValueError.
  (** np.arange(-len(signal_A) + 1, len(signal_B)) :52 *)
  Definition lags (signal_A signal_B : list T) : list Z :=
    map (fun k => Z.of_nat k - Z.of_nat (length signal_A) + 1)%Z (seq 0 (length signal_A + length signal_B - 1)).
  Record offset_figure := mkOffsetFigure {
    before_A : list (T * T); before_B : list (T * T);
    correlation : list (Z * T);
    after_A : list (T * T); after_B : list (T * T)
  }.
  (** min(a, b) of Python on two numpy scalars :35, :61 *)
  Definition smaller (a b : T) : T := if b <? a then b else a.
  Definition plot_results (times_A times_B signal_A signal_B convoluted_signals : list T) (time_offset : T) : res offset_figure :=
    do min_A <- amin times_A;
    do min_B <- amin times_B;
    let min_time := smaller min_A min_B in
    do b_A <- curve (map (fun t => t - min_time) times_A) signal_A;
    do b_B <- curve (map (fun t => t - min_time) times_B) signal_B;
    let times_A_shifted := map (fun t => t + time_offset) times_A in
    do corr <- curve (lags signal_A signal_B) convoluted_signals;
    do min_A <- amin times_A_shifted;
    let min_time := smaller min_A min_B in
    do a_A <- curve (map (fun t => t - min_time) times_A_shifted) signal_A;
    do a_B <- curve (map (fun t => t - min_time) times_B) signal_B;
    Ok (mkOffsetFigure b_A b_B corr a_A a_B).
  (** calculate_time_offset_from_signals with plot=True (time_alignment.py :47-60) *)
  Definition offset_with_plot (times_A signal_A times_B signal_B : list T) : res (T * offset_figure) :=
    do time_offset <- calculate_time_offset_from_signals times_A signal_A times_B signal_B;
    do fig <- plot_results times_A times_B signal_A signal_B (correlate_full signal_B signal_A) time_offset;
    Ok (time_offset, fig).
End Views.
Arguments figure : clear implicits.
Arguments drawing : clear implicits.
Arguments offset_figure : clear implicits.
