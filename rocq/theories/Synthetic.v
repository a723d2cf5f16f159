(** * Synthetic paths and perturbed initial guesses.

    python/hand_eye_calibration/hand_eye_test_helpers.py:46-127 and
    hand_eye_calibration_experiments/bin/optimization_experiments.py:44-97.  Random numbers are
    arguments.  Printing is left out. *)

From Coq Require Import ZArith List Bool.
From Verif Require Import Num Py Quat DualQuat HandEye TimeAlign.
Import ListNotations.

Section Synthetic.
  Context {N : Num}.
  (** tf.transformations.quaternion_from_euler(., ., ., 'rxyz') *)
  Context (quaternion_from_euler : T -> T -> T -> quat).
  Local Open Scope num_scope.

  (** The draws of one outlier, :93-97 (a number in [0, 1) and the outcome of rand() < 0.5 for each
      coordinate), and of the noise of one sample, :100-109. *)
  Record outlier := mkOutlier { o_rot : quat; o_x : T * bool; o_y : T * bool; o_z : T * bool }.
  Record noise := mkNoise { n_pos : vec3; n_axis : vec3; n_angle : T }.
  (** max(x) *)
  Definition py_max (l : list T) : T :=
    match l with [] => n0 | x :: l' => fold_left (fun m y => if y >? m then y else m) l' x end.
  Definition outlier_coordinate (d : T * bool) (l : list T) : T := fst d * py_max l * (if snd d then lit (-1) 0 else n0).
  (** :107-119: noise, normalisation and sign of the orientation of one sample *)
  Definition sample_rotation (q_tmp : quat) (d : option noise) : quat :=
    let q :=
      match d with
      | Some d =>
          let q_noise := qnormalize (from_angle_axis (npi * n_angle d) (n_axis d)) in
          qmul (qmul q_noise q_tmp) (qinv q_noise)
      | None => q_tmp
      end in
    let q := qnormalize q in
    if qw q <? n0 then qneg q else q.
  (** the loop :87-122; x, y, z are changed in place.  [outliers] is None without include_outliers and
      otherwise says which samples become outliers; [noises] is None without include_noise. *)
  Fixpoint generate_samples (outliers : option (nat -> option outlier)) (noises : option (nat -> noise))
    (samples : list (nat * T)) (x y z : list T) : list dquat :=
    match samples with
    | [] => []
    | (i, theta) :: samples' =>
        let q_tmp := quaternion_from_euler n0 (- theta * lit 1 (-1)) (- theta) in
        let '(q_tmp, x, y, z) :=
          match outliers with
          | Some f =>
              match f i with
              | Some o => (o_rot o, update x i (outlier_coordinate (o_x o) x), update y i (outlier_coordinate (o_y o) y),
                           update z i (outlier_coordinate (o_z o) z))
              | None => (q_tmp, x, y, z)
              end
          | None => (q_tmp, x, y, z)
          end in
        let '(x, y, z) :=
          match noises with
          | Some f => (update x i (nth i x n0 + vx (n_pos (f i))), update y i (nth i y n0 + vy (n_pos (f i))),
                       update z i (nth i z n0 + vz (n_pos (f i))))
          | None => (x, y, z)
          end in
        let q := sample_rotation q_tmp (option_map (fun f => f i) noises) in
        from_pose (mkV (nth i x n0) (nth i y n0) (nth i z n0)) q
          :: generate_samples outliers noises samples' x y z
    end.
  (** generate_test_path, :73-127 *)
  Definition generate_test_path (n_samples : nat) (outliers : option (nat -> option outlier)) (noises : option (nat -> noise))
    : res (list dquat) :=
    do t <- linspace n0 n1 (of_nat n_samples);
    let x := map (fun t => lit 10 0 + cosn (lit 4 0 * npi * t)) t in
    let y := map (fun t => lit (-5) 0 + - sinn (lit 4 0 * npi * t) * lit 4 0) t in
    let z := map (fun t => lit 5 (-1) + t * lit 5 0) t in
    let theta := map (fun t => lit 4 0 * npi * t) t in
    Ok (generate_samples outliers noises (combine (seq 0 n_samples) theta) x y z).

  (** generate_test_paths, :46-70.  The second path is computed inside the if of :57, so without
      paths_start_at_origin the return statement uses an unassigned local variable. *)
  Definition generate_test_paths (n_samples : nat) (dq_H_E dq_B_W : dquat) (paths_start_at_origin : bool)
    (outliers_B_H : option (nat -> option outlier)) (noises_B_H : option (nat -> noise))
    (outliers_W_E : option (nat -> option outlier)) (noises_W_E : option (nat -> noise)) : res (list dquat * list dquat) :=
    do dq_B_H_vec <- generate_test_path n_samples outliers_B_H noises_B_H;
    if paths_start_at_origin then
      do dq_B_H_vec <- align_paths_at_index dq_B_H_vec 0;
      do dq_B_H_vec_for_W_E <- generate_test_path n_samples outliers_W_E noises_W_E;
      do dq_W_E_vec <- compute_dual_quaternions_with_offset dq_B_H_vec_for_W_E dq_H_E dq_B_W;
      do dq_W_E_vec <- align_paths_at_index dq_W_E_vec 0;
      Ok (dq_B_H_vec, dq_W_E_vec)
    else Err UnboundLocalError.
End Synthetic.

Section Spoil.
  Context {N : Num}.
  Local Open Scope num_scope.
  Definition vscale_m (v : vec3) (k : T) : vec3 := mkV (vx v * k) (vy v * k) (vz v * k).
  Definition vadd_m (u v : vec3) : vec3 := mkV (vx u + vx v) (vy u + vy v) (vz u + vz v).
  Definition vsub_m (u v : vec3) : vec3 := mkV (vx u - vx v) (vy u - vy v) (vz u - vz v).
  (** the drawn numbers: time amount and sign (:48-49), translation direction (:52) and length (:57),
      and the axis and angle drawn by Quaternion.get_random (:62-63) *)
  Record spoil_draw := mkSpoil { d_time : T; d_sign : T; d_dir : vec3; d_len : T; d_axis : vec3; d_angle : T }.
  (** spoil_initial_guess, optimization_experiments.py:44-97.  The result also has the guess, which
      to_pose normalises in place. *)
  Definition spoil_initial_guess (time_offset_initial_guess : T) (dq_H_E_initial_guess : dquat)
    (angular_offset_range translation_offset_range : T * T) (d : spoil_draw)
    : res (dquat * (T * dquat * (vec3 * T * T))) :=
    let random_time_offset_offset := d_time d * d_sign d in
    let n := vnorm (d_dir d) in
    let direction := mkV (vx (d_dir d) / n) (vy (d_dir d) / n) (vz (d_dir d) / n) in
    assert isclose (lit 1 (-8)) (vnorm direction) n1;
    let random_translation_offset := vscale_m direction (d_len d) in
    do random_quaternion_offset <- get_random (d_axis d) (d_angle d);
    let '(guess, p) := to_pose dq_H_E_initial_guess in
    let translation_initial_guess := pos p in
    let orientation_initial_guess := rot guess in
    let time_offset_spoiled := time_offset_initial_guess + random_time_offset_offset in
    let translation_spoiled := vadd_m random_translation_offset translation_initial_guess in
    let orientation_spoiled := qmul random_quaternion_offset orientation_initial_guess in
    let random_angle_offset := angle_between_quaternions orientation_initial_guess orientation_spoiled in
    assert random_angle_offset <=? snd angular_offset_range;
    assert random_angle_offset >=? fst angular_offset_range;
    assert vnorm (vsub_m translation_spoiled translation_initial_guess) <=? snd translation_offset_range;
    assert vnorm (vsub_m translation_spoiled translation_initial_guess) >=? fst translation_offset_range;
    Ok (guess, (time_offset_spoiled, from_pose translation_spoiled orientation_spoiled,
                (random_translation_offset, random_angle_offset, random_time_offset_offset))).
End Spoil.
