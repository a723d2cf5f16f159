(** * Model of python/hand_eye_calibration/dual_quaternion_hand_eye_calibration.py, lines 52-461

    (The BASELINE and RANSAC drivers, lines 464-963, are in [Ransac.v].)  Line numbers below refer
    to that file.  Printing, plotting (config.visualize) and timing are not modelled. *)

From Coq Require Import ZArith List Bool Arith.
From Verif Require Import Num Py Quat DualQuat.
Import ListNotations.
Local Open Scope num_scope.

(** config.ransac_inlier_classification, a string compared at :753 and :814 *)
Inductive inlier_method := RmseThreshold | ScalarPartEquality | UnknownMethod.

Section HandEye.
  Context {N : Num}.

  (** class HandEyeConfig :52-86 (fields that influence the result) *)
  Record config := mkConfig {
    use_baseline_approach : bool;
    min_num_inliers : nat;
    enable_exhaustive_search : bool;
    prefilter_poses_enabled : bool;
    prefilter_dot_product_threshold : T;
    ransac_sample_size : nat;
    ransac_sample_rejection_tolerance : T;
    ransac_max_number_iterations : nat;
    ransac_enable_early_abort : bool;
    ransac_outlier_probability : T;
    ransac_success_probability_threshold : T;
    ransac_inlier_classification : inlier_method;
    ransac_position_error_threshold_m : T;
    ransac_orientation_error_threshold_deg : T;
    ransac_model_refinement : bool;
    ransac_evaluate_refined_model_on_inliers_only : bool;
    hand_eye_calibration_tolerance : T;
  }.
  (** the defaults :54-86 *)
  Definition default_config : config :=
    mkConfig false 10 false true (lit 975 (-3)) 3 (lit 1 (-2)) 20 true (lit 5 (-1)) (lit 99 (-2))
             ScalarPartEquality (lit 2 (-2)) (lit 1 0) true false (lit 4 (-2)).

  (** np.allclose(dq.dq, [0,0,0,1,0,0,0,0], atol=1e-8), :120-122, :200-205 *)
  Definition is_origin (d : dquat) : bool := allclose (lit 1 (-8)) (dq_list d) (dq_list didentity).

  (** compute_dual_quaternions_with_offset :89-102 *)
  Definition compute_dual_quaternions_with_offset (dq_B_H_vec : list dquat) (dq_H_E dq_B_W : dquat)
    : res (list dquat) :=
    do dq_W_B <- dinv dq_B_W;
    mapM (fun dq_B_H =>
      let dq_W_E := dnormalize (dmul (dmul dq_W_B dq_B_H) dq_H_E) in
      do n <- dnorm dq_W_E;
      assert isclose (lit 1 (-8)) (fst n) n1;
      Ok dq_W_E) dq_B_H_vec.

  (** align_paths_at_index :105-124 (enforce_positive_q_rot_w is always True in the repository;
      a negative align_index, which Python would accept, only arises as best_idx = -1 and is
      treated where it arises) *)
  Definition flip_negative (d : dquat) : dquat := if qw (rot d) <? n0 then dneg d else d.
  Definition align_paths_at_index (dq_vec : list dquat) (align_index : nat) : res (list dquat) :=
    do d <- index dq_vec align_index;
    do inv <- dinv d;
    let at_origin := map (fun x => flip_negative (dmul inv x)) dq_vec in
    let rearranged := skipn align_index at_origin ++ firstn align_index at_origin in
    do first <- index rearranged 0;
    assert is_origin first;
    Ok rearranged.

  (** np.allclose(a.scalar().dq, b.scalar().dq, atol); scalar() itself may raise *)
  Definition scalar_parts_close (atol : T) (a b : dquat) : res bool :=
    do sa <- scalar a;
    do sb <- scalar b;
    Ok (allclose atol (dq_list sa) (dq_list sb)).

  (** setup_s_matrix :133-164.  A matrix with 8 columns is the list of its rows; a row of eight
      numbers is stored as a [dquat] (columns 0-3 and 4-7). *)
  Definition skew_rows (v : vec3) : list vec3 :=         (* skew_from_vector :127-130 *)
    [mkV n0 (- vz v) (vy v); mkV (vz v) n0 (- vx v); mkV (- vy v) (vx v) n0].
  Definition vec_part (q : quat) : vec3 := mkV (qx q) (qy q) (qz q).
  Definition vadd3 (a b : vec3) : vec3 := mkV (vx a + vx b) (vy a + vy b) (vz a + vz b).
  Definition vsub3 (a b : vec3) : vec3 := mkV (vx a - vx b) (vy a - vy b) (vz a - vz b).
  Definition vcomponents (v : vec3) : list T := [vx v; vy v; vz v].
  Definition quat_of (v : vec3) (w : T) : quat := mkQ (vx v) (vy v) (vz v) w.
  Definition half_rows (a b : quat) : list quat :=
    let va := vec_part a in
    let vb := vec_part b in
    map (fun p => quat_of (fst p) (snd p))
        (combine (skew_rows (vadd3 va vb)) (vcomponents (vsub3 va vb))).
  Definition s_rows (dq_1 dq_2 : dquat) : list dquat :=
    let zero := mkQ n0 n0 n0 n0 in
    let upper := half_rows (rot dq_1) (rot dq_2) in
    let lower := half_rows (dual dq_1) (dual dq_2) in
    map (fun r => mkDQ r zero) upper ++ map (fun p => mkDQ (fst p) (snd p)) (combine lower upper).

  (** np.linalg.svd on an m x 8 matrix: singular values and the 8 rows of V (an oracle; it may
      raise).  np.linalg.matrix_rank calls svd as well; its value is used only in
      [assert rank <= 6] on a 6-row matrix, which has at most 6 singular values. *)
  Context (svd : list dquat -> res (list T * list dquat)).

  Definition setup_s_matrix (dq_1 dq_2 : dquat) : res (list dquat) :=
    do ok <- scalar_parts_close (lit 5 (-2)) dq_1 dq_2;
    assert ok;
    let s := s_rows dq_1 dq_2 in
    do _ <- svd s;                                       (* matrix_rank :162 *)
    Ok s.

  (** Python's [for i in range(len(a)): ... a[i] ... b[i]]: IndexError once b is exhausted. *)
  Fixpoint for_pairs {A B C} (f : A -> B -> res C) (a : list A) (b : list B) : res (list C) :=
    match a, b with
    | [], _ => Ok []
    | _ :: _, [] => Err IndexError
    | x :: a', y :: b' => do c <- f x y; do cs <- for_pairs f a' b'; Ok (c :: cs)
    end.

  (** setup_t_matrix :167-184 (called with dq_B_H first; its parameters are named the other way
      round) *)
  Definition setup_t_matrix (dq_1_vec dq_2_vec : list dquat) : res (list dquat) :=
    do ss <- for_pairs setup_s_matrix dq_1_vec dq_2_vec;
    let t := concat ss in
    do _ <- svd t;                                       (* matrix_rank :177, svd :178 *)
    Ok t.

  (** the sign of W_E is changed when the two scalar parts have strictly opposite signs, :206-211 *)
  Definition opposite_signs (a b : dquat) : bool :=
    ((qw (rot a) <? n0) && (qw (rot b) >? n0)) || ((qw (rot a) >? n0) && (qw (rot b) <? n0)).
  Definition match_sign (dq_B_H dq_W_E : dquat) : dquat :=
    if opposite_signs dq_W_E dq_B_H then dneg dq_W_E else dq_W_E.
  (** the loop :206-211 over range(len(B_H)); returns the mutated W_E list and whether an
      IndexError occurred (W_E shorter than B_H) *)
  Fixpoint match_signs (b_h w_e : list dquat) : list dquat * bool :=
    match b_h, w_e with
    | [], _ => (w_e, false)
    | _ :: _, [] => ([], true)
    | b :: b_h', w :: w_e' =>
        let '(rest, e) := match_signs b_h' w_e' in (match_sign b w :: rest, e)
    end.

  (** the scalar part gate :213-225 *)
  Definition scalar_gate (tol : T) (b_h w_e : list dquat) : res unit :=
    do _ <- for_pairs (fun b w => do ok <- scalar_parts_close tol w b; assert ok; Ok tt) b_h w_e;
    Ok tt.

  (** bad_singular_values :236-244 *)
  Fixpoint bad_from (i : nat) (s : list T) : bool :=
    match s with
    | [] => false
    | x :: s' =>
        (if (i <? 6)%nat then x <? lit 5 (-1) else x >? lit 5 (-1)) || bad_from (S i) s'
    end.
  Definition bad_singular_values (s : list T) : bool := bad_from 0 s.

  (** the quadratic equation and the combination of the two null vectors, :245-299 *)
  Definition solve_quadratic (v_7 v_8 : dquat) : res dquat :=
    let u_1 := rot v_7 in
    let u_2 := rot v_8 in
    let v_1 := dual v_7 in
    let v_2 := dual v_8 in
    let a := qdot u_1 v_1 in
    assert negb (eqb a n0);
    let b := qdot u_1 v_2 + qdot u_2 v_1 in
    let c := qdot u_2 v_2 in
    let square_root_term := b * b - n4 * a * c in
    assert negb (square_root_term <? lit (-1) (-2));
    let square_root_term := if square_root_term <? n0 then n0 else square_root_term in
    let s_1 := (- b + sqrtn square_root_term) / (n2 * a) in
    let s_2 := (- b - sqrtn square_root_term) / (n2 * a) in
    let value s := s * s * qdot u_1 u_1 + n2 * s * qdot u_1 u_2 + qdot u_2 u_2 in
    let solution_1 := value s_1 in
    let solution_2 := value s_2 in
    do ls <- (if solution_1 >? solution_2 then
                assert solution_1 >? n0;
                let lambda_2 := sqrtn (n1 / solution_1) in
                Ok (s_1 * lambda_2, lambda_2)
              else
                assert solution_2 >? n0;
                let lambda_2 := sqrtn (n1 / solution_2) in
                Ok (s_2 * lambda_2, lambda_2));
    let '(lambda_1, lambda_2) := ls in
    let dq_H_E := dnormalize (dadd (dscale_l lambda_1 v_7) (dscale_l lambda_2 v_8)) in
    Ok (flip_negative dq_H_E).

  (** compute_hand_eye_calibration :187-300, with the default
      enforce_same_non_dual_scalar_sign=True.  First component: the W_E list after the call (its
      elements are sign-flipped in place, also when an exception is raised later). *)
  Definition calibrate (tol : T) (b_h w_e : list dquat) : res (dquat * list T * bool) :=
    do _ <- scalar_gate tol b_h w_e;
    do t_matrix <- setup_t_matrix b_h w_e;
    do sv <- svd t_matrix;
    let '(s, v) := sv in
    do v_7 <- index v 6;
    do v_8 <- index v 7;
    do dq_H_E <- solve_quadratic v_7 v_8;
    Ok (dq_H_E, s, bad_singular_values s).

  Definition compute_hand_eye_calibration (tol : T) (b_h w_e : list dquat)
    : list dquat * res (dquat * list T * bool) :=
    match (do b0 <- index b_h 0; assert is_origin b0; do w0 <- index w_e 0; assert is_origin w0; Ok tt) with
    | Err e => (w_e, Err e)
    | Ok _ =>
        let '(w_e', short) := match_signs b_h w_e in
        if short then (w_e', Err IndexError) else (w_e', calibrate tol b_h w_e')
    end.

  (** prefilter_using_screw_axis :303-348.  The two lists are popped at the same index, so they
      are one list of pairs (dq_vec_1, dq_vec_2) in argument order; the callers have checked that
      the lengths agree. *)
  Definition degenerate_axis (v : vec3) : bool := vnorm v <=? lit 1 (-12).
  Definition axis_of (d : dquat) : vec3 := let '(ax, _, _) := screw_axis d in ax.
  Definition vdivs (v : vec3) (t : T) : vec3 := mkV (vx v / t) (vy v / t) (vz v / t).
  Definition unit_axis (d : dquat) : vec3 := vdivs (axis_of d) (vnorm (axis_of d)).
  Definition no_axis (p : dquat * dquat) : bool :=
    degenerate_axis (axis_of (fst p)) || degenerate_axis (axis_of (snd p)).
  Definition too_similar (threshold : T) (p q : dquat * dquat) : bool :=
    (vdot (unit_axis (fst p)) (unit_axis (fst q)) >? threshold)
    || (vdot (unit_axis (snd p)) (unit_axis (snd q)) >? threshold).

  (** inner loop :326-344: remove from position j on *)
  Fixpoint inner_loop (fuel : nat) (threshold : T) (p : dquat * dquat) (l : list (dquat * dquat))
           (j : nat) : list (dquat * dquat) :=
    match fuel with
    | O => l
    | S fuel' =>
        match nth_error l j with
        | None => l                                   (* j >= len *)
        | Some q =>
            if no_axis q then inner_loop fuel' threshold p (remove_at l j) j
            else if too_similar threshold p q then inner_loop fuel' threshold p (remove_at l j) j
            else inner_loop fuel' threshold p l (S j)
        end
    end.
  (** outer loop :308-345; returns the list and the final i *)
  Fixpoint outer_loop (fuel : nat) (threshold : T) (l : list (dquat * dquat)) (i : nat)
    : list (dquat * dquat) * nat :=
    match fuel with
    | O => (l, i)
    | S fuel' =>
        match nth_error l i with
        | None => (l, i)
        | Some p =>
            if no_axis p then outer_loop fuel' threshold (remove_at l i) i
            else outer_loop fuel' threshold (inner_loop (length l) threshold p l (S i)) (S i)
        end
    end.
  (** Each iteration of either loop removes an element or advances the index, so [length l]
      iterations suffice ([C29_fuel_enough] shows that more fuel changes nothing). *)
  Definition prefilter_using_screw_axis (threshold : T) (l : list (dquat * dquat))
    : res (list (dquat * dquat)) :=
    let '(l', i) := outer_loop (length l) threshold l 0 in
    assert (2 <=? i)%nat;
    Ok l'.

  (** compute_pose_error :351-374 *)
  Definition positive_w (q : quat) : quat := if qw q <? n0 then qneg q else q.
  Definition compute_pose_error (pose_A pose_B : pose) : res (T * T) :=
    let error_position := vnorm (vsub3 (pos pose_A) (pos pose_B)) in
    let quaternion_A := positive_w (qnormalize (ori pose_A)) in
    let quaternion_B := positive_w (qnormalize (ori pose_B)) in
    let error_angle_rad := angle_between_quaternions quaternion_A quaternion_B in
    let d := degrees error_angle_rad in
    let d := if d >? lit 180 0 then absv (lit 360 0 - d) else d in
    Ok (error_position, d).

  (** math.sqrt *)
  Definition math_sqrt (x : T) : res T := if x <? n0 then Err ValueError else Ok (sqrtn x).

  (** evaluate_alignment :377-423; np.sum is a left-to-right sum *)
  Definition evaluate_alignment (cfg : config) (poses_A poses_B : list pose)
    : res (T * T * list bool) :=
    assert (length poses_A =? length poses_B)%nat;
    do errs <- for_pairs compute_pose_error poses_A poses_B;
    let inlier_list := map (fun e => (snd e <? ransac_orientation_error_threshold_deg cfg)
                                     && (fst e <? ransac_position_error_threshold_m cfg)) errs in
    let num_poses := of_nat (length poses_A) in
    do rmse_pose <- math_sqrt (sumn (map (fun e => fst e * fst e) errs) / num_poses);
    do rmse_orientation <- math_sqrt (sumn (map (fun e => snd e * snd e) errs) / num_poses);
    Ok (rmse_pose, rmse_orientation, inlier_list).

  (** get_aligned_poses :426-461.  Result: the B_H list (normalised in place by to_pose), the B_H
      poses and the W_H poses. *)
  Definition get_aligned_poses (b_h w_e : list dquat) (dq_H_E : dquat)
    : res (list dquat * list pose * list pose) :=
    assert (length w_e =? length b_h)%nat;
    do dq_E_H <- dinv dq_H_E;
    do dq_E_H <- enforce_positive_w (dnormalize dq_E_H);
    do w_h <- for_pairs (fun b w =>
        let w_h := dnormalize (dmul w dq_E_H) in
        Ok (if opposite_signs w_h b then dneg w_h else w_h)) b_h w_e;
    do w_h <- align_paths_at_index w_h 0;
    Ok (map (fun b => fst (to_pose b)) b_h,
        map (fun b => snd (to_pose b)) b_h,
        map (fun w => snd (to_pose w)) w_h).
End HandEye.
Arguments config : clear implicits.
