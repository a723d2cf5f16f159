(** * Model of python/hand_eye_calibration/calibration_verification.py

    Line numbers refer to that file; printing and plotting are not modelled. *)

From Coq Require Import ZArith List Bool.
From Verif Require Import Num Py Quat DualQuat HandEye TimeAlign.
Import ListNotations.
Local Open Scope num_scope.

Section Verification.
  Context {N : Num}.

  (** evaluate_calibration :16-55.  Result: ((rmse_position, rmse_orientation), number of inliers) *)
  Definition evaluate_calibration (poses_B_H poses_W_E : list stamped) (dq_H_E : dquat) (time_offset : T)
      (cfg : config N) : res (T * T * nat) :=
    assert (0 <? length poses_B_H)%nat;
    assert (0 <? length poses_W_E)%nat;
    do aligned <- compute_aligned_poses poses_B_H poses_W_E time_offset;
    let '(aligned_B_H, aligned_W_E) := aligned in
    assert (length aligned_B_H =? length aligned_W_E)%nat;
    if (length aligned_B_H =? 0)%nat then Ok (ninf, ninf, O)
    else
      let dq_B_H := map (fun p => from_pose_vector (snd p)) aligned_B_H in
      let dq_W_E := map (fun p => from_pose_vector (snd p)) aligned_W_E in
      assert (length dq_B_H =? length dq_W_E)%nat;
      do aligned_dq_B_H <- align_paths_at_index dq_B_H 0;
      do aligned_dq_W_E <- align_paths_at_index dq_W_E 0;
      do g <- get_aligned_poses aligned_dq_B_H aligned_dq_W_E dq_H_E;
      let '(_, poses_B_H, poses_W_H) := g in
      do e <- evaluate_alignment cfg poses_B_H poses_W_H;
      let '(rmse_position, rmse_orientation, inlier_flags) := e in
      Ok (rmse_position, rmse_orientation, count_true inlier_flags).

  (** the while loop :70-75: [k] iterations remain *)
  Fixpoint chain_middle {A} (results : list A) (n : Z) (k : nat) (i idx : Z) : res (list A) :=
    match k with
    | O => Ok []
    | S k' =>
        let idx := (idx + (n - i - 1))%Z in
        do d <- py_index results idx;
        do rest <- chain_middle results n k' (i + 1) idx;
        Ok (d :: rest)
    end.
  (** the loop :88-90; to_pose normalises the running product in place *)
  Fixpoint chain_poses (dq_tmp : dquat) (chain : list dquat) : list pose :=
    match chain with
    | [] => []
    | c :: chain' =>
        let '(dq_tmp, p) := to_pose (dmul dq_tmp c) in
        p :: chain_poses dq_tmp chain'
    end.
  (** compute_loop_error :58-105 *)
  Definition compute_loop_error (results : list dquat) (num_poses_sets : Z) : res (T * T) :=
    do first <- py_index results 0;
    do middle <- chain_middle results num_poses_sets (Z.to_nat (num_poses_sets - 2)) 0 0;
    do last <- py_index results (num_poses_sets - 2);
    do last_inverse <- dinv last;
    let chain := [didentity; first] ++ middle ++ [last_inverse] in
    assert (Z.of_nat (length chain) =? num_poses_sets + 1)%Z;
    let poses_to_plot := chain_poses didentity chain in
    do p0 <- py_index poses_to_plot 0;
    do p1 <- py_index poses_to_plot (-1);
    compute_pose_error p0 p1.
End Verification.
