(** * Properties C62 and C63: the perturbation sweep and its worker processes. *)

From Coq Require Import Reals ZArith String Ascii List Bool Arith Lia Lra Permutation DecimalString DecimalNat.
From Verif Require Import Num Py XReal Quat DualQuat HandEye TimeAlign Ransac Extrinsic Verification Experiments Driver Synthetic Sweep
  Spec Embed ListFacts XFacts QuatFacts QuatRot DualFacts PropQuat PropHandEye PropVerification PropTables PropDriver PropSynthetic.
Import ListNotations.
Local Open Scope list_scope.

(** *** lists *)
Lemma nth_error_blocks {A B} (f : A -> list B) m l : (0 < m)%nat -> (forall x, In x l -> length (f x) = m) -> forall i,
  nth_error (flat_map f l) i = match nth_error l (i / m) with Some x => nth_error (f x) (i mod m) | None => None end.
Proof.
  intros M. induction l as [|x l IH]; intros L i; cbn [flat_map]. { destruct (i / m)%nat; now destruct i. }
  assert (LX := L x (or_introl eq_refl)). destruct (lt_dec i m) as [Lt|Ge].
  - rewrite nth_error_app1 by lia. rewrite Nat.div_small, Nat.mod_small by lia. reflexivity.
  - rewrite nth_error_app2 by lia. rewrite LX, IH by (intros; apply L; now right).
    assert (D : (i / m = S ((i - m) / m))%nat). { replace i with (i - m + 1 * m)%nat at 1 by lia. rewrite Nat.div_add by lia. lia. }
    assert (R : (i mod m = (i - m) mod m)%nat). { replace i with (i - m + 1 * m)%nat at 1 by lia. now rewrite Nat.mod_add by lia. }
    now rewrite D, R.
Qed.
Lemma length_blocks {A B} (f : A -> list B) m l : (forall x, In x l -> length (f x) = m) -> length (flat_map f l) = (length l * m)%nat.
Proof. induction l as [|x l IH]; intros L; [easy|]. cbn [flat_map length]. rewrite app_length, (L x), IH; auto with datatypes. Qed.

Lemma NoDup_parts {A} (l l' : list A) : NoDup (l ++ l') -> NoDup l /\ NoDup l' /\ forall i, In i l -> In i l' -> False.
Proof.
  induction l as [|x l IH]; cbn [app]; intros ND; [split; [constructor|]; split; [easy|intros i []]|]. inversion ND as [|? ? NI ND']; subst. destruct (IH ND') as (A1 & A2 & A3).
  split; [constructor; [|easy]; intros I; apply NI, in_app_iff; now left|]. split; [easy|]. intros i [->|I] J; [apply NI, in_app_iff; now right|eauto].
Qed.
Section C62.
  Context {N : Num}.
  Variable calibrate : algorithm -> nat -> pose_set * pose_set -> nat -> res (T * nat * @result N * T).
  Variable estimate : nat -> pose_set * pose_set -> bool * bool -> nat -> @json N -> @estimation N.

  (** *** the experiments *)
  Lemma numbered_length : forall l i, length (numbered i l) = length l.
  Proof. induction l as [|[[[t a] s] it] l IH]; intros i; cbn; [easy|]. now rewrite IH. Qed.
  Lemma nth_numbered : forall l i k, nth_error (numbered i l) k =
    match nth_error l k with Some (t, a, s, it) => Some (mkExperiment (N:=N) t a s it (i + k)) | None => None end.
  Proof.
    induction l as [|[[[t a] s] it] l IH]; intros i k; cbn [numbered]. { now destruct k. }
    destruct k as [|k]; cbn [nth_error]; [now rewrite Nat.add_0_r|]. rewrite IH. now rewrite <- plus_n_Sm.
  Qed.
  Definition shipped (m : nat) : list (@experiment N) := input_data time_offset_ranges angle_offset_ranges translation_offset_ranges m.
  Lemma shipped_length m : length (shipped m) = (120 * m)%nat.
  Proof.
    unfold shipped, input_data. rewrite numbered_length. cbn [time_offset_ranges flat_map]. rewrite app_nil_r.
    rewrite (length_blocks _ (10 * m)).
    - unfold angle_offset_ranges. rewrite map_length, seq_length. lia.
    - intros a _. rewrite (length_blocks _ m). { unfold translation_offset_ranges. now rewrite map_length, seq_length. }
      intros s _. now rewrite map_length, seq_length.
  Qed.
  (** the ranges by number *)
  Definition angle_range (i : nat) : T * T := (lit (15 * Z.of_nat i) 0 / lit 180 0 * npi, lit (15 * Z.of_nat (S i)) 0 / lit 180 0 * npi)%num.
  Definition translation_range (i : nat) : T * T := (lit (Z.of_nat i) (-1), lit (Z.of_nat (S i)) (-1)).
  Lemma nth_shipped m i : (i < 120 * m)%nat -> nth_error (shipped m) i =
    Some (mkExperiment (n0, n0) (angle_range (i / m / 10)) (translation_range (i / m mod 10)) (i mod m) i).
  Proof.
    intros L. assert (M : (0 < m)%nat) by lia. unfold shipped, input_data. rewrite nth_numbered. cbn [time_offset_ranges flat_map]. rewrite app_nil_r.
    rewrite (nth_error_blocks _ (10 * m)); [|lia|].
    2:{ intros a _. rewrite (length_blocks _ m). { unfold translation_offset_ranges. now rewrite map_length, seq_length. } intros s _. now rewrite map_length, seq_length. }
    assert (D : (i / (10 * m) = i / m / 10)%nat). { rewrite (Nat.mul_comm 10 m), Nat.div_div by lia. reflexivity. }
    assert (B : (i / m < 120)%nat) by (apply Nat.div_lt_upper_bound; lia).
    assert (B1 : (i / m / 10 < 12)%nat) by (apply Nat.div_lt_upper_bound; lia).
    assert (B2 : (i / m mod 10 < 10)%nat) by (apply Nat.mod_upper_bound; lia).
    assert (B3 : (i mod m < m)%nat) by (apply Nat.mod_upper_bound; lia).
    rewrite D. unfold angle_offset_ranges. rewrite nth_error_map, (nth_error_nth' _ O) by (rewrite seq_length; lia). rewrite seq_nth by lia. cbn [option_map plus].
    rewrite (nth_error_blocks _ m); [|easy|intros s _; now rewrite map_length, seq_length].
    assert (E1 : ((i mod (10 * m)) / m = i / m mod 10)%nat).
    { rewrite (Nat.mul_comm 10 m), Nat.mod_mul_r by lia. rewrite Nat.mul_comm, Nat.div_add by lia. rewrite Nat.div_small by lia. lia. }
    assert (E2 : ((i mod (10 * m)) mod m = i mod m)%nat).
    { rewrite (Nat.mul_comm 10 m), Nat.mod_mul_r by lia. rewrite Nat.mul_comm, Nat.mod_add by lia. now rewrite Nat.mod_mod by lia. }
    rewrite E1, E2. unfold translation_offset_ranges. rewrite nth_error_map, (nth_error_nth' _ O) by (rewrite seq_length; lia). rewrite seq_nth by lia. cbn [option_map plus].
    rewrite nth_error_map, (nth_error_nth' _ O) by (rewrite seq_length; lia). rewrite seq_nth by lia. reflexivity.
  Qed.

  (** *** the initial guesses *)
  Definition cal_row := (T * nat * @result N * T)%type.
  Definition push_cal (e : entry N) (q : (pose_set * pose_set) * cal_row) : entry N :=
    let '(p, (_, num, r, rt)) := q in push_guess e p num r rt.
  Definition guess_of (c : cal_row) : guess := let '(off, _, r, _) := c in (dq_H_E r, off).
  Lemma initial_guesses_spec a : forall ps idx e gs, initial_guesses calibrate a ps idx e gs =
    do cals <- mapM (fun q => calibrate a 0 (fst q) (snd q)) (combine ps (seq idx (length ps)));
    Ok (gs ++ map guess_of cals, fold_left push_cal (combine ps cals) e).
  Proof.
    induction ps as [|p ps IH]; intros idx e gs; cbn [initial_guesses length seq combine mapM bind fold_left map fst snd]; [now rewrite app_nil_r|].
    destruct (calibrate a 0 p idx) as [[[[off num] r] rt]|err]; cbn [bind]; [|easy]. rewrite IH.
    destruct (mapM _ _); cbn [bind]; [|easy]. cbn [map combine fold_left push_cal guess_of]. now rewrite <- app_assoc.
  Qed.
  Lemma push_cal_all : forall ps cals e, length cals = length ps -> let e' := fold_left push_cal (combine ps cals) e in
    e_name e' = e_name e /\ e_iteration e' = e_iteration e /\ e_prefiltering_enabled e' = e_prefiltering_enabled e /\
    e_loop_error_position e' = e_loop_error_position e /\ e_loop_error_orientation e' = e_loop_error_orientation e /\
    e_optimization_enabled e' = e_optimization_enabled e /\
    e_dataset_names e' = e_dataset_names e ++ map (fun p => (set_name (fst p), set_name (snd p))) ps /\
    e_success e' = e_success e ++ map (fun c => success (snd (fst c))) cals /\
    e_rmse e' = e_rmse e /\ e_num_inliers e' = e_num_inliers e /\
    e_num_initial_poses e' = e_num_initial_poses e ++ map (fun c => snd (fst (fst c))) cals /\
    e_num_poses_kept e' = e_num_poses_kept e ++ map (fun c => num_poses_after_filtering (snd (fst c))) cals /\
    e_runtimes e' = e_runtimes e ++ map snd cals /\
    e_singular_values e' = e_singular_values e ++ map (fun c => singular_values (snd (fst c))) cals /\
    e_bad_singular_value e' = e_bad_singular_value e ++ map (fun c => bad_singular (snd (fst c))) cals /\
    e_optimization_success e' = e_optimization_success e /\ e_optimization_runtime e' = e_optimization_runtime e /\
    e_spoiled_angle e' = e_spoiled_angle e /\ e_spoiled_translation e' = e_spoiled_translation e /\ e_spoiled_time e' = e_spoiled_time e.
  Proof.
    induction ps as [|p ps IH]; intros [|[[[off num] r] rt] cals] e L; cbn [length] in L; try lia; cbn [combine fold_left map]; [rewrite !app_nil_r; repeat split|].
    specialize (IH cals (push_cal e (p, (off, num, r, rt))) ltac:(lia)). cbn [push_cal push_guess e_name e_iteration e_prefiltering_enabled e_loop_error_position e_loop_error_orientation
      e_optimization_enabled e_dataset_names e_success e_rmse e_num_inliers e_num_initial_poses e_num_poses_kept e_runtimes
      e_singular_values e_bad_singular_value e_optimization_success e_optimization_runtime e_spoiled_angle e_spoiled_translation e_spoiled_time] in IH.
    rewrite <- !app_assoc in IH. exact IH.
  Qed.

  (** *** one experiment *)
  Definition row_of (a : algorithm) (x : experiment) (np : nat -> T) (py : nat -> bool * T) (c : nat) (q : ((@pose_set N * @pose_set N) * (bool * bool) * @guess N) * nat) : res sweep_row :=
    sweep_pair estimate a x (fst (fst (fst q))) (snd (fst (fst q))) (snd (fst q))
      (draw np py (c + snd q) (x_time x) (x_angle x) (x_translation x)) (snd q).
  Lemma sweep_pairs_spec a x np py c : forall todo idx e dqs, sweep_pairs estimate a x np py todo idx (c + idx) e dqs =
    do rows <- mapM (row_of a x np py c) (combine todo (seq idx (length todo)));
    Ok (fold_left push_row rows e, dqs ++ map s_dq rows).
  Proof.
    induction todo as [|[[p f] g] todo IH]; intros idx e dqs; cbn [sweep_pairs length seq combine mapM bind fold_left map fst snd]; [now rewrite app_nil_r|].
    unfold row_of at 1. cbn [fst snd]. destruct (sweep_pair _ _ _ _ _ _ _ _) as [row|err]; cbn [bind]; [|easy]. rewrite plus_n_Sm, IH.
    destruct (mapM _ _); cbn [bind]; [|easy]. cbn [fold_left map]. now rewrite <- app_assoc.
  Qed.
  Lemma push_row_all rows : forall e, let e' := fold_left push_row rows e in
    e_name e' = e_name e /\ e_iteration e' = e_iteration e /\ e_prefiltering_enabled e' = e_prefiltering_enabled e /\
    e_loop_error_position e' = e_loop_error_position e /\ e_loop_error_orientation e' = e_loop_error_orientation e /\
    e_optimization_enabled e' = e_optimization_enabled e /\
    e_dataset_names e' = e_dataset_names e /\ e_success e' = e_success e /\
    e_rmse e' = e_rmse e ++ map s_rmse rows /\
    e_num_inliers e' = e_num_inliers e ++ map (fun r => Some (s_inliers r)) rows /\
    e_num_initial_poses e' = e_num_initial_poses e /\ e_num_poses_kept e' = e_num_poses_kept e /\ e_runtimes e' = e_runtimes e /\
    e_singular_values e' = e_singular_values e /\ e_bad_singular_value e' = e_bad_singular_value e /\
    e_optimization_success e' = e_optimization_success e ++ map s_opt_success rows /\
    e_optimization_runtime e' = e_optimization_runtime e ++ map s_opt_runtime rows /\
    e_spoiled_angle e' = e_spoiled_angle e ++ map (fun r => Some (s_angle r)) rows /\
    e_spoiled_translation e' = e_spoiled_translation e ++ map (fun r => Some (s_translation r)) rows /\
    e_spoiled_time e' = e_spoiled_time e ++ map (fun r => Some (s_time r)) rows.
  Proof.
    induction rows as [|r rows IH]; intros e; cbn [fold_left map]; [rewrite !app_nil_r; repeat split|].
    specialize (IH (push_row e r)). cbn [push_row e_name e_iteration e_prefiltering_enabled e_loop_error_position e_loop_error_orientation
      e_optimization_enabled e_dataset_names e_success e_rmse e_num_inliers e_num_initial_poses e_num_poses_kept e_runtimes
      e_singular_values e_bad_singular_value e_optimization_success e_optimization_runtime e_spoiled_angle e_spoiled_translation e_spoiled_time] in IH.
    rewrite <- !app_assoc in IH. exact IH.
  Qed.

  (** *** the whole run *)
  Lemma flag_pairs_map flags : flag_pairs flags = map (fun p => (nth (fst p) flags false, nth (snd p) flags false)) (pairs (length flags)).
  Proof. apply choose2_map. Qed.
  Definition flags_of (sets : list (@pose_set N)) (absolute_flags : option (list bool)) : list bool :=
    match absolute_flags with Some l => l | None => map (fun _ => false) sets end.
  Lemma prepare_ok sets af m xs todo template : prepare calibrate sets af m = Ok (xs, todo, template) ->
    (0 < m)%Z /\ (2 <= length sets)%nat /\ length (flags_of sets af) = length sets /\ xs = shipped (Z.to_nat m) /\
    exists cals, mapM (fun q => calibrate get_spoiled_config 0 (fst q) (snd q)) (combine (pose_pairs sets) (seq 0 (length (pose_pairs sets)))) = Ok cals /\
      todo = combine (combine (pose_pairs sets) (flag_pairs (flags_of sets af))) (map guess_of cals) /\
      template = fold_left push_cal (combine (pose_pairs sets) cals) (init_from_configs new_entry get_spoiled_config 0).
  Proof.
    unfold prepare. fold (flags_of sets af). intros E. destruct (2 <=? length sets)%nat eqn:E1; cbn [assert_ bind] in E; [|easy].
    destruct (_ =? length sets)%nat eqn:E2; cbn [assert_ bind] in E; [|easy]. destruct (_ =? _)%nat eqn:E3 in E; cbn [assert_ bind] in E; [|easy].
    rewrite initial_guesses_spec in E. destruct (mapM _ _) as [cals|] eqn:M; cbn [bind] in E; [|easy].
    destruct (0 <? m)%Z eqn:E4; cbn [assert_ bind] in E; [|easy]. injection E as <- <- <-.
    apply Nat.leb_le in E1. apply Nat.eqb_eq in E2. apply Z.ltb_lt in E4. repeat (split; [easy|]). exists cals. repeat split.
  Qed.
  Lemma pose_pairs_length sets : length (pose_pairs (N:=N) sets) = length (pairs (length sets)).
  Proof. destruct sets as [|d sets]; [easy|]. rewrite (pose_pairs_map d). now rewrite map_length. Qed.

  (** the entry of one experiment *)
  Lemma experiment_ok a (num : nat) todo ps cals it0 x np py c e dqs : length ps = length todo -> length cals = length todo ->
    let template := fold_left push_cal (combine ps cals) (init_from_configs new_entry a it0) in
    run_optimization_experiment estimate a num todo template x np py c = Ok (e, dqs) ->
    exists rows, mapM (row_of a x np py c) (combine todo (seq 0 (length todo))) = Ok rows /\
      e_name e = algorithm_name a /\ e_iteration e = Z.of_nat (x_iteration x) /\ e_prefiltering_enabled e = false /\
      e_optimization_enabled e = enable_optimization a /\
      e_dataset_names e = map (fun p => (set_name (fst p), set_name (snd p))) ps /\
      e_success e = map (fun c => success (snd (fst c))) cals /\
      e_num_initial_poses e = map (fun c => snd (fst (fst c))) cals /\
      e_num_poses_kept e = map (fun c => num_poses_after_filtering (snd (fst c))) cals /\
      e_runtimes e = map snd cals /\ e_singular_values e = map (fun c => singular_values (snd (fst c))) cals /\
      e_bad_singular_value e = map (fun c => bad_singular (snd (fst c))) cals /\
      e_rmse e = map s_rmse rows /\ e_num_inliers e = map (fun r => Some (s_inliers r)) rows /\
      e_optimization_success e = map s_opt_success rows /\ e_optimization_runtime e = map s_opt_runtime rows /\
      e_spoiled_angle e = map (fun r => Some (s_angle r)) rows /\
      e_spoiled_translation e = map (fun r => Some (s_translation r)) rows /\ e_spoiled_time e = map (fun r => Some (s_time r)) rows /\
      if forallb s_opt_success rows
      then exists lp lo, compute_loop_error_opt (map s_dq rows) (Z.of_nat num) = Ok (lp, lo) /\
             e_loop_error_position e = CNum lp /\ e_loop_error_orientation e = CNum lo
      else e_loop_error_position e = CInt (-1) /\ e_loop_error_orientation e = CInt (-1).
  Proof.
    intros LP LC template E. unfold run_optimization_experiment in E. replace c with (c + 0)%nat in E by lia. rewrite sweep_pairs_spec in E.
    destruct (mapM _ _) as [rows|] eqn:M; cbn [bind] in E; [|easy]. exists rows. split; [easy|]. cbn [app] in E.
    apply mapM_length in M. rewrite combine_length, seq_length, Nat.min_id in M. rewrite map_length, M, Nat.eqb_refl in E. cbn [assert_ bind] in E.
    destruct (push_cal_all ps cals (init_from_configs new_entry a it0)) as (T1 & T2 & T3 & T4 & T5 & T6 & T7 & T8 & T9 & T10 & T11 & T12 & T13 & T14 & T15 & T16 & T17 & T18 & T19 & T20); [lia|].
    fold template in T1, T2, T3, T4, T5, T6, T7, T8, T9, T10, T11, T12, T13, T14, T15, T16, T17, T18, T19, T20. clearbody template.
    destruct (push_row_all rows (set_iteration template (x_iteration x))) as (R1 & R2 & R3 & R4 & R5 & R6 & R7 & R8 & R9 & R10 & R11 & R12 & R13 & R14 & R15 & R16 & R17 & R18 & R19 & R20).
    set (f := fold_left _ _ _) in *. clearbody f.
    cbn [set_iteration init_from_configs new_entry app e_name e_iteration e_prefiltering_enabled e_loop_error_position e_loop_error_orientation
      e_optimization_enabled e_dataset_names e_success e_rmse e_num_inliers e_num_initial_poses e_num_poses_kept e_runtimes
      e_singular_values e_bad_singular_value e_optimization_success e_optimization_runtime e_spoiled_angle e_spoiled_translation e_spoiled_time] in *.
    rewrite T1 in R1. rewrite T3 in R3. rewrite T4 in R4. rewrite T5 in R5. rewrite T6 in R6. rewrite T7 in R7. rewrite T8 in R8. rewrite T9 in R9. rewrite T10 in R10.
    rewrite T11 in R11. rewrite T12 in R12. rewrite T13 in R13. rewrite T14 in R14. rewrite T15 in R15. rewrite T16 in R16. rewrite T17 in R17. rewrite T18 in R18. rewrite T19 in R19. rewrite T20 in R20. cbn [app] in *.
    destruct (check_length f (length todo)) as [[]|]; cbn [bind] in E; [|easy].
    assert (B : forallb s_opt_success rows = (count_true (e_optimization_success f) =? length todo)%nat).
    { rewrite R16, <- M. clear. assert (G : forall l, (count_true l <= length l)%nat) by (induction l as [|[] l]; cbn; lia).
      induction rows as [|r rows IH]; [easy|]. cbn [forallb map count_true length]. destruct (s_opt_success r); cbn [andb]; [exact IH|].
      specialize (G (map s_opt_success rows)). rewrite map_length in G. symmetry. apply Nat.eqb_neq. lia. }
    rewrite B. destruct (_ =? length todo)%nat.
    - destruct (compute_loop_error_opt _ _) as [[lp lo]|]; cbn [bind fst snd] in E; [|easy]. injection E as <- <-.
      cbn [set_loop_error e_name e_iteration e_prefiltering_enabled e_loop_error_position e_loop_error_orientation
      e_optimization_enabled e_dataset_names e_success e_rmse e_num_inliers e_num_initial_poses e_num_poses_kept e_runtimes
      e_singular_values e_bad_singular_value e_optimization_success e_optimization_runtime e_spoiled_angle e_spoiled_translation e_spoiled_time].
      repeat (split; [assumption|]). exists lp, lo. repeat split.
    - injection E as <- <-. repeat (split; [assumption|]). easy.
  Qed.

  (** *** specification *)
  (** every task is executed exactly once, by some worker *)
  Definition schedule (ws : list (list nat)) (n : nat) : Prop := Permutation (concat ws) (seq 0 n).
  Lemma runs_in ws w r i : runs_as ws w r i -> In i (concat ws).
  Proof. intros (l & W & R). apply in_concat. exists l. split; [eapply nth_error_In; eauto|eapply nth_error_In; eauto]. Qed.
  Lemma in_runs ws i : In i (concat ws) -> exists w r, runs_as ws w r i.
  Proof.
    intros I. apply in_concat in I as (l & W & R). apply In_nth_error in W as (w & W). apply In_nth_error in R as (r & R). exists w, r. now exists l.
  Qed.
  Lemma schedule_runs ws n i : schedule ws n -> ((i < n)%nat <-> exists w r, runs_as ws w r i).
  Proof.
    intros P. split.
    - intros L. apply in_runs. eapply Permutation_in; [apply Permutation_sym; exact P|]. apply in_seq. lia.
    - intros (w & r & R). apply runs_in in R. eapply Permutation_in in R; [|exact P]. apply in_seq in R. lia.
  Qed.

  (** the pairs of files, of flags, and the number of the pair *)
  Definition pair_files (d : @pose_set N) sets p : pose_set * pose_set := (nth (fst p) sets d, nth (snd p) sets d).
  Definition pair_flags sets af (p : nat * nat) : bool * bool := (nth (fst p) (flags_of sets af) false, nth (snd p) (flags_of sets af) false).
  (** the calibrations the sweep starts from *)
  Definition starts_from d sets (cals : list cal_row) : Prop := length cals = length (pairs (length sets)) /\
    forall k p c, nth_error (pairs (length sets)) k = Some p -> nth_error cals k = Some c -> calibrate get_spoiled_config 0 (pair_files d sets p) k = Ok c.
  (** what all pairs of an entry have in common, and what is copied from the initial calibrations *)
  Definition general d sets (m : nat) (cals : list cal_row) (i : nat) (e : entry N) : Prop :=
    filled e (length (pairs (length sets))) /\
    e_name e = "optimization_w_spoiled_init_calibration"%string /\ e_iteration e = Z.of_nat (i mod m) /\ e_prefiltering_enabled e = false /\
    e_optimization_enabled e = true /\
    e_dataset_names e = map (fun p => (set_name (fst (pair_files d sets p)), set_name (snd (pair_files d sets p)))) (pairs (length sets)) /\
    e_success e = map (fun c => success (snd (fst c))) cals /\
    e_num_initial_poses e = map (fun c => snd (fst (fst c))) cals /\
    e_num_poses_kept e = map (fun c => num_poses_after_filtering (snd (fst c))) cals /\
    e_runtimes e = map snd cals /\ e_singular_values e = map (fun c => singular_values (snd (fst c))) cals /\
    e_bad_singular_value e = map (fun c => bad_singular (snd (fst c))) cals /\
    (In false (e_optimization_success e) -> e_loop_error_position e = CInt (-1) /\ e_loop_error_orientation e = CInt (-1)) /\
    (~ In false (e_optimization_success e) -> exists lp lo, e_loop_error_position e = CNum lp /\ e_loop_error_orientation e = CNum lo).
  (** what pair k of experiment i reports, for the numbers drawn: the offsets of the spoiled guess from the
      guess, and what the estimator made of the spoiled guess *)
  Definition reports d sets af (m : nat) (c : cal_row) (draws : spoil_draw) (i k : nat) (p : nat * nat) (e : entry N) : Prop :=
    exists g normalised time spoiled offset angle dt,
      dq_H_E (snd (fst c)) = Some g /\
      spoil_initial_guess (fst (fst (fst c))) g (angle_range (i / m / 10)) (translation_range (i / m mod 10)) draws
        = Ok (normalised, (time, spoiled, (offset, angle, dt))) /\
      nth_error (e_spoiled_angle e) k = Some (Some angle) /\
      nth_error (e_spoiled_translation e) k = Some (Some [vx offset; vy offset; vz offset]) /\
      nth_error (e_spoiled_time e) k = Some (Some dt) /\
      exists ok rmse n rt, nth_error (e_optimization_success e) k = Some ok /\ nth_error (e_rmse e) k = Some rmse /\
        nth_error (e_num_inliers e) k = Some (Some n) /\ nth_error (e_optimization_runtime e) k = Some rt /\
        match estimate i (pair_files d sets p) (pair_flags sets af p) k (snd (write_json (mkCalib time spoiled) false)) with
        | EstFailed => ok = false /\ rmse = (CInt (-1), CInt (-1)) /\ n = O /\ rt = n0
        | EstNoFile => False
        | EstWritten rt' j => rt = rt' /\ exists opt position orientation, from_json j false = Ok opt /\
            evaluate_calibration (set_poses (fst (pair_files d sets p))) (set_poses (snd (pair_files d sets p))) (pose_dq opt)
              (Extrinsic.time_offset opt) (hand_config get_exhaustive_search_scalar_part_inliers_config) = Ok (position, orientation, n) /\
            rmse = (CNum position, CNum orientation) /\ (ok = true <-> n <> O)
        end.

  Lemma forallb_in {A} (f : A -> bool) l : forallb f l = false <-> In false (map f l).
  Proof.
    induction l as [|x l IH]; cbn; [easy|]. destruct (f x); cbn [andb]; [rewrite IH|]; [|tauto]. split; [tauto|]. intros [H|H]; easy.
  Qed.
  Lemma lines_shown e n : filled e n -> mapM (line_cells e) (seq 0 n) = Ok (map (fun k => map snd (shown e k)) (seq 0 n)).
  Proof. intros F. apply mapM_ok. intros k I. apply in_seq in I. apply line_shown with n; [easy|lia]. Qed.

  Theorem C62_lines : forall d sets af m ws np py ls, schedule ws (120 * Z.to_nat m) ->
    sweep calibrate estimate sets af m ws np py (Ok ls) ->
    (0 < m)%Z /\ (2 <= length sets)%nat /\ exists cals es, starts_from d sets cals /\
    length es = (120 * Z.to_nat m)%nat /\
    ls = flat_map (fun e => map (fun k => map snd (shown e k)) (seq 0 (length (pairs (length sets))))) es /\
    forall w r i e, runs_as ws w r i -> nth_error es i = Some e ->
      general d sets (Z.to_nat m) cals i e /\
      forall k p c, nth_error (pairs (length sets)) k = Some p -> nth_error cals k = Some c ->
        reports d sets af (Z.to_nat m) c
          (draw np (py w) (r * length (pairs (length sets)) + k) (n0, n0) (angle_range (i / Z.to_nat m / 10)) (translation_range (i / Z.to_nat m mod 10)))
          i k p e.
  Proof.
    intros d sets af m ws np py ls SCH SW. inversion SW as [| |xs todo template out lss PR PM ML E]; subst. clear SW.
    destruct (prepare_ok _ _ _ _ _ _ PR) as (M & L2 & LF & -> & cals & MC & -> & ->). split; [exact M|]. split; [exact L2|].
    assert (LC := mapM_length _ _ _ MC). rewrite combine_length, seq_length, Nat.min_id, pose_pairs_length in LC.
    assert (LP := pose_pairs_length sets). assert (LFP : length (flag_pairs (flags_of sets af)) = length (pairs (length sets))) by now rewrite flag_pairs_map, map_length, LF.
    set (n := length (pairs (length sets))) in *. set (todo := combine (combine (pose_pairs sets) (flag_pairs (flags_of sets af))) (map guess_of cals)) in *.
    assert (LT : length todo = n) by (unfold todo; rewrite !combine_length, map_length, LP, LFP; change cal_row with (T * nat * result * T)%type; rewrite LC, !Nat.min_id; reflexivity).
    inversion PM as [out' LO RUN|]; subst out'. clear PM. rewrite shipped_length in LO.
    assert (CAL : starts_from d sets cals).
    { split; [exact LC|]. intros k p c NP NC. apply mapM_Forall2 in MC. rewrite (pose_pairs_map d) in MC at 1. unfold pair_files.
      set (P := pairs (length sets)) in *. clearbody P. rewrite LP in MC. unfold n in MC. clear -MC NP NC.
      assert (G : forall s, Forall2 (fun q y => calibrate get_spoiled_config 0 (fst q) (snd q) = Ok y) (combine (map (fun p => (nth (fst p) sets d, nth (snd p) sets d)) P) (seq s (length P))) cals ->
        calibrate get_spoiled_config 0 (nth (fst p) sets d, nth (snd p) sets d) (s + k) = Ok c).
      { clear MC. revert k cals NP NC. induction P as [|p0 P IH]; intros [|k] cals NP NC s F; try easy; cbn [length seq map combine] in F; inversion F as [|? c0 ? cals' C F']; subst.
        - cbn in NP, NC. injection NP as ->. injection NC as ->. rewrite Nat.add_0_r. exact C.
        - rewrite <- plus_n_Sm. apply (IH k cals' NP NC (S s) F'). }
      exact (G O MC). }
    assert (ENT : forall w r i e, runs_as ws w r i -> nth_error out i = Some e ->
      general d sets (Z.to_nat m) cals i e /\
      forall k p c, nth_error (pairs (length sets)) k = Some p -> nth_error cals k = Some c ->
        reports d sets af (Z.to_nat m) c
          (draw np (py w) (r * n + k) (n0, n0) (angle_range (i / Z.to_nat m / 10)) (translation_range (i / Z.to_nat m mod 10))) i k p e).
    { intros w r i e R NE. destruct (RUN _ _ _ R) as (e' & TE & NE'). rewrite NE in NE'. injection NE' as <-.
      assert (Li : (i < 120 * Z.to_nat m)%nat) by (apply (schedule_runs ws); eauto).
      unfold task in TE. rewrite (index_some _ _ _ (nth_shipped _ _ Li)) in TE. cbn [bind] in TE.
      destruct (run_optimization_experiment _ _ _ _ _ _ _ _ _) as [[e' dqs]|] eqn:RO; cbn [bind fst] in TE; [|easy]. injection TE as <-.
      rewrite LT in RO. apply experiment_ok in RO; [|exact (eq_trans LP (eq_sym LT))|exact (eq_trans LC (eq_sym LT))].
      destruct RO as (rows & MR & F1 & F2 & F3 & F4 & F5 & F6 & F7 & F8 & F9 & F10 & F11 & F12 & F13 & F14 & F15 & F16 & F17 & F18 & FL).
      assert (LR := mapM_length _ _ _ MR). rewrite combine_length, seq_length, Nat.min_id, LT in LR.
      split.
      - unfold general. fold n. split. { unfold filled. rewrite F5, F6, F7, F8, F9, F10, F11, F12, F13, F14, F15, F16, F17, F18, !map_length. repeat split; first [exact LP|exact LC|exact LR]. }
        split; [exact F1|]. split; [exact F2|]. split; [exact F3|]. split; [exact F4|].
        split. { rewrite F5. unfold pair_files. rewrite (pose_pairs_map d), map_map. reflexivity. }
        repeat (split; [assumption|]). rewrite F14, <- forallb_in. destruct (forallb s_opt_success rows) eqn:FB.
        + split; [easy|]. intros _. destruct FL as (lp & lo & _ & E1 & E2). now exists lp, lo.
        + split; [intros _; exact FL|easy].
      - intros k p c NP NC. assert (Lk : (k < n)%nat) by (apply nth_error_Some; unfold n in *; rewrite NP; easy).
        apply mapM_Forall2 in MR.
        assert (NT : nth_error (combine todo (seq 0 (length todo))) k = Some (pair_files d sets p, pair_flags sets af p, guess_of c, k)).
        { assert (G : forall {A B} (l : list A) (l' : list B) k x y, nth_error l k = Some x -> nth_error l' k = Some y -> nth_error (combine l l') k = Some (x, y)).
          { intros A B. induction l as [|a l IH]; intros [|b l'] [|q] x y X Y; try easy; cbn in *; [congruence|now apply IH]. }
          apply G.
          - unfold todo. apply G; [apply G|].
            + rewrite (pose_pairs_map d), nth_error_map, NP. reflexivity.
            + rewrite flag_pairs_map, LF, nth_error_map, NP. reflexivity.
            + rewrite nth_error_map. exact (f_equal (option_map guess_of) NC).
          - rewrite LT. rewrite (nth_error_nth' _ O) by (rewrite seq_length; lia). now rewrite seq_nth by lia. }
        assert (G : forall {A B} (R : A -> B -> Prop) l l', Forall2 R l l' -> forall k x, nth_error l k = Some x -> exists y, nth_error l' k = Some y /\ R x y).
        { intros A B R0 l l' F. induction F as [|x0 y0 l l' H F IH]; intros [|q] x X; try easy; cbn in X |- *; [injection X as <-; eauto|eauto]. }
        destruct (G _ _ _ _ _ MR _ _ NT) as (row & NR & ROW). clear G.
        unfold row_of, sweep_pair in ROW. cbn [fst snd x_angle x_translation x_time x_index] in ROW.
        destruct c as [[[off num] res] rt0]. cbn [guess_of fst snd] in ROW |- *. unfold reports. cbn [fst snd].
        destruct (dq_H_E res) as [g|] eqn:DQ; cbn [bind] in ROW; [|easy].
        destruct (spoil_initial_guess off g _ _ _) as [[nrm [[time spoiled] [[offset angle] dt]]]|] eqn:SP; cbn [bind] in ROW; [|easy].
        exists g, nrm, time, spoiled, offset, angle, dt. split; [easy|]. split; [exact SP|].
        rewrite F16, F17, F18, F12, F13, F14, F15, !nth_error_map, NR. cbn [option_map].
        destruct (write_json (mkCalib time spoiled) false) as [cc file]. cbn [snd].
        destruct (estimate i _ _ k file) as [| |rt j].
        + injection ROW as <-. repeat (split; [reflexivity|]). eexists _, _, _, _. repeat (split; [reflexivity|]). repeat split.
        + easy.
        + destruct (from_json j false) as [opt|] eqn:FJ; cbn [bind] in ROW; [|easy].
          destruct (evaluate_calibration _ _ _ _ _) as [[[rp ro] ni]|] eqn:EV; cbn [bind] in ROW; [|easy]. injection ROW as <-.
          cbn [s_angle s_translation s_time s_opt_success s_rmse s_inliers s_opt_runtime].
          repeat (split; [reflexivity|]). eexists _, _, _, _. repeat (split; [reflexivity|]). exists opt, rp, ro. split; [easy|]. split; [exact EV|].
          split; [reflexivity|]. destruct (Nat.eqb_spec ni 0); cbn [negb]; split; intros H; easy. }
    exists cals, out. split; [exact CAL|]. split; [exact LO|]. split; [|exact ENT].
    assert (FA : forall e, In e out -> filled e n).
    { intros e I. apply In_nth_error in I as (i & NE). assert (Li : (i < 120 * Z.to_nat m)%nat) by (rewrite <- LO; apply nth_error_Some; congruence).
      apply (schedule_runs ws) in Li as (w & r & R); [|exact SCH]. apply (ENT _ _ _ _ R NE). }
    rewrite LT in E.
    rewrite (mapM_ok _ (fun e => map (fun k => map snd (shown e k)) (seq 0 n))) in E.
    2:{ intros e I. apply lines_shown. auto. }
    cbn [bind] in E. injection E as <-. now rewrite flat_map_concat_map.
  Qed.

  (** The same, read off the result file: the lines of experiment i come after those of the experiments
      before it, one per pair. *)
  Definition cell_at (ls : list (list (cell N))) (number : nat) (column : string) (c : cell N) : Prop :=
    exists line, nth_error ls number = Some line /\ In (column, c) (combine columns line).
  Lemma shown_combine e k : combine columns (map snd (shown e k)) = shown e k.
  Proof. reflexivity. Qed.
  Lemma line_number (es : list (entry N)) n i k e : (k < n)%nat -> nth_error es i = Some e ->
    nth_error (flat_map (fun e => map (fun k => map snd (shown e k)) (seq 0 n)) es) (i * n + k) = Some (map snd (shown e k)).
  Proof.
    intros L NE. rewrite (nth_error_blocks _ n) by (try lia; intros; now rewrite map_length, seq_length).
    rewrite Nat.div_add_l, Nat.div_small, Nat.add_0_r, NE by lia. rewrite Nat.add_comm, Nat.mod_add, Nat.mod_small by lia.
    rewrite nth_error_map, (nth_error_nth' _ O) by (rewrite seq_length; lia). now rewrite seq_nth by lia.
  Qed.
  Lemma nth_of {A} (l : list A) k x d : nth_error l k = Some x -> nth k l d = x.
  Proof. apply nth_error_nth. Qed.

  Lemma spoil_ranges time g ar tr draws nrm time' sp off angle dt :
    spoil_initial_guess time g ar tr draws = Ok (nrm, (time', sp, (off, angle, dt))) ->
    leb (fst ar) angle = true /\ leb angle (snd ar) = true.
  Proof.
    unfold spoil_initial_guess. cbv zeta. destruct (isclose _ _ _); cbn [assert_ bind]; [|easy]. destruct (get_random _ _); cbn [bind]; [|easy].
    destruct (to_pose g) as [guess p]. destruct (leb _ (snd ar)) eqn:E1; cbn [assert_ bind]; [|easy]. destruct (leb (fst ar) _) eqn:E2; cbn [assert_ bind]; [|easy].
    destruct (leb _ (snd tr)); cbn [assert_ bind]; [|easy]. destruct (leb (fst tr) _); cbn [assert_ bind]; [|easy]. intros E. injection E as <- <- <- <- <- <-. easy.
  Qed.
  Lemma pair_exists sets k (cals : list cal_row) d : starts_from d sets cals -> (k < length (pairs (length sets)))%nat ->
    exists p c, nth_error (pairs (length sets)) k = Some p /\ nth_error cals k = Some c.
  Proof.
    intros (L & _) K. destruct (nth_error (pairs (length sets)) k) as [p|] eqn:E; [|apply nth_error_None in E; lia].
    destruct (nth_error cals k) as [c|] eqn:E'; [eauto|]. apply nth_error_None in E'. rewrite L in E'. lia.
  Qed.
  (** The reported angle lies in the range of the experiment, whatever the arithmetic. *)
  Theorem C62_angles : forall sets af m ws np py ls i k, schedule ws (120 * Z.to_nat m) -> sweep calibrate estimate sets af m ws np py (Ok ls) ->
    (i < 120 * Z.to_nat m)%nat -> (k < length (pairs (length sets)))%nat ->
    exists angle, cell_at ls (i * length (pairs (length sets)) + k) "spoiled_initial_guess_angle_offset" (CNum angle) /\
      leb (fst (angle_range (i / Z.to_nat m / 10))) angle = true /\ leb angle (snd (angle_range (i / Z.to_nat m / 10))) = true.
  Proof.
    intros sets af m ws np py ls i k SCH SW Li Lk. destruct sets as [|d sets]; [cbn in Lk; lia|].
    destruct (C62_lines d _ _ _ _ _ _ _ SCH SW) as (_ & _ & cals & es & ST & LE & -> & H).
    destruct (nth_error es i) as [e|] eqn:NE; [|apply nth_error_None in NE; lia].
    apply (schedule_runs ws) in Li as (w & r & R); [|exact SCH]. destruct (H _ _ _ _ R NE) as (_ & RP).
    destruct (pair_exists _ _ _ _ ST Lk) as (p & c & NP & NC).
    destruct (RP _ _ _ NP NC) as (g & nrm & time & sp & off & angle & dt & _ & SP & A & _). apply spoil_ranges in SP.
    exists angle. split; [|exact SP]. eexists. split; [apply line_number; eauto|]. rewrite shown_combine. unfold shown. rewrite (nth_of _ _ _ _ A). do 20 apply in_cons. left. reflexivity.
  Qed.

  (** A sweep over pairs of which one could not be calibrated never completes. *)
  Theorem C62_failed : forall d sets af m ws np py out k p c, schedule ws (120 * Z.to_nat m) ->
    nth_error (pairs (length sets)) k = Some p ->
    calibrate get_spoiled_config 0 (pair_files d sets p) k = Ok c -> dq_H_E (snd (fst c)) = None ->
    sweep calibrate estimate sets af m ws np py out -> exists e, out = Err e.
  Proof.
    intros d sets af m ws np py out k p c SCH NP CAL DQ SW. destruct out as [ls|e]; [|now exists e]. exfalso.
    destruct (C62_lines d _ _ _ _ _ _ _ SCH SW) as (M & _ & cals & es & ST & LE & _ & H).
    assert (L0 : (0 < 120 * Z.to_nat m)%nat) by lia. destruct (nth_error es 0) as [e|] eqn:NE; [|apply nth_error_None in NE; lia].
    apply (schedule_runs ws) in L0 as (w & r & R); [|exact SCH]. destruct (H _ _ _ _ R NE) as (_ & RP).
    assert (Lk : (k < length (pairs (length sets)))%nat) by (apply nth_error_Some; congruence).
    destruct (pair_exists _ _ _ _ ST Lk) as (p' & c' & NP' & NC). rewrite NP in NP'. injection NP' as <-.
    assert (C' := proj2 ST _ _ _ NP NC). rewrite CAL in C'. injection C' as <-.
    destruct (RP _ _ _ NP NC) as (g & _ & _ & _ & _ & _ & _ & G & _). congruence.
  Qed.
  (** With no iterations it raises AssertionError, after having calibrated all pairs. *)
  Theorem C62_iterations : forall sets af m ws np py out, (m <= 0)%Z ->
    (2 <= length sets)%nat -> length (flags_of sets af) = length sets ->
    (forall k pr, nth_error (pose_pairs sets) k = Some pr -> exists c, calibrate get_spoiled_config 0 pr k = Ok c) ->
    sweep calibrate estimate sets af m ws np py out -> out = Err AssertionError.
  Proof.
    intros sets af m ws np py out M L2 LF CAL SW.
    assert (PR : prepare calibrate sets af m = Err AssertionError).
    { unfold prepare. fold (flags_of sets af). apply Nat.leb_le in L2. rewrite L2. cbn [assert_ bind]. rewrite LF, Nat.eqb_refl. cbn [assert_ bind].
      rewrite flag_pairs_map, map_length, LF, pose_pairs_length, Nat.eqb_refl. cbn [assert_ bind]. rewrite initial_guesses_spec.
      assert (E : exists cals, mapM (fun q => calibrate get_spoiled_config 0 (fst q) (snd q)) (combine (pose_pairs sets) (seq 0 (length (pose_pairs sets)))) = Ok cals).
      { assert (G : forall P o, (forall k pr, nth_error P k = Some pr -> exists c, calibrate get_spoiled_config 0 pr (o + k) = Ok c) ->
          exists cals, mapM (fun q => calibrate get_spoiled_config 0 (fst q) (snd q)) (combine P (seq o (length P))) = Ok cals).
        { induction P as [|pr P IH]; intros o C; [now exists []|]. cbn [length seq combine mapM fst snd].
          destruct (C O pr eq_refl) as (c & E). rewrite Nat.add_0_r in E. rewrite E. cbn [bind].
          destruct (IH (S o)) as (cals & ->). { intros k pr' NK. rewrite plus_Sn_m, plus_n_Sm. now apply C. } cbn [bind]. eauto. }
        now apply (G _ O). }
      destruct E as (cals & ->). cbn [bind]. replace (0 <? m)%Z with false by (symmetry; apply Z.ltb_ge; lia). reflexivity. }
    inversion SW; subst; rewrite PR in *; congruence.
  Qed.
  (** Every schedule has an outcome. *)
  Lemma pool_outcome {A} ws (f : nat -> nat -> nat -> res A) n : schedule ws n -> exists out, pool_map ws f n out.
  Proof.
    intros SCH.
    assert (UNIQ : forall w r w' r' i, runs_as ws w r i -> runs_as ws w' r' i -> w = w' /\ r = r').
    { assert (ND : NoDup (concat ws)) by (eapply Permutation_NoDup; [apply Permutation_sym, SCH|apply seq_NoDup]).
      clear SCH f. induction ws as [|l ws IH]; intros w r w' r' i (l1 & W1 & R1) (l2 & W2 & R2); [now destruct w|]. cbn [concat] in ND.
      destruct (NoDup_parts _ _ ND) as (ND1 & ND2 & DJ).
      destruct w as [|w], w' as [|w']; cbn [nth_error] in W1, W2.
      - injection W1 as <-. injection W2 as <-. split; [easy|]. eapply NoDup_nth_error; [exact ND1|apply nth_error_Some; congruence|congruence].
      - injection W1 as <-. exfalso. apply (DJ i); [eapply nth_error_In; eauto|]. apply in_concat. exists l2. split; eapply nth_error_In; eauto.
      - injection W2 as <-. exfalso. apply (DJ i); [eapply nth_error_In; eauto|]. apply in_concat. exists l1. split; eapply nth_error_In; eauto.
      - destruct (IH ND2 w r w' r' i) as [-> ->]; [now exists l1|now exists l2|easy]. }
    (* a worker either runs all its tasks or has a first one that raises *)
    assert (ONE : forall w l, (forall r i, nth_error l r = Some i -> exists x, f w r i = Ok x) \/
      exists r i e, nth_error l r = Some i /\ f w r i = Err e /\ forall r' i', (r' < r)%nat -> nth_error l r' = Some i' -> exists x, f w r' i' = Ok x).
    { intros w l. induction l as [|y l IH] using rev_ind; [left; now intros [|]|].
      destruct IH as [IH|(r & i & e & NR & F & B)].
      - destruct (f w (length l) y) as [x|e] eqn:F.
        + left. intros r i NR. destruct (lt_dec r (length l)) as [L|L]; [rewrite nth_error_app1 in NR by easy; eauto|].
          rewrite nth_error_app2 in NR by lia. destruct (r - length l)%nat as [|q] eqn:Q; cbn in NR; [|now destruct q]. injection NR as <-. replace r with (length l) by lia. eauto.
        + right. exists (length l), y, e. split; [rewrite nth_error_app2, Nat.sub_diag by lia; reflexivity|]. split; [easy|].
          intros r' i' L NR. rewrite nth_error_app1 in NR by easy. eauto.
      - right. exists r, i, e. assert (L : (r < length l)%nat) by (apply nth_error_Some; congruence). split; [now rewrite nth_error_app1|]. split; [easy|].
        intros r' i' L' NR'. rewrite nth_error_app1 in NR' by lia. eauto. }
    assert (ALL : (forall w r i, runs_as ws w r i -> exists x, f w r i = Ok x) \/
      exists w r i e, runs_as ws w r i /\ f w r i = Err e /\ forall r' i', (r' < r)%nat -> runs_as ws w r' i' -> exists x, f w r' i' = Ok x).
    { assert (G : forall k, (k <= length ws)%nat -> (forall w r i, (w < k)%nat -> runs_as ws w r i -> exists x, f w r i = Ok x) \/
        exists w r i e, runs_as ws w r i /\ f w r i = Err e /\ forall r' i', (r' < r)%nat -> runs_as ws w r' i' -> exists x, f w r' i' = Ok x).
      { induction k as [|k IH]; intros L; [left; lia|]. destruct IH as [IH|IH]; [lia| |now right].
        destruct (nth_error ws k) as [l|] eqn:NK; [|apply nth_error_None in NK; lia]. destruct (ONE k l) as [O|(r & i & e & NR & F & B)].
        - left. intros w r i Lw (l' & W & R). destruct (Nat.eq_dec w k) as [->|NE]; [rewrite NK in W; injection W as <-; eauto|]. apply IH; [lia|now exists l'].
        - right. exists k, r, i, e. split; [now exists l|]. split; [easy|]. intros r' i' L' (l' & W & R). rewrite NK in W. injection W as <-. eauto. }
      destruct (G (length ws) (le_n _)) as [H|H]; [left|now right]. intros w r i R. apply H; [|exact R]. destruct R as (l & W & _). apply nth_error_Some. congruence. }
    destruct ALL as [OK|(w & r & i & e & R & F & B)]; [|now exists (Err e); apply pm_raise with w r i].
    assert (BUILD : forall k, (k <= n)%nat -> exists out, length out = k /\ forall w r i, (i < k)%nat -> runs_as ws w r i -> exists x, f w r i = Ok x /\ nth_error out i = Some x).
    { induction k as [|k IH]; intros L; [exists []; split; [easy|lia]|]. destruct IH as (out & LO & H); [lia|].
      assert (Lk : (k < n)%nat) by lia. apply (schedule_runs ws) in Lk as (w & r & R); [|exact SCH]. destruct (OK _ _ _ R) as (x & F).
      exists (out ++ [x]). split; [rewrite app_length, LO; cbn; lia|]. intros w' r' i Li R'. destruct (Nat.eq_dec i k) as [->|NE].
      - destruct (UNIQ _ _ _ _ _ R R') as [<- <-]. exists x. split; [easy|]. rewrite nth_error_app2, LO, Nat.sub_diag by lia. reflexivity.
      - destruct (H w' r' i) as (x' & F' & N'); [lia|easy|]. exists x'. split; [easy|]. rewrite nth_error_app1 by lia. exact N'. }
    destruct (BUILD n (le_n _)) as (out & LO & H). exists (Ok out). apply pm_ok; [easy|]. intros w r i R. apply H; [|exact R]. apply (schedule_runs ws); eauto.
  Qed.
  Theorem C62_outcome : forall sets af m ws np py, schedule ws (120 * Z.to_nat m) -> exists out, sweep calibrate estimate sets af m ws np py out.
  Proof.
    intros sets af m ws np py SCH. destruct (prepare calibrate sets af m) as [[[xs todo] template]|e] eqn:PR; [|now exists (Err e); apply sw_prepare].
    destruct (pool_outcome ws (task estimate sets xs todo template np py) (length xs)) as ([out|e] & P).
    - destruct (prepare_ok _ _ _ _ _ _ PR) as (_ & _ & _ & -> & _). now rewrite shipped_length.
    - eexists. eapply sw_done; eauto.
    - exists (Err e). eapply sw_raise; eauto.
  Qed.

  (** *** C63: the forked generators *)
  Lemma spoil_offset time g ar tr draws nrm time' sp off angle dt :
    spoil_initial_guess time g ar tr draws = Ok (nrm, (time', sp, (off, angle, dt))) ->
    let n := vnorm (d_dir draws) in let u := mkV (div (vx (d_dir draws)) n) (div (vy (d_dir draws)) n) (div (vz (d_dir draws)) n) in
    isclose (lit 1 (-8)) (vnorm u) n1 = true /\ off = mkV (mul (vx u) (d_len draws)) (mul (vy u) (d_len draws)) (mul (vz u) (d_len draws)).
  Proof.
    unfold spoil_initial_guess. cbv zeta. destruct (isclose _ _ _) eqn:E0; cbn [assert_ bind]; [|easy]. destruct (get_random _ _); cbn [bind]; [|easy].
    destruct (to_pose g) as [guess p]. destruct (leb _ (snd ar)); cbn [assert_ bind]; [|easy]. destruct (leb (fst ar) _); cbn [assert_ bind]; [|easy].
    destruct (leb _ (snd tr)); cbn [assert_ bind]; [|easy]. destruct (leb (fst tr) _); cbn [assert_ bind]; [|easy]. intros E. injection E as <- <- <- <- <- <-. easy.
  Qed.
  (** Experiments that are the r-th tasks of their workers have the same translation directions; if they
      also have the same translation range, the translation offsets are identical, pair by pair. *)
  Theorem C63_streams : forall sets af m ws np py ls w w' r i i' k, schedule ws (120 * Z.to_nat m) -> sweep calibrate estimate sets af m ws np py (Ok ls) ->
    runs_as ws w r i -> runs_as ws w' r i' -> (k < length (pairs (length sets)))%nat ->
    exists (u : vec3) (l l' : T), isclose (lit 1 (-8)) (vnorm u) n1 = true /\
      cell_at ls (i * length (pairs (length sets)) + k) "spoiled_initial_guess_translation_offset" (CArr [mul (vx u) l; mul (vy u) l; mul (vz u) l]) /\
      cell_at ls (i' * length (pairs (length sets)) + k) "spoiled_initial_guess_translation_offset" (CArr [mul (vx u) l'; mul (vy u) l'; mul (vz u) l']) /\
      ((i / Z.to_nat m) mod 10 = (i' / Z.to_nat m) mod 10 -> l = l').
  Proof.
    intros sets af m ws np py ls w w' r i i' k SCH SW R R' Lk. destruct sets as [|d sets]; [cbn in Lk; lia|].
    destruct (C62_lines d _ _ _ _ _ _ _ SCH SW) as (_ & _ & cals & es & ST & LE & -> & H). set (n := length (pairs (length (d :: sets)))) in *.
    assert (NE : exists e, nth_error es i = Some e).
    { destruct (nth_error es i) eqn:NE; [eauto|]. apply nth_error_None in NE. assert (i < 120 * Z.to_nat m)%nat by (apply (schedule_runs ws); eauto). lia. }
    assert (NE' : exists e, nth_error es i' = Some e).
    { destruct (nth_error es i') eqn:NE'; [eauto|]. apply nth_error_None in NE'. assert (i' < 120 * Z.to_nat m)%nat by (apply (schedule_runs ws); eauto). lia. }
    destruct NE as (e & NE), NE' as (e' & NE'). destruct (pair_exists _ _ _ _ ST Lk) as (p & c & NP & NC).
    destruct (proj2 (H _ _ _ _ R NE) _ _ _ NP NC) as (g & nrm & time & sp & off & angle & dt & _ & SP & _ & A & _).
    destruct (proj2 (H _ _ _ _ R' NE') _ _ _ NP NC) as (g' & nrm' & time' & sp' & off' & angle' & dt' & _ & SP' & _ & A' & _).
    apply spoil_offset in SP as (U & ->). apply spoil_offset in SP' as (_ & ->).
    set (u := mkV (div _ _) _ _) in U, A. assert (A2 := A'). set (u' := mkV (div _ _) _ _) in A'. change u' with u in A'.
    exists u, (d_len (draw np (py w) (r * n + k) (n0, n0) (angle_range (i / Z.to_nat m / 10)) (translation_range (i / Z.to_nat m mod 10)))),
      (d_len (draw np (py w') (r * n + k) (n0, n0) (angle_range (i' / Z.to_nat m / 10)) (translation_range (i' / Z.to_nat m mod 10)))).
    split; [exact U|]. split; [|split].
    - eexists. split; [apply line_number; eauto|]. rewrite shown_combine. unfold shown. rewrite (nth_of _ _ _ _ A). cbn [vx vy vz].
      do 21 apply in_cons. left. reflexivity.
    - eexists. split; [apply line_number; eauto|]. rewrite shown_combine. unfold shown. rewrite (nth_of _ _ _ _ A'). cbn [vx vy vz].
      do 21 apply in_cons. left. reflexivity.
    - cbn [draw d_len]. intros ->. reflexivity.
  Qed.
  (** With the default two iterations, Pool.map hands out chunks of eight tasks.  If each of the eight workers
      gets one of the first eight chunks, experiments 0 and 40 (and 8 and 48, 16 and 56), with angles from
      different ranges, have the same translation offsets: the samples are not independent. *)
  Theorem C63_default : forall sets af ws np py ls j k, schedule ws 240 -> sweep calibrate estimate sets af 2 ws np py (Ok ls) ->
    (forall w, (w < 8)%nat -> runs_as ws w 0 (8 * w)) -> (j < 3)%nat -> (k < length (pairs (length sets)))%nat ->
    exists x y z, cell_at ls (8 * j * length (pairs (length sets)) + k) "spoiled_initial_guess_translation_offset" (CArr [x; y; z]) /\
      cell_at ls (8 * (j + 5) * length (pairs (length sets)) + k) "spoiled_initial_guess_translation_offset" (CArr [x; y; z]).
  Proof.
    intros sets af ws np py ls j k SCH SW FIRST J K.
    destruct (C63_streams sets af 2 ws np py ls j (j + 5) 0 (8 * j) (8 * (j + 5)) k) as (u & l & l' & _ & A & B & E); try easy; try (apply FIRST; lia).
    rewrite E in A. { eauto. } clear -J. destruct j as [|[|[|j]]]; [reflexivity..|lia].
  Qed.
End C62.

(** *** over the reals *)
Local Open Scope R_scope.
Lemma xleb_fin_l x y : xleb (Fin x) y = true -> (exists b, y = Fin b /\ x <= b) \/ y = PInf.
Proof. destruct y as [b| | |]; cbn; try easy; [|now right]. unfold Rleb. destruct (Rle_dec x b); [|easy]. left. eauto. Qed.
Lemma xleb_fin_r x y : xleb x (Fin y) = true -> (exists b, x = Fin b /\ b <= y) \/ x = NInf.
Proof. destruct x as [b| | |]; cbn; try easy; [|now right]. unfold Rleb. destruct (Rle_dec b y); [|easy]. left. eauto. Qed.
Lemma xadd_fin x y r : xadd x y = Fin r -> exists a b, x = Fin a /\ y = Fin b /\ a + b = r.
Proof. destruct x, y; cbn; try easy. intros E. injection E as <-. eauto. Qed.
Lemma xmul_self_fin x r : xmul x x = Fin r -> exists a, x = Fin a.
Proof. destruct x; cbn; try easy. eauto. Qed.
Lemma xsub_fin x y r : xsub x y = Fin r -> exists a b, x = Fin a /\ y = Fin b /\ a - b = r.
Proof. destruct x, y; cbn; try easy. intros E. injection E as <-. eauto. Qed.
Lemma vnorm_fin (v : @vec3 XR) r : vnorm v = Fin r -> exists w, v = inV w /\ len3 w = r.
Proof.
  intros E. assert (F : exists w, v = inV w).
  { destruct v as [x y z]. unfold vnorm in E. cbn [vx vy vz mul add sqrtn XR] in E. unfold xsqrt in E. destruct (xadd _ _) as [s| | |] eqn:S in E; try easy.
    apply xadd_fin in S as (a & b & A & B & _). apply xadd_fin in A as (a1 & a2 & A1 & A2 & _).
    apply xmul_self_fin in A1 as (x' & ->). apply xmul_self_fin in A2 as (y' & ->). apply xmul_self_fin in B as (z' & ->). now exists (RV x' y' z'). }
  destruct F as (w & ->). exists w. split; [easy|]. rewrite vnorm_in in E. now injection E as ->.
Qed.
Lemma spoil_length {N : Num} time g ar tr draws nrm time' sp off angle dt :
  spoil_initial_guess time g ar tr draws = Ok (nrm, (time', sp, (off, angle, dt))) ->
  exists init, leb (vnorm (vsub_m (vadd_m off init) init)) (snd tr) = true /\ leb (fst tr) (vnorm (vsub_m (vadd_m off init) init)) = true.
Proof.
  unfold spoil_initial_guess. cbv zeta. destruct (isclose _ _ _); cbn [assert_ bind]; [|easy]. destruct (get_random _ _); cbn [bind]; [|easy].
  destruct (to_pose g) as [guess p]. destruct (leb _ (snd ar)); cbn [assert_ bind]; [|easy]. destruct (leb (fst ar) _); cbn [assert_ bind]; [|easy].
  destruct (leb _ (snd tr)) eqn:E1; cbn [assert_ bind]; [|easy]. destruct (leb (fst tr) _) eqn:E2; cbn [assert_ bind]; [|easy].
  intros E. injection E as <- <- <- <- <- <-. eauto.
Qed.
Lemma spoil_translation time g ar tmin tmax draws nrm time' sp off angle dt :
  spoil_initial_guess (N:=XR) time g ar (Fin tmin, Fin tmax) draws = Ok (nrm, (time', sp, (off, angle, dt))) ->
  exists o, off = inV o /\ tmin <= len3 o <= tmax.
Proof.
  intros E. apply spoil_length in E as (init & E1 & E2). cbn [fst snd] in E1, E2. destruct off as [o1 o2 o3].
  set (n := vnorm _) in *. cbn [leb XR] in E1, E2. apply xleb_fin_r in E1 as [(x & E1 & B1)|E1]; [|rewrite E1 in E2; discriminate].
  rewrite E1 in E2. apply xleb_fin_l in E2 as [(n' & [= <-] & B2)|]; [|easy]. unfold n in E1. clear n.
  apply vnorm_fin in E1 as (w & E & L). unfold vsub_m, vadd_m in E. cbn [vx vy vz sub add XR] in E. injection E as X Y Z.
  apply xsub_fin in X as (x1 & x2 & X1 & X2 & X3). apply xsub_fin in Y as (y1 & y2 & Y1 & Y2 & Y3). apply xsub_fin in Z as (z1 & z2 & Z1 & Z2 & Z3).
  apply xadd_fin in X1 as (x3 & x4 & -> & X4 & X5). apply xadd_fin in Y1 as (y3 & y4 & -> & Y4 & Y5). apply xadd_fin in Z1 as (z3 & z4 & -> & Z4 & Z5).
  rewrite X2 in X4. rewrite Y2 in Y4. rewrite Z2 in Z4. injection X4 as <-. injection Y4 as <-. injection Z4 as <-.
  exists (RV x3 y3 z3). split; [easy|]. replace (RV x3 y3 z3) with w; [lra|]. destruct w as [w1 w2 w3]. cbn [v1 v2 v3] in *. f_equal; lra.
Qed.
(** The reported translation offset is a vector whose length lies in the range of the experiment. *)
Theorem C62_translations : forall calibrate estimate sets af m ws np py ls i k, schedule ws (120 * Z.to_nat m) ->
  sweep (N:=XR) calibrate estimate sets af m ws np py (Ok ls) ->
  (i < 120 * Z.to_nat m)%nat -> (k < length (pairs (length sets)))%nat -> let l := INR ((i / Z.to_nat m) mod 10) in
  exists o : rv, cell_at ls (i * length (pairs (length sets)) + k) "spoiled_initial_guess_translation_offset" (CArr (N:=XR) [Fin (v1 o); Fin (v2 o); Fin (v3 o)]) /\
    l / 10 <= len3 o <= (l + 1) / 10.
Proof.
  intros calibrate estimate sets af m ws np py ls i k SCH SW Li Lk l. destruct sets as [|d sets]; [cbn in Lk; lia|].
  destruct (C62_lines _ _ d _ _ _ _ _ _ _ SCH SW) as (_ & _ & cals & es & ST & LE & -> & H).
  destruct (nth_error es i) as [e|] eqn:NE; [|apply nth_error_None in NE; lia].
  apply (schedule_runs ws) in Li as (w & r & R); [|exact SCH]. destruct (H _ _ _ _ R NE) as (_ & RP).
  destruct (pair_exists _ _ _ _ _ ST Lk) as (p & c & NP & NC).
  destruct (RP _ _ _ NP NC) as (g & nrm & time & sp & off & angle & dt & _ & SP & _ & A & _). unfold translation_range in SP. cbn [lit XR] in SP.
  apply spoil_translation in SP as (o & -> & L). exists o. split.
  - eexists. split; [apply line_number; eauto|]. rewrite shown_combine. unfold shown. rewrite (nth_of _ _ _ _ A). do 21 apply in_cons. left. reflexivity.
  - replace (l / 10) with (Rlit (Z.of_nat (i / Z.to_nat m mod 10)) (-1)); [replace ((l + 1) / 10) with (Rlit (Z.of_nat (S (i / Z.to_nat m mod 10))) (-1)); [exact L|]|].
    + unfold Rlit. cbn. rewrite Zpos_P_of_succ_nat, succ_IZR, <- INR_IZR_INZ. unfold l. field.
    + unfold Rlit. cbn. rewrite <- INR_IZR_INZ. unfold l. field.
Qed.

(** *** file names *)
Definition underscore : ascii := "_"%char.
Lemma nilempty_no_underscore d : occurs underscore (NilEmpty.string_of_uint d) = 0%nat.
Proof. induction d; cbn [NilEmpty.string_of_uint occurs]; try reflexivity; rewrite IHd; reflexivity. Qed.
Lemma show_no_underscore n : occurs underscore (show_nat n) = 0%nat.
Proof. unfold show_nat, NilZero.string_of_uint. destruct (Nat.to_uint n) eqn:E; try reflexivity; rewrite <- E; apply nilempty_no_underscore. Qed.
Lemma show_inj n n' : show_nat n = show_nat n' -> n = n'.
Proof.
  assert (U : forall n, Nat.to_uint n <> Decimal.Nil).
  { intros k E. assert (X := DecimalNat.Unsigned.to_of (Nat.to_uint k)). rewrite DecimalNat.Unsigned.of_to in X. rewrite E in X. discriminate. }
  intros E. apply DecimalNat.Unsigned.to_uint_inj. unfold show_nat in E.
  assert (X := NilZero.usu (Nat.to_uint n) (U n)). assert (Y := NilZero.usu (Nat.to_uint n') (U n')). rewrite E, Y in X. now injection X.
Qed.
Lemma append_cancel p a b : (p ++ a = p ++ b)%string -> a = b.
Proof. induction p as [|c p IH]; cbn; [easy|]. intros E. injection E as E. auto. Qed.
Lemma append_underscore p : forall q a b, occurs underscore p = 0%nat -> occurs underscore q = 0%nat ->
  (p ++ String underscore a = q ++ String underscore b)%string -> p = q /\ a = b.
Proof.
  induction p as [|c p IH]; intros [|c' q] a b P Q E; cbn [append occurs] in *.
  - injection E as ->. easy.
  - injection E as <- _. rewrite Ascii.eqb_refl in Q. discriminate.
  - injection E as -> _. rewrite Ascii.eqb_refl in P. discriminate.
  - injection E as -> E. destruct (IH q a b) as [-> ->]; try easy; [lia|lia].
Qed.
(** Two experiments of a sweep, or two pairs of an experiment, never share a file, whatever is drawn.  (The number
    behind _it_ is the same in all of them: m - 1.) *)
Theorem C62_files : forall (N : Num) dir m (x x' : experiment (N:=N)) k k' o o' f f',
  experiment_file dir m x k o f = experiment_file dir m x' k' o' f' -> x_index x = x_index x' /\ k = k' /\ (o ++ "_" ++ f = o' ++ "_" ++ f')%string.
Proof.
  intros N dir m x x' k k' o o' f f' E. unfold experiment_file, sweep_file in E. apply append_cancel, append_cancel, append_cancel, append_cancel in E.
  cbn [append] in E. apply append_underscore in E as [E1 E]; [|apply show_no_underscore..]. apply show_inj in E1. split; [easy|].
  cbn [append] in E. injection E as E. apply append_cancel in E. injection E as E. apply append_underscore in E as [E2 E]; [|apply show_no_underscore..].
  apply show_inj in E2. easy.
Qed.
Example C62_file_example : experiment_file (N:=XR) "/data" 2 (mkExperiment (N:=XR) (n0, n0) (n0, n0) (n0, n0) 0 6) 1 "dt_0.0_ds_0.05_da_0.1" "optimized.json" =
  "/data/optimization/optimization_w_spoiled_init_calibration_run_6_it_1_pose_pair_1_dt_0.0_ds_0.05_da_0.1_optimized.json"%string.
Proof. reflexivity. Qed.

(** *** when the sweep completes *)
Section Completes.
  Context {N : Num}.
  Variable calibrate : algorithm -> nat -> pose_set * pose_set -> nat -> res (T * nat * @result N * T).
  Variable estimate : nat -> pose_set * pose_set -> bool * bool -> nat -> @json N -> @estimation N.
  Lemma experiment_eq a (num : nat) todo ps cals it0 x np py c rows : length ps = length todo -> length cals = length todo ->
    mapM (row_of estimate a x np py c) (combine todo (seq 0 (length todo))) = Ok rows ->
    (forallb s_opt_success rows = true -> exists l, compute_loop_error_opt (map s_dq rows) (Z.of_nat num) = Ok l) ->
    exists e dqs, run_optimization_experiment estimate a num todo (fold_left push_cal (combine ps cals) (init_from_configs new_entry a it0)) x np py c = Ok (e, dqs).
  Proof.
    intros LP LC M LOOP. unfold run_optimization_experiment. replace c with (c + 0)%nat by lia. rewrite sweep_pairs_spec.
    match goal with |- context [mapM ?f ?l] => replace (mapM f l) with (Ok rows) by (symmetry; exact M) end. cbn [bind app].
    apply mapM_length in M. rewrite combine_length, seq_length, Nat.min_id in M. rewrite map_length, M, Nat.eqb_refl. cbn [assert_ bind].
    set (template := fold_left push_cal _ _).
    destruct (push_cal_all ps cals (init_from_configs new_entry a it0)) as (T1 & T2 & T3 & T4 & T5 & T6 & T7 & T8 & T9 & T10 & T11 & T12 & T13 & T14 & T15 & T16 & T17 & T18 & T19 & T20); [lia|].
    fold template in T1, T2, T3, T4, T5, T6, T7, T8, T9, T10, T11, T12, T13, T14, T15, T16, T17, T18, T19, T20. clearbody template.
    destruct (push_row_all rows (set_iteration template (x_iteration x))) as (R1 & R2 & R3 & R4 & R5 & R6 & R7 & R8 & R9 & R10 & R11 & R12 & R13 & R14 & R15 & R16 & R17 & R18 & R19 & R20).
    set (f := fold_left _ _ _) in *. clearbody f.
    cbn [set_iteration init_from_configs new_entry app e_name e_iteration e_prefiltering_enabled e_loop_error_position e_loop_error_orientation
      e_optimization_enabled e_dataset_names e_success e_rmse e_num_inliers e_num_initial_poses e_num_poses_kept e_runtimes
      e_singular_values e_bad_singular_value e_optimization_success e_optimization_runtime e_spoiled_angle e_spoiled_translation e_spoiled_time] in *.
    assert (F : check_length f (length todo) = Ok tt).
    { apply C50_check_length. unfold filled. rewrite R7, R8, R9, R10, R11, R12, R13, R14, R15, R16, R17, R18, R19, R20, T7, T8, T9, T10, T11, T12, T13, T14, T15, T16, T17, T18, T19, T20.
      cbn [app]. rewrite !map_length. repeat split; assumption. }
    rewrite F. cbn [bind]. destruct (_ =? length todo)%nat eqn:CT; [|eauto].
    destruct LOOP as (l & ->); [|cbn [bind]; eauto].
    apply Nat.eqb_eq in CT. rewrite R16, T16 in CT. cbn [app] in CT. rewrite <- M, <- (map_length s_opt_success) in CT. apply count_true_all in CT.
    apply forallb_forall. intros r I. rewrite Forall_map, Forall_forall in CT. now apply CT.
  Qed.
  Lemma mapM_total {A B} (f : A -> res B) l : (forall x, In x l -> exists y, f x = Ok y) -> exists ys, mapM f l = Ok ys.
  Proof.
    induction l as [|x l IH]; intros H; [now exists []|]. cbn [mapM]. destruct (H x (or_introl eq_refl)) as (y & ->). cbn [bind].
    destruct IH as (ys & ->); [intros; apply H; now right|]. cbn [bind]. eauto.
  Qed.
End Completes.

(** random numbers: from [0, 1], not all exactly in the middle where a direction or an axis is drawn *)
Definition draws_ok (np : nat -> xr) (py : nat -> nat -> bool * xr) : Prop :=
  (forall k, exists u, np k = Fin u /\ 0 <= u <= 1) /\ (forall w k, exists u, snd (py w k) = Fin u /\ 0 <= u <= 1) /\
  forall c, (exists b, (1 <= b <= 3)%nat /\ np (8 * c + b)%nat <> Fin (1 / 2)) /\ (exists b, (5 <= b <= 7)%nat /\ np (8 * c + b)%nat <> Fin (1 / 2)).
Lemma uniform_in a b u : uniform (N:=XR) (Fin a, Fin b) (Fin u) = Fin (a + (b - a) * u).
Proof. reflexivity. Qed.
Lemma len3_pos v : v1 v <> 0 \/ v2 v <> 0 \/ v3 v <> 0 -> 0 < len3 v.
Proof.
  intros H. unfold len3. apply sqrt_lt_R0. destruct v as [x y z]. unfold dot3. cbn [v1 v2 v3] in *.
  assert (X := Rle_0_sqr x). assert (Y := Rle_0_sqr y). assert (Z := Rle_0_sqr z). unfold Rsqr in *.
  destruct H as [H|[H|H]]; apply Rsqr_pos_lt in H; unfold Rsqr in H; lra.
Qed.
Lemma draw_in np py w c amin amax tmin tmax : draws_ok np py -> amin <= amax -> tmin <= tmax -> exists dt sign dir len axis angle,
  draw (N:=XR) np (py w) c (n0 (N:=XR), n0 (N:=XR)) (Fin amin, Fin amax) (Fin tmin, Fin tmax) =
    mkSpoil (N:=XR) (Fin dt) (Fin sign) (inV dir) (Fin len) (inV axis) (Fin angle) /\
  0 < len3 dir /\ 0 < len3 axis /\ tmin <= len <= tmax /\ amin <= angle <= amax.
Proof.
  intros (A & B & D) LA LT. destruct (B w c) as (v & V & Bv). destruct (D c) as ((b1 & L1 & N1) & (b2 & L2 & N2)).
  destruct (A (8 * c + 0)%nat) as (u0 & U0 & _). destruct (A (8 * c + 1)%nat) as (u1 & U1 & _). destruct (A (8 * c + 2)%nat) as (u2 & U2 & _). destruct (A (8 * c + 3)%nat) as (u3 & U3 & _).
  destruct (A (8 * c + 4)%nat) as (u4 & U4 & B4). destruct (A (8 * c + 5)%nat) as (u5 & U5 & _). destruct (A (8 * c + 6)%nat) as (u6 & U6 & _). destruct (A (8 * c + 7)%nat) as (u7 & U7 & _).
  exists (0 + (0 - 0) * u0), (if fst (py w c) then -1 else 1), (RV (-1 + (1 - -1) * u1) (-1 + (1 - -1) * u2) (-1 + (1 - -1) * u3)), (tmin + (tmax - tmin) * u4),
    (RV (-1 + (1 - -1) * u5) (-1 + (1 - -1) * u6) (-1 + (1 - -1) * u7)), (amin + (amax - amin) * v).
  split; [|split; [|split; [|split]]].
  - unfold draw. cbn [T XR] in *. rewrite U0, U1, U2, U3, U4, U5, U6, U7, V. destruct (fst (py w c)); reflexivity.
  - apply len3_pos. cbn [v1 v2 v3]. destruct b1 as [|[|[|[|b]]]]; try lia.
    + left. intros E. apply N1. rewrite U1. f_equal. lra.
    + right. left. intros E. apply N1. rewrite U2. f_equal. lra.
    + right. right. intros E. apply N1. rewrite U3. f_equal. lra.
  - apply len3_pos. cbn [v1 v2 v3]. destruct b2 as [|[|[|[|[|[|[|[|b]]]]]]]]; try lia.
    + left. intros E. apply N2. rewrite U5. f_equal. lra.
    + right. left. intros E. apply N2. rewrite U6. f_equal. lra.
    + right. right. intros E. apply N2. rewrite U7. f_equal. lra.
  - nra.
  - nra.
Qed.
Lemma pairs_NoDup n : NoDup (pairs n).
Proof.
  assert (G : forall l l' : list (nat * nat), NoDup l -> NoDup l' -> (forall x, In x l -> In x l' -> False) -> NoDup (l ++ l')).
  { induction l as [|x l IH]; intros l' A B D; [exact B|]. inversion A as [|? ? NI A']; subst. cbn [app]. constructor; [|apply IH; [easy..|]; intros y I; apply D; now right].
    rewrite in_app_iff. intros [I|I]; [easy|]. apply (D x); [now left|easy]. }
  induction n as [|n IH]; [constructor|]. rewrite pairs_S. apply G.
  - apply FinFun.Injective_map_NoDup; [intros a b E; congruence|apply seq_NoDup].
  - apply FinFun.Injective_map_NoDup; [|exact IH]. intros [a b] [a' b'] E. cbn in E. congruence.
  - intros x I J. apply in_map_iff in I as (j & <- & _). apply in_map_iff in J as (p & E & _). discriminate.
Qed.
Lemma ranges_in i j : exists amin amax tmin tmax, angle_range (N:=XR) i = (Fin amin, Fin amax) /\ translation_range (N:=XR) j = (Fin tmin, Fin tmax) /\
  amin = INR i * (PI / 12) /\ amax = INR (S i) * (PI / 12) /\ tmin = INR j / 10 /\ tmax = INR (S j) / 10.
Proof.
  eexists _, _, _, _. split; [|split; [|split; [reflexivity|split; [reflexivity|split; reflexivity]]]].
  - unfold angle_range. cbn [lit XR div mul npi xdiv xmul]. unfold Rlit. cbn [xdiv]. destruct (Req_EM_T (IZR 180) 0) as [E|_]; [lra|]. cbn [xmul].
    rewrite !mult_IZR, <- !INR_IZR_INZ. f_equal; f_equal; field.
  - unfold translation_range. cbn [lit XR]. unfold Rlit. cbn [Z.pow_pos Pos.iter]. rewrite <- !INR_IZR_INZ. reflexivity.
Qed.
Lemma spoil_completes time g np py w c i j : unitdq g -> draws_ok np py -> (i < 12)%nat ->
  exists out, spoil_initial_guess (N:=XR) (Fin time) (inD g) (angle_range i) (translation_range j)
    (draw (N:=XR) np (py w) c (n0 (N:=XR), n0 (N:=XR)) (angle_range i) (translation_range j)) = Ok out.
Proof.
  intros U D I. destruct (ranges_in i j) as (amin & amax & tmin & tmax & EA & ET & E1 & E2 & E3 & E4). rewrite EA, ET. assert (P := PI_RGT_0). assert (P3 := PI2_3_2).
  assert (I0 := pos_INR i). assert (J0 := pos_INR j). assert (I1 : INR (S i) <= 12) by (replace 12 with (INR 12) by (cbn; lra); apply le_INR; lia).
  assert (LA : amin <= amax) by (rewrite E1, E2, S_INR; nra). assert (LT : tmin <= tmax) by (rewrite E3, E4, S_INR; lra).
  destruct (draw_in np py w c amin amax tmin tmax D LA LT) as (dt & sign & dir & len & axis & angle & -> & Pd & Pa & Bl & Ba).
  assert (HA : 0 <= amin) by (rewrite E1; nra). assert (HT : 0 <= tmin) by (rewrite E3; lra). assert (HP : amax <= 2 * PI) by (rewrite E2; nra).
  destruct (Rle_dec (1 / 10000) angle) as [L|L]; [rewrite C61_large by easy; eauto|].
  assert (Z : i = O). { destruct i as [|i]; [easy|]. exfalso. apply L. rewrite S_INR in E1. assert (Y := pos_INR i). assert (PI / 12 <= amin) by (rewrite E1; nra). lra. }
  assert (A0 : amin = 0) by (rewrite E1, Z; cbn; lra).
  destruct (Classical_Prop.classic (elementwise_close (dr g) (hmul (rotation_about axis angle) (dr g)))) as [C|C].
  - rewrite C61_close by easy. destruct (Rlt_dec 0 amin); [lra|]. eauto.
  - rewrite C61_exact by easy. eauto.
Qed.
(** what the batch estimator may do: fail, or write a calibration that can be read and evaluated *)
Definition estimator_ok (estimate : nat -> @pose_set XR * pose_set -> bool * bool -> nat -> @json XR -> @estimation XR) : Prop :=
  forall i pr fl k file, match estimate i pr fl k file with
  | EstFailed => True
  | EstNoFile => False
  | EstWritten _ j => exists opt f v, from_json (N:=XR) j false = Ok opt /\ pose_dq opt = inD f /\ unitdq f /\
      evaluate_calibration (set_poses (fst pr)) (set_poses (snd pr)) (pose_dq opt) (Extrinsic.time_offset opt)
        (hand_config get_exhaustive_search_scalar_part_inliers_config) = Ok v
  end.
Theorem C62_completes : forall calibrate estimate d sets af m ws np py out, schedule ws (120 * Z.to_nat m) -> (0 < m)%Z -> (2 <= length sets)%nat ->
  length (flags_of sets af) = length sets ->
  (forall k p, nth_error (pairs (length sets)) k = Some p -> exists time num r rt g,
     calibrate get_spoiled_config 0%nat (pair_files d sets p) k = Ok (Fin time : @T XR, num, r, rt) /\ dq_H_E r = Some (inD g) /\ unitdq g) ->
  draws_ok np py -> estimator_ok estimate ->
  sweep (N:=XR) calibrate estimate sets af m ws np py out -> exists ls, out = Ok ls /\ length ls = (120 * Z.to_nat m * length (pairs (length sets)))%nat.
Proof.
  intros calibrate estimate d sets af m ws np py out SCH M L2 LF CAL DR EST SW.
  assert (G : exists ls, out = Ok ls).
  2:{ destruct G as (ls & ->). exists ls. split; [easy|]. destruct (C62_lines _ _ d _ _ _ _ _ _ _ SCH SW) as (_ & _ & cals & es & _ & LE & -> & _).
      rewrite (length_blocks _ (length (pairs (length sets)))), LE; [easy|]. intros e _. now rewrite map_length, seq_length. }
  assert (PR : exists cals, prepare calibrate sets af m = Ok (shipped (Z.to_nat m), combine (combine (pose_pairs sets) (flag_pairs (flags_of sets af))) (map guess_of cals),
      fold_left push_cal (combine (pose_pairs sets) cals) (init_from_configs new_entry get_spoiled_config 0)) /\ length cals = length (pairs (length sets)) /\
      forall c, In c cals -> exists time g, guess_of c = (Some (inD g), Fin time) /\ unitdq g).
  { unfold prepare. fold (flags_of sets af). apply Nat.leb_le in L2. rewrite L2. cbn [assert_ bind]. rewrite LF, Nat.eqb_refl. cbn [assert_ bind].
    rewrite flag_pairs_map, map_length, LF, pose_pairs_length, Nat.eqb_refl. cbn [assert_ bind]. rewrite initial_guesses_spec.
    assert (E : exists cals, mapM (fun q => calibrate get_spoiled_config 0%nat (fst q) (snd q)) (combine (pose_pairs sets) (seq 0 (length (pose_pairs sets)))) = Ok cals /\
      forall c, In c cals -> exists time g, guess_of c = (Some (inD g), Fin time) /\ unitdq g).
    { rewrite (pose_pairs_map d), map_length.
      assert (G : forall P o, (forall k p, nth_error P k = Some p -> exists time num r rt g,
          calibrate get_spoiled_config 0%nat (pair_files d sets p) (o + k)%nat = Ok (Fin time : @T XR, num, r, rt) /\ dq_H_E r = Some (inD g) /\ unitdq g) ->
        exists cals, mapM (fun q => calibrate get_spoiled_config 0%nat (fst q) (snd q)) (combine (map (fun p => (nth (fst p) sets d, nth (snd p) sets d)) P) (seq o (length P))) = Ok cals /\
          forall c, In c cals -> exists time g, guess_of c = (Some (inD g), Fin time) /\ unitdq g).
      { induction P as [|p P IH]; intros o C; [exists []; split; [easy|intros c []]|]. cbn [length seq combine map mapM fst snd].
        destruct (C O p eq_refl) as (time & num & r & rt & g & E & G & U). rewrite Nat.add_0_r in E. unfold pair_files in E. cbn [T XR] in *. rewrite E. cbn [bind].
        destruct (IH (S o)) as (cals & E' & F). { intros k p' NK. rewrite plus_Sn_m, plus_n_Sm. now apply C. }
        cbn [T XR] in *. rewrite E'. cbn [bind]. eexists. split; [reflexivity|]. intros c [<-|I]; [|auto]. exists time, g. cbn [guess_of]. now rewrite G. }
      now apply (G _ O). }
    destruct E as (cals & MC & F). exists cals. assert (LC := mapM_length _ _ _ MC). rewrite combine_length, seq_length, Nat.min_id, pose_pairs_length in LC.
    rewrite MC. cbn [bind]. apply Z.ltb_lt in M. rewrite M. cbn [assert_ bind app]. split; [reflexivity|]. easy. }
  destruct PR as (cals & PR & LC & GC).
  assert (LP := pose_pairs_length sets). assert (LFP : length (flag_pairs (flags_of sets af)) = length (pairs (length sets))) by now rewrite flag_pairs_map, map_length, LF.
  set (todo := combine _ (map guess_of cals)) in *. assert (LT : length todo = length (pairs (length sets))).
  { unfold todo. rewrite !combine_length, map_length, LP, LFP. cbn [T XR] in *. rewrite LC, !Nat.min_id. reflexivity. }
  assert (TASK : forall w r i, runs_as ws w r i -> exists e, task estimate sets (shipped (Z.to_nat m)) todo (fold_left push_cal (combine (pose_pairs sets) cals) (init_from_configs new_entry get_spoiled_config 0)) np py w r i = Ok e).
  { intros w r i R. assert (Li : (i < 120 * Z.to_nat m)%nat) by (apply (schedule_runs ws); eauto). unfold task.
    rewrite (index_some _ _ _ (nth_shipped _ _ Li)). cbn [bind]. set (x := mkExperiment _ _ _ _ _).
    assert (Ia : (i / Z.to_nat m / 10 < 12)%nat). { apply Nat.div_lt_upper_bound; [lia|]. apply Nat.div_lt_upper_bound; lia. }
    assert (ROW : forall q, In q (combine todo (seq 0 (length todo))) -> exists row, row_of estimate get_spoiled_config x np (py w) (r * length todo) q = Ok row /\
      (s_opt_success row = true -> exists f, s_dq row = Some (inD f) /\ unitdq f)).
    { intros [[[pr fl] gs] k] I. apply in_combine_l in I. apply in_combine_r in I. apply in_map_iff in I as (c & E & I). destruct (GC c I) as (time & g & E' & U).
      rewrite E' in E. subst gs. unfold row_of, sweep_pair. cbn [fst snd bind].
      destruct (spoil_completes time g np py w (r * length todo + k) (i / Z.to_nat m / 10) (i / Z.to_nat m mod 10) U DR Ia) as ([nrm [[time' sp] [[off angle] dt]]] & SP).
      subst x. cbn [x_angle x_translation x_time x_index]. cbn [T XR] in *. rewrite SP. cbn [bind]. destruct (write_json _ _) as [cc file].
      specialize (EST i pr fl k file). destruct (estimate i pr fl k file) as [| |rt j]; [|easy|].
      - eexists. split; [reflexivity|]. cbn [s_opt_success]. discriminate.
      - destruct EST as (opt & f & [[rp ro] n] & FJ & PD & UF & EV). rewrite FJ. cbn [bind]. 
        assert (EV' := EV). cbn [get_spoiled_config base]. cbn [T XR] in *. rewrite EV. cbn [bind]. eexists. split; [reflexivity|].
        cbn [s_opt_success s_dq]. intros _. exists f. rewrite PD, to_pose_unit by easy. easy. }
    assert (MR : exists rows, mapM (row_of estimate get_spoiled_config x np (py w) (r * length todo)) (combine todo (seq 0 (length todo))) = Ok rows).
    { apply mapM_total. intros q I. destruct (ROW q I) as (row & E & _). eauto. }
    destruct MR as (rows & MR). edestruct (experiment_eq estimate get_spoiled_config (length sets) todo (pose_pairs sets) cals 0 x np (py w) (r * length todo) rows) as (e & dqs & RO).
    - exact (eq_trans LP (eq_sym LT)).
    - exact (eq_trans LC (eq_sym LT)).
    - exact MR.
    - intros ALL. rewrite forallb_forall in ALL.
      assert (DQ : Forall2 (fun _ row => exists f, s_dq row = Some (inD f) /\ unitdq f) (pairs (length sets)) rows).
      { assert (LR := mapM_length _ _ _ MR). rewrite combine_length, seq_length, Nat.min_id, LT in LR. apply mapM_Forall2 in MR.
        assert (H : Forall (fun row => exists f, s_dq row = Some (inD f) /\ unitdq f) rows).
        { clear LR. induction MR as [|q row qs rows E F IH]; [constructor|]. constructor; [|apply IH; intros; [apply ROW|apply ALL]; now right].
          destruct (ROW q (or_introl eq_refl)) as (row' & E' & S). rewrite E in E'. injection E' as <-. apply S. apply ALL. now left. }
        clear -LR H. revert LR. generalize (pairs (length sets)). induction H as [|row rows E H IH]; intros [|p l] L; try easy; constructor; [exact E|]. apply IH. now injection L. }
      assert (FN : exists f : nat -> nat -> rdq, (forall a b, unitdq (f a b)) /\ map s_dq rows = map (fun p => Some (inD (f (fst p) (snd p)))) (pairs (length sets))).
      { assert (ND : NoDup (pairs (length sets))) by apply pairs_NoDup. clear -DQ ND.
        revert ND. induction DQ as [|p row l rows (f & E & U) F IH]; intros ND; [exists (fun _ _ => dqone); split; [intros; apply unitdq_one|easy]|].
        inversion ND as [|? ? NI ND']; subst. destruct IH as (f' & U' & E'); [easy|]. 
        exists (fun a b => if (a =? fst p)%nat && (b =? snd p)%nat then f else f' a b). split; [intros a b; destruct (_ && _)%bool; [easy|apply U']|].
        cbn [map]. rewrite E, !Nat.eqb_refl, E'. cbn [andb]. f_equal. apply map_ext_in. intros [a b] I. cbn [fst snd].
        destruct (a =? fst p)%nat eqn:E1; [|easy]. destruct (b =? snd p)%nat eqn:E2; [|easy]. apply Nat.eqb_eq in E1, E2. exfalso. apply NI. destruct p; cbn in *; subst; easy. }
      destruct FN as (f & U & ->). rewrite (loop_complete _ _ (fun a b => inD (f a b))) by easy.
      destruct (C48_loop (length sets) f L2) as (_ & deg & E & _); [intros; apply U|]. rewrite E. eauto.
    - rewrite RO. cbn [bind fst]. eauto. }
  inversion SW as [e PR'|xs todo' template e PR' PM|xs todo' template es lss PR' PM ML E]; subst; rewrite PR in PR'; try easy; injection PR' as <- <- <-.
  - exfalso. inversion PM as [|w r i e' R F _]; subst. destruct (TASK w r i R) as (x & X). congruence.
  - exists (flat_map (fun e => map (fun k => map snd (shown e k)) (seq 0 (length todo))) es).
    rewrite (mapM_ok _ (fun e => map (fun k => map snd (shown e k)) (seq 0 (length todo)))); [cbn [bind]; now rewrite flat_map_concat_map|].
    intros e I. apply lines_shown. apply In_nth_error in I as (i & NE). inversion PM as [out' LO RUN|]; subst. rewrite shipped_length in LO.
    assert (Li : (i < 120 * Z.to_nat m)%nat) by (rewrite <- LO; apply nth_error_Some; congruence).
    apply (schedule_runs ws) in Li as Li'; [|exact SCH]. destruct Li' as (w & r & R). destruct (RUN _ _ _ R) as (e' & TE & NE'). rewrite NE in NE'. injection NE' as <-.
    unfold task in TE. rewrite (index_some _ _ _ (nth_shipped _ _ Li)) in TE. cbn [bind] in TE.
    destruct (run_optimization_experiment _ _ _ _ _ _ _ _ _) as [[e' dqs]|] eqn:RO; cbn [bind fst] in TE; [|easy]. injection TE as <-.
    apply experiment_ok in RO; [|exact (eq_trans LP (eq_sym LT))|exact (eq_trans LC (eq_sym LT))].
    destruct RO as (rows & MR & F1 & F2 & F3 & F4 & F5 & F6 & F7 & F8 & F9 & F10 & F11 & F12 & F13 & F14 & F15 & F16 & F17 & F18 & FL).
    assert (LR := mapM_length _ _ _ MR). rewrite combine_length, seq_length, Nat.min_id in LR.
    unfold filled. rewrite F5, F6, F7, F8, F9, F10, F11, F12, F13, F14, F15, F16, F17, F18, !map_length. rewrite LT in *. repeat split; first [exact LP|exact LC|exact LR].
Qed.
(** The hypotheses can be met: two sensors calibrated to the identity, an estimator that always fails, eight
    workers taking chunks of eight tasks in turn. *)
Definition chunk (c : nat) : list nat := filter (fun i => i <? 240)%nat (seq (8 * c) 8).
Definition round_robin : list (list nat) := map (fun w => concat (map (fun q => chunk (w + 8 * q)) (seq 0 4))) (seq 0 8).
Lemma round_robin_schedule : schedule round_robin 240.
Proof.
  apply NoDup_Permutation_bis.
  - apply (nodup_check Nat.eq_dec). vm_compute. reflexivity.
  - vm_compute. lia.
  - intros i I. apply in_seq. assert (F : forallb (fun i => (i <? 240)%nat) (concat round_robin) = true) by (vm_compute; reflexivity).
    rewrite forallb_forall in F. specialize (F i I). apply Nat.ltb_lt in F. lia.
Qed.
Example C62_example : exists calibrate estimate sets ls np py,
  sweep (N:=XR) calibrate estimate sets None 2 round_robin np py (Ok ls) /\ length ls = 240%nat /\
  (forall w, (w < 8)%nat -> runs_as round_robin w 0 (8 * w)) /\ length (pairs (length sets)) = 1%nat.
Proof.
  pose (set_ := mkSet (N:=XR) "a.csv" []).
  pose (res := mkResult (N:=XR) true (Some (inD dqone)) None None 5 None None).
  pose (calibrate := fun (_ : algorithm (N:=XR)) (_ : nat) (_ : @pose_set XR * @pose_set XR) (_ : nat) => Ok (Fin 0 : @T XR, 5%nat, res, Fin 0 : @T XR)).
  pose (estimate := fun (_ : nat) (_ : @pose_set XR * @pose_set XR) (_ : bool * bool) (_ : nat) (_ : @json XR) => EstFailed (N:=XR)).
  pose (np := fun _ : nat => Fin (3 / 4)). pose (py := fun _ _ : nat => (true, Fin (1 / 2))).
  destruct (C62_outcome (N:=XR) calibrate estimate [set_; set_] None 2 round_robin np py round_robin_schedule) as (out & SW).
  destruct (C62_completes calibrate estimate set_ [set_; set_] None 2 round_robin np py out round_robin_schedule) as (ls & -> & L); try easy; try (cbn; lia).
  - intros k p _. exists 0, 5%nat, res, (Fin 0), dqone. repeat split; apply unitdq_one.
  - split; [intros k; exists (3 / 4); split; [easy|lra]|]. split; [intros w k; exists (1 / 2); split; [easy|lra]|].
    intros c. split; [exists 1%nat|exists 5%nat]; (split; [lia|]); unfold np; intros E; injection E; lra.
  - exists calibrate, estimate, [set_; set_], ls, np, py. split; [exact SW|]. split; [rewrite L; reflexivity|]. split; [|reflexivity].
    intros w Lw. do 8 (destruct w as [|w]; [eexists; split; reflexivity|]). lia.
Qed.
