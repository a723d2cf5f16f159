(** * Property C51: the experiment driver and failed calibrations. *)

From Coq Require Import Reals ZArith String List Bool Arith Lia.
From Verif Require Import Num Py XReal Quat DualQuat HandEye TimeAlign Ransac Extrinsic Verification Experiments Driver
  Spec Embed DualFacts ListFacts TimeFacts ResampleFacts PropExtrinsic PropVerification PropTables.
Import ListNotations.
Local Open Scope list_scope.

(** The calibrations that the loop error uses, for [n] sensors. *)
Definition on_loop (n : nat) (p : nat * nat) : Prop := snd p = S (fst p) \/ (fst p = O /\ snd p = (n - 1)%nat).

(** *** indices *)
Lemma loop_indices {A} n (g : nat * nat -> A) : (2 <= n)%nat ->
  py_index (map g (pairs n)) 0 = Ok (g (O, 1%nat)) /\
  chain_middle (map g (pairs n)) (Z.of_nat n) (Z.to_nat (Z.of_nat n - 2)) 0 0 = Ok (map (fun i => g (i, S i)) (seq 1 (n - 2))) /\
  py_index (map g (pairs n)) (Z.of_nat n - 2) = Ok (g (O, (n - 1)%nat)).
Proof.
  intros N2.
  assert (PB : pairs n = flat_map (pairs_from n) (seq 0 (n - 0))) by (now rewrite Nat.sub_0_r).
  assert (S0 : skipn 0 (map g (pairs n)) = map g (flat_map (pairs_from n) (seq 0 (n - 0)))) by (now rewrite PB).
  split; [|split].
  - change 0%Z with (Z.of_nat 0). rewrite py_index_nat. rewrite pairs_block in S0 by lia.
    destruct (pairs_from_hd n 0 (flat_map (pairs_from n) (seq 1 (n - 1))) ltac:(lia)) as (r & E). rewrite E in S0. cbn [map] in S0.
    exact (index_skipn _ _ _ _ S0).
  - replace (Z.to_nat (Z.of_nat n - 2)) with (n - 2)%nat by lia. exact (middle_spec n g (n - 2) 0 0 ltac:(lia) S0).
  - replace (Z.of_nat n - 2)%Z with (Z.of_nat (n - 2)) by lia. rewrite py_index_nat. unfold index.
    rewrite PB, pairs_block, map_app by lia. rewrite nth_error_app1 by (rewrite map_length, pairs_from_length; lia).
    rewrite nth_error_map. unfold pairs_from. rewrite nth_error_map.
    rewrite (nth_error_nth' _ 0%nat) by (rewrite seq_length; lia). rewrite seq_nth by lia. cbn [option_map].
    replace (1 + (n - 2))%nat with (n - 1)%nat by lia. easy.
Qed.
Lemma pairs_in n i j : In (i, j) (pairs n) <-> (i < j < n)%nat.
Proof.
  unfold pairs. rewrite in_flat_map. split.
  - intros (k & Ik & I). unfold pairs_from in I. apply in_map_iff in I as (m & E & Im). injection E as -> ->. apply in_seq in Ik, Im. lia.
  - intros L. exists i. split; [apply in_seq; lia|]. unfold pairs_from. apply in_map_iff. exists j. split; [easy|]. apply in_seq. lia.
Qed.
Lemma pairs_S n : pairs (S n) = map (fun j => (O, j)) (seq 1 n) ++ map (fun p => (S (fst p), S (snd p))) (pairs n).
Proof.
  unfold pairs. cbn [seq flat_map]. f_equal.
  - unfold pairs_from. now rewrite Nat.sub_succ, Nat.sub_0_r.
  - rewrite <- seq_shift, flat_map_concat_map, map_map, flat_map_concat_map, concat_map, map_map. f_equal. apply map_ext. intros i.
    unfold pairs_from. rewrite Nat.sub_succ, map_map, <- (seq_shift (n - S i) (S i)), map_map. easy.
Qed.
Lemma combinations_1 {A} (l : list A) : combinations l 1 = map (fun x => [x]) l.
Proof. induction l as [|x l IH]; [easy|]. change (combinations (x :: l) 1) with (map (cons x) (combinations l 0) ++ combinations l 1). rewrite IH. now destruct l. Qed.
Lemma choose2_map {A} (d : A) l :
  flat_map (fun c => match c with [x; y] => [(x, y)] | _ => [] end) (combinations l 2) =
  map (fun p => (nth (fst p) l d, nth (snd p) l d)) (pairs (length l)).
Proof.
  induction l as [|x l IH]; [easy|].
  change (combinations (x :: l) 2) with (map (cons x) (combinations l 1) ++ combinations l 2).
  rewrite flat_map_app, IH, combinations_1, map_map. cbn [length]. rewrite pairs_S, map_app, !map_map. f_equal.
  clear. rewrite <- (seq_shift (length l) 0), map_map. cbn [fst snd nth].
  assert (G : forall o, flat_map (fun c => match c with [a; b] => [(a, b)] | _ => [] end) (map (fun y => [x; y]) l)
               = map (fun j => (x, nth (j - o) l d)) (seq o (length l))).
  { induction l as [|y l IH]; intros o; [easy|]. cbn [map flat_map length seq]. rewrite Nat.sub_diag. cbn [nth app]. f_equal.
    rewrite (IH (S o)). apply map_ext_in. intros j I. apply in_seq in I. replace (j - o)%nat with (S (j - S o)) by lia. easy. }
  rewrite (G O). apply map_ext. intros j. now rewrite Nat.sub_0_r.
Qed.
Lemma pose_pairs_map {N : Num} (d : @pose_set N) sets :
  pose_pairs sets = map (fun p => (nth (fst p) sets d, nth (snd p) sets d)) (pairs (length sets)).
Proof. apply choose2_map. Qed.

(** *** the loop error with missing results *)
Section LoopError.
  Context {N : Num}.
  Let strip (c : option dquat) : res dquat := match c with Some d => Ok d | None => Err AssertionError end.

  Lemma strip_none l : In None l -> mapM strip l = Err AssertionError.
  Proof. induction l as [|[d|] l IH]; intros I; [easy| |easy]. destruct I as [|I]; [easy|]. cbn [mapM strip bind]. now rewrite IH. Qed.
  Lemma strip_some (h : dquat) l : ~ In None l -> mapM strip l = Ok (map (fun c => match c with Some d => d | None => h end) l).
  Proof.
    induction l as [|[d|] l IH]; intros I; [easy| |destruct I; now left]. cbn [mapM strip bind map].
    rewrite IH; [easy|]. intros J. apply I. now right.
  Qed.
  Lemma loop_missing n (g : nat * nat -> option (@dquat N)) : (2 <= n)%nat ->
    (exists p, (fst p < snd p < n)%nat /\ on_loop n p /\ g p = None) ->
    exists e, compute_loop_error_opt (map g (pairs n)) (Z.of_nat n) = Err e.
  Proof.
    intros N2 (p & L & OL & M). destruct (loop_indices n g N2) as (I0 & IM & IL). unfold compute_loop_error_opt.
    rewrite I0, IM, IL. cbn [bind]. destruct (g (O, (n - 1)%nat)) as [d|] eqn:GL; [|now exists AttributeError].
    destruct (dinv d) as [d'|e]; cbn [bind]; [|now exists e].
    destruct (Z.eqb _ _); cbn [assert_ bind]; [|now exists AssertionError].
    exists AssertionError. fold strip. rewrite strip_none; [easy|].
    destruct p as [i j]. unfold on_loop in OL. cbn [fst snd] in *. destruct OL as [->|[-> ->]]; [|congruence].
    right. destruct i as [|i]; [now left|]. right. cbn [app]. apply in_or_app. left. apply in_map_iff. exists (S i). split; [easy|]. apply in_seq. lia.
  Qed.
  Lemma loop_complete n (g : nat * nat -> option (@dquat N)) (f : nat -> nat -> dquat) : (2 <= n)%nat ->
    (forall i j, (i < j < n)%nat -> on_loop n (i, j) -> g (i, j) = Some (f i j)) ->
    compute_loop_error_opt (map g (pairs n)) (Z.of_nat n) = compute_loop_error (map (fun p => f (fst p) (snd p)) (pairs n)) (Z.of_nat n).
  Proof.
    intros N2 H. destruct (loop_indices n g N2) as (I0 & IM & IL). destruct (loop_indices n (fun p => f (fst p) (snd p)) N2) as (J0 & JM & JL).
    unfold compute_loop_error_opt, compute_loop_error. rewrite I0, IM, IL, J0, JM, JL. cbn [bind fst snd].
    rewrite (H O 1%nat) by (try lia; now left). rewrite (H O (n - 1)%nat) by (try lia; now right).
    destruct (dinv (f O (n - 1)%nat)) as [d'|e]; [|easy]. cbn [bind].
    assert (E : map (fun i => g (i, S i)) (seq 1 (n - 2)) = map Some (map (fun i => f i (S i)) (seq 1 (n - 2)))).
    { rewrite map_map. apply map_ext_in. intros i I. apply in_seq in I. apply H; [lia|now left]. }
    rewrite E. change [Some d'] with (map Some [d']). rewrite <- map_app.
    change ([Some didentity; Some (f 0%nat 1%nat)] ++ map Some (map (fun i => f i (S i)) (seq 1 (n - 2)) ++ [d'])) with
      (map Some ([didentity; f 0%nat 1%nat] ++ map (fun i => f i (S i)) (seq 1 (n - 2)) ++ [d'])).
    rewrite map_length. destruct (Z.eqb _ _); [|easy]. cbn [assert_ bind]. fold strip. rewrite (strip_some didentity).
    - rewrite map_map, map_id. reflexivity.
    - intros I. apply in_map_iff in I as (? & ? & _). discriminate.
  Qed.
End LoopError.

Section C51.
  Context {N : Num}.
  Variable calibrate : algorithm -> nat -> pose_set * pose_set -> nat -> res (T * nat * @result N * T).
  Variable estimate : algorithm -> nat -> pose_set * pose_set -> nat -> @json N -> @estimation N.

  Lemma run_pairs_spec a it : forall ps idx e dqs,
    run_pairs calibrate estimate a it ps idx e dqs =
    do rows <- mapM (fun q => run_pair calibrate estimate a it (fst q) (snd q)) (combine ps (seq idx (length ps)));
    Ok (fold_left push rows e, dqs ++ map p_dq rows).
  Proof.
    induction ps as [|p ps IH]; intros idx e dqs; cbn [run_pairs length seq combine mapM bind fold_left map fst snd]; [now rewrite app_nil_r|].
    destruct (run_pair calibrate estimate a it p idx) as [row|err]; cbn [bind]; [|easy]. rewrite IH.
    destruct (mapM _ _); cbn [bind]; [|easy]. cbn [fold_left map]. now rewrite <- app_assoc.
  Qed.
  Lemma push_all rows : forall e, let e' := fold_left push rows e in
    e_name e' = e_name e /\ e_iteration e' = e_iteration e /\ e_prefiltering_enabled e' = e_prefiltering_enabled e /\
    e_loop_error_position e' = e_loop_error_position e /\ e_loop_error_orientation e' = e_loop_error_orientation e /\
    e_optimization_enabled e' = e_optimization_enabled e /\
    e_dataset_names e' = e_dataset_names e ++ map p_names rows /\
    e_success e' = e_success e ++ map p_success rows /\
    e_rmse e' = e_rmse e ++ map p_rmse rows /\
    e_num_inliers e' = e_num_inliers e ++ map p_inliers rows /\
    e_num_initial_poses e' = e_num_initial_poses e ++ map p_initial rows /\
    e_num_poses_kept e' = e_num_poses_kept e ++ map p_kept rows /\
    e_runtimes e' = e_runtimes e ++ map p_runtime rows /\
    e_singular_values e' = e_singular_values e ++ map p_singular rows /\
    e_bad_singular_value e' = e_bad_singular_value e ++ map p_bad rows /\
    e_optimization_success e' = e_optimization_success e ++ map p_opt_success rows /\
    e_optimization_runtime e' = e_optimization_runtime e ++ map p_opt_runtime rows /\
    e_spoiled_angle e' = e_spoiled_angle e ++ map (fun _ => None) rows /\
    e_spoiled_translation e' = e_spoiled_translation e ++ map (fun _ => None) rows /\
    e_spoiled_time e' = e_spoiled_time e ++ map (fun _ => None) rows.
  Proof.
    induction rows as [|r rows IH]; intros e; cbn [fold_left map]; [rewrite !app_nil_r; repeat split|].
    specialize (IH (push e r)). cbn [push e_name e_iteration e_prefiltering_enabled e_loop_error_position e_loop_error_orientation
      e_optimization_enabled e_dataset_names e_success e_rmse e_num_inliers e_num_initial_poses e_num_poses_kept e_runtimes
      e_singular_values e_bad_singular_value e_optimization_success e_optimization_runtime e_spoiled_angle e_spoiled_translation e_spoiled_time] in IH.
    rewrite <- !app_assoc in IH. exact IH.
  Qed.
  Lemma filled_push a it rows : filled (fold_left push rows (init_from_configs new_entry a it)) (length rows).
  Proof.
    destruct (push_all rows (init_from_configs new_entry a it)) as (_ & _ & _ & _ & _ & _ & H1 & H2 & H3 & H4 & H5 & H6 & H7 & H8 & H9 & H10 & H11 & H12 & H13 & H14).
    unfold filled. rewrite H1, H2, H3, H4, H5, H6, H7, H8, H9, H10, H11, H12, H13, H14. cbn [init_from_configs new_entry e_dataset_names e_success e_rmse e_num_inliers e_num_initial_poses e_num_poses_kept e_runtimes
      e_singular_values e_bad_singular_value e_optimization_success e_optimization_runtime e_spoiled_angle e_spoiled_translation e_spoiled_time app].
    rewrite !map_length. repeat split.
  Qed.

  (** what each pair contributes, in terms of the calibration and of the estimator *)
  Lemma mapM_err {A B} (f : A -> res B) l x e : In x l -> f x = Err e -> exists e', mapM f l = Err e'.
  Proof.
    induction l as [|y l IH]; intros I E; [easy|]. cbn [mapM]. destruct I as [->|I]; [rewrite E; now exists e|].
    destruct (f y) as [|e1]; cbn [bind]; [|now exists e1]. destruct (IH I E) as (e2 & ->). now exists e2.
  Qed.

  Lemma iteration_spec a it sets :
    run_iteration calibrate estimate a it sets =
    do rows <- mapM (fun q => run_pair calibrate estimate a it (fst q) (snd q)) (combine (pose_pairs sets) (seq 0 (length (pose_pairs sets))));
    let e := fold_left push rows (init_from_configs new_entry a (Z.of_nat it)) in
    if (count_true (map p_opt_success rows) =? length (pose_pairs sets))%nat then
      do loop <- compute_loop_error_opt (map p_dq rows) (Z.of_nat (length sets));
      Ok (set_loop_error e (fst loop) (snd loop), map p_dq rows)
    else Ok (e, map p_dq rows).
  Proof.
    unfold run_iteration. rewrite run_pairs_spec. destruct (mapM _ _) as [rows|] eqn:M; cbn [bind]; [|easy].
    apply mapM_length in M. rewrite combine_length, seq_length, Nat.min_id in M. cbn [app]. rewrite map_length, M, Nat.eqb_refl. cbn [assert_ bind].
    assert (F := filled_push a (Z.of_nat it) rows). rewrite M in F. apply C50_check_length in F. rewrite F. cbn [bind].
    destruct (push_all rows (init_from_configs new_entry a (Z.of_nat it))) as (_ & _ & _ & _ & _ & _ & _ & _ & _ & _ & _ & _ & _ & _ & _ & -> & _). reflexivity.
  Qed.
  Lemma count_true_all l : count_true l = length l <-> Forall (fun b => b = true) l.
  Proof.
    assert (B : forall l, (count_true l <= length l)%nat) by (clear; induction l as [|[] l]; cbn; lia).
    induction l as [|[] l IH]; cbn [count_true length].
    - split; [constructor|easy].
    - rewrite Nat.succ_inj_wd, IH. split; [now constructor|]. intros F. now inversion F.
    - specialize (B l). split; [lia|]. intros F. inversion F. discriminate.
  Qed.

  (** What the outcome of a pair's calibration must satisfy: a property of the tuple returned. *)
  Definition returns (a : algorithm) (it : nat) (pr : pose_set * pose_set) (k : nat) (r : result) : Prop :=
    exists off num rt, calibrate a it pr k = Ok (off, num, r, rt).

  (** With optimisation, a single failed calibration aborts the whole run. *)
  Theorem C51_optimized_fails : forall a it sets k pr r, enable_optimization a = true ->
    nth_error (pose_pairs sets) k = Some pr -> returns a it pr k r -> dq_H_E r = None ->
    exists e, run_iteration calibrate estimate a it sets = Err e.
  Proof.
    intros a it sets k pr r OPT NK (off & num & rt & C) M. rewrite iteration_spec.
    assert (I : In (pr, k) (combine (pose_pairs sets) (seq 0 (length (pose_pairs sets))))).
    { apply (nth_error_In _ k). assert (L : (k < length (pose_pairs sets))%nat) by (apply nth_error_Some; congruence).
      clear -NK L. set (s := O). replace k with (s + k)%nat at 2 by easy. clearbody s. revert k s NK L.
      induction (pose_pairs sets) as [|p ps IH]; intros k s NK L; [now destruct k|]. destruct k as [|k]; cbn [nth_error length seq combine] in *.
      - injection NK as ->. now rewrite Nat.add_0_r.
      - rewrite (IH k (S s)) by (try easy; lia). do 2 f_equal. lia. }
    destruct (mapM_err (fun q => run_pair calibrate estimate a it (fst q) (snd q)) _ _ AttributeError I) as (e & ->); [|now exists e].
    cbn [fst snd]. unfold run_pair. rewrite C. cbn [bind]. now rewrite OPT, M.
  Qed.
  (** ... with AttributeError when it is the first pair. *)
  Theorem C51_optimized_first : forall a it sets pr r, enable_optimization a = true ->
    nth_error (pose_pairs sets) 0 = Some pr -> returns a it pr 0 r -> dq_H_E r = None ->
    run_iteration calibrate estimate a it sets = Err AttributeError.
  Proof.
    intros a it sets pr r OPT NK (off & num & rt & C) M. rewrite iteration_spec. destruct (pose_pairs sets) as [|p ps]; [easy|].
    injection NK as ->. cbn [length seq combine mapM fst snd]. unfold run_pair at 1. rewrite C. cbn [bind]. now rewrite OPT, M.
  Qed.

  (** Without optimisation nothing checks for failure: the rows, when every calibration returns. *)
  Lemma rows_plain a it sets d (r : nat -> nat -> result) : enable_optimization a = false ->
    (forall k i j, nth_error (pairs (length sets)) k = Some (i, j) -> returns a it (nth i sets d, nth j sets d) k (r i j)) ->
    exists rows, mapM (fun q => run_pair calibrate estimate a it (fst q) (snd q)) (combine (pose_pairs sets) (seq 0 (length (pose_pairs sets)))) = Ok rows /\
      map p_opt_success rows = map (fun _ => true) (pairs (length sets)) /\
      map p_success rows = map (fun p => success (r (fst p) (snd p))) (pairs (length sets)) /\
      map p_rmse rows = map (fun p => rmse_cells (rmse (r (fst p) (snd p)))) (pairs (length sets)) /\
      map p_names rows = map (fun p => (set_name (nth (fst p) sets d), set_name (nth (snd p) sets d))) (pairs (length sets)) /\
      map p_dq rows = map (fun p => option_map (fun q => fst (to_pose q)) (dq_H_E (r (fst p) (snd p)))) (pairs (length sets)).
  Proof.
    intros OPT H. rewrite (pose_pairs_map d). rewrite map_length.
    set (P := pairs (length sets)) in *. set (s := O). assert (H' : forall k i j, nth_error P k = Some (i, j) -> returns a it (nth i sets d, nth j sets d) (s + k) (r i j)) by exact H.
    clear H. clearbody s P. revert s H'. induction P as [|[i j] P IH]; intros s H; [exists []; repeat split|].
    destruct (H O i j eq_refl) as (off & num & rt & C). rewrite Nat.add_0_r in C.
    destruct (IH (S s)) as (rows & E & E1 & E2 & E3 & E4 & E5).
    { intros k i' j' NK. replace (S s + k)%nat with (s + S k)%nat by lia. now apply H. }
    cbn [map length seq combine mapM fst snd]. unfold run_pair at 1. rewrite C. cbn [bind]. rewrite OPT. cbn [bind]. rewrite E. cbn [bind].
    eexists. split; [reflexivity|]. cbn [map p_opt_success p_success p_rmse p_names p_dq fst snd]. rewrite E1, E2, E3, E4, E5. repeat split.
  Qed.

  (** Without optimisation, a failed calibration that the loop error needs aborts the run. *)
  Theorem C51_plain_fails : forall a it sets d (r : nat -> nat -> result), (2 <= length sets)%nat -> enable_optimization a = false ->
    (forall k i j, nth_error (pairs (length sets)) k = Some (i, j) -> returns a it (nth i sets d, nth j sets d) k (r i j)) ->
    (exists i j, (i < j < length sets)%nat /\ on_loop (length sets) (i, j) /\ dq_H_E (r i j) = None) ->
    exists e, run_iteration calibrate estimate a it sets = Err e.
  Proof.
    intros a it sets d r N2 OPT H (i & j & L & OL & M). rewrite iteration_spec.
    destruct (rows_plain a it sets d r OPT H) as (rows & -> & E1 & _ & _ & _ & E5). cbn [bind]. rewrite E1, E5, (pose_pairs_map d), map_length.
    replace (count_true (map (fun _ => true) (pairs (length sets)))) with (length (pairs (length sets))).
    2:{ clear. induction (pairs (length sets)); cbn; congruence. }
    rewrite Nat.eqb_refl.
    destruct (loop_missing (length sets) (fun p => option_map (fun q => fst (to_pose q)) (dq_H_E (r (fst p) (snd p)))) N2) as (e & E).
    { exists (i, j). split; [easy|]. split; [easy|]. cbn [fst snd]. now rewrite M. }
    exists e. now rewrite E.
  Qed.

  (** With optimisation, failed estimations do not stop the run: every pair gets its line, and the
      loop error stays at its initial value -1. *)
  Definition estimated (a : algorithm) (it : nat) (pr : pose_set * pose_set) (k : nat) (ok : bool) : Prop :=
    exists off num r rt guess, calibrate a it pr k = Ok (off, num, r, rt) /\ dq_H_E r = Some guess /\
      match estimate a it pr k (snd (write_json (mkCalib off guess) false)) with
      | EstFailed => ok = false
      | EstNoFile => False
      | EstWritten _ j => exists c p o n, from_json j false = Ok c /\
          evaluate_calibration (set_poses (fst pr)) (set_poses (snd pr)) (pose_dq c) (Extrinsic.time_offset c) (hand_config (base a)) = Ok (p, o, n) /\
          (ok = true <-> (0 < n)%nat)
      end.
  Theorem C51_estimations : forall a it sets (ok : nat -> bool), enable_optimization a = true ->
    (forall k pr, nth_error (pose_pairs sets) k = Some pr -> estimated a it pr k (ok k)) ->
    (exists k, (k < length (pose_pairs sets))%nat /\ ok k = false) ->
    exists e dqs, run_iteration calibrate estimate a it sets = Ok (e, dqs) /\ filled e (length (pose_pairs sets)) /\
      e_optimization_success e = map ok (seq 0 (length (pose_pairs sets))) /\
      e_loop_error_position e = CInt (-1) /\ e_loop_error_orientation e = CInt (-1).
  Proof.
    intros a it sets ok OPT H (kf & Lk & Fk). rewrite iteration_spec.
    assert (R : exists rows, mapM (fun q => run_pair calibrate estimate a it (fst q) (snd q)) (combine (pose_pairs sets) (seq 0 (length (pose_pairs sets)))) = Ok rows /\
      map p_opt_success rows = map ok (seq 0 (length (pose_pairs sets)))).
    { set (P := pose_pairs sets) in *. set (s := O). assert (H' : forall k pr, nth_error P k = Some pr -> estimated a it pr (s + k) (ok (s + k)%nat)) by exact H.
      clear H Lk Fk. clearbody s P. revert s H'. induction P as [|pr P IH]; intros s H; [now exists []|].
      destruct (IH (S s)) as (rows & E & E1). { intros k pr' NK. replace (S s + k)%nat with (s + S k)%nat by lia. now apply H. }
      destruct (H O pr eq_refl) as (off & num & r & rt & guess & C & G & ES). rewrite Nat.add_0_r in C, ES.
      cbn [length seq combine mapM fst snd map]. unfold run_pair at 1. rewrite C. cbn [bind]. rewrite OPT, G. cbn [bind].
      destruct (write_json (mkCalib off guess) false) as [c' file]. cbn [snd] in ES.
      destruct (estimate a it pr s file) as [| |ort j].
      - cbn [bind]. rewrite E. cbn [bind]. eexists. split; [reflexivity|]. cbn [map p_opt_success]. now rewrite E1, ES.
      - easy.
      - destruct ES as (c & p & o & n & FJ & EV & OK). rewrite FJ. cbn [bind]. rewrite EV. cbn [bind]. rewrite E. cbn [bind].
        eexists. split; [reflexivity|]. cbn [map p_opt_success]. rewrite E1. f_equal. destruct n as [|n]; cbn [Nat.eqb negb].
        + destruct (ok s); [|easy]. now apply proj1 in OK; specialize (OK eq_refl); lia.
        + symmetry. apply OK. lia. }
    destruct R as (rows & M & E1). rewrite M. cbn [bind]. rewrite E1.
    assert (NE : count_true (map ok (seq 0 (length (pose_pairs sets)))) <> length (pose_pairs sets)).
    { intros E. assert (E' : count_true (map ok (seq 0 (length (pose_pairs sets)))) = length (map ok (seq 0 (length (pose_pairs sets))))) by (rewrite E; now rewrite map_length, seq_length).
      apply count_true_all in E'. rewrite Forall_map, Forall_forall in E'. specialize (E' kf ltac:(apply in_seq; lia)). congruence. }
    apply Nat.eqb_neq in NE. rewrite NE.
    assert (L := mapM_length _ _ _ M). rewrite combine_length, seq_length, Nat.min_id in L.
    eexists _, _. split; [reflexivity|]. rewrite <- L at 1. split; [apply filled_push|].
    destruct (push_all rows (init_from_configs new_entry a (Z.of_nat it))) as (_ & _ & _ & -> & -> & _ & _ & _ & _ & _ & _ & _ & _ & _ & _ & -> & _).
    rewrite E1. repeat split.
  Qed.

  (** The lines of an iteration that returns: one per pair, in pair order, showing the entry. *)
  Theorem C51_lines : forall a it sets ls, iteration_lines calibrate estimate a it sets = Ok ls ->
    exists e dqs, run_iteration calibrate estimate a it sets = Ok (e, dqs) /\ filled e (length (pose_pairs sets)) /\
      e_name e = algorithm_name a /\ e_iteration e = Z.of_nat it /\ e_prefiltering_enabled e = false /\
      e_optimization_enabled e = enable_optimization a /\
      e_dataset_names e = map (fun p => (set_name (fst p), set_name (snd p))) (pose_pairs sets) /\
      ls = map (fun k => map snd (shown e k)) (seq 0 (length (pose_pairs sets))) /\
      length ls = length (pairs (length sets)).
  Proof.
    intros a it sets ls E. unfold iteration_lines in E. rewrite iteration_spec in E |- *.
    destruct (mapM (fun q => run_pair calibrate estimate a it (fst q) (snd q)) _) as [rows|] eqn:M; cbn [bind] in E |- *; [|easy].
    assert (L := mapM_length _ _ _ M). rewrite combine_length, seq_length, Nat.min_id in L.
    assert (F := filled_push a (Z.of_nat it) rows). rewrite L in F.
    destruct (push_all rows (init_from_configs new_entry a (Z.of_nat it))) as (N1 & N2 & N3 & N4 & N5 & N6 & N7 & _).
    assert (DN : map p_names rows = map (fun p => (set_name (fst p), set_name (snd p))) (pose_pairs sets)).
    { clear -M. set (s := O) in M. clearbody s. revert s rows M. induction (pose_pairs sets) as [|pr P IH]; intros s rows M; cbn [length seq combine mapM] in M; [now injection M as <-|].
      cbn [fst snd] in M. destruct (run_pair calibrate estimate a it pr s) as [row|] eqn:R; cbn [bind] in M; [|easy].
      destruct (mapM _ (combine P _)) as [rows'|] eqn:M'; cbn [bind] in M; [|easy]. injection M as <-. cbn [map]. rewrite (IH _ _ M'). f_equal.
      unfold run_pair in R. destruct (calibrate a it pr s) as [[[[off num] r] rt]|]; cbn [bind] in R; [|easy].
      destruct (enable_optimization a); [|now injection R as <-].
      destruct (dq_H_E r); cbn [bind] in R; [|easy]. destruct (write_json _ _) as [? file]. destruct (estimate a it pr s file) as [| |ort j]; [now injection R as <-|easy|].
      destruct (from_json j false); cbn [bind] in R; [|easy]. destruct (evaluate_calibration _ _ _ _ _) as [[[? ?] ?]|]; cbn [bind] in R; [|easy]. now injection R as <-. }
    assert (LP : length (pose_pairs sets) = length (pairs (length sets))).
    { destruct sets as [|d sets]; [easy|]. rewrite (pose_pairs_map d). now rewrite map_length. }
    assert (FIN : forall e, filled e (length (pose_pairs sets)) -> mapM (line_cells e) (seq 0 (length (pose_pairs sets))) = Ok (map (fun k => map snd (shown e k)) (seq 0 (length (pose_pairs sets))))).
    { intros e Fe. assert (G : forall l, (forall k, In k l -> (k < length (pose_pairs sets))%nat) -> mapM (line_cells e) l = Ok (map (fun k => map snd (shown e k)) l)).
      { induction l as [|k l IH]; intros B; [easy|]. cbn [mapM map]. rewrite (line_shown e _ k Fe) by (apply B; now left). cbn [bind]. rewrite IH by (intros; apply B; now right). easy. }
      apply G. intros k I. apply in_seq in I. lia. }
    destruct (count_true _ =? _)%nat.
    - destruct (compute_loop_error_opt (map p_dq rows) (Z.of_nat (length sets))) as [[p o]|]; cbn [bind fst snd] in E |- *; [|easy].
      set (e := set_loop_error _ p o) in *. assert (Fe : filled e (length (pose_pairs sets))) by exact F.
      rewrite FIN in E by exact Fe. injection E as <-. exists e, (map p_dq rows). split; [easy|]. split; [exact Fe|].
      split; [exact N1|]. split; [exact N2|]. split; [exact N3|]. split; [exact N6|]. split; [exact (eq_trans N7 DN)|]. split; [easy|].
      now rewrite map_length, seq_length.
    - cbn [fst bind] in E. set (e := fold_left push _ _) in *. rewrite FIN in E by exact F. injection E as <-.
      exists e, (map p_dq rows). split; [easy|]. split; [exact F|]. split; [exact N1|]. split; [exact N2|]. split; [exact N3|].
      split; [exact N6|]. split; [exact (eq_trans N7 DN)|]. split; [easy|]. now rewrite map_length, seq_length.
  Qed.

  (** What the entry of an iteration that returns says about pair k: what its calibration and, if enabled, the
      evaluation of its optimised calibration returned. *)
  Theorem C51_values : forall a it sets e dqs, run_iteration calibrate estimate a it sets = Ok (e, dqs) ->
    forall k pr, nth_error (pose_pairs sets) k = Some pr ->
    exists off num r rt, calibrate a it pr k = Ok (off, num, r, rt) /\
      nth_error (e_dataset_names e) k = Some (set_name (fst pr), set_name (snd pr)) /\
      nth_error (e_success e) k = Some (success r) /\ nth_error (e_num_initial_poses e) k = Some num /\
      nth_error (e_num_poses_kept e) k = Some (num_poses_after_filtering r) /\ nth_error (e_runtimes e) k = Some rt /\
      nth_error (e_singular_values e) k = Some (singular_values r) /\ nth_error (e_bad_singular_value e) k = Some (bad_singular r) /\
      if enable_optimization a then
        exists guess, dq_H_E r = Some guess /\
        match estimate a it pr k (snd (write_json (mkCalib off guess) false)) with
        | EstFailed =>
            nth_error (e_rmse e) k = Some (CInt (-1), CInt (-1)) /\ nth_error (e_num_inliers e) k = Some (Some O) /\
            nth_error (e_optimization_success e) k = Some false /\ nth_error (e_optimization_runtime e) k = Some n0 /\ nth_error dqs k = Some None
        | EstNoFile => False
        | EstWritten t j => exists c position orientation n, from_json j false = Ok c /\
            evaluate_calibration (set_poses (fst pr)) (set_poses (snd pr)) (pose_dq c) (Extrinsic.time_offset c) (hand_config (base a))
              = Ok (position, orientation, n) /\
            nth_error (e_rmse e) k = Some (CNum position, CNum orientation) /\ nth_error (e_num_inliers e) k = Some (Some n) /\
            nth_error (e_optimization_success e) k = Some (negb (n =? 0)%nat) /\ nth_error (e_optimization_runtime e) k = Some t /\
            nth_error dqs k = Some (Some (fst (to_pose (pose_dq c))))
        end
      else
        (forall position orientation, rmse r = Some (position, orientation) -> nth_error (e_rmse e) k = Some (CNum position, CNum orientation)) /\
        (rmse r = None -> nth_error (e_rmse e) k = Some (CNone, CNone)) /\
        nth_error (e_num_inliers e) k = Some (num_inliers r) /\ nth_error (e_optimization_success e) k = Some true /\
        nth_error (e_optimization_runtime e) k = Some n0 /\
        nth_error dqs k = Some (match dq_H_E r with Some d => Some (fst (to_pose d)) | None => None end).
  Proof.
    intros a it sets e dqs E k pr K. rewrite iteration_spec in E.
    destruct (mapM (fun q => run_pair calibrate estimate a it (fst q) (snd q)) _) as [rows|] eqn:M; cbn [bind] in E; [|easy].
    set (e0 := fold_left push rows _) in E.
    assert (R : exists row, nth_error rows k = Some row /\ run_pair calibrate estimate a it pr k = Ok row).
    { clear E e0. revert K M. change (run_pair calibrate estimate a it pr k) with (run_pair calibrate estimate a it pr (0 + k)). generalize O.
      revert k rows. induction (pose_pairs sets) as [|p P IH]; intros k rows s K M; [now destruct k|].
      cbn [length seq combine mapM fst snd] in M. destruct (run_pair calibrate estimate a it p s) as [row|] eqn:Q; cbn [bind] in M; [|easy].
      destruct (mapM _ (combine P _)) as [rows'|] eqn:M'; cbn [bind] in M; [|easy]. injection M as <-.
      destruct k as [|k]; [injection K as ->; exists row; rewrite Nat.add_0_r; easy|].
      replace (s + S k)%nat with (S s + k)%nat by lia. cbn [nth_error] in K |- *. exact (IH k rows' (S s) K M'). }
    destruct R as (row & NR & R).
    assert (F : e_dataset_names e = map p_names rows /\ e_success e = map p_success rows /\ e_rmse e = map p_rmse rows /\ e_num_inliers e = map p_inliers rows /\
      e_num_initial_poses e = map p_initial rows /\ e_num_poses_kept e = map p_kept rows /\ e_runtimes e = map p_runtime rows /\
      e_singular_values e = map p_singular rows /\ e_bad_singular_value e = map p_bad rows /\ e_optimization_success e = map p_opt_success rows /\
      e_optimization_runtime e = map p_opt_runtime rows /\ dqs = map p_dq rows).
    { destruct (push_all rows (init_from_configs new_entry a (Z.of_nat it))) as (_ & _ & _ & _ & _ & _ & H1 & H2 & H3 & H4 & H5 & H6 & H7 & H8 & H9 & H10 & H11 & _).
      fold e0 in H1, H2, H3, H4, H5, H6, H7, H8, H9, H10, H11. clearbody e0. clear M R NR K.
      destruct (count_true _ =? _)%nat.
      - destruct (compute_loop_error_opt _ _) as [[p o]|]; cbn [bind fst snd] in E; [|easy]. injection E as <- <-. repeat split; assumption.
      - injection E as <- <-. repeat split; assumption. }
    destruct F as (-> & -> & -> & -> & -> & -> & -> & -> & -> & -> & -> & ->). clear E M e0.
    rewrite !(map_nth_error _ _ _ NR). clear NR. unfold run_pair in R.
    destruct (calibrate a it pr k) as [[[[off num] r] rt]|]; cbn [bind] in R; [|easy]. exists off, num, r, rt. split; [easy|].
    destruct (enable_optimization a).
    - destruct (dq_H_E r) as [guess|]; cbn [bind] in R; [|easy]. destruct (write_json (mkCalib off guess) false) as [? file] eqn:W.
      destruct (estimate a it pr k file) as [| |t j] eqn:ES.
      + injection R as <-. do 7 (split; [easy|]). exists guess. rewrite W. cbn [snd]. rewrite ES. repeat split.
      + easy.
      + destruct (from_json j false) as [cj|] eqn:FJ; cbn [bind] in R; [|easy].
        destruct (evaluate_calibration _ _ _ _ _) as [[[p o] n]|] eqn:EV; cbn [bind] in R; [|easy]. injection R as <-.
        do 7 (split; [easy|]). exists guess. rewrite W. cbn [snd]. rewrite ES. split; [easy|]. exists cj, p, o, n. repeat split; easy.
    - injection R as <-. do 7 (split; [easy|]). cbn [p_rmse p_inliers p_opt_success p_opt_runtime p_dq].
      split; [intros p o ->; reflexivity|]. split; [intros ->; reflexivity|]. split; [easy|]. split; [easy|]. split; [easy|].
      now destruct (dq_H_E r).
  Qed.

  (** How many lines a run that does not raise appends. *)
  Theorem C51_count : forall sets flags num_iterations ls,
    run_experiments calibrate estimate sets flags num_iterations = Ok ls ->
    (2 <= length sets)%nat /\
    length ls = ((8 + 8 * num_iterations) * length (pairs (length sets)))%nat.
  Proof.
    intros sets flags m ls E. unfold run_experiments in E.
    destruct (2 <=? length sets)%nat eqn:N2; cbn [assert_ bind] in E; [|easy]. apply Nat.leb_le in N2. split; [easy|].
    destruct (_ =? length sets)%nat; cbn [assert_ bind] in E; [|easy].
    destruct (mapM _ get_all_configs) as [lss|] eqn:M; cbn [bind] in E; [|easy]. injection E as <-.
    assert (G : forall a ls', (do ls <- mapM (fun it => iteration_lines calibrate estimate a it sets) (seq 0 (iterations_of a m)); Ok (concat ls)) = Ok ls' ->
       length ls' = (iterations_of a m * length (pairs (length sets)))%nat).
    { intros a ls' H. set (k := iterations_of a m) in *. clearbody k. destruct (mapM _ (seq 0 k)) as [l|] eqn:ML; cbn [bind] in H; [|easy]. injection H as <-.
      revert l ML. generalize 0%nat. induction k as [|k IH]; intros s l ML; cbn [seq mapM] in ML; [now injection ML as <-|].
      destruct (iteration_lines calibrate estimate a s sets) as [l1|] eqn:I; cbn [bind] in ML; [|easy]. destruct (mapM _ (seq (S s) k)) as [l2|] eqn:M2; cbn [bind] in ML; [|easy]. injection ML as <-.
      cbn [concat]. rewrite app_length, (IH _ _ M2). destruct (C51_lines _ _ _ _ I) as (_ & _ & _ & _ & _ & _ & _ & _ & _ & _ & ->). lia. }
    assert (G2 : forall cs lss, mapM (fun a => do ls <- mapM (fun it => iteration_lines calibrate estimate a it sets) (seq 0 (iterations_of a m)); Ok (concat ls)) cs = Ok lss ->
       length (concat lss) = (list_sum (map (fun a => iterations_of a m) cs) * length (pairs (length sets)))%nat).
    { induction cs as [|a cs IH]; intros lss' H; cbn [mapM] in H; [now injection H as <-|].
      destruct (do ls <- _; Ok (concat ls)) as [l1|] eqn:E1 in H; cbn [bind] in H; [|easy]. destruct (mapM _ cs) as [l2|] eqn:E2; cbn [bind] in H; [|easy]. injection H as <-.
      cbn [concat map list_sum fold_right]. rewrite app_length, (G _ _ E1), (IH _ eq_refl). fold (list_sum (map (fun a => iterations_of a m) cs)). lia. }
    rewrite (G2 _ _ M). f_equal. cbn. lia.
  Qed.
End C51.

(** Over the reals: without optimisation, and with unit calibrations for the pairs on the loop, the
    iteration returns, even if calibrations off the loop failed; the lines show the failures. *)
Theorem C51_plain_survives : forall calibrate estimate (a : algorithm (N:=XR)) it sets d (r : nat -> nat -> result) (f : nat -> nat -> rdq),
  (2 <= length sets)%nat -> enable_optimization a = false ->
  (forall k i j, nth_error (pairs (length sets)) k = Some (i, j) -> returns calibrate a it (nth i sets d, nth j sets d) k (r i j)) ->
  (forall i j, (i < j < length sets)%nat -> unitdq (f i j)) ->
  (forall i j, (i < j < length sets)%nat -> on_loop (length sets) (i, j) -> dq_H_E (r i j) = Some (inD (f i j))) ->
  exists e dqs, run_iteration calibrate estimate a it sets = Ok (e, dqs) /\ filled e (length (pose_pairs sets)) /\
    e_success e = map (fun p => success (r (fst p) (snd p))) (pairs (length sets)) /\
    e_optimization_success e = map (fun _ => true) (pairs (length sets)) /\
    let P := dqmul (dqprod (map (fun i => f i (S i)) (seq 0 (length sets - 1)))) (dqinv (f O (length sets - 1)%nat)) in
    e_loop_error_position e = CNum (Fin (len3 (trans_of P)) : @T XR).
Proof.
  intros calibrate estimate a it sets d r f N2 OPT H U L. rewrite iteration_spec.
  destruct (rows_plain calibrate estimate a it sets d r OPT H) as (rows & M & E1 & E2 & _ & _ & E5). rewrite M. cbn [bind].
  assert (LR := mapM_length _ _ _ M). rewrite combine_length, seq_length, Nat.min_id in LR.
  assert (LP : length (pose_pairs sets) = length (pairs (length sets))) by (rewrite (pose_pairs_map d); now rewrite map_length).
  rewrite E1, E5, LP.
  replace (count_true (map (fun _ => true) (pairs (length sets)))) with (length (pairs (length sets))).
  2:{ clear. induction (pairs (length sets)); cbn; congruence. }
  rewrite Nat.eqb_refl.
  rewrite (loop_complete (length sets) (fun p => option_map (fun q => fst (to_pose q)) (dq_H_E (r (fst p) (snd p)))) (fun i j => inD (f i j)) N2).
  2:{ intros i j Lij OL. cbn [fst snd]. rewrite (L i j Lij OL). cbn [option_map]. rewrite to_pose_unit by now apply U. reflexivity. }
  destruct (C48_loop (length sets) f N2 U) as (UP & deg & E & _). cbv zeta in E. rewrite E. cbn [bind fst snd].
  eexists _, _. split; [reflexivity|].
  assert (F := filled_push a (Z.of_nat it) rows). rewrite LR, LP in F.
  destruct (push_all rows (init_from_configs new_entry a (Z.of_nat it))) as (_ & _ & _ & _ & _ & _ & _ & E6 & _ & _ & _ & _ & _ & _ & _ & E7 & _).
  split; [exact F|]. cbn [set_loop_error e_success e_optimization_success e_loop_error_position]. rewrite E6, E7. cbn [init_from_configs new_entry e_success e_optimization_success app].
  split; [exact E2|]. split; [exact E1|]. reflexivity.
Qed.

(** So a failed calibration does not always abort the run: with four sensors the pair (0, 2) is not
    on the loop, and its failure shows up only as success = False in its line. *)
Theorem C51_aborts_refuted : exists (calibrate : algorithm (N:=XR) -> nat -> pose_set * pose_set -> nat -> res (@T XR * nat * @result XR * @T XR)) a sets e dqs,
  let estimate := fun (_ : algorithm) (_ : nat) (_ : pose_set * pose_set) (_ : nat) (_ : json) => EstFailed in
  length sets = 4%nat /\ In a (get_all_configs (N:=XR)) /\
  (exists pr r, nth_error (pose_pairs sets) 1 = Some pr /\ returns calibrate a 0 pr 1 r /\ dq_H_E r = None) /\
  run_iteration calibrate estimate a 0 sets = Ok (e, dqs) /\
  e_success e = [true; false; true; true; true; true].
Proof.
  set (res k := if (k =? 1)%nat then mkResult (N:=XR) false None None None 5 None None
                else mkResult (N:=XR) true (Some (inD dqone)) None None 5 None None).
  exists (fun _ _ _ k => Ok (n0, 5%nat, res k, n0)), (with_optimization (get_baseline_config false) false).
  set (d := mkSet "p" []). exists [d; d; d; d].
  destruct (C51_plain_survives (fun _ _ _ k => Ok (n0, 5%nat, res k, n0)) (fun _ _ _ _ _ => EstFailed) (with_optimization (get_baseline_config false) false) 0 [d; d; d; d] d
    (fun i j => res (if (i =? 0)%nat then if (j =? 2)%nat then 1%nat else 0%nat else 0%nat)) (fun _ _ => dqone)) as (e & dqs & E & _ & ES & _); [cbn; lia|reflexivity| | | |].
  { intros k i j NK. exists n0, 5%nat, n0. cbn in NK. do 6 (destruct k as [|k]; [injection NK as <- <-; reflexivity|]). destruct k; discriminate NK. }
  { intros. apply unitdq_one. }
  { intros i j Lij OL. unfold on_loop in OL. cbn [fst snd length Nat.sub] in OL. destruct i; cbn [Nat.eqb]; [|reflexivity].
    destruct j as [|[|[|j]]]; try reflexivity. exfalso. destruct OL as [OL|[_ OL]]; discriminate. }
  exists e, dqs. cbv zeta. split; [easy|]. split; [cbn; tauto|]. split; [|split; [exact E|]].
  - exists (d, d), (res 1%nat). split; [easy|]. split; [now exists n0, 5%nat, n0|easy].
  - rewrite ES. reflexivity.
Qed.

(** Hypotheses met: a run over two sensors in which every calibration succeeds and every estimation
    fails returns all its lines; and one whose first calibration fails aborts under optimisation. *)
Example C51_example : exists (calibrate : algorithm (N:=XR) -> nat -> pose_set * pose_set -> nat -> res (@T XR * nat * @result XR * @T XR)) sets ls,
  run_experiments calibrate (fun _ _ _ _ _ => EstFailed) sets None 3 = Ok ls /\ length ls = 32%nat.
Proof.
  set (r := mkResult (N:=XR) true (Some (inD dqone)) None None 5 None None).
  set (cal := fun (_ : algorithm (N:=XR)) (_ : nat) (_ : pose_set * pose_set) (_ : nat) => Ok (n0 : @T XR, 5%nat, r, n0 : @T XR)).
  set (d := mkSet (N:=XR) "p" []). exists cal, [d; d].
  assert (G : forall a it, exists ls, iteration_lines cal (fun _ _ _ _ _ => EstFailed) a it [d; d] = Ok ls).
  { intros a it. assert (R : exists e dqs, run_iteration cal (fun _ _ _ _ _ => EstFailed) a it [d; d] = Ok (e, dqs) /\ filled e 1).
    { destruct (enable_optimization a) eqn:OPT.
      - destruct (C51_estimations cal (fun _ _ _ _ _ => EstFailed) a it [d; d] (fun _ => false) OPT) as (e & dqs & E & F & _).
        + intros k pr _. exists n0, 5%nat, r, n0, (inD dqone). repeat split.
        + exists 0%nat. split; [cbn; lia|easy].
        + now exists e, dqs.
      - destruct (C51_plain_survives cal (fun _ _ _ _ _ => EstFailed) a it [d; d] d (fun _ _ => r) (fun _ _ => dqone)) as (e & dqs & E & F & _);
          [cbn; lia|easy| | | |].
        + intros. now exists n0, 5%nat, n0.
        + intros. apply unitdq_one.
        + easy.
        + now exists e, dqs. }
    destruct R as (e & dqs & E & F). unfold iteration_lines. rewrite E. cbn [bind fst].
    change (seq 0 (length (pose_pairs [d; d]))) with [0%nat]. cbn [mapM]. rewrite (line_shown e 1 0 F) by lia. cbn [bind]. now eexists. }
  assert (R : exists ls, run_experiments cal (fun _ _ _ _ _ => EstFailed) [d; d] None 3 = Ok ls).
  { unfold run_experiments. cbn [length Nat.leb assert_ bind map Nat.eqb].
    assert (I : forall a l, exists ls, mapM (fun it => iteration_lines cal (fun _ _ _ _ _ => EstFailed) a it [d; d]) l = Ok ls).
    { intros a. induction l as [|it l IH]; [now exists []|]. cbn [mapM]. destruct (G a it) as (l1 & ->). destruct IH as (l2 & ->). cbn [bind]. now eexists. }
    assert (J : forall cs, exists lss, mapM (fun a => do ls <- mapM (fun it => iteration_lines cal (fun _ _ _ _ _ => EstFailed) a it [d; d]) (seq 0 (iterations_of a 3)); Ok (concat ls)) cs = Ok lss).
    { induction cs as [|a cs IH]; [now exists []|]. cbn [mapM]. destruct (I a (seq 0 (iterations_of a 3))) as (l1 & ->). cbn [bind]. destruct IH as (l2 & ->). cbn [bind]. now eexists. }
    destruct (J get_all_configs) as (lss & ->). cbn [bind]. now eexists. }
  destruct R as (ls & R). exists ls. split; [easy|]. now destruct (C51_count _ _ _ _ _ _ R) as (_ & ->).
Qed.
Example C51_example_fails : exists (calibrate : algorithm (N:=XR) -> nat -> pose_set * pose_set -> nat -> res (@T XR * nat * @result XR * @T XR)) a sets,
  In a get_all_configs /\
  run_iteration calibrate (fun _ _ _ _ _ => EstFailed) a 0 sets = Err AttributeError.
Proof.
  exists (fun _ _ _ _ => Ok (n0, 5%nat, mkResult (N:=XR) false None None None 5 None None, n0)), (with_optimization (get_baseline_config false) true), [mkSet "p" []; mkSet "q" []].
  split; [cbn; tauto|]. eapply C51_optimized_first; [reflexivity|reflexivity|now eexists _, _, _|reflexivity].
Qed.
