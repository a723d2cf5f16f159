(** * Property C66: the calibration program compute_hand_eye_calibration.py. *)

From Coq Require Import Reals ZArith Bool String List Lra Lia Psatz.
From Verif Require Import Num Py XReal XFacts Quat DualQuat HandEye Ransac TimeAlign CsvIo Experiments Extrinsic Cli Spec Embed
  QuatFacts QuatTrig QuatRot DualFacts ScrewFacts ListFacts HandEyeFacts KernelFacts CalibFacts RansacFacts
  PropCalib PropEval PropPrefilter PropBaseline PropRansac PropSampling PropTermination PropDriver PropPerfect PropExtrinsic CalibExample PropComplete.
Import ListNotations.
Local Open Scope R_scope.

(** *** specification *)
Definition exactly_one {A} (a b : option A) : Prop := (a <> None /\ b = None) \/ (a = None /\ b <> None).
(** the flags make sense: one file for each path, and a time offset file if the JSON file is wanted *)
Definition good_flags (a : calibration_args) : Prop :=
  exactly_one (aligned_poses_B_H_csv_file a) (aligned_poses_H_B_csv_file a) /\
  exactly_one (aligned_poses_W_E_csv_file a) (aligned_poses_E_W_csv_file a) /\
  (calibration_output_json_file a <> None -> time_offset_input_csv_file a <> None).

Section Program.
  Context (N : Num) (svd : list (@dquat N) -> res (list (@T N) * list (@dquat N))).
  Notation cfg := (hand_config (get_exhaustive_search_scalar_part_inliers_config (N:=N))).
  Notation run := (compute_hand_eye_calibration_py svd).

  Lemma xorb_exactly {A} (a b : option A) : xorb (given a) (given b) = true <-> exactly_one a b.
  Proof. unfold exactly_one. destruct a, b; cbn; split; intros; try easy; [destruct H as [[_ H]|[H _]]; discriminate H|left; easy|right; easy|destruct H as [[H _]|[_ H]]; contradiction]. Qed.

  (** Wrong flags: AssertionError, nothing read or written. *)
  Theorem C66_flags : forall fuel a (fs : files (N:=N)), ~ good_flags a -> run fuel a fs = Done (Ok (fs, Some AssertionError)).
  Proof.
    intros fuel a fs NG. unfold compute_hand_eye_calibration_py, load.
    destruct (xorb (given (aligned_poses_B_H_csv_file a)) _) eqn:X1; [|reflexivity].
    destruct (xorb (given (aligned_poses_W_E_csv_file a)) _) eqn:X2; [|reflexivity].
    destruct (negb (given (calibration_output_json_file a)) || given (time_offset_input_csv_file a)) eqn:X3; [|reflexivity].
    exfalso. apply NG. apply xorb_exactly in X1, X2. split; [easy|]. split; [easy|]. intros C T. rewrite T in X3.
    destruct (calibration_output_json_file a); [discriminate X3|now apply C].
  Qed.

  (** The run of the program once the search has ended with result r. *)
  Definition calibrated (fuel : nat) (a : calibration_args) (fs : files) (r : result) : Prop :=
    exists b w, load a fs = Ok (b, w) /\ compute_RANSAC svd (fun _ => []) fuel cfg b w = Done (Ok r).

  Lemma run_calibrated fuel a fs r : calibrated fuel a fs r ->
    run fuel a fs = (let '(fs, dq, e) := write_extrinsics a (dq_H_E r) fs in
                     match e with Some e => Done (Ok (fs, Some e)) | None => Done (Ok (write_calibration a dq fs)) end).
  Proof. intros (b & w & L & R). unfold compute_hand_eye_calibration_py. rewrite L. cbv zeta. change (use_baseline_approach cfg) with false. cbv iota. now rewrite R. Qed.
  Lemma run_cases fuel a fs fs' e : run fuel a fs = Done (Ok (fs', e)) ->
    (fs' = fs /\ e <> None) \/ exists r, calibrated fuel a fs r.
  Proof.
    unfold compute_hand_eye_calibration_py. destruct (load a fs) as [[b w]|e0] eqn:L; cbv zeta.
    2:{ intros H. injection H as <- <-. left. easy. }
    change (use_baseline_approach cfg) with false. cbv iota.
    destruct (compute_RANSAC svd (fun _ => []) fuel cfg b w) as [[r|e0]|] eqn:R; intros H; try discriminate H.
    - right. exists r. now exists b, w.
    - injection H as <- <-. left. easy.
  Qed.
  Lemma result_dq n st : (success (ransac_result (N:=N) n st) = true -> exists d, dq_H_E (ransac_result n st) = Some d) /\
    (success (ransac_result n st) = false -> dq_H_E (ransac_result n st) = None).
  Proof. unfold ransac_result. destruct (best st) as [[[d s] sv]|]; cbn; split; intros; try easy. now eexists. Qed.
  Lemma calibrated_dq fuel a fs r : calibrated fuel a fs r ->
    (success r = true -> exists d, dq_H_E r = Some d) /\ (success r = false -> dq_H_E r = None).
  Proof.
    intros (b & w & _ & R). unfold compute_RANSAC in R.
    match type of R with match ?m with _ => _ end = _ => destruct m as [[bf wf]|] end; [|discriminate R].
    destruct (ransac_loop _ _ _ _ _ _ _ _ _) as [[st|]|]; try discriminate R. injection R as <-. apply result_dq.
  Qed.

  (** A failed calibration is not reported as such.  With an output requested the program ends with an exception and
      writes nothing; without, it ends normally. *)
  Theorem C66_failed : forall fuel a fs r, calibrated fuel a fs r -> success r = false ->
    (extrinsics_output_csv_file a <> None -> run fuel a fs = Done (Ok (fs, Some AttributeError))) /\
    (extrinsics_output_csv_file a = None -> calibration_output_json_file a <> None -> good_flags a ->
       exists e, run fuel a fs = Done (Ok (fs, Some e))) /\
    (extrinsics_output_csv_file a = None -> calibration_output_json_file a = None -> run fuel a fs = Done (Ok (fs, None))).
  Proof.
    intros fuel a fs r C F. rewrite (run_calibrated _ _ _ _ C). destruct (calibrated_dq _ _ _ _ C) as [_ D]. rewrite (D F).
    unfold write_extrinsics. split; [|split].
    - intros X. destruct (extrinsics_output_csv_file a); easy.
    - intros -> J (_ & _ & G). unfold write_calibration. destruct (calibration_output_json_file a) as [p|]; [|contradiction].
      destruct (time_offset_input_csv_file a) as [o|]; [|now destruct G].
      destruct (read_table fs o) as [rows|e]; cbn [bind]; [|now exists e].
      destruct (index rows 0) as [row|e]; cbn [bind]; [|now exists e].
      destruct (index row 0) as [t|e]; cbn [bind]; [|now exists e]. now eexists.
    - intros -> J. unfold write_calibration. now rewrite J.
  Qed.

  (** No file but the requested ones is touched, and these only after a successful calibration. *)
  Theorem C66_touched : forall fuel a fs fs' e, run fuel a fs = Done (Ok (fs', e)) ->
    (forall path, extrinsics_output_csv_file a <> Some path -> calibration_output_json_file a <> Some path -> fs' path = fs path) /\
    ((forall r, calibrated fuel a fs r -> success r = false) -> fs' = fs).
  Proof.
    intros fuel a fs fs' e H. destruct (run_cases _ _ _ _ _ H) as [(-> & _)|(r & C)]; [easy|].
    rewrite (run_calibrated _ _ _ _ C) in H. destruct (calibrated_dq _ _ _ _ C) as [_ D].
    assert (PUT : forall (g : files (N:=N)) p c path, Some p <> Some path -> put g p c path = g path).
    { intros g p c path NE. unfold put. destruct (String.eqb_spec path p); [now subst|easy]. }
    assert (WC : forall (g : files (N:=N)) dq path, calibration_output_json_file a <> Some path -> fst (write_calibration a dq g) path = g path).
    { intros g dq path NE. unfold write_calibration. destruct (calibration_output_json_file a) as [p|]; [|easy].
      destruct (time_offset_input_csv_file a); [|easy]. match goal with |- context [match ?m with Ok _ => _ | Err _ => _ end] => destruct m as [c|e0] end; [|easy].
      cbn [fst]. now apply PUT. }
    split.
    - intros path N1 N2. destruct (write_extrinsics a (dq_H_E r) fs) as [[g dq] [e0|]] eqn:WE.
      + injection H as <- <-. unfold write_extrinsics in WE. destruct (extrinsics_output_csv_file a); [|now injection WE as <- _ _].
        destruct (dq_H_E r); [destruct (to_pose _); discriminate WE|now injection WE as <- _ _].
      + assert (F : fs' = fst (write_calibration a dq g)) by (destruct (write_calibration a dq g); now injection H as <- _).
        rewrite F, WC by easy. unfold write_extrinsics in WE. destruct (extrinsics_output_csv_file a) as [p|]; [|now injection WE as <- _].
        destruct (dq_H_E r) as [d|]; [|discriminate WE]. destruct (to_pose d). injection WE as <- _. now apply PUT.
    - intros F. rewrite (D (F r C)) in H. unfold write_extrinsics in H. destruct (extrinsics_output_csv_file a); [now injection H as <- _|].
      unfold write_calibration in H. destruct (calibration_output_json_file a); [|now injection H as <- _].
      destruct (time_offset_input_csv_file a); [|now injection H as <- _].
      match type of H with context [match ?m with Ok _ => _ | Err _ => _ end] => destruct m as [c|e0] eqn:E end; [|now injection H as <- _].
      apply bind_ok in E as (? & _ & E). apply bind_ok in E as (? & _ & E). apply bind_ok in E as (? & _ & E). discriminate E.
  Qed.

  (** The JSON document with the pose of d: d has been normalised before if the extrinsics were written too, and its
      pose makes one more trip through a dual quaternion before it is written. *)
  Definition holds (a : calibration_args) (d : @dquat N) (js : json (N:=N)) : Prop :=
    exists t x y z i j k w,
      snd (to_pose (from_pose_vector (snd (to_pose (if extrinsics_output_csv_file a then fst (to_pose d) else d))))) = mkPose (mkV x y z) (mkQ i j k w) /\
      js = JObj [("delay", JNum t);
                 ("rotation", JObj [("i", JNum i); ("j", JNum j); ("k", JNum k); ("w", JNum w)]);
                 ("translation", JObj [("x", JNum x); ("y", JNum y); ("z", JNum z)])]%string.
  (** A run that asks for an output and ends without an exception has calibrated successfully and has written all it
      was asked for: the extrinsics file has seven lines of one number each, the JSON file holds the pose of the estimate,
      can be read back and has the time offset of the time offset file (the first number of its first line). *)
  Theorem C66_complete : forall fuel a fs fs', run fuel a fs = Done (Ok (fs', None)) ->
    extrinsics_output_csv_file a <> None \/ calibration_output_json_file a <> None ->
    exists r d, calibrated fuel a fs r /\ success r = true /\ dq_H_E r = Some d /\
      (forall path, extrinsics_output_csv_file a = Some path -> calibration_output_json_file a <> Some path ->
         exists x y z i j k w, snd (to_pose d) = mkPose (mkV x y z) (mkQ i j k w) /\ fs' path = Some (Csv [[x]; [y]; [z]; [i]; [j]; [k]; [w]])) /\
      (forall path, calibration_output_json_file a = Some path ->
         exists js c, fs' path = Some (Json js) /\ from_json js false = Ok c /\ holds a d js /\
           forall o t row rows, time_offset_input_csv_file a = Some o -> extrinsics_output_csv_file a <> Some o ->
             fs o = Some (Csv ((t :: row) :: rows)) -> time_offset c = t).
  Proof.
    intros fuel a fs fs' H OUT. destruct (run_cases _ _ _ _ _ H) as [(_ & K)|(r & C)]; [contradiction|].
    exists r. destruct (calibrated_dq _ _ _ _ C) as [D1 D2]. rewrite (run_calibrated _ _ _ _ C) in H.
    assert (WN : forall (g g' : files (N:=N)) dq, write_calibration a dq g = (g', None) -> calibration_output_json_file a <> None -> good_flags a ->
              exists p t d, calibration_output_json_file a = Some p /\ dq = Some d /\ g' = put g p (Json (snd (write_json (mkCalib t (from_pose_vector (snd (to_pose d)))) false))) /\
                forall o t' row rows, time_offset_input_csv_file a = Some o -> g o = Some (Csv ((t' :: row) :: rows)) -> t' = t).
    { intros g g' dq W J (_ & _ & G). unfold write_calibration in W. destruct (calibration_output_json_file a) as [p|]; [|contradiction].
      destruct (time_offset_input_csv_file a) as [o|]; [|now destruct G].
      match type of W with context [match ?m with Ok _ => _ | Err _ => _ end] => destruct m as [c|e0] eqn:E end; [|discriminate W].
      apply bind_ok in E as (tab & RT & E). apply bind_ok in E as (row & I1 & E). apply bind_ok in E as (t & I2 & E).
      destruct dq as [d|]; [|discriminate E]. injection E as <-. injection W as <-. exists p, t, d. split; [easy|]. split; [easy|]. split; [easy|].
      intros o' t' row' rows' O F. injection O as <-. unfold read_table in RT. rewrite F in RT.
      destruct (forallb _ _); [|discriminate RT]. injection RT as <-. injection I1 as <-. now injection I2 as <-. }
    assert (GF : good_flags a).
    { destruct C as (b & w & L & _). unfold load in L. 
      destruct (xorb (given (aligned_poses_B_H_csv_file a)) _) eqn:X1; [|discriminate L].
      destruct (xorb (given (aligned_poses_W_E_csv_file a)) _) eqn:X2; [|discriminate L].
      destruct (negb (given (calibration_output_json_file a)) || given (time_offset_input_csv_file a)) eqn:X3; [|discriminate L].
      apply xorb_exactly in X1, X2. split; [easy|]. split; [easy|]. intros J T. rewrite T in X3.
      destruct (calibration_output_json_file a); [discriminate X3|now apply J]. }
    assert (HO : forall t d0 d1, d1 = (if extrinsics_output_csv_file a then fst (to_pose d0) else d0) ->
              holds a d0 (snd (write_json (mkCalib t (from_pose_vector (snd (to_pose d1)))) false))).
    { intros t d0 d1 ->. unfold holds, write_json. cbn [pose_dq time_offset].
      destruct (to_pose (from_pose_vector _)) as [dd [[x y z] [i j k w]]]. exists t, x, y, z, i, j, k, w. split; reflexivity. }
    assert (RJ : forall (c : calibration (N:=N)), exists c', from_json (snd (write_json c false)) false = Ok c' /\ time_offset c' = time_offset c).
    { intros c. unfold write_json. destruct (to_pose (pose_dq c)) as [dd pp]. cbn [snd]. eexists. split; reflexivity. }
    assert (DQ : exists d, dq_H_E r = Some d /\ success r = true).
    { destruct (success r) eqn:S; [destruct (D1 eq_refl) as (d & E); eauto|]. exfalso. rewrite (D2 eq_refl) in H. unfold write_extrinsics in H.
      destruct (extrinsics_output_csv_file a) eqn:X; [discriminate H|]. destruct OUT as [O|O]; [contradiction|].
      destruct (write_calibration a None fs) as [g e0] eqn:W. injection H as <- ->. destruct (WN _ _ _ W O GF) as (? & ? & ? & _ & K & _ & _). discriminate K. }
    destruct DQ as (d & E & S). exists d. split; [easy|]. split; [easy|]. split; [easy|]. rewrite E in H. clear D1 D2 C.
    unfold write_extrinsics in H. destruct (extrinsics_output_csv_file a) as [p|] eqn:XO.
    - destruct (to_pose d) as [d' ps] eqn:TP. destruct (write_calibration a (Some d') _) as [g e0] eqn:W. injection H as <- ->. split.
      + intros path EP NJ. injection EP as ->. destruct ps as [[x y z] [i j k w]]. exists x, y, z, i, j, k, w. split; [easy|].
        destruct (calibration_output_json_file a) as [pj|] eqn:CJ.
        * destruct (WN _ _ _ W) as (p' & t & d2 & E' & _ & -> & _); [easy|easy|]. injection E' as <-. unfold put at 1.
          destruct (String.eqb_spec path pj); [now subst|]. unfold put. now rewrite String.eqb_refl.
        * unfold write_calibration in W. rewrite CJ in W. injection W as <-. unfold put. now rewrite String.eqb_refl.
      + intros path CJ. destruct (WN _ _ _ W) as (p' & t & d2 & E' & DE & -> & TO); [congruence|easy|]. rewrite CJ in E'. injection E' as <-. injection DE as DE.
        destruct (RJ (mkCalib t (from_pose_vector (snd (to_pose d2))))) as (c' & RC & RT). eexists _, c'. split; [unfold put; now rewrite String.eqb_refl|]. split; [exact RC|]. split; [apply HO; rewrite TP; symmetry; exact DE|]. rewrite RT. cbn [time_offset].
        intros o t' row rows O NE F. symmetry. apply (TO o t' row rows O). unfold put. destruct (String.eqb_spec o p); [now subst|easy].
    - destruct (write_calibration a (Some d) fs) as [g e0] eqn:W. injection H as <- ->. split; [discriminate|].
      intros path CJ. destruct (WN _ _ _ W) as (p' & t & d2 & E' & DE & -> & TO); [congruence|easy|]. rewrite CJ in E'. injection E' as <-. injection DE as DE.
      destruct (RJ (mkCalib t (from_pose_vector (snd (to_pose d2))))) as (c' & RC & RT). eexists _, c'. split; [unfold put; now rewrite String.eqb_refl|]. split; [exact RC|]. split; [apply HO; symmetry; exact DE|]. rewrite RT. cbn [time_offset].
      intros o t' row rows O NE F. symmetry. now apply (TO o t' row rows O).
  Qed.

  (** A missing input: the program ends with an exception and touches nothing; OSError if the poses of the hand are
      missing, which are read first. *)
  Theorem C66_missing : forall fuel a (fs : files (N:=N)) path, good_flags a -> fs path = None ->
    (aligned_poses_B_H_csv_file a = Some path \/ aligned_poses_H_B_csv_file a = Some path ->
       run fuel a fs = Done (Ok (fs, Some OSError))) /\
    (aligned_poses_W_E_csv_file a = Some path \/ aligned_poses_E_W_csv_file a = Some path ->
       exists e, run fuel a fs = Done (Ok (fs, Some e))).
  Proof.
    intros fuel a fs path (G1 & G2 & G3) M.
    assert (RD : forall inv, read_dual_quaternions fs path inv = Err OSError).
    { intros inv. unfold read_dual_quaternions, read_table. now rewrite M. }
    assert (X3 : negb (given (calibration_output_json_file a)) || given (time_offset_input_csv_file a) = true).
    { destruct (calibration_output_json_file a); [|reflexivity]. destruct (time_offset_input_csv_file a); [reflexivity|]. now destruct G3. }
    pose proof (proj2 (xorb_exactly _ _) G1) as X1. pose proof (proj2 (xorb_exactly _ _) G2) as X2.
    assert (L : (aligned_poses_B_H_csv_file a = Some path \/ aligned_poses_H_B_csv_file a = Some path -> load a fs = Err OSError) /\
                (aligned_poses_W_E_csv_file a = Some path \/ aligned_poses_E_W_csv_file a = Some path -> exists e, load a fs = Err e)).
    { unfold load. rewrite X1, X2, X3. cbn [assert_ bind]. split.
      - intros [P|P]; rewrite P; [now rewrite RD|]. destruct G1 as [[_ K]|[K _]]; [congruence|]. rewrite K. now rewrite RD.
      - intros P. match goal with |- context [bind ?m _] => destruct m as [b|e] end; cbn [bind]; [|now exists e].
        destruct P as [P|P]; rewrite P; [rewrite RD; now eexists|]. destruct G2 as [[_ K]|[K _]]; [congruence|]. rewrite K, RD. now eexists. }
    unfold compute_hand_eye_calibration_py. split.
    - intros P. now rewrite (proj1 L P).
    - intros P. destruct (proj2 L P) as (e & ->). now exists e.
  Qed.
  (** A file of poses with a line of fewer than eight numbers, or with lines of different lengths: the program ends with an exception and
      touches nothing; the first file decides which, if all its lines are too short (IndexError). *)
  Theorem C66_bad_file : forall fuel a (fs : files (N:=N)) path rows, good_flags a -> fs path = Some (Csv rows) ->
    Exists (fun row => (List.length row < 8)%nat) rows \/ (exists r r', In r rows /\ In r' rows /\ List.length r <> List.length r') ->
    (In (Some path) [aligned_poses_B_H_csv_file a; aligned_poses_H_B_csv_file a; aligned_poses_W_E_csv_file a; aligned_poses_E_W_csv_file a] ->
       exists e, run fuel a fs = Done (Ok (fs, Some e))) /\
    (In (Some path) [aligned_poses_B_H_csv_file a; aligned_poses_H_B_csv_file a] -> forall n, (n < 8)%nat -> rows <> [] -> Forall (fun row => List.length row = n) rows ->
       run fuel a fs = Done (Ok (fs, Some IndexError))).
  Proof.
    intros fuel a fs path rows (G1 & G2 & G3) M B.
    assert (SO : forall row : list (@T N), (List.length row < 8)%nat -> stamped_of row = None).
    { intros row L. do 8 (destruct row as [|? row]; [reflexivity|]). cbn [List.length] in L. lia. }
    assert (RD : forall inv, exists e, read_dual_quaternions fs path inv = Err e).
    { intros inv. unfold read_dual_quaternions, read_table. rewrite M. destruct rows as [|r rows].
      { destruct B as [B|(r & _ & [] & _)]. inversion B. }
      destruct (forallb _ _) eqn:L; cbn [bind]; [|now eexists]. rewrite forallb_forall in L.
      destruct B as [B|(r1 & r2 & I1 & I2 & N2)]; [|apply L, Nat.eqb_eq in I1, I2; congruence].
      match goal with |- exists e, mapM ?f _ = _ => set (g := f) end. clear - B SO. induction B as [row l S|row l B IH]; cbn [mapM].
      - unfold g at 1. rewrite (SO row S). now eexists.
      - destruct (g row) as [d|e]; cbn [bind]; [|now eexists]. destruct IH as (e & ->). now eexists. }
    assert (RI : forall inv n, (n < 8)%nat -> rows <> [] -> Forall (fun row => List.length row = n) rows -> read_dual_quaternions fs path inv = Err IndexError).
    { intros inv n L NE F. unfold read_dual_quaternions, read_table. rewrite M. destruct rows as [|r rows]; [easy|].
      assert (X : forallb (fun r' => Nat.eqb (List.length r') (List.length r)) (r :: rows) = true).
      { apply forallb_forall. intros r' I. rewrite Forall_forall in F. apply Nat.eqb_eq. rewrite (F r' I), (F r (or_introl eq_refl)). easy. }
      rewrite X. cbn [bind mapM]. rewrite (SO r); [easy|]. inversion F; lia. }
    assert (X3 : negb (given (calibration_output_json_file a)) || given (time_offset_input_csv_file a) = true).
    { destruct (calibration_output_json_file a); [|reflexivity]. destruct (time_offset_input_csv_file a); [reflexivity|]. now destruct G3. }
    pose proof (proj2 (xorb_exactly _ _) G1) as X1. pose proof (proj2 (xorb_exactly _ _) G2) as X2.
    assert (L : forall f, (f = aligned_poses_B_H_csv_file a \/ f = aligned_poses_H_B_csv_file a) -> f = Some path ->
      (exists e, load a fs = Err e) /\ forall n, (n < 8)%nat -> rows <> [] -> Forall (fun row => List.length row = n) rows -> load a fs = Err IndexError).
    { intros f P ->. unfold load. rewrite X1, X2, X3. cbn [assert_ bind]. destruct P as [P|P]; rewrite <- P.
      - split; [destruct (RD false) as (e & ->); now exists e|]. intros n A1 A2 A3. now rewrite (RI false n).
      - destruct G1 as [[_ K]|[K _]]; [congruence|]. rewrite K. split; [destruct (RD true) as (e & ->); now exists e|]. intros n A1 A2 A3. now rewrite (RI true n). }
    assert (L2 : aligned_poses_W_E_csv_file a = Some path \/ aligned_poses_E_W_csv_file a = Some path -> exists e, load a fs = Err e).
    { intros P. unfold load. rewrite X1, X2, X3. cbn [assert_ bind]. match goal with |- context [bind ?m _] => destruct m as [b|e] end; cbn [bind]; [|now exists e].
      destruct P as [P|P]; rewrite P; [destruct (RD false) as (e & ->); now exists e|]. destruct G2 as [[_ K]|[K _]]; [congruence|]. rewrite K.
      destruct (RD true) as (e & ->); now exists e. }
    unfold compute_hand_eye_calibration_py. split.
    - intros I. assert (E : exists e, load a fs = Err e).
      { destruct I as [I|[I|[I|[I|[]]]]].
        - apply (L _ (or_introl eq_refl) I). - apply (L _ (or_intror eq_refl) I). - now apply L2; left. - now apply L2; right. }
      destruct E as (e & ->). now exists e.
    - intros I n A1 A2 A3. destruct I as [I|[I|[]]].
      + now rewrite (proj2 (L _ (or_introl eq_refl) I) n).
      + now rewrite (proj2 (L _ (or_intror eq_refl) I) n).
  Qed.
  (** The time offset is read last: if its file is missing, the extrinsics have been written when the program ends with
      OSError, and the JSON file has not. *)
  Theorem C66_no_offset : forall fuel a (fs : files (N:=N)) r d o pj, calibrated fuel a fs r -> dq_H_E r = Some d ->
    calibration_output_json_file a = Some pj -> time_offset_input_csv_file a = Some o -> fs o = None ->
    extrinsics_output_csv_file a <> Some o ->
    exists fs', run fuel a fs = Done (Ok (fs', Some OSError)) /\
      (extrinsics_output_csv_file a <> Some pj -> fs' pj = fs pj) /\
      (forall pe, extrinsics_output_csv_file a = Some pe -> exists x y z i j k w,
         snd (to_pose d) = mkPose (mkV x y z) (mkQ i j k w) /\ fs' pe = Some (Csv [[x]; [y]; [z]; [i]; [j]; [k]; [w]])).
  Proof.
    intros fuel a fs r d o pj C D J O M NE. rewrite (run_calibrated _ _ _ _ C), D. unfold write_extrinsics.
    destruct (extrinsics_output_csv_file a) as [pe|].
    - destruct (to_pose d) as [d' [[x y z] [i j k w]]]. unfold write_calibration. rewrite J, O. unfold read_table, put at 1.
      destruct (String.eqb_spec o pe) as [->|_]; [contradiction|]. rewrite M. cbn [bind]. eexists. split; [reflexivity|]. split.
      + intros N2. unfold put. destruct (String.eqb_spec pj pe) as [->|_]; [contradiction|reflexivity].
      + intros pe' E. injection E as <-. exists x, y, z, i, j, k, w. split; [reflexivity|]. unfold put. now rewrite String.eqb_refl.
    - unfold write_calibration, read_table. rewrite J, O, M. cbn [bind]. exists fs. split; [reflexivity|]. split; [reflexivity|discriminate].
  Qed.
End Program.

(** *** poses in files, over the reals *)
(** a line: time stamp, translation, rotation quaternion (not necessarily of unit length) *)
Definition line : Type := R * (rv * rq).
Definition numbers (r : line) : list (@T XR) :=
  let '(t, (p, q)) := r in map Fin [t; Spec.v1 p; v2 p; v3 p; Spec.v1 (qv q); v2 (qv q); v3 (qv q); qs q].
Definition table (rows : list line) : content (N:=XR) := Csv (map numbers rows).
(** the transform on a line *)
Definition transform (r : line) : rdq := dq_of (hscale (/ hnorm (snd (snd r))) (snd (snd r))) (fst (snd r)).
Definition readable (r : line) : Prop := 1 / 100000000 < hnorm (snd (snd r)).
(** what a pair of alternative flags provides: the transforms in the file, or their inverses *)
Inductive provides (fs : files (N:=XR)) (direct inverse : option string) : list rdq -> Prop :=
| provides_direct path rows : direct = Some path -> inverse = None -> fs path = Some (table rows) -> Forall readable rows ->
    provides fs direct inverse (map transform rows)
| provides_inverse path rows : direct = None -> inverse = Some path -> fs path = Some (table rows) -> Forall readable rows ->
    provides fs direct inverse (map (fun r => dqinv (transform r)) rows).
Definition hand_poses (a : calibration_args) fs := provides fs (aligned_poses_B_H_csv_file a) (aligned_poses_H_B_csv_file a).
Definition eye_poses (a : calibration_args) fs := provides fs (aligned_poses_W_E_csv_file a) (aligned_poses_E_W_csv_file a).

Lemma transform_unit r : readable r -> unitdq (transform r).
Proof.
  unfold readable, transform. intros H. apply dq_of_unit. set (q := snd (snd r)) in *. unfold unitq.
  assert (E : hnorm q * hnorm q = hnorm2 q) by (unfold hnorm; apply sqrt_sqrt, hnorm2_pos).
  replace (hnorm2 (hscale (/ hnorm q) q)) with (/ hnorm q * / hnorm q * hnorm2 q) by (unfold hnorm2, hdot, hscale, dot3, vscale; cbn [qv qs Spec.v1 v2 v3]; ring).
  rewrite <- E. field. lra.
Qed.
Lemma provides_units fs di iv ds : provides fs di iv ds -> Forall unitdq ds.
Proof.
  intros [p rows _ _ _ F|p rows _ _ _ F]; rewrite Forall_forall in *; intros d I; apply in_map_iff in I as (r & <- & I).
  - now apply transform_unit, F.
  - now apply unitdq_inv, transform_unit, F.
Qed.
Lemma read_table_in fs p rows : fs p = Some (table rows) -> read_table fs p = Ok (map numbers rows).
Proof.
  intros E. unfold read_table. rewrite E. unfold table. destruct rows as [|r rows]; [easy|].
  assert (L : forall r, List.length (numbers r) = 8%nat) by (intros (t & p0 & q); reflexivity).
  cbn [map]. match goal with |- context [forallb ?f ?l] => assert (FB : forallb f l = true) end; [|now rewrite FB].
  apply forallb_forall. intros x [<-|I]; [apply Nat.eqb_refl|]. apply in_map_iff in I as (r' & <- & _). rewrite !L. apply Nat.eqb_refl.
Qed.
Lemma read_direct fs p rows : fs p = Some (table rows) -> Forall readable rows ->
  read_dual_quaternions fs p false = Ok (map inD (map transform rows)).
Proof.
  intros E F. unfold read_dual_quaternions. rewrite (read_table_in _ _ _ E). cbn [bind]. clear E.
  induction F as [|r rows R F IH]; [easy|]. cbn [map mapM]. rewrite IH. destruct r as (t & p0 & q). cbn [numbers map stamped_of].
  unfold from_pose_vector. cbn [snd pos ori bind].
  match goal with |- context [from_pose ?v ?w] => change (from_pose v w) with (from_pose (inV p0) (inQ q)) end.
  now rewrite from_pose_in.
Qed.
Lemma read_inverse fs p rows : fs p = Some (table rows) -> Forall readable rows ->
  read_dual_quaternions fs p true = Ok (map inD (map (fun r => dqinv (transform r)) rows)).
Proof.
  intros E F. unfold read_dual_quaternions. rewrite (read_table_in _ _ _ E). cbn [bind]. clear E.
  induction F as [|r rows R F IH]; [easy|]. cbn [map mapM]. rewrite IH. pose proof (transform_unit r R) as U. destruct r as (t & p0 & q). cbn [numbers map stamped_of].
  unfold from_pose_vector. cbn [snd pos ori bind].
  match goal with |- context [from_pose ?v ?w] => change (from_pose v w) with (from_pose (inV p0) (inQ q)) end.
  rewrite from_pose_in by easy. unfold transform in U |- *. cbn [fst snd] in U |- *. rewrite dinv_big by now apply unitdq_tiny. reflexivity.
Qed.
Lemma provides_read fs di iv ds : provides fs di iv ds ->
  (exactly_one di iv) /\
  match di, iv with
  | Some path, _ => read_dual_quaternions fs path false
  | None, Some path => read_dual_quaternions fs path true
  | None, None => Err TypeError
  end = Ok (map inD ds).
Proof.
  intros [p rows -> -> E F|p rows -> -> E F]; (split; [unfold exactly_one|]).
  - left. easy.
  - now apply read_direct.
  - right. easy.
  - now apply read_inverse.
Qed.
(** the path seen from its first pose *)
Definition from_first (ds : list rdq) : list rdq :=
  match ds with [] => [] | d0 :: _ => map (fun d => rflip (dqmul (dqinv d0) d)) ds end.
Lemma align_first ds : ds <> [] -> Forall unitdq ds -> align_paths_at_index (map inD ds) 0 = Ok (map inD (from_first ds)) /\ Forall unitdq (from_first ds).
Proof.
  intros NE F. destruct ds as [|d0 ds]; [contradiction|]. inversion F as [|? ? U0 F0]; subst. split.
  - rewrite (align_in (d0 :: ds) 0 d0) by (try easy; now apply unitdq_tiny). unfold rotl. cbn [skipn firstn]. now rewrite app_nil_r.
  - unfold from_first. rewrite Forall_forall in *. intros d I. apply in_map_iff in I as (d1 & <- & I). apply rflip_unit, unitdq_mul; [now apply unitdq_inv|now apply F].
Qed.
Lemma load_in (a : calibration_args) fs ds es : hand_poses a fs ds -> eye_poses a fs es -> ds <> [] -> List.length ds = List.length es ->
  (calibration_output_json_file a <> None -> time_offset_input_csv_file a <> None) ->
  load a fs = Ok (map inD (from_first ds), map inD (from_first es)).
Proof.
  intros H E NE L J. destruct (provides_read _ _ _ _ H) as [X1 R1], (provides_read _ _ _ _ E) as [X2 R2].
  apply provides_units in H, E. apply (proj2 (xorb_exactly _ _)) in X1, X2. unfold load. rewrite X1, X2, R1, R2.
  replace (negb _ || _) with true.
  2:{ symmetry. destruct (calibration_output_json_file a); [|easy]. destruct (time_offset_input_csv_file a); [easy|]. now destruct J. }
  cbn [assert_ bind]. rewrite !map_length, L, Nat.eqb_refl. cbn [assert_ bind].
  destruct (align_first ds NE H) as [A1 U1]. destruct (align_first es) as [A2 U2]; [intros ->; now destruct ds|easy|].
  rewrite A1. cbn [bind]. rewrite A2. cbn [bind]. destruct (parse_bool (visualize a)); [|easy].
  assert (NO : forall l, Forall unitdq l -> map (fun d => fst (to_pose (N:=XR) d)) (map inD l) = map inD l).
  { intros l F. rewrite map_map. apply map_ext_in. intros d I. rewrite Forall_forall in F. now rewrite to_pose_unit by now apply F. }
  now rewrite !NO.
Qed.

(** Only the poses matter: whether they are given directly or as inverses, the scale and the sign of each quaternion,
    the time stamps and the visualisation do not, as long as no motion from the first pose is a half turn. *)
Definition same_up_to_sign (d d' : rdq) : Prop := d' = d \/ d' = dqneg d.
Definition no_half_turn_from_first (ds : list rdq) : Prop :=
  forall d0 d, nth_error ds 0 = Some d0 -> In d ds -> qs (dr (dqmul (dqinv d0) d)) <> 0.
Lemma dqinv_neg a : unitdq a -> dqinv (dqneg a) = dqneg (dqinv a).
Proof.
  intros U. rewrite !unitdq_inv_conj by auto using unitdq_neg. apply rdq_eq; unfold dqconj, dqneg; cbn [dr dd]; qring.
Qed.
Lemma rflip_neg d : qs (dr d) <> 0 -> rflip (dqneg d) = rflip d.
Proof.
  intros H. unfold rflip. replace (qs (dr (dqneg d))) with (- qs (dr d)) by reflexivity.
  destruct (Rlt_dec (- qs (dr d)) 0), (Rlt_dec (qs (dr d)) 0); try lra; [apply dqneg_neg|easy].
Qed.
Lemma from_first_signs ds ds' : Forall unitdq ds -> Forall2 same_up_to_sign ds ds' -> no_half_turn_from_first ds -> from_first ds = from_first ds'.
Proof.
  intros U F NH. destruct F as [|d0 d0' ds ds' S F]; [easy|]. unfold from_first.
  assert (NHT : forall d, In d (d0 :: ds) -> qs (dr (dqmul (dqinv d0) d)) <> 0) by (intros; now apply NH). clear NH. inversion U as [|? ? U0 _]; subst.
  assert (G : forall d d', In d (d0 :: ds) -> same_up_to_sign d d' -> rflip (dqmul (dqinv d0) d) = rflip (dqmul (dqinv d0') d')).
  { intros d d' I S'. specialize (NHT d I).
    assert (NG : qs (dr (dqneg (dqmul (dqinv d0) d))) <> 0) by (replace (qs (dr (dqneg (dqmul (dqinv d0) d)))) with (- qs (dr (dqmul (dqinv d0) d))) by reflexivity; lra).
    destruct S as [->| ->], S' as [->| ->]; rewrite ?dqinv_neg by easy; rewrite ?dqmul_neg_l, ?dqmul_neg_r, ?dqneg_neg, ?rflip_neg by easy; easy. }
  clear NHT U U0. cbn [map]. f_equal; [apply G; [now left|easy]|].
  assert (H : forall l l', incl l ds -> Forall2 same_up_to_sign l l' -> map (fun d => rflip (dqmul (dqinv d0) d)) l = map (fun d => rflip (dqmul (dqinv d0') d)) l').
  { clear F. intros l l' I F. induction F as [|d d' l l' S' F IH]; [easy|]. cbn [map]. f_equal; [apply G; [right; apply I; now left|easy]|].
    apply IH. intros x X. apply I. now right. }
  apply H; [apply incl_refl|easy].
Qed.
Theorem C66_poses : forall svd fuel (a a' : calibration_args) fs ds ds' es es',
  hand_poses a fs ds -> eye_poses a fs es -> hand_poses a' fs ds' -> eye_poses a' fs es' ->
  Forall2 same_up_to_sign ds ds' -> Forall2 same_up_to_sign es es' ->
  no_half_turn_from_first ds -> no_half_turn_from_first es -> ds <> [] -> List.length ds = List.length es ->
  extrinsics_output_csv_file a' = extrinsics_output_csv_file a -> time_offset_input_csv_file a' = time_offset_input_csv_file a ->
  calibration_output_json_file a' = calibration_output_json_file a ->
  (calibration_output_json_file a <> None -> time_offset_input_csv_file a <> None) ->
  compute_hand_eye_calibration_py svd fuel a' fs = compute_hand_eye_calibration_py svd fuel a fs.
Proof.
  intros svd fuel a a' fs ds ds' es es' H E H' E' SD SE ND NE N0 L X T J JT.
  assert (L1 : List.length ds' = List.length ds) by (symmetry; eapply Forall2_len; eauto).
  assert (L2 : List.length es' = List.length es) by (symmetry; eapply Forall2_len; eauto).
  assert (UD : Forall unitdq ds) by exact (provides_units _ _ _ _ H). assert (UE : Forall unitdq es) by exact (provides_units _ _ _ _ E).
  unfold compute_hand_eye_calibration_py. rewrite (load_in a fs ds es H E N0 L JT).
  rewrite (load_in a' fs ds' es' H' E'); [|intros ->; now destruct ds|congruence|now rewrite J, T].
  rewrite (from_first_signs ds ds' UD SD ND), (from_first_signs es es' UE SE NE).
  unfold write_extrinsics, write_calibration. now rewrite X, T, J.
Qed.

(** *** noise-free data *)
Lemma from_first_pairs d0 e0 ds es : List.length ds = List.length es ->
  combine (from_first (d0 :: ds)) (from_first (e0 :: es)) = realign 0 (d0, e0) (combine (d0 :: ds) (e0 :: es)).
Proof.
  intros L. unfold realign, rotl, from_first. cbn [skipn firstn fst snd]. rewrite app_nil_r.
  generalize (d0 :: ds), (e0 :: es). intros l. induction l as [|d l IH]; intros [|e l']; cbn [map combine]; try easy. now rewrite IH.
Qed.
Lemma hands_combine ds es : List.length ds = List.length es -> hands (combine ds es) = map inD ds.
Proof. unfold hands. revert es. induction ds as [|d ds IH]; intros [|e es] L; try easy. cbn [combine map fst]. rewrite IH by now injection L. easy. Qed.
Lemma eyes_combine ds es : List.length ds = List.length es -> eyes (combine ds es) = map inD es.
Proof. unfold eyes. revert es. induction ds as [|d ds IH]; intros [|e es] L; try easy. cbn [combine map snd]. rewrite IH by now injection L. easy. Qed.
Lemma motion_flip a b : unitdq a -> qs (dr (dqmul (dqinv a) b)) <> 0 -> qs (dr (dqmul (dqinv (rflip a)) (rflip b))) <> 0.
Proof.
  intros U H. assert (NG : forall d, qs (dr d) <> 0 -> qs (dr (dqneg d)) <> 0) by (intros d K; cbn [dqneg dr hneg qs]; lra).
  destruct (rflip_cases a) as [-> | ->], (rflip_cases b) as [-> | ->]; rewrite ?dqinv_neg by easy; rewrite ?dqmul_neg_l, ?dqmul_neg_r, ?dqneg_neg; auto.
Qed.
Lemma dqinv_one : dqinv dqone = dqone.
Proof. rewrite <- (dqmul_1_r (dqinv dqone)), dqmul_inv_l by (unfold dqone; specu; lra). easy. Qed.
Lemma realign_experiment x l k p0 : unitdq x -> perfect x l -> no_half_turn l -> rich l -> nth_error l k = Some p0 ->
  perfect x (realign k p0 l) /\ no_half_turn (realign k p0 l) /\ rich (realign k p0 l).
Proof.
  intros U P NH RI N0. pose proof (perfect_units x l U P) as UU. pose proof (nth_error_In _ _ N0) as I0.
  destruct (realign_perfect x l k p0 U P NH N0) as [C C']. rewrite Forall_forall in C, C'.
  split; [|split].
  - exists (dqinv x). split; [now apply unitdq_inv|]. apply Forall_forall. intros p I. destruct (C' p I) as (U1 & _). split; [easy|]. left.
    rewrite dqmul_assoc, (C p I), <- dqmul_assoc, dqmul_inv_l, dqmul_1_l by now apply unitdq_n2. easy.
  - intros p q Ip Iq. apply realign_in in Ip as (p1 & I1 & ->), Iq as (q1 & I2 & ->). unfold motion. cbn [fst].
    assert (M : dqmul (dqinv (dqmul (dqinv (fst p0)) (fst p1))) (dqmul (dqinv (fst p0)) (fst q1)) = motion p1 q1).
    { destruct (UU p0 I0) as [V0 _], (UU p1 I1) as [V1 _]. rewrite dqinv_mul by auto using unitdq_inv. unfold motion.
      rewrite dqmul_assoc, <- (dqmul_assoc (dqinv (dqinv (fst p0)))), dqmul_inv_l, dqmul_1_l by (apply unitdq_n2; auto using unitdq_inv). easy. }
    specialize (NH p1 q1 I1 I2). rewrite <- M in NH.
    destruct (UU p0 I0) as [V0 _], (UU p1 I1) as [V1 _]. assert (UM : unitdq (dqmul (dqinv (fst p0)) (fst p1))) by auto using unitdq_mul, unitdq_inv.
    now apply motion_flip.
  - destruct (realign_axes x l k p0 U P RI N0) as (p & q & Ip & Iq & NZ).
    destruct (UU p0 I0) as [V1 V2]. destruct (realign_first k p0 l N0 V1 V2) as (rest & E).
    exists (dqone, dqone), p, q. split; [rewrite E; now left|]. split; [easy|]. split; [easy|].
    unfold motion. cbn [fst]. now rewrite dqinv_one, !dqmul_1_l.
Qed.

Lemma filtered_two (cfg : config XR) l lf : prefilter_poses_enabled cfg = true -> filtered cfg (hands l) (eyes l) = Ok (hands lf, eyes lf) -> (2 <= List.length lf)%nat.
Proof.
  intros PE H. unfold filtered in H. rewrite PE in H. apply bind_ok in H as (k & K & H). rewrite split_maps in H.
  assert (E : map fst k = hands lf) by exact (f_equal (fun r => match r with Ok (a, _) => a | Err _ => hands lf end) H).
  assert (LK : List.length k = List.length lf) by (apply (f_equal (@List.length _)) in E; unfold hands in E; now rewrite !map_length in E).
  rewrite <- LK. clear H E LK.
  destruct (C29_prefilter XR (prefilter_dot_product_threshold cfg) (combine (hands l) (eyes l))) as (keep & L & _ & E).
  rewrite E in K. destruct (Nat.leb_spec 2 (count_true keep)) as [C|]; [|discriminate K].
  assert (K' : k = compress (combine (hands l) (eyes l)) keep) by exact (f_equal (fun r => match r with Ok a => a | Err _ => k end) (eq_sym K)).
  rewrite K'. replace (List.length (compress (combine (hands l) (eyes l)) keep)) with (count_true keep); [easy|].
  clear -L. revert keep L. generalize (combine (hands l) (eyes l)). intros c. induction c as [|p c IH]; intros [|[] f] L; try easy; cbn.
  - f_equal. apply IH. now injection L.
  - apply IH. now injection L.
Qed.
Theorem C66_exact : forall svd (a : calibration_args) fs (x : rdq) ds es lf po pj t,
  hand_poses a fs ds -> eye_poses a fs es -> List.length ds = List.length es -> (10 <= List.length ds)%nat ->
  unitdq x -> 0 < qs (dr x) -> perfect x (combine ds es) -> no_half_turn (combine ds es) -> rich (combine ds es) ->
  let l := combine (from_first ds) (from_first es) in
  let cfg := hand_config (get_exhaustive_search_scalar_part_inliers_config (N:=XR)) in
  filtered cfg (hands l) (eyes l) = Ok (hands lf, eyes lf) ->
  (forall m, exists r, svd m = Ok r) ->
  (forall k p, (k < List.length lf)%nat -> nth_error l k = Some p -> regular svd (trows (realign k p l))) ->
  time_offset_input_csv_file a = Some po -> calibration_output_json_file a = Some pj -> extrinsics_output_csv_file a <> Some po ->
  fs po = Some (Csv [[Fin t]]) ->
  exists fuel0, forall fuel, (fuel0 <= fuel)%nat ->
    compute_hand_eye_calibration_py svd fuel a fs =
      Done (Ok (put (match extrinsics_output_csv_file a with
                     | Some pe => put fs pe (Csv (map (fun y => [Fin y]) [Spec.v1 (trans_of x); v2 (trans_of x); v3 (trans_of x);
                                                                       Spec.v1 (qv (dr x)); v2 (qv (dr x)); v3 (qv (dr x)); qs (dr x)]))
                     | None => fs
                     end) pj (Json (document t (trans_of x) (dr x))), None)).
Proof.
  intros svd a fs x ds es lf po pj t H E L L10 U W P NH RI l cfg FIL TOT REG XO XJ NEO OFF.
  destruct ds as [|d0 ds]; [cbn in L10; lia|]. destruct es as [|e0 es]; [discriminate L|].
  assert (LL : List.length ds = List.length es) by now injection L.
  assert (EL : l = realign 0 (d0, e0) (combine (d0 :: ds) (e0 :: es))) by now apply from_first_pairs.
  destruct (realign_experiment x (combine (d0 :: ds) (e0 :: es)) 0 (d0, e0) U P NH RI eq_refl) as (P1 & NH1 & RI1). rewrite <- EL in P1, NH1, RI1.
  assert (LF : List.length (from_first (d0 :: ds)) = List.length (from_first (e0 :: es))) by (unfold from_first; rewrite !map_length; easy).
  assert (LN : List.length l = List.length (d0 :: ds)) by (unfold l; rewrite combine_length, LF, Nat.min_id; unfold from_first; rewrite map_length; now rewrite L).
  assert (NF : (2 <= List.length lf)%nat) by now apply (filtered_two cfg l).
  assert (LX : (10 <= List.length l)%nat) by now rewrite LN.
  destruct (C65_succeeds svd (fun _ => []) cfg x l lf) as (r & fuel0 & RUN & _ & DQ & _); auto.
  - revert NF LX. generalize (List.length l), (List.length lf). intros n nf NF LX. constructor; try discriminate; try (cbn; lia);
    try (eexists; split; [apply lit_fin|cbn [Rlit]; lra]).
  - discriminate.
  - intros s (i & SA). change (sample_at (fun _ => []) cfg (List.length lf) i) with (index (combinations (seq 0 (List.length lf)) 1) i) in SA.
    rewrite combinations_1 in SA. unfold index in SA. destruct (nth_error (map _ _) i) as [s'|] eqn:NS; [|discriminate SA]. injection SA as ->.
    apply nth_error_In, in_map_iff in NS as (k & <- & IK). apply in_seq in IK. split; [|discriminate].
    intros k' p K N. injection K as <-. apply REG; [lia|easy].
  - exists fuel0. intros fuel FU. specialize (RUN fuel FU).
    rewrite (run_calibrated XR svd fuel a fs r).
    2:{ exists (hands l), (eyes l). split; [|exact RUN]. unfold l. rewrite hands_combine, eyes_combine by easy.
        apply load_in; auto; [discriminate|]. rewrite XO. discriminate. }
    assert (PW : pos_w (dr x) = dr x) by (unfold pos_w; destruct (Rlt_dec (qs (dr x)) 0); [lra|easy]).
    assert (WC : forall g : files, g po = Some (Csv [[Fin t]]) -> write_calibration a (Some (inD x)) g = (put g pj (Json (document t (trans_of x) (dr x))), None)).
    { intros g OG. unfold write_calibration. rewrite XJ, XO. unfold read_table at 1. rewrite OG. cbn [forallb Datatypes.length Nat.eqb andb bind index nth_error].
      rewrite to_pose_unit by easy. cbn [snd]. rewrite PW.
      unfold from_pose_vector. cbn [inP pos ori]. rewrite from_pose_unit by apply U. rewrite dq_of_trans by easy.
      pose proof (write_in t x false) as WI. cbv zeta in WI. unfold inC in WI. rewrite WI by (rewrite unitdq_norm by easy; lra). cbn [snd].
      assert (NX : dqnormalize x = x) by (unfold dqnormalize; rewrite unitdq_norm, Rinv_1 by easy; apply dqscale_1).
      now rewrite NX, PW. }
    rewrite DQ. unfold write_extrinsics. destruct (extrinsics_output_csv_file a) as [pe|].
    + rewrite to_pose_unit by easy. rewrite PW, WC; [reflexivity|]. unfold put. destruct (String.eqb_spec po pe) as [K|_]; [now subst|exact OFF].
    + now rewrite WC.
Qed.

(** Non-vacuity of C66_exact: eleven poses without translation, three of them the identity, the others the two rotations of
    [l0], four times each. *)
Definition lineA : line * line := ((0, (vzero, RQ (RV (3/5) 0 0) (4/5))), (0, (vzero, RQ (RV (21/125) (-72/125) 0) (4/5)))).
Definition lineB : line * line := ((1, (vzero, RQ (RV 0 (4/5) 0) (3/5))), (1, (vzero, RQ (RV (96/125) (28/125) 0) (3/5)))).
Definition lineI : line * line := ((2, (vzero, hone)), (2, (vzero, hone))).
Definition rows66 : list (line * line) := [lineI; lineI; lineI; lineA; lineA; lineA; lineA; lineB; lineB; lineB; lineB].
Definition pA : rdq * rdq := nth 0 l0 (dqone, dqone).
Definition pB : rdq * rdq := nth 1 l0 (dqone, dqone).
Definition l66 : list (rdq * rdq) := [(dqone, dqone); (dqone, dqone); (dqone, dqone); pA; pA; pA; pA; pB; pB; pB; pB].
Definition svd66 : list (@dquat XR) -> res (list (@T XR) * list (@dquat XR)) :=
  fun _ => Ok (map Fin (map (Rmult 2) s0), map inD (v0 (3/5) (4/5))).
Definition fs66 : files (N:=XR) := fun p =>
  if String.eqb p "hand.csv" then Some (table (map fst rows66))
  else if String.eqb p "eye.csv" then Some (table (map snd rows66))
  else if String.eqb p "offset.csv" then Some (Csv [[Fin (1/4)]]) else None.
Definition args66 : calibration_args :=
  mkCalibrationArgs (Some "hand.csv"%string) None (Some "eye.csv"%string) None
    (Some "extrinsics.csv"%string) (Some "offset.csv"%string) (Some "calibration.json"%string) None.

Lemma transform_unit_line t q : unitq q -> transform (t, (vzero, q)) = RD q hzero.
Proof.
  intros U. unfold transform. cbn [fst snd]. apply unit_hnorm in U. rewrite U, Rinv_1. apply rdq_eq; apply rq_eq; specu; ring.
Qed.
Lemma lines66 : map (fun p => (transform (fst p), transform (snd p))) rows66 = l66.
Proof.
  assert (EI : (transform (fst lineI), transform (snd lineI)) = (dqone, dqone)).
  { unfold lineI. cbn [fst snd]. now rewrite !transform_unit_line by (unfold unitq; specu; lra). }
  assert (EA : (transform (fst lineA), transform (snd lineA)) = pA).
  { unfold lineA. cbn [fst snd]. now rewrite !transform_unit_line by (unfold unitq; specu; lra). }
  assert (EB : (transform (fst lineB), transform (snd lineB)) = pB).
  { unfold lineB. cbn [fst snd]. now rewrite !transform_unit_line by (unfold unitq; specu; lra). }
  unfold rows66, l66. cbn [map]. now rewrite EI, EA, EB.
Qed.
Lemma in66 p : In p l66 -> p = (dqone, dqone) \/ p = pA \/ p = pB.
Proof. unfold l66. cbn [In]. intuition (subst; auto). Qed.
Lemma in66_l65 p : In p l66 -> In p l65.
Proof. intros I. apply in66 in I as [->|[->| ->]]; unfold l65, pA, pB, l0; cbn; auto. Qed.
Lemma gram_app m m' a b : gram (m ++ m') a b = gram m a b + gram m' a b.
Proof. unfold gram. induction m as [|r m IH]; cbn [app fold_right]; [ring|]. rewrite IH. ring. Qed.
Lemma gram_pairs l a b : gram (trows l) a b = fold_right Rplus 0 (map (fun p => gram (srows (fst p) (snd p)) a b) l).
Proof. induction l as [|p l IH]; [reflexivity|]. unfold trows in *. cbn [flat_map map fold_right]. rewrite gram_app, IH. easy. Qed.
Lemma gram_one a b : gram (srows dqone dqone) a b = 0.
Proof. destruct a as [[[] ?] [[] ?]], b as [[[] ?] [[] ?]]. rewrite image_gram. unfold srows, rhalf. cbn [map app combine fst snd fold_right]. unfold dqone. specu. ring. Qed.
Lemma gram66 k a b : (k < 2)%nat -> gram (trows (rotl k l66)) a b = 4 * gram m0 a b.
Proof.
  intros K. unfold m0. rewrite !gram_pairs. fold pA pB. replace ((dqone, dqone) :: l0) with [(dqone, dqone); pA; pB] by reflexivity.
  destruct k as [|[|k]]; [| |lia]; unfold rotl, l66; cbn [skipn firstn app map fold_right fst snd]; rewrite gram_one; ring.
Qed.
Lemma regular66 k : (k < 2)%nat -> regular svd66 (trows (rotl k l66)).
Proof.
  intros K. exists (map (Rmult 2) s0), (v0 (3/5) (4/5)), (RD (hscale (3/5) q0) (hscale (4/5) q0)).
  split; [reflexivity|]. split; [|split; [reflexivity|unfold q0; specu; lra]].
  assert (SP : svd_spec m0 s0 (v0 (3/5) (4/5))) by (apply svd0; lra).
  assert (NT : forall i, nth i (map (Rmult 2) s0) 0 = 2 * nth i s0 0) by (intros i; replace 0 with (2 * 0) at 1 by ring; apply map_nth).
  destruct SP as [S1 S2 S3 S4 S5 S6 S7 S8]. constructor; auto.
  - destruct k as [|[|k]]; [reflexivity|reflexivity|lia].
  - intros i j vi vj Vi Vj NE. rewrite gram66, (S5 i j) by easy. ring.
  - intros i vi Vi. rewrite gram66, (S6 i) by easy. rewrite NT. ring.
  - intros i. rewrite NT. specialize (S7 i). lra.
  - intros i j I. rewrite !NT. specialize (S8 i j I). lra.
Qed.
Lemma realign66 k : (k < 2)%nat -> realign k (dqone, dqone) l66 = rotl k l66.
Proof.
  intros _. unfold realign. f_equal. rewrite <- (map_id l66) at 2. apply map_ext_in. intros [a b] I. cbn [fst snd]. rewrite dqinv_one, !dqmul_1_l.
  apply in66 in I as [E|[E|E]]; injection E as -> ->; rewrite !rflip_id; try easy; unfold dqone; specu; lra.
Qed.
Lemma acos_turn w : 0 < w < 1 -> 1/2 < sqrt (1 - w * w) -> 1 / 1000000000000 < 2 * (acos w * (180 / PI)).
Proof.
  intros W H. assert (A : 0 < acos w).
  { destruct (acos_bound w) as [[A|A] _]; [easy|]. pose proof (cos_acos w ltac:(lra)) as C. rewrite <- A, cos_0 in C. lra. }
  pose proof (sin_lt_x (acos w) A) as S. rewrite sin_acos in S by lra.
  unfold Rsqr in S. pose proof PI_RGT_0. pose proof PI_4. 
  assert (1/2 < acos w) by lra. apply Rlt_trans with (2 * (1/2 * (180 / PI))).
  - assert (180 / 4 <= 180 / PI) by (unfold Rdiv; apply Rmult_le_compat_l; [lra|]; apply Rinv_le_contravar; lra). lra.
  - apply Rmult_lt_compat_l; [lra|]. apply Rmult_lt_compat_r; [|easy]. apply Rdiv_lt_0_compat; lra.
Qed.

Lemma sqrt_of x y : 0 <= y -> x = y * y -> sqrt x = y.
Proof. intros H ->. now apply sqrt_square. Qed.
Definition turns (d : rdq) : Prop := unitq (dr d) /\ 1 / 1000000000000 < 2 * (acos (qs (dr d)) * (180 / PI)) /\ qs (dr d) <> -1.
Lemma turns66 : turns (fst pA) /\ turns (snd pA) /\ turns (fst pB) /\ turns (snd pB).
Proof.
  unfold turns, pA, pB, l0. cbn [nth fst snd dr qs].
  assert (T1 : 1 / 1000000000000 < 2 * (acos (4/5) * (180 / PI))) by (apply acos_turn; [lra|rewrite (sqrt_of _ (3/5)) by lra; lra]).
  assert (T2 : 1 / 1000000000000 < 2 * (acos (3/5) * (180 / PI))) by (apply acos_turn; [lra|rewrite (sqrt_of _ (4/5)) by lra; lra]).
  repeat split; try assumption; try (unfold unitq; specu; lra); lra.
Qed.
Lemma dot_axes a b : turns a -> turns b -> vdot (unit_axis (inD a)) (unit_axis (inD b)) = Fin (dot3 (qv (dr a)) (qv (dr b)) / (len3 (qv (dr a)) * len3 (qv (dr b)))).
Proof. intros (A1 & A2 & A3) (B1 & B2 & B3). now apply C29_axes. Qed.
Lemma dot_same a : turns a -> vdot (unit_axis (inD a)) (unit_axis (inD a)) = Fin 1.
Proof.
  intros T. rewrite dot_axes by easy. destruct T as (A1 & A2 & A3). destruct (turn_hyp a A1 A2 A3) as [S _]. f_equal.
  assert (E : len3 (qv (dr a)) * len3 (qv (dr a)) = dot3 (qv (dr a)) (qv (dr a))) by (unfold len3; apply sqrt_sqrt, dot3_pos). rewrite E. field. rewrite <- E. nra.
Qed.
Lemma dot_cross a b : turns a -> turns b -> dot3 (qv (dr a)) (qv (dr b)) = 0 -> vdot (unit_axis (inD a)) (unit_axis (inD b)) = Fin 0.
Proof. intros A B Z. rewrite dot_axes by easy. rewrite Z. f_equal. unfold Rdiv. ring. Qed.
Lemma axis_ok a : turns a -> leb (vnorm (axis_of (inD a))) (lit 1 (-12)) = false.
Proof. intros (A1 & A2 & A3). now apply (C29_axes a a). Qed.
Lemma filtered66 : filtered (hand_config (get_exhaustive_search_scalar_part_inliers_config (N:=XR))) (hands l66) (eyes l66) = Ok (hands [pA; pB], eyes [pA; pB]).
Proof.
  destruct turns66 as (TA & TA' & TB & TB').
  unfold filtered. change (prefilter_poses_enabled (hand_config get_exhaustive_search_scalar_part_inliers_config)) with true. cbv iota.
  change (prefilter_dot_product_threshold (hand_config get_exhaustive_search_scalar_part_inliers_config)) with (Fin (95/100)).
  rewrite combine_hands_eyes.
  destruct (C29_prefilter XR (Fin (95/100)) (map (fun p => (inD (fst p), inD (snd p))) l66)) as (keep & L & K & ->).
  set (f := fun p : rdq * rdq => (inD (fst p), inD (snd p))) in *.
  assert (NF : forall k p, nth_error l66 k = Some p -> nth_error (map f l66) k = Some (f p)) by (intros k p E; now rewrite nth_error_map, E).
  (* the identity has no axis *)
  assert (KI : forall k, nth_error l66 k = Some (dqone, dqone) -> nth_error keep k <> Some true).
  { intros k E X. apply (K k _ (NF k _ E)) in X as (X & _). unfold f in X. cbn [fst] in X. rewrite (C29_identity_dropped dqone) in X by now left. discriminate X. }
  assert (LT1 : ltb (Num:=XR) (Fin (95/100)) (Fin 1) = true) by (cbn [ltb XR xltb]; apply Rltb_t; lra).
  assert (LT0 : ltb (Num:=XR) (Fin (95/100)) (Fin 0) = false) by (cbn [ltb XR xltb]; apply Rltb_f; lra).
  assert (KA : nth_error keep 3 = Some true).
  { apply (K 3%nat _ (NF 3%nat pA eq_refl)). split; [now apply axis_ok|]. split; [now apply axis_ok|].
    intros i q I _ T. exfalso. revert T. apply KI. destruct i as [|[|[|i]]]; [reflexivity|reflexivity|reflexivity|lia]. }
  assert (KA' : forall k, (3 < k)%nat -> nth_error l66 k = Some pA -> nth_error keep k <> Some true).
  { intros k I E X. apply (K k _ (NF k _ E)) in X as (_ & _ & X). destruct (X 3%nat (f pA) I eq_refl KA) as [X1 _].
    unfold f in X1. cbn [fst] in X1. rewrite dot_same, LT1 in X1 by easy. discriminate X1. }
  assert (KB : nth_error keep 7 = Some true).
  { apply (K 7%nat _ (NF 7%nat pB eq_refl)). split; [now apply axis_ok|]. split; [now apply axis_ok|].
    intros i q I Q T. destruct (Nat.eq_dec i 3) as [->|N3].
    - injection Q as <-. unfold f. cbn [fst snd]. rewrite (dot_cross (fst pA) (fst pB)) by (try assumption; unfold pA, pB, l0; cbn [nth fst snd dr qv]; unfold dot3; cbn; lra).
      rewrite (dot_cross (snd pA) (snd pB)) by (try assumption; unfold pA, pB, l0; cbn [nth fst snd dr qv]; unfold dot3; cbn; lra). now rewrite LT0.
    - exfalso. revert T. destruct i as [|[|[|[|[|[|[|i]]]]]]]; try lia; try (apply KI; reflexivity); (apply KA'; [lia|reflexivity]). }
  assert (KB' : forall k, (7 < k)%nat -> nth_error l66 k = Some pB -> nth_error keep k <> Some true).
  { intros k I E X. apply (K k _ (NF k _ E)) in X as (_ & _ & X). destruct (X 7%nat (f pB) I eq_refl KB) as [X1 _].
    unfold f in X1. cbn [fst] in X1. rewrite dot_same, LT1 in X1 by easy. discriminate X1. }
  assert (E : keep = [false; false; false; true; false; false; false; true; false; false; false]).
  { assert (I0 := KI 0%nat eq_refl). assert (I1 := KI 1%nat eq_refl). assert (I2 := KI 2%nat eq_refl).
    assert (A4 := KA' 4%nat ltac:(lia) eq_refl). assert (A5 := KA' 5%nat ltac:(lia) eq_refl). assert (A6 := KA' 6%nat ltac:(lia) eq_refl).
    assert (B8 := KB' 8%nat ltac:(lia) eq_refl). assert (B9 := KB' 9%nat ltac:(lia) eq_refl). assert (B10 := KB' 10%nat ltac:(lia) eq_refl).
    clear -L KA KB I0 I1 I2 A4 A5 A6 B8 B9 B10. rewrite map_length in L. cbn [Datatypes.length l66] in L.
    do 11 (destruct keep as [|? keep]; [discriminate L|]). destruct keep; [|discriminate L]. cbn [nth_error] in *.
    injection KA as ->. injection KB as ->.
    repeat match goal with H : Some ?b <> Some true |- _ => destruct b; [now destruct H|clear H] end. reflexivity. }
  rewrite E. cbn [count_true Nat.leb]. rewrite compress_map. cbn [compress l66 map bind split]. reflexivity.
Qed.
Lemma first66 : from_first (map fst l66) = map fst l66 /\ from_first (map snd l66) = map snd l66.
Proof.
  pose proof (realign66 0 ltac:(lia)) as E. unfold realign, rotl in E. cbn [skipn firstn] in E. rewrite !app_nil_r in E. split.
  - apply (f_equal (map fst)) in E. rewrite map_map in E. cbn [fst] in E. unfold from_first. cbn [map l66 fst] in *. exact E.
  - apply (f_equal (map snd)) in E. rewrite map_map in E. cbn [snd] in E. unfold from_first. cbn [map l66 snd] in *. exact E.
Qed.
Lemma perfect66 : perfect x0 l66.
Proof.
  exists (dqinv x0). split; [apply unitdq_inv, x0_unit|]. apply Forall_forall. intros p I. apply in66_l65 in I. split.
  - now apply l65_unit.
  - left. rewrite dqmul_assoc. assert (C : consistent x0 p).
    { destruct I as [<-|I]; [unfold consistent; cbn [fst snd]; now rewrite dqmul_1_l, dqmul_1_r|].
      pose proof l0_consistent as F. rewrite Forall_forall in F. now apply F. }
    rewrite C, <- dqmul_assoc, dqmul_inv_l, dqmul_1_l by apply unitdq_n2, x0_unit. easy.
Qed.
Lemma no_half_turn66 : no_half_turn l66.
Proof.
  intros p q P Q. apply in66_l65 in P, Q. unfold motion. rewrite unitdq_inv_conj by now apply l65_unit. unfold l65, l0 in P, Q. cbn [In] in P, Q.
  destruct P as [<-|[<-|[<-|[]]]]; destruct Q as [<-|[<-|[<-|[]]]]; unfold dqone; cbn [fst snd]; specu; lra.
Qed.
Lemma rich66 : rich l66.
Proof.
  exists (dqone, dqone), pA, pB. split; [now left|]. split; [cbn; tauto|]. split; [cbn; tauto|].
  unfold motion. rewrite !unitdq_inv_conj by (apply (l65_unit (dqone, dqone)); now left). unfold dqone, pA, pB, l0. cbn [nth fst snd]. intros E. specu. injection E as _ _ E. lra.
Qed.
Lemma regular66' k p : (k < 2)%nat -> nth_error l66 k = Some p -> regular svd66 (trows (realign k p l66)).
Proof.
  intros K N. assert (p = (dqone, dqone)) as -> by (destruct k as [|[|k]]; [now injection N as <-|now injection N as <-|lia]).
  rewrite realign66 by easy. now apply regular66.
Qed.
Lemma run66 (a : calibration_args) fs ph pw po pj :
  aligned_poses_B_H_csv_file a = Some ph -> aligned_poses_H_B_csv_file a = None -> fs ph = Some (table (map fst rows66)) ->
  aligned_poses_W_E_csv_file a = Some pw -> aligned_poses_E_W_csv_file a = None -> fs pw = Some (table (map snd rows66)) ->
  time_offset_input_csv_file a = Some po -> calibration_output_json_file a = Some pj -> extrinsics_output_csv_file a <> Some po ->
  fs po = Some (Csv [[Fin (1/4)]]) ->
  exists fuel0, forall fuel, (fuel0 <= fuel)%nat ->
    exists fs', compute_hand_eye_calibration_py svd66 fuel a fs = Done (Ok (fs', None)) /\
      fs' pj = Some (Json (document (1/4) (trans_of x0) (dr x0))).
Proof.
  intros X1 X2 X3 X4 X5 X6 XO XJ XN XF.
  assert (RD66 : Forall readable (map fst rows66) /\ Forall readable (map snd rows66)).
  { assert (G : forall q, unitq q -> 1 / 100000000 < hnorm q) by (intros q U; apply unit_hnorm in U; lra).
    split; unfold rows66; cbn [map]; repeat apply Forall_cons; try apply Forall_nil; unfold readable, lineA, lineB, lineI; cbn [fst snd]; apply G; unfold unitq; specu; lra. }
  destruct RD66 as [R1 R2].
  assert (M1 : map transform (map fst rows66) = map fst l66) by (rewrite <- lines66, !map_map; apply map_ext; easy).
  assert (M2 : map transform (map snd rows66) = map snd l66) by (rewrite <- lines66, !map_map; apply map_ext; easy).
  assert (CB : combine (map fst l66) (map snd l66) = l66) by reflexivity.
  destruct first66 as [F1 F2].
  destruct (C66_exact svd66 a fs x0 (map fst l66) (map snd l66) [pA; pB] po pj (1/4)) as (fuel0 & H).
  - rewrite <- M1. now apply (provides_direct fs _ _ ph).
  - rewrite <- M2. now apply (provides_direct fs _ _ pw).
  - reflexivity.
  - cbn. lia.
  - apply x0_unit.
  - cbn; lra.
  - rewrite CB. exact perfect66.
  - rewrite CB. exact no_half_turn66.
  - rewrite CB. exact rich66.
  - rewrite F1, F2, CB. exact filtered66.
  - intros m. now eexists.
  - rewrite F1, F2, CB. intros k p K N. now apply regular66'.
  - exact XO.
  - exact XJ.
  - exact XN.
  - exact XF.
  - exists fuel0. intros fuel FU. eexists. split; [now apply H|]. unfold put. now rewrite String.eqb_refl.
Qed.
Example C66_example : exists fuel0, forall fuel, (fuel0 <= fuel)%nat ->
  exists fs', compute_hand_eye_calibration_py svd66 fuel args66 fs66 = Done (Ok (fs', None)) /\
    fs' "calibration.json"%string = Some (Json (document (1/4) (trans_of x0) (dr x0))).
Proof. apply (run66 args66 fs66 "hand.csv" "eye.csv" "offset.csv" "calibration.json"); try reflexivity. discriminate. Qed.

(** What C66_exact writes reads back as the true transform and the time offset. *)
Theorem C66_readback : forall (x : rdq) t, unitdq x -> from_json (document t (trans_of x) (dr x)) false = Ok (inC t x).
Proof.
  intros x t U. pose proof (unitdq_norm x U) as H. rewrite read_in by (rewrite H; lra). cbn [flipped]. rewrite H, Rinv_1.
  assert (E : forall q : rq, hscale 1 q = q) by (intros [[a b c] d]; unfold hscale, vscale; cbn [qv qs Spec.v1 v2 v3]; now rewrite !Rmult_1_l).
  rewrite E.
  now rewrite dq_of_trans.
Qed.
(** --visualize is true for every text but the empty one: the complete script's --visualize=0 switches the plots on. *)
Theorem C66_visualize : forall s, parse_bool (Some s) = false <-> s = ""%string.
Proof. intros s. unfold parse_bool. destruct (String.eqb_spec s ""); cbn; now split. Qed.

(** *** too few poses *)
Notation es_config := (hand_config (get_exhaustive_search_scalar_part_inliers_config (N:=XR))).
Lemma few_rejected svd (l lf : list (rdq * rdq)) k : Forall (fun p => unitdq (fst p) /\ unitdq (snd p)) l -> (List.length l < 10)%nat ->
  (k < List.length lf)%nat -> (List.length lf <= List.length l)%nat ->
  evaluate_sample svd es_config (hands l) (eyes l) (hands lf) (eyes lf) [k] = Ok Rejected.
Proof.
  intros U L K LE. assert (IX : forall i, In i [k] -> (i < List.length lf)%nat) by (intros i [<-|[]]; easy).
  destruct (mapM_index_total lf [k] IX) as (sub & SUB & _ & LSUB).
  assert (SH : mapM (index (hands lf)) [k] = Ok (hands sub)) by exact (mapM_index_map _ _ _ _ SUB).
  assert (SE : mapM (index (eyes lf)) [k] = Ok (eyes sub)) by exact (mapM_index_map _ _ _ _ SUB).
  unfold evaluate_sample. rewrite SH, SE. cbn [bind]. change (ransac_sample_size es_config) with 1%nat.
  rewrite assert_true by (unfold eyes; rewrite map_length, LSUB; apply Nat.eqb_refl).
  change (1 <? 1)%nat with false. cbv iota. cbn [bind negb]. unfold index at 1. cbn [nth_error bind].
  destruct (nth_error l k) as [p0|] eqn:N0; [|apply nth_error_None in N0; lia].
  rewrite Forall_forall in U. destruct (U p0 ltac:(now apply nth_error_In in N0)) as [U3 U4].
  assert (B1 : align_paths_at_index (hands l) k = Ok (hands (realign k p0 l))) by (apply align_hands; [easy|now apply unitdq_tiny]).
  assert (B2 : align_paths_at_index (eyes l) k = Ok (eyes (realign k p0 l))) by (apply align_eyes; [easy|now apply unitdq_tiny]).
  rewrite B1, B2. cbn [bind]. unfold classify. change (ransac_inlier_classification es_config) with ScalarPartEquality. cbv iota.
  assert (TL : exists t, ransac_sample_rejection_tolerance es_config = Fin t /\ 0 <= t) by (eexists; split; [reflexivity|cbn; lra]).
  destruct TL as (t & -> & T0). rewrite flags_in by easy. cbn [bind].
  set (fl := map _ (realign k p0 l)).
  assert (LC : forall (A : Type) (u : list A) f, (List.length (compress u f) <= List.length u)%nat).
  { clear. induction u as [|y u IH]; intros [|[] f]; cbn; try lia; specialize (IH f); lia. }
  assert (LN : (List.length (compress (hands (realign k p0 l)) fl) < 10)%nat).
  { eapply Nat.le_lt_trans; [apply LC|]. unfold hands. now rewrite map_length, realign_length. }
  change (min_num_inliers es_config) with 10%nat. apply Nat.ltb_lt in LN. now rewrite LN.
Qed.
Lemma loop_rejected svd draw (l lf : list (rdq * rdq)) :
  (forall k, (k < List.length lf)%nat -> evaluate_sample svd es_config (hands l) (eyes l) (hands lf) (eyes lf) [k] = Ok Rejected) ->
  forall fuel st, (List.length lf - sample_number st < fuel)%nat -> best st = None ->
  exists st', best st' = None /\ ransac_loop svd draw fuel es_config (hands l) (eyes l) (hands lf) (eyes lf) st = Done (Ok st').
Proof.
  intros REJ. assert (LE : List.length (eyes lf) = List.length lf) by (unfold eyes; now rewrite map_length).
  assert (CB : forall m o, combinations (seq o m) 1 = map (fun k => [k]) (seq o m)).
  { induction m as [|m IH]; intros o; [reflexivity|]. cbn [seq combinations map]. rewrite IH. destruct (seq (S o) m); reflexivity. }
  induction fuel as [|fuel IH]; intros st F B; [lia|]. cbn [ransac_loop]. rewrite LE.
  unfold guard, sample_at. change (enable_exhaustive_search es_config) with true. cbv iota. change (ransac_sample_size es_config) with 1%nat.
  rewrite CB, map_length, seq_length. destruct (Nat.ltb_spec (sample_number st) (List.length lf)) as [G|G]; [|now exists st].
  assert (IX : index (map (fun k => [k]) (seq 0 (List.length lf))) (sample_number st) = Ok [sample_number st]).
  { unfold index. rewrite nth_error_map, (nth_error_nth' _ 0%nat) by now rewrite seq_length. now rewrite seq_nth. }
  rewrite IX. cbn [bind]. rewrite REJ by easy. cbn [bind account]. apply IH; cbn; [lia|easy].
Qed.
Lemma map_fst_combine {A B} : forall (u : list A) (v : list B), List.length u = List.length v -> map fst (combine u v) = u.
Proof. induction u as [|x u IH]; intros [|y v] L; cbn in *; try easy. now rewrite IH by lia. Qed.
Lemma map_snd_combine {A B} : forall (u : list A) (v : list B), List.length u = List.length v -> map snd (combine u v) = v.
Proof. induction u as [|x u IH]; intros [|y v] L; cbn in *; try easy. now rewrite IH by lia. Qed.
(** Fewer than ten pairs of poses are never enough: the search of the program ends without a result. *)
Theorem C66_few : forall svd a fs ds es lf, hand_poses a fs ds -> eye_poses a fs es -> List.length ds = List.length es ->
  (2 <= List.length ds < 10)%nat -> good_flags a ->
  filtered es_config (hands (combine (from_first ds) (from_first es))) (eyes (combine (from_first ds) (from_first es))) = Ok (hands lf, eyes lf) ->
  forall fuel, (10 <= fuel)%nat -> exists r, calibrated XR svd fuel a fs r /\ success r = false.
Proof.
  intros svd a fs ds es lf H E L R (_ & _ & G) FIL fuel FU.
  assert (NE : ds <> []) by (intros ->; cbn in R; lia).
  pose proof (load_in a fs ds es H E NE L G) as LD.
  assert (LF : forall x, List.length (from_first x) = List.length x) by (intros [|d x]; unfold from_first; [easy|now rewrite map_length]).
  set (l := combine (from_first ds) (from_first es)) in *.
  assert (EH : map inD (from_first ds) = hands l).
  { unfold l, hands. rewrite <- (map_map fst inD). now rewrite map_fst_combine by (rewrite !LF; lia). }
  assert (EE : map inD (from_first es) = eyes l).
  { unfold l, eyes. rewrite <- (map_map snd inD). now rewrite map_snd_combine by (rewrite !LF; lia). }
  rewrite EH, EE in LD.
  assert (LL : List.length l = List.length ds) by (unfold l; rewrite combine_length, !LF, L; lia).
  pose proof (filtered_length _ _ _ FIL) as LE.
  assert (U : Forall (fun p => unitdq (fst p) /\ unitdq (snd p)) l).
  { apply provides_units in H, E. destruct (align_first ds NE H) as [_ U1]. destruct (align_first es) as [_ U2]; [intros ->; now destruct ds|easy|].
    apply Forall_forall. intros [x y] I. rewrite Forall_forall in U1, U2. split; cbn [fst snd].
    - apply U1. apply in_combine_l in I. exact I.
    - apply U2. apply in_combine_r in I. exact I. }
  destruct (loop_rejected svd (fun _ => []) l lf (fun k K => few_rejected svd l lf k U ltac:(lia) K LE) fuel initial_state) as (st & B & LP); [cbn; lia|easy|].
  exists (ransac_result (List.length (eyes lf)) st). split.
  - exists (hands l), (eyes l). split; [exact LD|]. unfold compute_RANSAC.
    assert (L1 : List.length (eyes l) = List.length l) by (unfold eyes; now rewrite map_length).
    assert (L2 : List.length (hands l) = List.length l) by (unfold hands; now rewrite map_length).
    rewrite L1, L2, Nat.eqb_refl. cbn [assert_]. change (ransac_sample_size es_config) with 1%nat.
    replace (1 <? List.length l)%nat with true by (symmetry; apply Nat.ltb_lt; lia). cbn [assert_]. rewrite FIL. cbn [bind]. now rewrite LP.
  - unfold ransac_result. now rewrite B.
Qed.
Lemma filtered65 : filtered es_config (hands l65) (eyes l65) = Ok (hands [pA; pB], eyes [pA; pB]).
Proof.
  destruct turns66 as (TA & TA' & TB & TB').
  unfold filtered. change (prefilter_poses_enabled es_config) with true. cbv iota.
  change (prefilter_dot_product_threshold es_config) with (Fin (95/100)). rewrite combine_hands_eyes.
  destruct (C29_prefilter XR (Fin (95/100)) (map (fun p => (inD (fst p), inD (snd p))) l65)) as (keep & L & K & ->).
  set (f := fun p : rdq * rdq => (inD (fst p), inD (snd p))) in *.
  assert (NF : forall k p, nth_error l65 k = Some p -> nth_error (map f l65) k = Some (f p)) by (intros k p E; now rewrite nth_error_map, E).
  assert (I0 : nth_error keep 0 <> Some true).
  { intros X. apply (K 0%nat _ (NF 0%nat _ eq_refl)) in X as (X & _). unfold f in X. cbn [fst] in X. rewrite (C29_identity_dropped dqone) in X by now left. discriminate X. }
  assert (KA : nth_error keep 1 = Some true).
  { apply (K 1%nat _ (NF 1%nat pA eq_refl)). split; [now apply axis_ok|]. split; [now apply axis_ok|].
    intros i q I _ T. exfalso. revert T. now replace i with 0%nat by lia. }
  assert (KB : nth_error keep 2 = Some true).
  { apply (K 2%nat _ (NF 2%nat pB eq_refl)). split; [now apply axis_ok|]. split; [now apply axis_ok|].
    assert (LT0 : ltb (Num:=XR) (Fin (95/100)) (Fin 0) = false) by (cbn [ltb XR xltb]; apply Rltb_f; lra).
    intros i q I Q T. destruct (Nat.eq_dec i 1) as [->|N1].
    - assert (q = f pA) as -> by (apply (f_equal (fun o => match o with Some y => y | None => q end)) in Q; symmetry; exact Q).
      unfold f. cbn [fst snd].
      rewrite (dot_cross (fst pA) (fst pB)) by (try assumption; unfold pA, pB, l0; cbn [nth fst snd dr qv]; unfold dot3; cbn; lra).
      rewrite (dot_cross (snd pA) (snd pB)) by (try assumption; unfold pA, pB, l0; cbn [nth fst snd dr qv]; unfold dot3; cbn; lra). now rewrite LT0.
    - exfalso. revert T. now replace i with 0%nat by lia. }
  assert (E : keep = [false; true; true]).
  { clear -L KA KB I0. rewrite map_length in L. change (List.length l65) with 3%nat in L. do 3 (destruct keep as [|? keep]; [discriminate L|]). destruct keep; [|discriminate L]. cbn [nth_error] in *.
    injection KA as ->. injection KB as ->. destruct b; [now destruct I0|easy]. }
  rewrite E. cbn [count_true Nat.leb]. rewrite compress_map. unfold l65, l0, pA, pB. cbn [compress map bind split nth l0]. reflexivity.
Qed.
(** Three exact pairs of poses: the search ends without a result, so C66_failed applies. *)
Definition rows65 : list (line * line) := [lineI; nth 3 rows66 lineI; nth 7 rows66 lineI].
Definition fs65 : files (N:=XR) := put (put (fun _ => None) "hand.csv" (table (map fst rows65))) "eye.csv" (table (map snd rows65)).
Example C66_few_example : forall svd fuel, (10 <= fuel)%nat ->
  exists r, calibrated XR svd fuel args66 fs65 r /\ success r = false /\
    compute_hand_eye_calibration_py svd fuel args66 fs65 = Done (Ok (fs65, Some AttributeError)).
Proof.
  intros svd fuel FU.
  assert (G : forall q, unitq q -> 1 / 100000000 < hnorm q) by (intros q U; apply unit_hnorm in U; lra).
  assert (R1 : Forall readable (map fst rows65)) by (unfold rows65, rows66; cbn [map nth fst]; repeat apply Forall_cons; try apply Forall_nil; unfold readable, lineA, lineB, lineI; cbn [fst snd]; apply G; unfold unitq; specu; lra).
  assert (R2 : Forall readable (map snd rows65)) by (unfold rows65, rows66; cbn [map nth snd]; repeat apply Forall_cons; try apply Forall_nil; unfold readable, lineA, lineB, lineI; cbn [fst snd]; apply G; unfold unitq; specu; lra).
  assert (M : map (fun p => (transform (fst p), transform (snd p))) rows65 = l65).
  { pose proof lines66 as E. unfold rows65, l65.
    pose proof (f_equal (fun u => [nth 0 u (dqone, dqone); nth 3 u (dqone, dqone); nth 7 u (dqone, dqone)]) E) as E'. exact E'. }
  assert (M1 : map transform (map fst rows65) = map fst l65) by (rewrite <- M, !map_map; apply map_ext; easy).
  assert (M2 : map transform (map snd rows65) = map snd l65) by (rewrite <- M, !map_map; apply map_ext; easy).
  assert (F1 : from_first (map fst l65) = map fst l65).
  { pose proof realign_l65 as E. unfold realign, rotl in E. cbn [skipn firstn] in E. rewrite !app_nil_r in E. apply (f_equal (map fst)) in E. rewrite map_map in E. exact E. }
  assert (F2 : from_first (map snd l65) = map snd l65).
  { pose proof realign_l65 as E. unfold realign, rotl in E. cbn [skipn firstn] in E. rewrite !app_nil_r in E. apply (f_equal (map snd)) in E. rewrite map_map in E. exact E. }
  destruct (C66_few svd args66 fs65 (map fst l65) (map snd l65) [pA; pB]) with (fuel := fuel) as (r & C & S).
  - rewrite <- M1. now apply (provides_direct fs65 (Some "hand.csv"%string) None "hand.csv").
  - rewrite <- M2. now apply (provides_direct fs65 (Some "eye.csv"%string) None "eye.csv").
  - now rewrite !map_length.
  - cbn. lia.
  - split; [left; split; [discriminate|reflexivity]|]. split; [left; split; [discriminate|reflexivity]|]. discriminate.
  - rewrite F1, F2. replace (combine (map fst l65) (map snd l65)) with l65 by reflexivity. exact filtered65.
  - exact FU.
  - exists r. split; [exact C|]. split; [exact S|]. apply (C66_failed XR svd fuel args66 fs65 r C S). discriminate.
Qed.
(** Non-vacuity of C66_missing and C66_no_offset: the files of C66_example without the poses of the hand, and without the
    time offset. *)
Definition without (path : string) (fs : files (N:=XR)) : files (N:=XR) := fun p => if String.eqb p path then None else fs p.
Example C66_missing_example : good_flags args66 /\ forall svd fuel,
  compute_hand_eye_calibration_py svd fuel args66 (without "hand.csv" fs66) = Done (Ok (without "hand.csv" fs66, Some OSError)).
Proof.
  assert (G : good_flags args66) by (split; [left; split; [discriminate|reflexivity]|split; [left; split; [discriminate|reflexivity]|intros _; discriminate]]).
  split; [exact G|]. intros svd fuel. destruct (C66_missing XR svd fuel args66 (without "hand.csv" fs66) "hand.csv" G eq_refl) as [H _].
  apply H. left. reflexivity.
Qed.
(** a file with the columns of the poses but without the time stamps *)
Definition replacing (path : string) (c : content (N:=XR)) (fs : files (N:=XR)) : files (N:=XR) := fun p => if String.eqb p path then Some c else fs p.
Example C66_bad_file_example : forall svd fuel,
  let fs := replacing "hand.csv" (Csv [[Fin 0; Fin 0; Fin 0; Fin 0; Fin 0; Fin 0; Fin 1]]) fs66 in
  compute_hand_eye_calibration_py svd fuel args66 fs = Done (Ok (fs, Some IndexError)).
Proof.
  intros svd fuel fs. assert (G : good_flags args66) by (split; [left; split; [discriminate|reflexivity]|split; [left; split; [discriminate|reflexivity]|intros _; discriminate]]).
  destruct (C66_bad_file XR svd fuel args66 fs "hand.csv" _ G eq_refl) as [_ H]; [left; left; cbn; lia|].
  apply (H (or_introl eq_refl) 7%nat); [lia|discriminate|repeat constructor].
Qed.
Example C66_no_offset_example : exists fuel0, forall fuel, (fuel0 <= fuel)%nat -> exists r d,
  calibrated XR svd66 fuel args66 (without "offset.csv" fs66) r /\ dq_H_E r = Some d.
Proof.
  destruct C66_example as (fuel0 & H). exists fuel0. intros fuel FU. destruct (H fuel FU) as (fs' & R & _).
  destruct (C66_complete XR svd66 fuel args66 fs66 fs' R) as (r & d & C & _ & D & _); [left; discriminate|].
  exists r, d. split; [|exact D]. destruct C as (b & w & L & S). exists b, w. split; [|exact S]. rewrite <- L. reflexivity.
Qed.
