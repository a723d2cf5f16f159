(** * Property C67: the script compute_complete_handeye_calibration.sh. *)

From Coq Require Import Reals ZArith Bool String Ascii List Lra Lia Psatz.
From Verif Require Import Num Py XReal XFacts Quat DualQuat HandEye Ransac TimeAlign CsvIo Experiments Extrinsic Cli Spec Embed PropExtrinsic CalibExample PropCli.
Import ListNotations.

(** ** file names *)
Lemma has_slash_app a b : has_slash (a ++ b)%string = has_slash a || has_slash b.
Proof. induction a as [|c a IH]; [easy|]. cbn. now rewrite IH, orb_assoc. Qed.
Lemma aligned_length arg : String.length (aligned_path arg) = String.length arg + 8.
Proof.
  induction arg as [|c s IH]; [easy|]. cbn [aligned_path]. destruct (has_slash s); [cbn; now rewrite IH|].
  destruct (Ascii.eqb c "/"); cbn; lia.
Qed.
Lemma aligned_not_self arg : aligned_path arg <> arg.
Proof. intros E. pose proof (aligned_length arg) as L. rewrite E in L. lia. Qed.
Lemma aligned_slash arg : has_slash (aligned_path arg) = has_slash arg.
Proof.
  induction arg as [|c s IH]; [easy|]. cbn [aligned_path]. destruct (has_slash s) eqn:S; [cbn; now rewrite IH, S|].
  destruct (Ascii.eqb c "/") eqn:C; cbn; rewrite ?C, ?S; easy.
Qed.
(** The aligned file of an argument starts with "aligned_", or contains a slash. *)
Lemma aligned_plain arg : has_slash arg = false -> aligned_path arg = ("aligned_" ++ arg)%string.
Proof. destruct arg as [|c s]; [easy|]. cbn [has_slash aligned_path]. intros H. apply orb_false_iff in H as [-> ->]. easy. Qed.
Lemma aligned_not_plain arg name : has_slash name = false -> String.get 0 name <> Some "a"%char -> aligned_path arg <> name.
Proof.
  intros S G E. destruct (has_slash arg) eqn:H.
  - pose proof (aligned_slash arg) as A. rewrite E in A. congruence.
  - rewrite (aligned_plain arg H) in E. subst name. now apply G.
Qed.
(** Different datasets have different aligned files. *)
Lemma aligned_inj a b : aligned_path a = aligned_path b -> a = b.
Proof.
  revert b. induction a as [|c a IH]; intros b E.
  - pose proof (f_equal String.length E) as L. rewrite !aligned_length in L. destruct b; [easy|cbn in L; lia].
  - destruct b as [|d b]; [pose proof (f_equal String.length E) as L; rewrite !aligned_length in L; cbn in L; lia|].
    pose proof (f_equal has_slash E) as S. rewrite !aligned_slash in S. cbn [has_slash] in S. cbn [aligned_path] in E.
    destruct (has_slash a) eqn:SA, (has_slash b) eqn:SB.
    + injection E as -> E. f_equal. now apply IH.
    + destruct (Ascii.eqb_spec d "/") as [->|ND]; [|destruct (Ascii.eqb c "/"); discriminate S].
      injection E as -> E. pose proof (f_equal has_slash E) as S'. rewrite aligned_slash, SA in S'. cbn in S'. now rewrite SB in S'.
    + destruct (Ascii.eqb_spec c "/") as [->|ND]; [|destruct (Ascii.eqb d "/"); discriminate S].
      injection E as <- E. pose proof (f_equal has_slash E) as S'. rewrite aligned_slash, SB in S'. cbn in S'. now rewrite SA in S'.
    + destruct (Ascii.eqb_spec c "/") as [->|NC], (Ascii.eqb_spec d "/") as [->|ND]; try discriminate S; cbn in E; injection E; intros; now subst.
Qed.

(** *** specification *)
(** the eight columns of a csv file of poses *)
Definition columns {N : Num} (s : @stamped N) : list (@T N) :=
  match s with (t, mkPose (mkV x y z) (mkQ i j k w)) => [t; x; y; z; i; j; k; w] end.
Lemma row_columns {N : Num} (s : @stamped N) : row_of s = columns s.
Proof. destruct s as [t [[x y z] [i j k w]]]. reflexivity. Qed.
Lemma rows_columns {N : Num} (l : list (@stamped N)) : map row_of l = map columns l.
Proof. apply map_ext. intros s. apply row_columns. Qed.
(** The calibration of the script: the aligned first dataset as the poses of the hand, the aligned second one as the
    poses of the eye, both in their direct form, no extrinsics file. *)
Definition script_flags (A B : string) (a : calibration_args) : Prop :=
  aligned_poses_B_H_csv_file a = Some (aligned_path A) /\ aligned_poses_H_B_csv_file a = None /\
  aligned_poses_W_E_csv_file a = Some (aligned_path B) /\ aligned_poses_E_W_csv_file a = None /\
  extrinsics_output_csv_file a = None /\ time_offset_input_csv_file a = Some "time_offset.csv"%string /\
  calibration_output_json_file a = Some "calibration.json"%string.
(** The aligned file lies next to the dataset, with aligned_ before its name. *)
Theorem C67_names : forall dir base, ~ In "/"%char (list_ascii_of_string base) ->
  aligned_path base = ("aligned_" ++ base)%string /\ aligned_path (dir ++ "/" ++ base) = (dir ++ "/aligned_" ++ base)%string.
Proof.
  intros dir base NI.
  assert (S : has_slash base = false).
  { induction base as [|c b IH]; [reflexivity|]. cbn in NI |- *. destruct (Ascii.eqb_spec c "/") as [->|_]; [now destruct NI; left|]. apply IH. tauto. }
  split; [now apply aligned_plain|]. induction dir as [|c d IH].
  - cbn [String.append aligned_path]. now rewrite S.
  - cbn [String.append aligned_path]. rewrite has_slash_app. cbn [has_slash String.append Ascii.eqb Bool.eqb orb]. rewrite orb_true_r. f_equal. exact IH.
Qed.

Example C67_names_example : aligned_path "data/run1/hand.csv" = "data/run1/aligned_hand.csv"%string.
Proof. apply (C67_names "data/run1" "hand.csv"). cbn. intuition discriminate. Qed.

(** ** every number system *)
Section Script.
  Context (N : Num) (svd : list (@dquat N) -> res (list (@T N) * list (@dquat N))).
  Context (estimator : option (content (N:=N)) -> option (content (N:=N)) -> option (content (N:=N)) -> option (content (N:=N)) * bool).
  Notation run := (script svd estimator).
  Notation align := (compute_aligned_poses_py (N:=N)).
  Notation calibrate := (compute_hand_eye_calibration_py svd).

  (** the three commands of the script, one after the other *)
  Lemma script_steps fuel A B fs fs' e1 e2 ok :
    run fuel A B fs = Done (Ok (fs', (e1, e2), ok)) <->
    exists fs1 fs2, align (script_aligned_args A B) fs = (fs1, e1) /\
      calibrate fuel (script_calibration_args A B) fs1 = Done (Ok (fs2, e2)) /\
      script_estimate estimator A B fs2 = (fs', ok).
  Proof.
    unfold script. destruct (align _ fs) as [fs1 e]. split.
    - destruct (calibrate _ _ fs1) as [[[fs2 e']|e']|] eqn:C; try easy.
      destruct (script_estimate estimator A B fs2) as [fs3 k] eqn:S. intros H. injection H as <- <- <- <-. exists fs1, fs2. easy.
    - intros (g1 & g2 & H1 & H2 & H3). injection H1 as <- <-. now rewrite H2, H3.
  Qed.
  Lemma put_same (fs : files (N:=N)) p c : put fs p c p = Some c.
  Proof. unfold put. now rewrite String.eqb_refl. Qed.
  Lemma put_other (fs : files (N:=N)) p c q : q <> p -> put fs p c q = fs q.
  Proof. unfold put. now destruct (String.eqb_spec q p). Qed.

  Lemma align_other a fs fs1 e p : align a fs = (fs1, e) -> p <> out_B_H_csv_file a -> p <> out_W_E_csv_file a ->
    time_offset_output_csv_file a <> Some p -> fs1 p = fs p.
  Proof.
    unfold compute_aligned_poses_py. match goal with |- context [match ?m with Ok _ => _ | Err _ => _ end] => destruct m as [[[b w] t]|e0] end; intros H N1 N2 N3.
    - injection H as <- <-. destruct (time_offset_output_csv_file a) as [q|]; [rewrite put_other by congruence|]; now rewrite !put_other by easy.
    - now injection H as <- <-.
  Qed.
  Lemma align_failed a fs fs1 e : align a fs = (fs1, Some e) -> fs1 = fs.
  Proof. unfold compute_aligned_poses_py. match goal with |- context [match ?m with Ok _ => _ | Err _ => _ end] => destruct m as [[[b w] t]|e0] end; intros H; [discriminate H|now injection H as <- _]. Qed.
  Lemma calibrate_other fuel A B fs fs2 e p :
    calibrate fuel (script_calibration_args A B) fs = Done (Ok (fs2, e)) -> p <> "calibration.json"%string -> fs2 p = fs p.
  Proof.
    intros H NP. apply (C66_touched _ _ _ _ _ _ _ H); [discriminate|]. intros E. now injection E as <-.
  Qed.
  Lemma calibrate_failed fuel A B fs fs2 e : calibrate fuel (script_calibration_args A B) fs = Done (Ok (fs2, Some e)) -> fs2 = fs.
  Proof.
    intros H. destruct (run_cases _ _ _ _ _ _ _ H) as [[-> _]|(r & C)]; [easy|].
    rewrite (run_calibrated _ _ _ _ _ _ C) in H. cbn [write_extrinsics script_calibration_args extrinsics_output_csv_file] in H.
    unfold write_calibration in H. cbn [script_calibration_args calibration_output_json_file time_offset_input_csv_file] in H.
    match type of H with context [match ?m with Ok _ => _ | Err _ => _ end] => destruct m as [c|e0] end; [discriminate H|now injection H as <- _].
  Qed.
  Lemma estimate_other A B fs fs' ok p : script_estimate estimator A B fs = (fs', ok) ->
    p <> "calibration_optimized.json"%string -> fs' p = fs p.
  Proof.
    unfold script_estimate. destruct (estimator _ _ _) as [[c|] k]; intros H NP; injection H as <- <-; [|easy]. now apply put_other.
  Qed.

  (** *** which files are touched *)
  Definition fixed_outputs : list string := ["time_offset.csv"; "calibration.json"; "calibration_optimized.json"]%string.
  (** Nothing is touched but the two aligned files and three files in the current directory. *)
  Theorem C67_touched : forall fuel A B fs fs' e ok path, run fuel A B fs = Done (Ok (fs', e, ok)) ->
    path <> aligned_path A -> path <> aligned_path B -> ~ In path fixed_outputs -> fs' path = fs path.
  Proof.
    intros fuel A B fs fs' [e1 e2] ok p H N1 N2 NI. apply script_steps in H as (fs1 & fs2 & Al & C & S). unfold fixed_outputs in NI. cbn [In] in NI.
    rewrite (estimate_other _ _ _ _ _ p S) by intuition. rewrite (calibrate_other _ _ _ _ _ _ p C) by intuition.
    apply (align_other _ _ _ _ p Al); cbn; auto. intros E. injection E as <-. intuition.
  Qed.
  (** So a dataset survives, unless it has one of the three names or is called like the aligned file of the other. *)
  Theorem C67_inputs : forall fuel A B fs fs' e ok, run fuel A B fs = Done (Ok (fs', e, ok)) ->
    (~ In A fixed_outputs -> A <> aligned_path B -> fs' A = fs A) /\
    (~ In B fixed_outputs -> B <> aligned_path A -> fs' B = fs B).
  Proof.
    intros fuel A B fs fs' e ok H. split; intros NI NE; apply (C67_touched _ _ _ _ _ _ _ _ H); auto; intros E; symmetry in E; now apply aligned_not_self in E.
  Qed.
  (** In that case it is replaced by the aligned poses of the other. *)
  Theorem C67_overwritten : forall fuel A B fs fs' e2 ok, run fuel A B fs = Done (Ok (fs', (None, e2), ok)) -> A = aligned_path B ->
    exists rowsA rowsB outA outB offset, read_stamped fs A = Ok rowsA /\ read_stamped fs B = Ok rowsB /\
      compute_aligned_poses_main rowsA rowsB false = Ok (outA, outB, offset) /\ fs' A = Some (Csv (map columns outB)).
  Proof.
    intros fuel A B fs fs' e2 ok H E. apply script_steps in H as (fs1 & fs2 & Al & C & S).
    assert (F : forall n, In n fixed_outputs -> A <> n).
    { intros n I. rewrite E. unfold fixed_outputs in I. cbn [In] in I. destruct I as [<-|[<-|[<-|[]]]]; now apply aligned_not_plain. }
    rewrite (estimate_other _ _ _ _ _ A S) by (apply F; cbn; tauto). rewrite (calibrate_other _ _ _ _ _ _ A C) by (apply F; cbn; tauto).
    unfold compute_aligned_poses_py in Al. cbn [script_aligned_args quaternion_format poses_B_H_csv_file poses_W_E_csv_file out_B_H_csv_file out_W_E_csv_file time_offset_output_csv_file String.eqb Ascii.eqb Bool.eqb] in Al.
    destruct (read_stamped fs A) as [rowsA|] eqn:RA; cbn [bind] in Al; [|discriminate Al].
    destruct (read_time_stamped_poses rowsA false) as [x|]; cbn [bind] in Al; [|discriminate Al].
    destruct (read_stamped fs B) as [rowsB|] eqn:RB; cbn [bind] in Al; [|discriminate Al].
    destruct (compute_aligned_poses_main rowsA rowsB false) as [[[outA outB] o]|] eqn:M; [|discriminate Al].
    exists rowsA, rowsB, outA, outB, o. split; [easy|]. split; [easy|]. split; [easy|]. injection Al as <-.
    rewrite <- rows_columns. rewrite put_other by (apply F; cbn; tauto). rewrite E. apply put_same.
  Qed.

  (** *** exit status and what the estimator sees *)
  (** The status of the script is that of the batch estimator, which runs whether or not the first two programs have
      failed; it gets the datasets and what calibration.json contains by then. *)
  Theorem C67_status : forall fuel A B fs fs' e ok, run fuel A B fs = Done (Ok (fs', e, ok)) ->
    ~ In A fixed_outputs -> ~ In B fixed_outputs -> A <> aligned_path B -> B <> aligned_path A ->
    exists out, estimator (fs A) (fs B) (fs' "calibration.json"%string) = (out, ok) /\
      fs' "calibration_optimized.json"%string = match out with Some c => Some c | None => fs "calibration_optimized.json"%string end.
  Proof.
    intros fuel A B fs fs' [e1 e2] ok H IA IB NA NB. apply script_steps in H as (fs1 & fs2 & Al & C & S).
    assert (G : forall p, ~ In p fixed_outputs -> p <> aligned_path A -> p <> aligned_path B -> fs2 p = fs p).
    { intros p I N1 N2. unfold fixed_outputs in I. cbn [In] in I. rewrite (calibrate_other _ _ _ _ _ _ p C) by intuition.
      apply (align_other _ _ _ _ p Al); cbn; auto. intros E. injection E as <-. intuition. }
    assert (SA : A <> aligned_path A) by (intros E; symmetry in E; now apply aligned_not_self in E).
    assert (SB : B <> aligned_path B) by (intros E; symmetry in E; now apply aligned_not_self in E).
    rewrite (estimate_other _ _ _ _ _ "calibration.json" S) by discriminate.
    unfold script_estimate in S. rewrite (G A), (G B) in S by easy. destruct (estimator _ _ _) as [out k] eqn:E.
    injection S as <- <-. exists out. split; [easy|]. destruct out as [c|]; [apply put_same|].
    rewrite (calibrate_other _ _ _ _ _ _ _ C) by discriminate. apply (align_other _ _ _ _ _ Al); cbn; try discriminate.
    - intros K. symmetry in K. revert K. now apply aligned_not_plain.
    - intros K. symmetry in K. revert K. now apply aligned_not_plain.
  Qed.

  (** *** failures *)
  (** If the time alignment fails, the calibration uses the aligned files and the time offset that are already there. *)
  Theorem C67_alignment_failed : forall fuel A B fs fs' e1 e2 ok, run fuel A B fs = Done (Ok (fs', (Some e1, e2), ok)) ->
    exists a fs2, script_flags A B a /\ calibrate fuel a fs = Done (Ok (fs2, e2)) /\
      fs' "calibration.json"%string = fs2 "calibration.json"%string.
  Proof.
    intros fuel A B fs fs' e1 e2 ok H. apply script_steps in H as (fs1 & fs2 & Al & C & S). apply align_failed in Al. subst fs1.
    exists (script_calibration_args A B), fs2. split; [repeat split|]. split; [easy|]. now apply (estimate_other _ _ _ _ _ _ S).
  Qed.
  (** If the calibration fails, the estimator starts from the calibration.json that is already there. *)
  Theorem C67_calibration_failed : forall fuel A B fs fs' e1 e2 ok, run fuel A B fs = Done (Ok (fs', (e1, Some e2), ok)) ->
    fs' "calibration.json"%string = fs "calibration.json"%string.
  Proof.
    intros fuel A B fs fs' e1 e2 ok H. apply script_steps in H as (fs1 & fs2 & Al & C & S).
    rewrite (estimate_other _ _ _ _ _ _ S) by discriminate. apply calibrate_failed in C. subst fs2.
    apply (align_other _ _ _ _ _ Al); cbn; try discriminate; intros K; symmetry in K; revert K; now apply aligned_not_plain.
  Qed.
  (** If neither fails (and the datasets are two), calibration.json holds the result of the calibration of the aligned
      datasets and their time offset. *)
  Theorem C67_success : forall fuel A B fs fs' ok, run fuel A B fs = Done (Ok (fs', (None, None), ok)) -> A <> B ->
    exists rowsA rowsB outA outB offset, read_stamped fs A = Ok rowsA /\ read_stamped fs B = Ok rowsB /\
      compute_aligned_poses_main rowsA rowsB false = Ok (outA, outB, offset) /\
      fs' (aligned_path A) = Some (Csv (map columns outA)) /\ fs' (aligned_path B) = Some (Csv (map columns outB)) /\
      fs' "time_offset.csv"%string = Some (Csv [[offset]]) /\
    exists a r d js c, script_flags A B a /\ calibrated N svd fuel a fs' r /\ success r = true /\ dq_H_E r = Some d /\
      fs' "calibration.json"%string = Some (Json js) /\ from_json js false = Ok c /\ holds N a d js /\ time_offset c = offset.
  Proof.
    intros fuel A B fs fs' ok H NAB. apply script_steps in H as (fs1 & fs2 & Al & C & S).
    assert (F : forall a n, In n fixed_outputs -> aligned_path a <> n).
    { intros a n I. unfold fixed_outputs in I. cbn [In] in I. destruct I as [<-|[<-|[<-|[]]]]; now apply aligned_not_plain. }
    unfold compute_aligned_poses_py in Al. cbn [script_aligned_args quaternion_format poses_B_H_csv_file poses_W_E_csv_file out_B_H_csv_file out_W_E_csv_file time_offset_output_csv_file String.eqb Ascii.eqb Bool.eqb] in Al.
    destruct (read_stamped fs A) as [rowsA|] eqn:RA; cbn [bind] in Al; [|discriminate Al].
    destruct (read_time_stamped_poses rowsA false) as [x|]; cbn [bind] in Al; [|discriminate Al].
    destruct (read_stamped fs B) as [rowsB|] eqn:RB; cbn [bind] in Al; [|discriminate Al].
    destruct (compute_aligned_poses_main rowsA rowsB false) as [[[outA outB] o]|] eqn:M; [|discriminate Al].
    exists rowsA, rowsB, outA, outB, o. split; [easy|]. split; [easy|]. split; [easy|].
    assert (A1 : fs1 (aligned_path A) = Some (Csv (map row_of outA))).
    { injection Al as <-. rewrite put_other by (apply F; cbn; tauto). rewrite put_other by (intros K; now apply aligned_inj in K). apply put_same. }
    assert (A2 : fs1 (aligned_path B) = Some (Csv (map row_of outB))).
    { injection Al as <-. rewrite put_other by (apply F; cbn; tauto). apply put_same. }
    assert (A3 : fs1 "time_offset.csv"%string = Some (Csv [[o]])).
    { injection Al as <-. rewrite put_same. easy. }
    clear Al.
    assert (E : forall p, p <> "calibration.json"%string -> p <> "calibration_optimized.json"%string -> fs' p = fs1 p).
    { intros p N1 N2. rewrite (estimate_other _ _ _ _ _ p S) by easy. now apply (calibrate_other _ _ _ _ _ _ p C). }
    assert (E1 := E (aligned_path A) ltac:(apply F; cbn; tauto) ltac:(apply F; cbn; tauto)).
    assert (E2 := E (aligned_path B) ltac:(apply F; cbn; tauto) ltac:(apply F; cbn; tauto)).
    assert (E3 := E "time_offset.csv"%string ltac:(discriminate) ltac:(discriminate)).
    rewrite <- !rows_columns. split; [congruence|]. split; [congruence|]. split; [congruence|].
    destruct (C66_complete _ _ _ _ _ _ C) as (r & d & CA & SU & D & _ & J); [right; discriminate|].
    destruct (J "calibration.json"%string eq_refl) as (js & c & F1 & F2 & FH & F3). exists (script_calibration_args A B), r, d, js, c.
    split; [repeat split|]. split; [|split; [easy|split; [easy|split; [|split; [easy|split; [exact FH|]]]]]].
    - destruct CA as (b & w & L & R). exists b, w. split; [|exact R]. rewrite <- L. unfold load, read_dual_quaternions, read_table.
      cbn [script_calibration_args aligned_poses_B_H_csv_file aligned_poses_H_B_csv_file aligned_poses_W_E_csv_file aligned_poses_E_W_csv_file].
      now rewrite E1, E2.
    - rewrite (estimate_other _ _ _ _ _ _ S) by discriminate. exact F1.
    - apply (F3 "time_offset.csv"%string o [] []); [easy|discriminate|exact A3].
  Qed.
End Script.

(** ** the script can succeed without its datasets *)
(** No dataset exists, but the aligned files of an earlier run do: the script calibrates those, runs the estimator and
    exits with status 0. *)
Definition fs67 : files (N:=XR) := fun p =>
  if String.eqb p "aligned_a.csv" then Some (table (map fst rows66))
  else if String.eqb p "aligned_b.csv" then Some (table (map snd rows66))
  else if String.eqb p "time_offset.csv" then Some (Csv [[Fin (1/4)%R]]) else None.
Theorem C67_stale_refuted : exists svd estimator fs fuel0, fs "a.csv"%string = None /\ fs "b.csv"%string = None /\
  forall fuel, (fuel0 <= fuel)%nat -> exists fs' e js,
    script svd estimator fuel "a.csv" "b.csv" fs = Done (Ok (fs', (Some e, None), true)) /\
    fs "calibration.json"%string = None /\ fs' "calibration.json"%string = Some (Json js) /\ fs' "calibration_optimized.json"%string = Some (Json js).
Proof.
  destruct (run66 (script_calibration_args "a.csv" "b.csv") fs67 "aligned_a.csv" "aligned_b.csv" "time_offset.csv" "calibration.json") as (fuel0 & H); try reflexivity; [discriminate|].
  exists svd66, (fun _ _ init => (init, match init with Some _ => true | None => false end)), fs67, fuel0. split; [reflexivity|]. split; [reflexivity|].
  intros fuel FU. destruct (H fuel FU) as (fs' & R & J).
  exists (put fs' "calibration_optimized.json" (Json (document (1/4) (trans_of x0) (dr x0)))), OSError, (document (1/4) (trans_of x0) (dr x0)).
  split; [|split; [reflexivity|split; [|apply put_same]]].
  - apply script_steps. exists fs67, fs'. split; [reflexivity|]. split; [exact R|]. unfold script_estimate. rewrite J. reflexivity.
  - rewrite put_other by discriminate. exact J.
Qed.
(** Nothing exists but the calibration.json of some earlier run: both programs fail, the estimator starts from that file
    and the script exits with status 0. *)
Theorem C67_stale_guess_refuted : exists estimator, forall N svd js fuel, exists fs' : files (N:=N),
  script svd (estimator N) fuel "a.csv" "b.csv" (put (fun _ => None) "calibration.json" (Json js)) =
    Done (Ok (fs', (Some OSError, Some OSError), true)) /\ fs' "calibration_optimized.json"%string = Some (Json js).
Proof.
  exists (fun N (_ _ init : option (content (N:=N))) => (init, true)). intros N svd js fuel. eexists. split; [reflexivity|]. apply put_same.
Qed.
