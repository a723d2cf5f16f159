(** * Property C103: the programs are functions of their input files, and running them again changes nothing. *)

From Coq Require Import Reals ZArith Bool String Ascii List Lra Lia Psatz.
From Verif Require Import Num Py XReal Quat DualQuat HandEye Ransac TimeAlign CsvIo Experiments Extrinsic Cli ListFacts PropExtrinsic PropCli PropScript PropPipeline.
Import ListNotations.

(** ** Specification *)
Section Files.
  Context {N : Num}.
  (** files written one after the other *)
  Definition written (fs : files (N:=N)) (ws : list (string * content (N:=N))) : files (N:=N) :=
    fold_left (fun fs w p => if String.eqb p (fst w) then Some (snd w) else fs p) ws fs.
  Definition same_files (fs gs : files (N:=N)) : Prop := forall p, fs p = gs p.
  (** the files a call of compute_hand_eye_calibration.py names for reading and for writing *)
  Definition inputs (a : calibration_args) : list (option string) :=
    [aligned_poses_B_H_csv_file a; aligned_poses_H_B_csv_file a; aligned_poses_W_E_csv_file a; aligned_poses_E_W_csv_file a; time_offset_input_csv_file a].
  Definition outputs (a : calibration_args) : list (option string) := [extrinsics_output_csv_file a; calibration_output_json_file a].

  (** ** Facts *)
  Lemma written_app fs ws vs : written fs (ws ++ vs) = written (written fs ws) vs.
  Proof. unfold written. now rewrite fold_left_app. Qed.
  Lemma written_other fs ws p : ~ In p (map fst ws) -> written fs ws p = fs p.
  Proof.
    revert fs. induction ws as [|[q c] ws IH]; intros fs NI; [reflexivity|]. cbn [written fold_left map In fst snd] in *.
    change (written (fun p => if String.eqb p q then Some c else fs p) ws p = fs p). rewrite IH by tauto.
    destruct (String.eqb_spec p q); [subst; tauto|reflexivity].
  Qed.
  Lemma written_in fs gs ws p : In p (map fst ws) -> written fs ws p = written gs ws p.
  Proof.
    revert fs gs. induction ws as [|[q c] ws IH]; intros fs gs I; [destruct I|]. cbn [written fold_left fst snd].
    change (written (fun p => if String.eqb p q then Some c else fs p) ws p = written (fun p => if String.eqb p q then Some c else gs p) ws p).
    destruct (in_dec string_dec p (map fst ws)) as [J|J]; [now apply IH|]. rewrite !written_other by exact J.
    destruct I as [<-|I]; [|tauto]. cbn [fst]. now rewrite String.eqb_refl.
  Qed.
  Lemma written_again fs gs ws : (forall p, In p (map fst ws) -> gs p = written fs ws p) -> same_files (written gs ws) gs.
  Proof.
    intros H p. destruct (in_dec string_dec p (map fst ws)) as [J|J]; [|now apply written_other]. rewrite (H p J). now apply written_in.
  Qed.
  Lemma read_table_agree (fs gs : files (N:=N)) p : fs p = gs p -> read_table fs p = read_table gs p.
  Proof. unfold read_table. now intros ->. Qed.
  Lemma read_stamped_agree (fs gs : files (N:=N)) p : fs p = gs p -> read_stamped fs p = read_stamped gs p.
  Proof. intros E. unfold read_stamped. now rewrite (read_table_agree fs gs p E). Qed.
  Lemma read_dual_agree (fs gs : files (N:=N)) p i : fs p = gs p -> read_dual_quaternions fs p i = read_dual_quaternions gs p i.
  Proof. intros E. unfold read_dual_quaternions. now rewrite (read_table_agree fs gs p E). Qed.

  (** ** compute_aligned_poses.py *)
  (** What the program writes and how it ends depends only on the contents of its two input files. *)
  Theorem C103_aligned : forall a (fs gs : files (N:=N)), fs (poses_B_H_csv_file a) = gs (poses_B_H_csv_file a) -> fs (poses_W_E_csv_file a) = gs (poses_W_E_csv_file a) ->
    exists ws e, compute_aligned_poses_py a fs = (written fs ws, e) /\ compute_aligned_poses_py a gs = (written gs ws, e) /\
      (e <> None -> ws = []) /\
      (e = None -> forall p, In p (map fst ws) <-> p = out_B_H_csv_file a \/ p = out_W_E_csv_file a \/ time_offset_output_csv_file a = Some p).
  Proof.
    intros a fs gs E1 E2. unfold compute_aligned_poses_py. rewrite (read_stamped_agree fs gs _ E1), (read_stamped_agree fs gs _ E2).
    match goal with |- context [match ?m with Ok _ => _ | Err _ => _ end] => destruct m as [[[b w] t]|e] end.
    - exists ([(out_B_H_csv_file a, Csv (map row_of b)); (out_W_E_csv_file a, Csv (map row_of w))] ++
              match time_offset_output_csv_file a with Some p => [(p, savetxt_vector [t])] | None => [] end), None.
      split; [destruct (time_offset_output_csv_file a); reflexivity|]. split; [destruct (time_offset_output_csv_file a); reflexivity|]. split; [easy|].
      intros _ p. destruct (time_offset_output_csv_file a) as [q|]; cbn [app map In fst]; [|intuition congruence].
      split; [intros [<-|[<-|[<-|[]]]]; auto|]. intros [->|[->|H]]; auto. injection H as <-. auto.
    - exists [], (Some e). repeat split; try easy.
  Qed.
  (** So running it again, with outputs that are not its inputs, changes nothing and ends in the same way. *)
  Theorem C103_aligned_again : forall a (fs fs' : files (N:=N)) e, compute_aligned_poses_py a fs = (fs', e) ->
    (forall p, p = poses_B_H_csv_file a \/ p = poses_W_E_csv_file a -> p <> out_B_H_csv_file a /\ p <> out_W_E_csv_file a /\ time_offset_output_csv_file a <> Some p) ->
    exists fs2, compute_aligned_poses_py a fs' = (fs2, e) /\ same_files fs2 fs'.
  Proof.
    intros a fs fs' e H D.
    assert (K : forall p, p = poses_B_H_csv_file a \/ p = poses_W_E_csv_file a -> fs p = fs' p).
    { intros p P. destruct (D p P) as (D1 & D2 & D3). symmetry. now apply (align_other N _ _ _ _ p H). }
    destruct (C103_aligned a fs fs' (K _ (or_introl eq_refl)) (K _ (or_intror eq_refl))) as (ws & e' & R1 & R2 & _).
    rewrite H in R1. injection R1 as F <-. exists (written fs' ws). split; [exact R2|]. apply (written_again fs). intros p _. now rewrite F.
  Qed.

  (** ** compute_hand_eye_calibration.py *)
  Context (svd : list (@dquat N) -> res (list (@T N) * list (@dquat N))).
  Notation calibrate := (compute_hand_eye_calibration_py svd).
  Lemma load_agree a fs gs : (forall p, In (Some p) (inputs a) -> fs p = gs p) -> load a fs = load a gs.
  Proof.
    intros A. unfold load. destruct (xorb _ _); [|reflexivity]. destruct (xorb _ _); [|reflexivity]. destruct (_ || _); [|reflexivity]. cbn [assert_ bind].
    assert (R : forall p i, In (Some p) (inputs a) -> read_dual_quaternions fs p i = read_dual_quaternions gs p i) by (intros p i I; apply read_dual_agree, A, I).
    unfold inputs in R. cbn [In] in R.
    assert (B : match aligned_poses_B_H_csv_file a, aligned_poses_H_B_csv_file a with Some path, _ => read_dual_quaternions fs path false | None, Some path => read_dual_quaternions fs path true | None, None => Err TypeError end =
      match aligned_poses_B_H_csv_file a, aligned_poses_H_B_csv_file a with Some path, _ => read_dual_quaternions gs path false | None, Some path => read_dual_quaternions gs path true | None, None => Err TypeError end).
    { destruct (aligned_poses_B_H_csv_file a); [apply R; auto|]. destruct (aligned_poses_H_B_csv_file a); [apply R; auto|reflexivity]. }
    assert (W : match aligned_poses_W_E_csv_file a, aligned_poses_E_W_csv_file a with Some path, _ => read_dual_quaternions fs path false | None, Some path => read_dual_quaternions fs path true | None, None => Err TypeError end =
      match aligned_poses_W_E_csv_file a, aligned_poses_E_W_csv_file a with Some path, _ => read_dual_quaternions gs path false | None, Some path => read_dual_quaternions gs path true | None, None => Err TypeError end).
    { destruct (aligned_poses_W_E_csv_file a); [apply R; auto|]. destruct (aligned_poses_E_W_csv_file a); [apply R; auto 6|reflexivity]. }
    rewrite B, W. reflexivity.
  Qed.
  (** What the program writes and how it ends depends only on the contents of its input files. *)
  Theorem C103_calibration : forall fuel a (fs gs : files (N:=N)), (forall p, In (Some p) (inputs a) -> fs p = gs p) ->
    (calibrate fuel a fs = OutOfFuel /\ calibrate fuel a gs = OutOfFuel) \/
    exists ws e, calibrate fuel a fs = Done (Ok (written fs ws, e)) /\ calibrate fuel a gs = Done (Ok (written gs ws, e)) /\
      Forall (fun w => In (Some (fst w)) (outputs a)) ws.
  Proof.
    intros fuel a fs gs A. unfold compute_hand_eye_calibration_py. rewrite (load_agree a fs gs A).
    destruct (load a gs) as [[b w]|e]. 2: { right. exists [], (Some e). easy. }
    cbv zeta. match goal with |- context [match ?m with Done _ => _ | OutOfFuel => _ end] => destruct m as [[r|e]|] end. 3: { now left. } 2: { right. exists [], (Some e). easy. }
    right.
    assert (WC : forall f g d, (forall p, In (Some p) (inputs a) -> f p = g p) ->
      exists ws e, write_calibration a d f = (written f ws, e) /\ write_calibration a d g = (written g ws, e) /\ Forall (fun w => In (Some (fst w)) (outputs a)) ws).
    { intros f g d AG. unfold write_calibration. destruct (calibration_output_json_file a) as [path|] eqn:P; [|exists [], None; easy].
      destruct (time_offset_input_csv_file a) as [off|] eqn:O; [|exists [], None; easy].
      rewrite (read_table_agree f g off). 2: { apply AG. unfold inputs. rewrite O. cbn. auto 6. }
      match goal with |- context [match ?m with Ok _ => _ | Err _ => _ end] => destruct m as [c|e] end; [|exists [], (Some e); easy].
      exists [(path, Json (snd (write_json c false)))], None. split; [reflexivity|]. split; [reflexivity|]. constructor; [|constructor]. unfold outputs. rewrite P. cbn. auto. }
    unfold write_extrinsics. destruct (extrinsics_output_csv_file a) as [path|] eqn:X.
    - destruct (dq_H_E r) as [d|]; [|exists [], (Some AttributeError); easy]. destruct (to_pose d) as [d' p].
      destruct (WC (put fs path (savetxt_vector (pose_list p))) (put gs path (savetxt_vector (pose_list p))) (Some d')) as (ws & e & W1 & W2 & F).
      { intros q I. unfold put. destruct (String.eqb q path); [reflexivity|now apply A]. }
      rewrite W1, W2. exists ((path, savetxt_vector (pose_list p)) :: ws), e. split; [reflexivity|]. split; [reflexivity|]. constructor; [|exact F].
      unfold outputs. rewrite X. cbn. auto.
    - destruct (WC fs gs (dq_H_E r) A) as (ws & e & W1 & W2 & F). rewrite W1, W2. exists ws, e. easy.
  Qed.
  (** So running it again, with outputs that are not its inputs, changes nothing and ends in the same way. *)
  Theorem C103_calibration_again : forall fuel a (fs fs' : files (N:=N)) e, calibrate fuel a fs = Done (Ok (fs', e)) ->
    (forall p, In (Some p) (inputs a) -> ~ In (Some p) (outputs a)) ->
    exists fs2, calibrate fuel a fs' = Done (Ok (fs2, e)) /\ same_files fs2 fs'.
  Proof.
    intros fuel a fs fs' e H D.
    assert (K : forall p, In (Some p) (inputs a) -> fs p = fs' p).
    { intros p I. specialize (D p I). unfold outputs in D. cbn in D. symmetry. apply (proj1 (C66_touched _ _ _ _ _ _ _ H)); tauto. }
    destruct (C103_calibration fuel a fs fs' K) as [[R _]|(ws & e' & R1 & R2 & _)]; [congruence|].
    rewrite H in R1. injection R1 as F <-. exists (written fs' ws). split; [exact R2|]. apply (written_again fs). intros p _. now rewrite F.
  Qed.

  (** ** compute_complete_handeye_calibration.sh *)
  Context (estimator : option (content (N:=N)) -> option (content (N:=N)) -> option (content (N:=N)) -> option (content (N:=N)) * bool).
  Lemma estimate_agree A B fs gs : fs A = gs A -> fs B = gs B -> fs "calibration.json"%string = gs "calibration.json"%string ->
    exists ws ok, script_estimate estimator A B fs = (written fs ws, ok) /\ script_estimate estimator A B gs = (written gs ws, ok) /\
      Forall (fun w => fst w = "calibration_optimized.json"%string) ws.
  Proof.
    intros EA EB EC. unfold script_estimate. rewrite EA, EB, EC. destruct (estimator _ _ _) as [[c|] ok].
    - exists [("calibration_optimized.json"%string, c)], ok. repeat split. now constructor.
    - exists [], ok. easy.
  Qed.
  (** The complete script run twice: the second run ends as the first one and leaves every file as it is, whether the
      programs succeed or not. *)
  Theorem C103_script_again : forall fuel A B (fs fs' : files (N:=N)) e ok, script svd estimator fuel A B fs = Done (Ok (fs', e, ok)) ->
    ~ In A fixed_outputs -> ~ In B fixed_outputs -> A <> aligned_path B -> B <> aligned_path A ->
    exists fs2, script svd estimator fuel A B fs' = Done (Ok (fs2, e, ok)) /\ same_files fs2 fs'.
  Proof.
    intros fuel A B fs fs' [e1 e2] ok H IA IB NA NB. pose proof H as H'. apply script_steps in H as (fs1 & fs2 & Al & C & S).
    assert (SA : A <> aligned_path A) by (intros E; symmetry in E; now apply aligned_not_self in E).
    assert (SB : B <> aligned_path B) by (intros E; symmetry in E; now apply aligned_not_self in E).
    assert (NP : forall X n, In n fixed_outputs -> aligned_path X <> n).
    { intros X n I. unfold fixed_outputs in I. cbn [In] in I. destruct I as [<-|[<-|[<-|[]]]]; now apply aligned_not_plain. }
    destruct (C67_inputs N svd estimator _ _ _ _ _ _ _ H') as [KA KB]. specialize (KA IA NA). specialize (KB IB NB).
    (* the alignment *)
    destruct (C103_aligned (script_aligned_args A B) fs fs') as (w1 & x1 & R1 & R1' & Z1 & O1); [cbn; now symmetry|cbn; now symmetry|].
    rewrite Al in R1. injection R1 as F1 <-.
    assert (P1 : forall p, In p (map fst w1) -> p = aligned_path A \/ p = aligned_path B \/ p = "time_offset.csv"%string).
    { intros p I. destruct e1 as [x|]; [rewrite Z1 in I by discriminate; destruct I|]. apply (O1 eq_refl) in I. destruct I as [I|[I|I]]; [now left|now right; left|]. cbn in I. injection I as <-. auto. }
    assert (U1 : forall p, p <> "calibration.json"%string -> p <> "calibration_optimized.json"%string -> fs' p = fs1 p).
    { intros p N1 N2. rewrite (estimate_other N estimator _ _ _ _ _ p S N2). now apply (calibrate_other N svd _ _ _ _ _ _ p C). }
    assert (G1 : same_files (written fs' w1) fs').
    { apply (written_again fs). intros p I. rewrite <- F1. apply U1; apply P1 in I; destruct I as [-> | [-> | -> ]]; try discriminate; apply NP; cbn; auto. }
    (* the calibration *)
    destruct (C103_calibration fuel (script_calibration_args A B) fs1 (written fs' w1)) as [[R _]|(w2 & x2 & R2 & R2' & O2)]; [|congruence|].
    { intros p I. rewrite (G1 p). symmetry. unfold inputs in I. cbn in I. destruct I as [I|[I|[I|[I|[I|[]]]]]]; try discriminate I; injection I as <-; apply U1; try discriminate; apply NP; cbn; auto. }
    rewrite C in R2. injection R2 as F2 <-.
    assert (P2 : forall p, In p (map fst w2) -> p = "calibration.json"%string).
    { intros p I. apply in_map_iff in I as (w & <- & I). rewrite Forall_forall in O2. specialize (O2 w I). cbn in O2. destruct O2 as [O2|[O2|[]]]; [discriminate O2|now injection O2]. }
    assert (G2 : same_files (written (written fs' w1) w2) fs').
    { intros p. rewrite (written_again fs1 (written fs' w1) w2); [apply G1|]. intros q I. rewrite (G1 q), <- F2. apply P2 in I as ->. now apply (estimate_other N estimator _ _ _ _ _ _ S). }
    (* the estimator *)
    destruct (estimate_agree A B fs2 (written (written fs' w1) w2)) as (w3 & x3 & R3 & R3' & O3).
    { rewrite (G2 A). symmetry. apply (estimate_other N estimator _ _ _ _ _ _ S). intros ->. apply IA. cbn. auto. }
    { rewrite (G2 B). symmetry. apply (estimate_other N estimator _ _ _ _ _ _ S). intros ->. apply IB. cbn. auto. }
    { rewrite (G2 _). symmetry. now apply (estimate_other N estimator _ _ _ _ _ _ S). }
    rewrite S in R3. injection R3 as F3 <-.
    exists (written (written (written fs' w1) w2) w3). split.
    - apply script_steps. exists (written fs' w1), (written (written fs' w1) w2). now rewrite R1', R2', R3'.
    - intros p. rewrite (written_again fs2 _ w3); [apply G2|]. intros q I. rewrite (G2 q), <- F3. reflexivity.
  Qed.
End Files.

(** Non-vacuity: the run of the script of C68_example, repeated. *)
Example C103_example : forall estimator, exists fuel0, forall fuel, (fuel0 <= fuel)%nat -> exists fs' ok fs2,
  script svd66 estimator fuel "data/tango.csv" "data/vicon.csv" (fs68 "data/tango.csv" "data/vicon.csv") = Done (Ok (fs', (None, None), ok)) /\
  script svd66 estimator fuel "data/tango.csv" "data/vicon.csv" fs' = Done (Ok (fs2, (None, None), ok)) /\ same_files fs2 fs'.
Proof.
  intros estimator. destruct (C68_example estimator) as (fuel0 & H). exists fuel0. intros fuel FU. destruct (H fuel FU) as (fs' & ok & _ & R & _).
  assert (NI : forall n, In n fixed_outputs -> n <> "data/tango.csv"%string /\ n <> "data/vicon.csv"%string).
  { intros n I. unfold fixed_outputs in I. cbn [In] in I. destruct I as [<-|[<-|[<-|[]]]]; split; discriminate. }
  destruct (C103_script_again svd66 estimator fuel _ _ _ _ _ _ R) as (fs2 & R2 & S).
  - intros I. now apply NI in I as [I _].
  - intros I. now apply NI in I as [_ I].
  - discriminate.
  - discriminate.
  - exists fs', ok, fs2. easy.
Qed.
