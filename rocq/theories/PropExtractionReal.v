(** * C76, C77 and C78 for real numbers: signs of quaternions, the inlier threshold, and cases that meet the hypotheses. *)

From Coq Require Import Reals ZArith String Ascii List Bool Lra Lia.
From Verif Require Import Num Py XReal Quat DualQuat XFacts Spec Embed Extraction PropExtraction.
Import ListNotations.
Local Open Scope R_scope.
Local Open Scope list_scope.

Lemma Rlit_0 z : Rlit z 0 = IZR z.
Proof. unfold Rlit. cbn. lra. Qed.

Section Real.
  Context {camera observation : Type} (num_keypoints : observation -> nat) (pnp : camera -> nat -> observation -> @pnp_result XR).

  (** An exported quaternion describes the rotation that was found, with a scalar part that is not
      negative. *)
  Theorem C78_real : forall cam threshold frames i t p q r,
    yields num_keypoints pnp cam (Fin threshold) frames i t p q ->
    (forall o, nth_error frames i = Some (t, Some o) -> rotation (pnp cam i o) = inQ r) ->
    exists r', q = inQ r' /\ 0 <= qs r' /\ (forall v, hrot r' v = hrot r v).
  Proof.
    intros cam th frames i t p q r (o & x & E & -> & _ & _ & _ & Q) F. specialize (F o E). rewrite F in Q.
    destruct r as [[a b c] d]. unfold inQ in Q. cbn [qx qy qz qw qv qs v1 v2 v3] in Q.
    change (@ltb XR (Fin d) n0) with (Rltb d (Rlit 0 0)) in Q. rewrite Rlit_0 in Q. destruct Q as [[W ->]|[W ->]].
    - apply Rltb_false in W. exists (RQ (RV a b c) d). split; [reflexivity|]. split; [exact W|easy].
    - apply Rltb_iff in W. exists (RQ (RV (- a) (- b) (- c)) (- d)). split; [reflexivity|]. split; [cbn; lra|].
      intros [x y z]. unfold hrot, hmul, hconj, vscale, vadd, vsub, cross3, dot3. cbn. f_equal; ring.
  Qed.
  (** A frame whose pose was found is exported iff more than the given share of its corners are inliers. *)
  Theorem C78_share : forall cam threshold frames i t o,
    nth_error frames i = Some (t, Some o) -> (0 < num_keypoints o)%nat -> pnp_success (pnp cam i o) = true ->
    ((exists p q, yields num_keypoints pnp cam (Fin threshold) frames i t p q) <->
     threshold * INR (num_keypoints o) < INR (num_inliers (pnp cam i o))).
  Proof.
    intros cam th frames i t o E K P.
    assert (Kp : 0 < INR (num_keypoints o)) by now apply lt_0_INR.
    assert (D : @ltb XR (Fin th) (@div XR (lit (Z.of_nat (num_inliers (pnp cam i o))) 0) (lit (Z.of_nat (num_keypoints o)) 0))
                = Rltb th (INR (num_inliers (pnp cam i o)) / INR (num_keypoints o))).
    { rewrite !lit_fin. change (@div XR) with xdiv. change (@ltb XR) with xltb. rewrite !Rlit_0, <- !INR_IZR_INZ. unfold xdiv. destruct (Req_EM_T _ 0); [lra|reflexivity]. }
    assert (L : th < INR (num_inliers (pnp cam i o)) / INR (num_keypoints o) <-> th * INR (num_keypoints o) < INR (num_inliers (pnp cam i o))).
    { split; intros H.
      - apply (Rmult_lt_compat_r _ _ _ Kp) in H. unfold Rdiv in H. rewrite Rmult_assoc, Rinv_l in H by lra. lra.
      - apply (Rmult_lt_reg_r _ _ _ Kp). unfold Rdiv. rewrite Rmult_assoc, Rinv_l by lra. lra. }
    rewrite <- L, <- Rltb_iff, <- D. split.
    - intros (p & q & o' & r & E' & -> & _ & H & _). rewrite E in E'. injection E' as <-. exact H.
    - intros H. destruct (positive_w_cases (rotation (pnp cam i o))) as [[W W']|[W W']];
      exists (position (pnp cam i o)); eexists; exists o, (pnp cam i o); repeat (split; [easy|]); [left|right]; split; easy.
  Qed.
End Real.

(** ** A concrete case *)
Local Open Scope string_scope.
Definition target0 : list (string * string) :=
  [("target_type", "aprilgrid"); ("april_tag_number_vertical", "6"); ("april_tag_number_horizontal", "5");
   ("april_tag_number_pixel_boarder", "2"); ("april_tag_size_m", "0.055"); ("april_tag_gap_size_m", "0.0165")].
Definition docs0 (p : string) : option yaml_document := if String.eqb p "target.yaml" then Some (YamlMap target0) else None.
Definition args0 : te_args := mkTeArgs "-a b.bag" "camera.yaml" "target.yaml" "/cam" "poses.csv".
Definition int0 (s : string) : option Z := if String.eqb s "6" then Some 6%Z else if String.eqb s "5" then Some 5%Z else if String.eqb s "2" then Some 2%Z else None.
Definition double0 (s : string) : option (@T XR) :=
  if String.eqb s "0.055" then Some (Fin (55 / 1000)) else if String.eqb s "0.0165" then Some (Fin (165 / 10000)) else None.
(** two images: in the first 30 of 100 corners are inliers, in the second all, and its quaternion has a negative w *)
Definition bags0 (b t : string) : option (list (@message XR nat)) :=
  if String.eqb b "-a b.bag" then Some [Image (N := XR) (Fin 1) 30%nat; Image (N := XR) (Fin 2) 100%nat] else None.
Definition detect0 (_ : @aprilgrid XR) (i : nat) : option nat := Some i.
Definition keypoints0 (_ : nat) : nat := 100%nat.
Definition pnp0 (_ : unit) (_ : nat) (o : nat) : @pnp_result XR :=
  mkPnp (N := XR) true (inV (RV 1 2 3)) (inQ (RQ (RV 0 0 0) (-1))) o.
Definition before0 : @te_files XR := fun p => if String.eqb p "poses.csv" then Some [Timestamped (N := XR) (Fin 0) (inV (RV 0 0 0)) (inQ (RQ (RV 0 0 0) 1))] else None.

Lemma target0_mapping : mapping target0.
Proof. unfold mapping, target0. cbn [map fst]. repeat (constructor; [cbn [In]; intuition discriminate|]). constructor. Qed.

(** One would expect that the script, when it succeeds on a bag in which the target is seen, exports a pose.  It
    does not, and the poses of an earlier run are lost. *)
Theorem C77_exports_refuted : exists docs bags a ms (fs fs' : @te_files XR),
  bags (arg_bag a) (arg_image_topic a) = Some ms /\
  (forall i, In (Image (N := XR) (Fin 2) i) ms -> exists o, detect0 (mkGrid (N := XR) 6 5 (Fin (55/1000)) (Fin (165/10000)) 2) i = Some o /\
     pnp_success (pnp0 tt 1 o) = true /\ num_inliers (pnp0 tt 1 o) = keypoints0 o) /\
  (exists i, In (Image (N := XR) (Fin 2) i) ms) /\ (exists row rows, fs (arg_output_file a) = Some (row :: rows)) /\
  te_script detect0 keypoints0 pnp0 (fun _ => true) docs int0 double0 bags (fun _ => tt) a fs = (fs', Ok tt) /\
  fs' (arg_output_file a) = Some [].
Proof.
  destruct (C77_emptied detect0 keypoints0 pnp0 (fun _ => true) int0 double0 (fun _ => tt) docs0 bags0 args0 target0 "6" "5" "2" "0.055" "0.0165"
    6%Z 5%Z 2%Z (Fin (55 / 1000)) (Fin (165 / 10000)) [Image (N := XR) (Fin 1) 30%nat; Image (N := XR) (Fin 2) 100%nat] before0)
    as (fs' & S & _ & H); try reflexivity; try exact target0_mapping; try (cbn; tauto); try (cbn; intuition discriminate).
  exists docs0, bags0, args0, [Image (N := XR) (Fin 1) 30%nat; Image (N := XR) (Fin 2) 100%nat], before0, fs'.
  split; [reflexivity|]. split.
  { intros i IN. exists i. split; [reflexivity|]. split; [reflexivity|]. cbn [In] in IN. destruct IN as [E|[E|[]]]; injection E; intros; subst; [lra|reflexivity]. }
  split; [exists 100%nat; cbn; tauto|]. split; [do 2 eexists; reflexivity|]. split; [exact S|].
  apply H; [discriminate|]. split; [now left|reflexivity].
Qed.
(** The configuration of the script has an inlier share of 0; the flags it passes leave it at 0.4: the first image would
    be exported for 0 but is not for the flags the script passes. *)
Theorem C76_inlier_share_refuted : exists command f t o,
  te_interface docs0 args0 = Ok ("rosrun" :: "hand_eye_calibration_target_extractor" :: "target_extractor" :: command) /\
  te_parse int0 double0 command = Some f /\
  (exists p q, yields keypoints0 pnp0 tt (Fin 0) [(t, Some o)] 0 t p q) /\
  ~ (exists p q, yields keypoints0 pnp0 tt (f_threshold f) [(t, Some o)] 0 t p q).
Proof.
  destruct (C76_flags (N := XR) int0 double0 docs0 args0 target0 "6" "5" "2" "0.055" "0.0165"
    6%Z 5%Z 2%Z (Fin (55 / 1000)) (Fin (165 / 10000))) as (command & f & E & P & H); try reflexivity; try exact target0_mapping; try (cbn; tauto).
  do 12 (destruct H as [_ H]). exists command, f, (Fin 1), 30%nat. split; [exact E|]. split; [exact P|]. rewrite H.
  change (@lit XR 4 (-1)) with (Fin (Rlit 4 (-1))).
  assert (L : Rlit 4 (-1) = 4 / 10) by (unfold Rlit; cbn; lra). rewrite L.
  assert (I30 : INR 30 = 30) by (rewrite INR_IZR_INZ; reflexivity). assert (I100 : INR 100 = 100) by (rewrite INR_IZR_INZ; reflexivity).
  split.
  - apply (C78_share keypoints0 pnp0 tt 0 [(Fin 1, Some 30%nat)] 0 (Fin 1) 30%nat); [reflexivity|unfold keypoints0; lia|reflexivity|].
    unfold keypoints0. cbn [pnp0 num_inliers]. rewrite I30, I100. lra.
  - intros X. apply (C78_share keypoints0 pnp0 tt (4 / 10) [(Fin 1, Some 30%nat)] 0 (Fin 1) 30%nat) in X; [|reflexivity|unfold keypoints0; lia|reflexivity].
    unfold keypoints0 in X. cbn [pnp0 num_inliers] in X. rewrite I30, I100 in X. lra.
Qed.
(** a case for C76_bad_number, C77_untouched and C78_files *)
Example C77_example :
  te_program detect0 keypoints0 pnp0 (fun _ => true) int0 double0 bags0 (fun _ => tt) ["--bag"; "other.bag"] before0 = (before0, false) /\
  te_program detect0 keypoints0 pnp0 (fun _ => true) int0 double0 bags0 (fun _ => tt) ["--april_tag_number_vertical"; "six"] before0 = (before0, false) /\
  te_program detect0 keypoints0 pnp0 (fun _ => true) int0 double0 bags0 (fun _ => tt) ["--bag"; "-a b.bag"] before0 = (before0, true).
Proof. now repeat split. Qed.
Example C78_example : exists p q, yields keypoints0 pnp0 tt (Fin (4 / 10)) [(Fin 1, Some 30%nat); (Fin 2, Some 100%nat)] 1 (Fin 2) p q.
Proof.
  apply (C78_share keypoints0 pnp0 tt (4 / 10) _ 1 (Fin 2) 100%nat); [reflexivity|unfold keypoints0; lia|reflexivity|].
  unfold keypoints0. cbn [pnp0 num_inliers]. rewrite INR_IZR_INZ. cbn. lra.
Qed.
(** the default file names meet the hypotheses of C78_files *)
Example C78_files_example : exists f : @te_flags XR, te_parse int0 double0 ["--output_position_in_mm"; "-nowrite_csv_header"] = Some f /\
  f_in_mm f = true /\ f_header f = false /\ f_output_mm f <> "" /\
  NoDup [f_output f; f_output_timestamped f; f_output_mm f; f_output_mm_timestamped f] /\
  forall p, In p [f_output f; f_output_timestamped f; f_output_mm f; f_output_mm_timestamped f] -> p <> "corner_reprojections.csv".
Proof.
  eexists. split; [reflexivity|]. cbn. split; [reflexivity|]. split; [reflexivity|]. split; [discriminate|]. split.
  - repeat (constructor; [cbn [In]; intuition discriminate|]). constructor.
  - intros p IN ->. cbn in IN. intuition discriminate.
Qed.
