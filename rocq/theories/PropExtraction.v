(** * Properties C76, C77 and C78: extraction of camera poses from images of the target. *)

From Coq Require Import ZArith String Ascii List Bool Arith Lia Sorting.Sorted.
From Verif Require Import Num Py Quat DualQuat Extraction.
Import ListNotations.
Local Open Scope list_scope.

(** ** C76: what the script passes on *)
(** a mapping: no key twice *)
Definition mapping (entries : list (string * string)) : Prop := NoDup (map fst entries).
Definition has_key (key : string) (entries : list (string * string)) : Prop := exists v, In (key, v) entries.
Definition target_keys : list string :=
  ["april_tag_number_vertical"; "april_tag_number_horizontal"; "april_tag_number_pixel_boarder"; "april_tag_size_m"; "april_tag_gap_size_m"]%string.

Lemma lookup_in key v entries : mapping entries -> In (key, v) entries -> lookup key entries = Some v.
Proof.
  unfold mapping. induction entries as [|[k w] entries IH]; intros ND IN; [easy|]. cbn [lookup map fst] in *. inversion ND as [|? ? NI ND']; subst.
  destruct IN as [E|IN].
  - injection E as -> ->. now rewrite String.eqb_refl.
  - destruct (String.eqb_spec k key) as [->|_]; [|now apply IH]. exfalso. apply NI. now apply (in_map fst) in IN.
Qed.
Lemma lookup_none key entries : ~ has_key key entries -> lookup key entries = None.
Proof.
  induction entries as [|[k w] entries IH]; intros H; [easy|]. cbn [lookup]. destruct (String.eqb_spec k key) as [->|_].
  - exfalso. apply H. exists w. now left.
  - apply IH. intros [v IN]. apply H. exists v. now right.
Qed.
Lemma lookup_some key entries v : lookup key entries = Some v -> has_key key entries.
Proof.
  induction entries as [|[k w] entries IH]; intros H; [easy|]. cbn [lookup] in H. destruct (String.eqb_spec k key) as [->|_].
  - exists w. now left.
  - destruct (IH H) as [u IN]. exists u. now right.
Qed.

(** The script fails exactly like this. *)
Theorem C76_errors : forall docs a,
  (docs (arg_calib_file_target a) = None -> te_interface docs a = Err OSError) /\
  (docs (arg_calib_file_target a) = Some YamlError -> te_interface docs a = Err NameError) /\
  (docs (arg_calib_file_target a) = Some YamlOther -> te_interface docs a = Err TypeError) /\
  forall entries, docs (arg_calib_file_target a) = Some (YamlMap entries) ->
    (Forall (fun k => has_key k entries) target_keys -> exists command, te_interface docs a = Ok command) /\
    (Exists (fun k => ~ has_key k entries) target_keys -> te_interface docs a = Err KeyError).
Proof.
  intros docs a. unfold te_interface.
  split; [now intros ->|]. split; [now intros ->|]. split; [now intros ->|]. intros entries ->. cbn [entry]. split.
  - intros F. unfold target_keys in F. repeat match goal with H : Forall _ (_ :: _) |- _ => inversion H; subst; clear H end.
    assert (L : forall k, has_key k entries -> exists v, lookup k entries = Some v).
    { intros k [v IN]. destruct (lookup k entries) as [u|] eqn:E; [eauto|]. exfalso. clear - IN E.
      induction entries as [|[k' w] l IH]; [easy|]. cbn [lookup] in E. destruct (String.eqb_spec k' k) as [->|NE]; [easy|].
      destruct IN as [E'|IN]; [now injection E' as ->|now apply IH]. }
    repeat match goal with H : has_key _ _ |- _ => apply L in H; destruct H as [? H]; rewrite H; clear H end. cbn. eauto.
  - intros E. unfold target_keys in E.
    repeat match goal with
           | H : Exists _ (_ :: _) |- _ => inversion H; subst; clear H
           | H : Exists _ [] |- _ => inversion H
           end;
    match goal with H : ~ has_key _ _ |- _ => apply lookup_none in H; rewrite H end;
    repeat match goal with |- context [lookup ?k entries] => destruct (lookup k entries) end; reflexivity.
Qed.

Section Passed.
  Context {N : Num} (int32 : string -> option Z) (double : string -> option T).
  (** Every argument and every entry of the target file arrives at the flag it is meant for, whatever characters it has. *)
  Theorem C76_flags : forall docs a entries nv nh nb sz gap rows cols border size gap_size,
    docs (arg_calib_file_target a) = Some (YamlMap entries) -> mapping entries ->
    In ("april_tag_number_vertical"%string, nv) entries -> In ("april_tag_number_horizontal"%string, nh) entries ->
    In ("april_tag_number_pixel_boarder"%string, nb) entries ->
    In ("april_tag_size_m"%string, sz) entries -> In ("april_tag_gap_size_m"%string, gap) entries ->
    int32 nv = Some rows -> int32 nh = Some cols -> int32 nb = Some border -> double sz = Some size -> double gap = Some gap_size ->
    exists command f, te_interface docs a = Ok (["rosrun"; "hand_eye_calibration_target_extractor"; "target_extractor"]%string ++ command) /\
      te_parse int32 double command = Some f /\
      f_bag f = arg_bag a /\ f_topic f = arg_image_topic a /\ f_eval_camera_yaml f = arg_calib_file_camera a /\
      f_output_timestamped f = arg_output_file a /\ f_output f = ("sequenced_" ++ arg_output_file a)%string /\
      f_in_mm f = false /\ f_header f = false /\
      tag_rows (f_grid f) = rows /\ tag_cols (f_grid f) = cols /\ border_bits (f_grid f) = border /\
      tag_size (f_grid f) = size /\ tag_gap (f_grid f) = gap_size /\
      f_threshold f = lit 4 (-1).
  Proof.
    intros docs a entries nv nh nb sz gap rows cols border size gap_size D M I1 I2 I3 I4 I5 P1 P2 P3 P4 P5.
    unfold te_interface. rewrite D. cbn [entry].
    rewrite (lookup_in _ _ _ M I1), (lookup_in _ _ _ M I2), (lookup_in _ _ _ M I3), (lookup_in _ _ _ M I4), (lookup_in _ _ _ M I5).
    cbn [bind]. eexists (skipn 3 (te_command _ _ _ _ _ _ _ _ _ _)), _. split; [reflexivity|]. split.
    - unfold te_parse, te_command. cbn [skipn].
      match goal with |- bind_opt (parse_flags ?l) _ = _ => let x := eval cbv in (parse_flags l) in change (parse_flags l) with x end.
      cbn [bind_opt]. unfold typed_flag, string_flag, setting. cbn -[lit]. rewrite P1, P2, P3, P4, P5. reflexivity.
    - cbn. now repeat split.
  Qed.
  (** A target file with a number that the extractor cannot read ends the extractor. *)
  Theorem C76_bad_number : forall docs a entries command nv nh nb sz gap,
    docs (arg_calib_file_target a) = Some (YamlMap entries) -> mapping entries ->
    In ("april_tag_number_vertical"%string, nv) entries -> In ("april_tag_number_horizontal"%string, nh) entries ->
    In ("april_tag_number_pixel_boarder"%string, nb) entries ->
    In ("april_tag_size_m"%string, sz) entries -> In ("april_tag_gap_size_m"%string, gap) entries ->
    (int32 nv = None \/ int32 nh = None \/ int32 nb = None \/ double sz = None \/ double gap = None) ->
    te_interface docs a = Ok command -> te_parse int32 double (skipn 3 command) = None.
  Proof.
    intros docs a entries command nv nh nb sz gap D M I1 I2 I3 I4 I5 P. unfold te_interface. rewrite D. cbn [entry].
    rewrite (lookup_in _ _ _ M I1), (lookup_in _ _ _ M I2), (lookup_in _ _ _ M I3), (lookup_in _ _ _ M I4), (lookup_in _ _ _ M I5).
    cbn [bind]. intros E. injection E as <-.
    unfold te_parse, te_command. cbn [skipn].
    match goal with |- bind_opt (parse_flags ?l) _ = _ => let x := eval cbv in (parse_flags l) in change (parse_flags l) with x end.
    cbn [bind_opt]. unfold typed_flag, string_flag, setting. cbn -[lit].
    destruct (int32 nv), (int32 nh), (double sz), (double gap), (int32 nb); cbn; try reflexivity.
    destruct P as [P|[P|[P|[P|P]]]]; discriminate P.
  Qed.
End Passed.

(** ** C77: what happens to the files *)
Section Program.
  Context {N : Num} {camera image observation : Type}.
  Context (detect : @aprilgrid N -> image -> option observation) (num_keypoints : observation -> nat)
          (pnp : camera -> nat -> observation -> @pnp_result N) (can_open : string -> bool)
          (int32 : string -> option Z) (double : string -> option T) (load : string -> camera).
  Notation program := (te_program detect num_keypoints pnp can_open int32 double).
  Notation script docs := (te_script detect num_keypoints pnp can_open docs int32 double).

  Lemma truncate_cases header path fs p : truncate (N := N) can_open header path fs p = fs p \/
    truncate can_open header path fs p = Some [] \/ truncate can_open header path fs p = Some [Header].
  Proof. unfold truncate. destruct (can_open path); [|now left]. destruct (String.eqb p path); [|now left]. destruct header; auto. Qed.
  Lemma open_cases f fs p : let fs' := fst (open_outputs (N := N) can_open f fs) in
    fs' p = fs p \/ fs' p = Some [] \/ fs' p = Some [Header].
  Proof.
    cbv zeta.
    assert (S : forall h q (g : te_files), (g p = fs p \/ g p = Some [] \/ g p = Some [Header]) ->
      (truncate can_open h q g p = fs p \/ truncate can_open h q g p = Some [] \/ truncate can_open h q g p = Some [Header])).
    { intros h q g H. destruct (truncate_cases h q g p) as [E|[E|E]]; rewrite E; auto. }
    unfold open_outputs. destruct (f_in_mm f); [destruct (String.eqb (f_output_mm f) "")|]; cbn [fst]; repeat apply S; now left.
  Qed.
  Lemma frames_unusable g (ms : list message) : In Unusable ms -> frames_of detect g ms = None.
  Proof.
    induction ms as [|[|t i] ms IH]; intros IN; [easy|easy|]. cbn [frames_of]. destruct IN as [E|IN]; [discriminate E|]. now rewrite IH.
  Qed.
  Lemma frames_images g (ms : list message) : ~ In Unusable ms -> exists l, frames_of detect g ms = Some l.
  Proof.
    induction ms as [|[|t i] ms IH]; intros NI; cbn [frames_of]; [eauto|exfalso; apply NI; now left|].
    destruct IH as [l E]; [intros IN; apply NI; now right|]. rewrite E. cbn. eauto.
  Qed.

  (** Whatever the arguments, the bag, the cameras and the detections are, the program never writes a pose: a file is
      left as it was or is emptied up to a header.  If it ends with status 0 no file is touched. *)
  Theorem C77_no_pose : forall bags argv fs fs' ok, program bags load argv fs = (fs', ok) ->
    (forall p, fs' p = fs p \/ fs' p = Some [] \/ fs' p = Some [Header]) /\ (ok = true -> forall p, fs' p = fs p).
  Proof.
    intros bags argv fs fs' ok. unfold te_program, te_main.
    destruct (te_parse int32 double argv) as [f|]; [|intros E; injection E as <- <-; now split; [left|]].
    destruct (bind_opt _ _) as [l|]; [|intros E; injection E as <- <-; now split; [left|]].
    destruct (String.eqb (f_eval_camera_yaml f) ""); [intros E; injection E as <- <-; now split; [left|]|].
    pose proof (open_cases f fs) as C. destruct (open_outputs can_open f fs) as [gs good]. cbn [fst] in C.
    destruct good; intros E; injection E as <- <-; now split.
  Qed.
  (** Bad flags, an unreadable bag, or a message that is no usable image end the program before any file is touched. *)
  Theorem C77_untouched : forall bags argv fs,
    (te_parse int32 double argv = None \/
     exists f, te_parse int32 double argv = Some f /\
       (bags (f_bag f) (f_topic f) = None \/ exists ms, bags (f_bag f) (f_topic f) = Some ms /\ In Unusable ms)) ->
    program bags load argv fs = (fs, false).
  Proof.
    intros bags argv fs [E|(f & E & H)]; unfold te_program, te_main; rewrite E; [easy|].
    destruct H as [E'|(ms & E' & IN)]; rewrite E'; cbn [bind_opt]; [easy|]. now rewrite frames_unusable.
  Qed.
  (** With a usable bag the script empties both pose files, leaves all files except these and the reprojection log
      alone, and succeeds; and it leaves everything alone if the camera file is the empty text. *)
  Theorem C77_emptied : forall docs bags a entries nv nh nb sz gap rows cols border size gap_size ms fs,
    docs (arg_calib_file_target a) = Some (YamlMap entries) -> mapping entries ->
    In ("april_tag_number_vertical"%string, nv) entries -> In ("april_tag_number_horizontal"%string, nh) entries ->
    In ("april_tag_number_pixel_boarder"%string, nb) entries ->
    In ("april_tag_size_m"%string, sz) entries -> In ("april_tag_gap_size_m"%string, gap) entries ->
    int32 nv = Some rows -> int32 nh = Some cols -> int32 nb = Some border -> double sz = Some size -> double gap = Some gap_size ->
    bags (arg_bag a) (arg_image_topic a) = Some ms -> ~ In Unusable ms ->
    exists fs', script docs bags load a fs = (fs', Ok tt) /\
      (arg_calib_file_camera a = ""%string -> forall p, fs' p = fs p) /\
      (arg_calib_file_camera a <> ""%string -> forall p,
         ((p = arg_output_file a \/ p = ("sequenced_" ++ arg_output_file a)%string \/ p = "corner_reprojections.csv"%string) /\
          can_open p = true -> fs' p = Some []) /\
         (~ (p = arg_output_file a \/ p = ("sequenced_" ++ arg_output_file a)%string \/ p = "corner_reprojections.csv"%string) \/
          can_open p = false -> fs' p = fs p)).
  Proof.
    intros docs bags a entries nv nh nb sz gap rows cols border size gap_size ms fs D M I1 I2 I3 I4 I5 P1 P2 P3 P4 P5 B NI.
    destruct (C76_flags int32 double docs a entries nv nh nb sz gap rows cols border size gap_size D M I1 I2 I3 I4 I5 P1 P2 P3 P4 P5)
      as (command & f & E & EP & Fb & Ft & Fc & Fo & Fs & Fm & Fh & _).
    unfold te_script. rewrite E. eexists. split; [reflexivity|]. cbn [app skipn].
    unfold te_program, te_main. rewrite EP, Fb, Ft, Fc, B. cbn [bind_opt].
    destruct (frames_images (f_grid f) ms NI) as [l El]. rewrite El.
    destruct (String.eqb_spec (arg_calib_file_camera a) "") as [Z|NZ]; [split; [now intros _ p|now intros ?]|].
    split; [now intros ?|]. intros _ p. unfold open_outputs. rewrite Fm, Fh, Fo, Fs. cbn [deserialize initial_camera fst].
    unfold truncate. split.
    - intros [H O].
      destruct (can_open (arg_output_file a)) eqn:O1, (can_open ("sequenced_" ++ arg_output_file a)%string) eqn:O2,
        (can_open "corner_reprojections.csv"%string) eqn:O3;
      repeat match goal with |- context [String.eqb p ?q] => destruct (String.eqb_spec p q) end; try reflexivity;
      exfalso; destruct H as [-> | [-> | -> ]]; congruence.
    - intros H.
      destruct (can_open (arg_output_file a)) eqn:O1, (can_open ("sequenced_" ++ arg_output_file a)%string) eqn:O2,
        (can_open "corner_reprojections.csv"%string) eqn:O3;
      repeat match goal with |- context [String.eqb p ?q] => destruct (String.eqb_spec p q) end; try reflexivity;
      exfalso; (destruct H as [H|H]; [apply H; auto|congruence]).
  Qed.
End Program.

(** ** C78: the loop over the frames, for any camera *)
Section Loop.
  Context {N : Num} {camera observation : Type}.
  Context (num_keypoints : observation -> nat) (pnp : camera -> nat -> observation -> @pnp_result N) (can_open : string -> bool).
  Notation exported := (export_from num_keypoints pnp).

  (** frame number [i] yields the pose (t, p, q) *)
  Definition yields (cam : camera) (threshold : T) (frames : list (T * option observation)) (i : nat) (t : T) (p : vec3) (q : quat) : Prop :=
    exists o r, nth_error frames i = Some (t, Some o) /\ r = pnp cam i o /\ pnp_success r = true /\
      ltb threshold (div (lit (Z.of_nat (num_inliers r)) 0) (lit (Z.of_nat (num_keypoints o)) 0)) = true /\
      p = position r /\
      (ltb (qw (rotation r)) n0 = false /\ q = rotation r \/
       ltb (qw (rotation r)) n0 = true /\
       q = mkQ (opp (qx (rotation r))) (opp (qy (rotation r))) (opp (qz (rotation r))) (opp (qw (rotation r)))).

  Lemma export_from_in cam th : forall frames k e, In e (exported cam th k frames) <->
    exists i o, frame_id e = k + i /\ nth_error frames i = Some (stamp e, Some o) /\ pnp_success (pnp cam (k + i) o) = true /\
      sufficient_inliers num_keypoints th o (pnp cam (k + i) o) = true /\
      ex_position e = position (pnp cam (k + i) o) /\ ex_quaternion e = positive_w (rotation (pnp cam (k + i) o)).
  Proof.
    induction frames as [|[t o] frames IH]; intros k e; cbn [export_from].
    - split; [easy|]. intros (i & o & _ & E & _). now destruct i.
    - assert (R : In e (exported cam th (S k) frames) <-> exists i o', frame_id e = k + S i /\ nth_error frames i = Some (stamp e, Some o') /\
        pnp_success (pnp cam (k + S i) o') = true /\ sufficient_inliers num_keypoints th o' (pnp cam (k + S i) o') = true /\
        ex_position e = position (pnp cam (k + S i) o') /\ ex_quaternion e = positive_w (rotation (pnp cam (k + S i) o'))).
      { rewrite IH. split; intros (i & o' & H); exists i, o'; [rewrite <- Nat.add_succ_comm|rewrite Nat.add_succ_comm]; exact H. }
      assert (S1 : In e (exported cam th (S k) frames) -> exists i o', frame_id e = k + i /\ nth_error ((t, o) :: frames) i = Some (stamp e, Some o') /\
        pnp_success (pnp cam (k + i) o') = true /\ sufficient_inliers num_keypoints th o' (pnp cam (k + i) o') = true /\
        ex_position e = position (pnp cam (k + i) o') /\ ex_quaternion e = positive_w (rotation (pnp cam (k + i) o'))).
      { intros IN. apply R in IN. destruct IN as (i & o' & H). now exists (S i), o'. }
      destruct o as [o|].
      + destruct (pnp_success (pnp cam k o)) eqn:P; [destruct (sufficient_inliers num_keypoints th o (pnp cam k o)) eqn:Q|].
        * split.
          -- intros [<-|IN]; [|now apply S1]. exists 0, o. cbn [frame_id stamp ex_position ex_quaternion nth_error]. rewrite Nat.add_0_r. now repeat split.
          -- intros ([|i] & o' & F & E & H).
             ++ left. cbn [nth_error] in E. injection E as E1 <-. rewrite Nat.add_0_r in *. destruct H as (_ & _ & H1 & H2). destruct e; cbn in *. congruence.
             ++ right. apply R. now exists i, o'.
        * split; [apply S1|]. intros ([|i] & o' & F & E & H).
          -- cbn [nth_error] in E. injection E as E1 <-. rewrite Nat.add_0_r in *. destruct H as (_ & H & _). congruence.
          -- apply R. now exists i, o'.
        * split; [apply S1|]. intros ([|i] & o' & F & E & H).
          -- cbn [nth_error] in E. injection E as E1 <-. rewrite Nat.add_0_r in *. destruct H as (H & _). congruence.
          -- apply R. now exists i, o'.
      + split; [apply S1|]. intros ([|i] & o' & F & E & H); [discriminate E|]. apply R. now exists i, o'.
  Qed.
  Lemma export_from_sorted cam th : forall frames k, StronglySorted lt (map frame_id (exported cam th k frames)).
  Proof.
    induction frames as [|[t o] frames IH]; intros k; cbn [export_from]; [constructor|].
    destruct o as [o|]; [|apply IH]. destruct (pnp_success _); [|apply IH]. destruct (sufficient_inliers _ _ _ _); [|apply IH].
    cbn [map frame_id]. constructor; [apply IH|]. apply Forall_forall. intros i IN. apply in_map_iff in IN. destruct IN as (e & <- & IN).
    apply export_from_in in IN. destruct IN as (j & o' & -> & _). lia.
  Qed.
  Lemma positive_w_cases (q : quat) : (ltb (qw q) n0 = false /\ positive_w q = q) \/
    (ltb (qw q) n0 = true /\ positive_w q = mkQ (opp (qx q)) (opp (qy q)) (opp (qz q)) (opp (qw q))).
  Proof. unfold positive_w. destruct (ltb (qw q) n0); auto. Qed.

  (** After opening the files and the loop, the four files hold the same poses: one per frame in which the target is
      found, the pose is found and more than the given share of the corners are inliers, by increasing frame number,
      with the frame number or the time of that image, in metres or in millimetres. *)
  Theorem C78_files : forall f cam frames fs,
    f_output_mm f <> ""%string ->
    NoDup [f_output f; f_output_timestamped f; f_output_mm f; f_output_mm_timestamped f] ->
    (forall p, In p [f_output f; f_output_timestamped f; f_output_mm f; f_output_mm_timestamped f] -> can_open p = true /\ p <> "corner_reprojections.csv"%string) ->
    let fs' := export_poses num_keypoints pnp can_open f cam frames (fst (open_outputs can_open f fs)) in
    let first := if f_header f then [Header] else [] in
    exists l : list (nat * T * vec3 * quat),
      StronglySorted lt (map (fun x => fst (fst (fst x))) l) /\
      (forall i t p q, In (i, t, p, q) l <-> yields cam (f_threshold f) frames i t p q) /\
      fs' (f_output f) = Some (first ++ map (fun '(i, t, p, q) => Sequenced i p q) l) /\
      fs' (f_output_timestamped f) = Some (first ++ map (fun '(i, t, p, q) => Timestamped t p q) l) /\
      (f_in_mm f = true ->
        fs' (f_output_mm f) = Some (first ++ map (fun '(i, t, p, q) =>
          Sequenced i (mkV (mul (lit 1000 0) (vx p)) (mul (lit 1000 0) (vy p)) (mul (lit 1000 0) (vz p))) q) l) /\
        fs' (f_output_mm_timestamped f) = Some (first ++ map (fun '(i, t, p, q) =>
          Timestamped t (mkV (mul (lit 1000 0) (vx p)) (mul (lit 1000 0) (vy p)) (mul (lit 1000 0) (vz p))) q) l)) /\
      (f_in_mm f = false -> fs' (f_output_mm f) = fs (f_output_mm f) /\ fs' (f_output_mm_timestamped f) = fs (f_output_mm_timestamped f)).
  Proof.
    intros f cam frames fs NE ND OP fs' first.
    set (ex := exported cam (f_threshold f) 0 frames).
    exists (map (fun e => (frame_id e, stamp e, ex_position e, ex_quaternion e)) ex).
    split; [rewrite map_map; cbn; apply export_from_sorted|]. split.
    { intros i t p q. rewrite in_map_iff. split.
      - intros (e & E & IN). injection E as <- <- <- <-. apply export_from_in in IN. destruct IN as (j & o & F & E & P & S & X & Q).
        cbn [Nat.add] in *. exists o, (pnp cam j o). rewrite F, X, Q. repeat (split; [easy|]).
        destruct (positive_w_cases (rotation (pnp cam j o))) as [[W ->]|[W ->]]; auto.
      - intros (o & r & E & -> & P & S & -> & Q). exists (mkExport i t (position (pnp cam i o)) q). split; [reflexivity|].
        apply export_from_in. exists i, o. cbn [Nat.add frame_id stamp ex_position ex_quaternion]. repeat (split; [easy|]).
        destruct (positive_w_cases (rotation (pnp cam i o))) as [[W ->]|[W ->]]; destruct Q as [[W' ->]|[W' ->]]; congruence. }
    destruct (OP (f_output f)) as [O1 C1]; [cbn; tauto|]. destruct (OP (f_output_timestamped f)) as [O2 C2]; [cbn; tauto|].
    destruct (OP (f_output_mm f)) as [O3 C3]; [cbn; tauto|]. destruct (OP (f_output_mm_timestamped f)) as [O4 C4]; [cbn; tauto|].
    assert (D : f_output f <> f_output_timestamped f /\ f_output f <> f_output_mm f /\ f_output f <> f_output_mm_timestamped f /\
      f_output_timestamped f <> f_output_mm f /\ f_output_timestamped f <> f_output_mm_timestamped f /\ f_output_mm f <> f_output_mm_timestamped f).
    { clear - ND. repeat match goal with H : NoDup (_ :: _) |- _ => inversion H; subst; clear H end. cbn [In] in *. repeat split; intros E; rewrite E in *; tauto. }
    destruct D as (D1 & D2 & D3 & D4 & D5 & D6).
    assert (TS : forall h p g, can_open p = true -> truncate (N := N) can_open h p g p = Some (if h then [Header] else [])).
    { intros h p g O. unfold truncate. now rewrite O, String.eqb_refl. }
    assert (TO : forall h p q g, q <> p -> truncate (N := N) can_open h p g q = g q).
    { intros h p q g Q. unfold truncate. destruct (can_open p); [|easy]. now destruct (String.eqb_spec q p). }
    assert (AS : forall p ls g, can_open p = true -> append (N := N) can_open p ls g p = Some ((match g p with Some old => old | None => [] end) ++ ls)).
    { intros p ls g O. unfold append. now rewrite O, String.eqb_refl. }
    assert (AO : forall p q ls g, q <> p -> append (N := N) can_open p ls g q = g q).
    { intros p q ls g Q. unfold append. destruct (can_open p); [|easy]. now destruct (String.eqb_spec q p). }
    rewrite !map_map. unfold fs', first, export_poses, open_outputs. fold ex. unfold te_sequenced, te_timestamped.
    destruct (f_in_mm f); [destruct (String.eqb_spec (f_output_mm f) ""); [easy|]|]; cbn [fst];
    (split; [|split; [|split]]); try discriminate; try intros _; try split;
    repeat first [rewrite AS by easy | rewrite TS by easy | rewrite AO by congruence | rewrite TO by congruence]; reflexivity.
  Qed.
End Loop.
