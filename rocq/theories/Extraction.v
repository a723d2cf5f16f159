(** * Model of hand_eye_calibration/bin/target_extractor_interface.py (cited as tei.py) and of
      hand_eye_calibration_target_extractor/src/target_extractor.cc (cited as te.cc)

    Images, target detection and the pose estimation from corners are parameters.  Files hold rows of values; the
    text of a number (17 significant digits, te.cc:293, 299) is in NumberText.v.  Drawing (te.cc:172-188) and log messages
    are left out. *)

From Coq Require Import ZArith String Ascii List Bool.
From Verif Require Import Num Py Quat DualQuat.
Import ListNotations.
Local Open Scope string_scope.
Local Open Scope list_scope.

(** ** tei.py *)
(** the command line tei.py:64-78; all five arguments are required *)
Record te_args := mkTeArgs {
  arg_bag : string; arg_calib_file_camera : string; arg_calib_file_target : string; arg_image_topic : string; arg_output_file : string }.
(** yaml.load of the target file tei.py:85-89: syntax error, a document that is not a mapping (the empty document is
    None), or a mapping; values are represented by their str() *)
Inductive yaml_document := YamlError | YamlOther | YamlMap (entries : list (string * string)).
(** access to a mapping (and, below, to the settings of the flags): the first pair with the key *)
Fixpoint lookup (key : string) (entries : list (string * string)) : option string :=
  match entries with
  | [] => None
  | (k, v) :: entries' => if String.eqb k key then Some v else lookup key entries'
  end.
(** yaml_content[key] tei.py:90-97: after a syntax error, which is only printed, yaml_content is unbound *)
Definition entry (doc : yaml_document) (key : string) : res string :=
  match doc with
  | YamlError => Err NameError
  | YamlOther => Err TypeError
  | YamlMap entries => match lookup key entries with Some v => Ok v | None => Err KeyError end
  end.
(** call_target_extractor tei.py:30-58; draw_extraction and alsologtostderr are True and write_csv_header is False in
    the only configuration (tei.py:12, 15, 16) *)
Definition te_command (bag topic calib_file_camera output_file output_file_timestamped
                       number_vertical number_horizontal size_m pixel_boarder gap_size_m : string) : list string :=
  ["rosrun"; "hand_eye_calibration_target_extractor"; "target_extractor";
   "--bag"; bag;
   "--topic"; topic;
   "--eval_camera_yaml"; calib_file_camera;
   "--draw_extraction=True";
   "--camera_pose_T_C_G_output_file"; output_file;
   "--camera_pose_T_C_G_output_file_timestamped"; output_file_timestamped;
   "--alsologtostderr";
   "--write_csv_header=False";
   "--april_tag_number_vertical"; number_vertical;
   "--april_tag_number_horizontal"; number_horizontal;
   "--april_tag_size_m"; size_m;
   "--april_tag_pixel_boarder"; pixel_boarder;
   "--april_tag_gap_size_m"; gap_size_m].
(** tei.py:80-101: the command that is called.  [docs]: the files that can be opened.  The status returned by call
    (tei.py:59) is dropped, so the script succeeds whenever this is [Ok]; that rosrun itself exists is assumed. *)
Definition te_interface (docs : string -> option yaml_document) (a : te_args) : res (list string) :=
  match docs (arg_calib_file_target a) with
  | None => Err OSError
  | Some doc =>
      do number_vertical <- entry doc "april_tag_number_vertical";
      do number_horizontal <- entry doc "april_tag_number_horizontal";
      do pixel_boarder <- entry doc "april_tag_number_pixel_boarder";
      do size_m <- entry doc "april_tag_size_m";
      do gap_size_m <- entry doc "april_tag_gap_size_m";
      Ok (te_command (arg_bag a) (arg_image_topic a) (arg_calib_file_camera a)
            ("sequenced_" ++ arg_output_file a)%string (arg_output_file a)
            number_vertical number_horizontal size_m pixel_boarder gap_size_m)
  end.

(** ** google::ParseCommandLineFlags te.cc:69, for the flags te.cc:20-65 and alsologtostderr *)
(** Simplified: the other flags of glog and gflags themselves (help, flagfile, v, ...) count as unknown. *)
Definition string_flags : list string :=
  ["bag"; "topic"; "eval_camera_yaml"; "camera_pose_T_C_G_output_file"; "camera_pose_T_C_G_output_file_timestamped";
   "camera_pose_T_C_G_output_file_mm"; "camera_pose_T_C_G_output_file_mm_timestamped"].
Definition boolean_flags : list string := ["draw_extraction"; "output_position_in_mm"; "write_csv_header"; "alsologtostderr"].
Definition number_flags : list string :=
  ["inlier_ratio_for_good_camera_pose"; "april_tag_number_vertical"; "april_tag_number_horizontal"; "april_tag_size_m";
   "april_tag_gap_size_m"; "april_tag_pixel_boarder"].
Definition member (s : string) (l : list string) : bool := existsb (String.eqb s) l.
Definition known (s : string) : bool := member s string_flags || member s boolean_flags || member s number_flags.
Fixpoint cut_equal (s : string) : string * option string :=
  match s with
  | EmptyString => (EmptyString, None)
  | String c s' =>
      if Ascii.eqb c "=" then (EmptyString, Some s')
      else let '(name, value) := cut_equal s' in (String c name, value)
  end.
(** name and value of an option without its dashes; outer [None]: unknown *)
Definition split_argument (s : string) : option (string * option string) :=
  let '(name, value) := cut_equal s in
  if known name then
    Some (name, match value with
                | Some v => Some v
                | None => if member name boolean_flags then Some "1"%string else None
                end)
  else match name with
       | String "n" (String "o" name') => if member name' boolean_flags then Some (name', Some "0"%string) else None
       | _ => None
       end.
(** one or two dashes are removed; [None]: not an option (te.cc has no use for those) *)
Definition strip_dashes (s : string) : option string :=
  match s with
  | String "-" EmptyString => None
  | String "-" (String "-" s') => Some s'
  | String "-" s' => Some s'
  | _ => None
  end.
Definition cons_option {A} (a : A) (l : option (list A)) : option (list A) := match l with Some l => Some (a :: l) | None => None end.
(** the settings in order; [None]: the program ends with an error *)
Fixpoint parse_flags (argv : list string) : option (list (string * string)) :=
  match argv with
  | [] => Some []
  | arg :: argv' =>
      match strip_dashes arg with
      | None => parse_flags argv'
      | Some EmptyString => Some []
      | Some s =>
          match split_argument s with
          | None => None
          | Some (name, Some v) => cons_option (name, v) (parse_flags argv')
          | Some (name, None) =>
              match argv' with
              | [] => None
              | v :: argv'' => cons_option (name, v) (parse_flags argv'')
              end
          end
      end
  end.
(** the last setting of a flag counts *)
Definition setting (fs : list (string * string)) (name : string) : option string := lookup name (rev fs).
Definition string_flag (fs : list (string * string)) (name default : string) : string :=
  match setting fs name with Some v => v | None => default end.
Definition lower (c : ascii) : ascii :=
  let n := nat_of_ascii c in if (Nat.leb 65 n && Nat.leb n 90)%bool then ascii_of_nat (n + 32) else c.
Fixpoint lower_case (s : string) : string := match s with EmptyString => EmptyString | String c s' => String (lower c) (lower_case s') end.
(** the texts gflags takes for a boolean, in any case *)
Definition boolean (s : string) : option bool :=
  let s := lower_case s in
  if member s ["1"; "t"; "true"; "y"; "yes"] then Some true
  else if member s ["0"; "f"; "false"; "n"; "no"] then Some false else None.
Definition bind_opt {A B} (m : option A) (k : A -> option B) : option B := match m with Some a => k a | None => None end.
(** Every setting is checked by gflags; here only the last one of each flag is. *)
Definition typed_flag {A} (parse : string -> option A) (fs : list (string * string)) (name : string) (default : A) : option A :=
  match setting fs name with Some v => parse v | None => Some default end.

(** ** te.cc *)
Section Extractor.
  Context {N : Num}.
  Local Open Scope num_scope.

  (** te.cc:80-86 *)
  Record aprilgrid := mkGrid { tag_rows : Z; tag_cols : Z; tag_size : T; tag_gap : T; border_bits : Z }.
  Record te_flags := mkTeFlags {
    f_bag : string; f_topic : string; f_eval_camera_yaml : string; f_output : string; f_output_timestamped : string;
    f_output_mm : string; f_output_mm_timestamped : string; f_in_mm : bool; f_header : bool; f_threshold : T; f_grid : aprilgrid }.
  (** te.cc:20-69; texts of numbers are read by [int32] and [double] *)
  Definition te_parse (int32 : string -> option Z) (double : string -> option T) (argv : list string) : option te_flags :=
    bind_opt (parse_flags argv) (fun fs =>
    bind_opt (typed_flag boolean fs "output_position_in_mm" false) (fun mm =>
    bind_opt (typed_flag boolean fs "write_csv_header" true) (fun header =>
    bind_opt (typed_flag boolean fs "draw_extraction" false) (fun _ =>
    bind_opt (typed_flag boolean fs "alsologtostderr" false) (fun _ =>
    bind_opt (typed_flag double fs "inlier_ratio_for_good_camera_pose" (lit 4 (-1))) (fun threshold =>
    bind_opt (typed_flag int32 fs "april_tag_number_vertical" 6%Z) (fun rows =>
    bind_opt (typed_flag int32 fs "april_tag_number_horizontal" 6%Z) (fun cols =>
    bind_opt (typed_flag double fs "april_tag_size_m" (lit 55 (-3))) (fun size =>
    bind_opt (typed_flag double fs "april_tag_gap_size_m" (lit 165 (-4))) (fun gap =>
    bind_opt (typed_flag int32 fs "april_tag_pixel_boarder" 2%Z) (fun border =>
    Some (mkTeFlags (string_flag fs "bag" "") (string_flag fs "topic" "/cam0/image_raw") (string_flag fs "eval_camera_yaml" "")
            (string_flag fs "camera_pose_T_C_G_output_file" "camera_pose.csv")
            (string_flag fs "camera_pose_T_C_G_output_file_timestamped" "camera_poses_timestamped.csv")
            (string_flag fs "camera_pose_T_C_G_output_file_mm" "camera_pose_mm.csv")
            (string_flag fs "camera_pose_T_C_G_output_file_mm_timestamped" "camera_poses_mm_timestamped.csv")
            mm header threshold (mkGrid rows cols size gap border))))))))))))).

  Context {camera image observation : Type}.
  (** te.cc:257-262, 280-281, 288: success, position and quaternion of T_G_C, number of inliers.  The search is
      random, so the result may depend on the frame number. *)
  Record pnp_result := mkPnp { pnp_success : bool; position : vec3; rotation : quat; num_inliers : nat }.
  Context (detect : aprilgrid -> image -> option observation) (num_keypoints : observation -> nat)
          (pnp : camera -> nat -> observation -> pnp_result).

  (** one exported pose *)
  Record export := mkExport { frame_id : nat; stamp : T; ex_position : vec3; ex_quaternion : quat }.
  (** te.cc:282-287 *)
  Definition positive_w (q : quat) : quat :=
    if qw q <? n0 then mkQ (- qx q) (- qy q) (- qz q) (- qw q) else q.
  (** te.cc:264-268 *)
  Definition sufficient_inliers (threshold : T) (o : observation) (r : pnp_result) : bool :=
    threshold <? (lit (Z.of_nat (num_inliers r)) 0 / lit (Z.of_nat (num_keypoints o)) 0).
  (** the loop te.cc:249-349 from frame number [i] on; the reprojection log te.cc:327-346 is left out *)
  Fixpoint export_from (cam : camera) (threshold : T) (i : nat) (frames : list (T * option observation)) : list export :=
    match frames with
    | [] => []
    | (t, o) :: frames' =>
        let rest := export_from cam threshold (S i) frames' in
        match o with
        | None => rest
        | Some o =>
            let r := pnp cam i o in
            if pnp_success r then
              if sufficient_inliers threshold o r then mkExport i t (position r) (positive_w (rotation r)) :: rest else rest
            else rest
        end
    end.
  (** te.cc:292-323: the lines of the files *)
  Inductive te_line :=
  | Header
  | Sequenced (frame_id : nat) (p : vec3) (q : quat)
  | Timestamped (t : T) (p : vec3) (q : quat).
  Definition in_mm (p : vec3) : vec3 := mkV (lit 1000 0 * vx p) (lit 1000 0 * vy p) (lit 1000 0 * vz p).
  Definition te_sequenced (scale : vec3 -> vec3) (l : list export) : list te_line :=
    map (fun e => Sequenced (frame_id e) (scale (ex_position e)) (ex_quaternion e)) l.
  Definition te_timestamped (scale : vec3 -> vec3) (l : list export) : list te_line :=
    map (fun e => Timestamped (stamp e) (scale (ex_position e)) (ex_quaternion e)) l.

  Definition te_files : Type := string -> option (list te_line).
  (** std::ofstream::open truncates; if the file cannot be opened nothing is reported and writing has no effect *)
  Context (can_open : string -> bool).
  Definition truncate (header : bool) (path : string) (fs : te_files) : te_files :=
    if can_open path then fun p => if String.eqb p path then Some (if header then [Header] else []) else fs p else fs.
  (** Simplified: two streams on the same file would overwrite each other *)
  Definition append (path : string) (ls : list te_line) (fs : te_files) : te_files :=
    if can_open path then
      fun p => if String.eqb p path then Some ((match fs p with Some old => old | None => [] end) ++ ls) else fs p
    else fs.
  (** te.cc:196-233, and whether the check te.cc:220 holds *)
  Definition open_outputs (f : te_flags) (fs : te_files) : te_files * bool :=
    let fs := truncate (f_header f) "corner_reprojections.csv" fs in
    let fs := truncate (f_header f) (f_output f) fs in
    let fs := truncate (f_header f) (f_output_timestamped f) fs in
    if f_in_mm f then
      if String.eqb (f_output_mm f) "" then (fs, false)
      else (truncate (f_header f) (f_output_mm_timestamped f) (truncate (f_header f) (f_output_mm f) fs), true)
    else (fs, true).
  (** te.cc:239-349 *)
  Definition export_poses (f : te_flags) (cam : camera) (frames : list (T * option observation)) (fs : te_files) : te_files :=
    let l := export_from cam (f_threshold f) 0 frames in
    let fs := append (f_output f) (te_sequenced (fun p => p) l) fs in
    let fs := append (f_output_timestamped f) (te_timestamped (fun p => p) l) fs in
    if f_in_mm f then
      append (f_output_mm_timestamped f) (te_timestamped in_mm l) (append (f_output_mm f) (te_sequenced in_mm l) fs)
    else fs.
  (** a message on the topic: one that is not an image or cannot be converted ends the program (te.cc:118, 148, 158) *)
  Inductive message := Unusable | Image (stamp : T) (i : image).
  (** te.cc:115-189 *)
  Fixpoint frames_of (g : aprilgrid) (ms : list message) : option (list (T * option observation)) :=
    match ms with
    | [] => Some []
    | Unusable :: _ => None
    | Image t i :: ms' => cons_option (t, detect g i) (frames_of g ms')
    end.
  (** te.cc:235-237: the pointer is default-constructed, hence null, and never assigned; the member function is
      called through it.  That is undefined behaviour; the model takes the program to end here, at the latest in
      CHECK(camera). *)
  Definition initial_camera : option camera := None.
  Definition deserialize (cam : option camera) (loaded : camera) : option camera :=
    match cam with Some _ => Some loaded | None => None end.
  (** te.cc:103-367: the files afterwards and whether the status is 0.  [bags bag topic]: the messages, [None] if the
      bag cannot be opened (te.cc:105 throws); [load]: the camera in a file *)
  Definition te_main (bags : string -> string -> option (list message)) (load : string -> camera) (f : te_flags) (fs : te_files)
    : te_files * bool :=
    match bind_opt (bags (f_bag f) (f_topic f)) (frames_of (f_grid f)) with
    | None => (fs, false)
    | Some frames =>
        if String.eqb (f_eval_camera_yaml f) "" then (fs, true)
        else
          let '(fs, ok) := open_outputs f fs in
          if ok then
            match deserialize initial_camera (load (f_eval_camera_yaml f)) with
            | None => (fs, false)
            | Some cam => (export_poses f cam frames fs, true)
            end
          else (fs, false)
    end.
  (** the whole program te.cc:67-368 on its arguments *)
  Definition te_program (int32 : string -> option Z) (double : string -> option T)
    (bags : string -> string -> option (list message)) (load : string -> camera) (argv : list string) (fs : te_files) : te_files * bool :=
    match te_parse int32 double argv with
    | None => (fs, false)
    | Some f => te_main bags load f fs
    end.
  (** tei.py:28-101 with the program it calls; rosrun passes on what follows the names of package and program *)
  Definition te_script (docs : string -> option yaml_document) (int32 : string -> option Z) (double : string -> option T)
    (bags : string -> string -> option (list message)) (load : string -> camera) (a : te_args) (fs : te_files) : te_files * res unit :=
    match te_interface docs a with
    | Err e => (fs, Err e)
    | Ok command => (fst (te_program int32 double bags load (skipn 3 command) fs), Ok tt)
    end.
End Extractor.
