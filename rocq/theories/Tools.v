(** * Models of the exporting, test data and shell tools

    bin/tf_to_csv.py, bin/bag_to_csv_with_config.py, python/hand_eye_calibration/test_tools.py and
    python/hand_eye_calibration/bash_utils.py, all below hand_eye_calibration/. *)

From Coq Require Import ZArith QArith String Ascii List Bool Arith.
From Verif Require Import Py.
Import ListNotations.
Local Open Scope nat_scope.
Local Open Scope list_scope.

(** ** bin/tf_to_csv.py *)
(** a transform of a tf message; stamps in nanoseconds *)
Record transform := mkTf { child_frame : string; stamp : Z }.
Record message := mkMsg { topic : string; transforms : list transform }.
Section Export.
  (** tf_tree.lookupTransform(target_frame, source_frame, stamp) once all transforms are loaded;
      None stands for the three exceptions the script catches *)
  Context {P : Type} (lookup : Z -> option P).
  Record tf_state := mkTfState { init : bool; tf_counter : nat; start_time : Z; end_time : Z; rows : list (Z * P) }.
  (** tf_counter / (end - start).to_sec(), :80-82 and :114-115; only whether it raises matters *)
  Definition estimate_frequency (start_ end_ : Z) : option exn :=
    if (end_ - start_ =? 0)%Z then Some ZeroDivisionError else None.
  (** :47-109 for a transform with the right child frame; the drop warnings :84-107 only print *)
  Definition export_one (t : transform) (st : tf_state) : tf_state * option exn :=
    match lookup (stamp t) with
    | None =>
        (if 0 <? tf_counter st
         then mkTfState (init st) (S (tf_counter st)) (start_time st) (end_time st) (rows st) else st, None)
    | Some p =>
        let start := if init st then stamp t else start_time st in
        let st' := mkTfState false (S (tf_counter st)) start (stamp t) (rows st ++ [(stamp t, p)]) in
        (st', if 3 <? tf_counter st' then estimate_frequency start (stamp t) else None)
    end.
  (** :42-46 *)
  Fixpoint export_transforms (source_frame : string) (ts : list transform) (st : tf_state) : tf_state * option exn :=
    match ts with
    | [] => (st, None)
    | t :: ts' =>
        if String.eqb (child_frame t) source_frame then
          match export_one t st with
          | (st', None) => export_transforms source_frame ts' st'
          | (st', Some e) => (st', Some e)
          end
        else export_transforms source_frame ts' st
    end.
  (** :40-41 *)
  Fixpoint export_messages (source_frame : string) (ms : list message) (st : tf_state) : tf_state * option exn :=
    match ms with
    | [] => (st, None)
    | m :: ms' =>
        if String.eqb (topic m) "/tf" then
          match export_transforms source_frame (transforms m) st with
          | (st', None) => export_messages source_frame ms' st'
          | (st', Some e) => (st', Some e)
          end
        else export_messages source_frame ms' st
    end.
  (** write_transformation_to_csv_file, :16-120: the rows of the file, and the printed count or the
      exception (the rows written before it reach the file when the interpreter exits) *)
  Definition write_transformation_to_csv_file (source_frame : string) (ms : list message) : list (Z * P) * res nat :=
    let '(st, e) := export_messages source_frame ms (mkTfState true 0 0 0 []) in
    match e with
    | Some e => (rows st, Err e)
    | None =>
        match (if 3 <? tf_counter st then estimate_frequency (start_time st) (end_time st) else None) with
        | Some e => (rows st, Err e)
        | None => (rows st, Ok (tf_counter st))
        end
    end.
End Export.

(** ** bin/bag_to_csv_with_config.py *)
(** bag_name.split('.')[0], :31 *)
Fixpoint before_dot (s : string) : string :=
  match s with
  | EmptyString => EmptyString
  | String c s' => if Ascii.eqb c "." then EmptyString else String c (before_dot s')
  end.
(** camera_topic.replace("/", "_")[1:], :91 *)
Fixpoint slash_to_underscore (s : string) : string :=
  match s with
  | EmptyString => EmptyString
  | String c s' => String (if Ascii.eqb c "/" then "_"%char else c) (slash_to_underscore s')
  end.
Definition tail (s : string) : string := match s with EmptyString => EmptyString | String _ s' => s' end.
(** the entries of the YAML file that are used; a missing key (KeyError) is not modelled *)
Record bag := mkBag {
  bag_name : string; bag_path : string; intrinsics_path : string; target_config_path : string;
  tf_frames : option (list string * list string);   (** source, target *)
  cameras : option (list string * list string);     (** cam_topics, cam_intrinsics *)
  target : string }.
(** the two commands; call ignores their exit codes *)
Inductive command :=
| TfToCsv (bag source_frame target_frame output : string)
| TargetExtractor (bag topic camera_file target_file output : string).
Definition tf_output (name target_frame source_frame : string) : string :=
  (before_dot name ++ "_" ++ target_frame ++ "_" ++ source_frame ++ ".csv")%string.
Definition camera_output (name camera_topic : string) : string :=
  (before_dot name ++ "_" ++ "W_" ++ tail (slash_to_underscore camera_topic) ++ ".csv")%string.
(** one bag, :29-92: the commands issued, and the failed assertion if any *)
Definition export_bag (b : bag) : list command * option exn :=
  let '(source, target_) := match tf_frames b with Some f => f | None => ([], []) end in
  if negb (length source =? length target_) then ([], Some AssertionError)
  else
    let tfs := map (fun f => TfToCsv (bag_path b ++ bag_name b) (fst f) (snd f)
                               (tf_output (bag_name b) (snd f) (fst f)))%string (combine source target_) in
    let '(topics, intrinsics) := match cameras b with Some c => c | None => ([], []) end in
    if negb (length topics =? length intrinsics) then (tfs, Some AssertionError)
    else (tfs ++ map (fun c => TargetExtractor (bag_path b ++ bag_name b) (fst c) (intrinsics_path b ++ snd c)
                                 (target_config_path b ++ target b) (camera_output (bag_name b) (fst c)))%string
                     (combine topics intrinsics), None).
Fixpoint export_bags (bs : list bag) : list command * option exn :=
  match bs with
  | [] => ([], None)
  | b :: bs' =>
      match export_bag b with
      | (cs, Some e) => (cs, Some e)
      | (cs, None) => let '(cs', e) := export_bags bs' in (cs ++ cs', e)
      end
  end.

(** ** python/hand_eye_calibration/test_tools.py *)
Section Drops.
  Local Open Scope Q_scope.
  (** randint(0, x) accepts a number x only if it is integral (Python 2, and 3 up to 3.11) *)
  Definition as_integer (q : Q) : option Z :=
    if (Qnum q mod Zpos (Qden q) =? 0)%Z then Some (Qnum q / Zpos (Qden q))%Z else None.
  Definition Qlt_bool (a b : Q) : bool := negb (Qle_bool b a).
  (** min(a, b) *)
  Definition Qmin_py (a b : Q) : Q := if Qlt_bool b a then b else a.
  (** the set of dropped indices below n *)
  Definition dropped_count (n : nat) (d : nat -> bool) : nat := length (filter d (seq 0 n)).
  Definition nat_Q (n : nat) : Q := inject_Z (Z.of_nat n).
  Definition add_range (d : nat -> bool) (a b : nat) : nat -> bool := fun i => ((a <=? i)%nat && (i <? b)%nat) || d i.

  (** the while loop :33-44, for every choice of the random numbers; percentages and numbers of points
      are exact rationals here, floats in the code *)
  Inductive drop_loop (n : nat) (overall max_single : Q) : (nat -> bool) -> res (nat -> bool) -> Prop :=
  | dl_done : forall d, ~ nat_Q (dropped_count n d) < overall -> drop_loop n overall max_single d (Ok d)
  | dl_raise : forall d, nat_Q (dropped_count n d) < overall ->
      (as_integer (Qmin_py (overall - nat_Q (dropped_count n d)) max_single) = None \/
       exists z, as_integer (Qmin_py (overall - nat_Q (dropped_count n d)) max_single) = Some z /\ (z < 0)%Z) ->
      drop_loop n overall max_single d (Err ValueError)
  | dl_draw : forall d z start size r, nat_Q (dropped_count n d) < overall ->
      as_integer (Qmin_py (overall - nat_Q (dropped_count n d)) max_single) = Some z ->
      (start < n)%nat -> (Z.of_nat size <= z)%Z ->
      drop_loop n overall max_single (add_range d start (Nat.min (start + size) (n - 1))) r ->
      drop_loop n overall max_single d r.

  (** introduce_data_drops, :14-52; the result is the list data afterwards *)
  Definition drop_indices (n : nat) (d : nat -> bool) : list nat := rev (filter d (seq 0 n)).
  Definition delete_all {A} (data : list A) (indices : list nat) : list A := fold_left remove_at indices data.
  Definition none_all {A} (data : list A) (indices : list nat) : list (option A) :=
    fold_left (fun l i => update l i None) indices (map Some data).
  Inductive introduce_data_drops {A} (data : list A) (overall_percentage max_percentage : Q)
    : res (list A * list (option A)) -> Prop :=
  | id_assert : ~ max_percentage < overall_percentage -> introduce_data_drops data overall_percentage max_percentage (Err AssertionError)
  | id_loop_raises : forall e, max_percentage < overall_percentage ->
      drop_loop (length data) (overall_percentage / 100 * nat_Q (length data)) (max_percentage / 100 * nat_Q (length data)) (fun _ => false) (Err e) ->
      introduce_data_drops data overall_percentage max_percentage (Err e)
  | id_count : forall d, max_percentage < overall_percentage ->
      drop_loop (length data) (overall_percentage / 100 * nat_Q (length data)) (max_percentage / 100 * nat_Q (length data)) (fun _ => false) (Ok d) ->
      ~ nat_Q (dropped_count (length data) d) == overall_percentage / 100 * nat_Q (length data) ->
      introduce_data_drops data overall_percentage max_percentage (Err AssertionError)
  | id_done : forall d, max_percentage < overall_percentage ->
      drop_loop (length data) (overall_percentage / 100 * nat_Q (length data)) (max_percentage / 100 * nat_Q (length data)) (fun _ => false) (Ok d) ->
      nat_Q (dropped_count (length data) d) == overall_percentage / 100 * nat_Q (length data) ->
      (* the two results for set_to_none=False and set_to_none=True *)
      introduce_data_drops data overall_percentage max_percentage
        (Ok (delete_all data (drop_indices (length data) d), none_all data (drop_indices (length data) d))).
End Drops.

(** ** python/hand_eye_calibration/bash_utils.py *)
(** run, :15-27: whether the command was started, and the outcome *)
Definition run (exit_code : Z) (dry_run : bool) : bool * res unit :=
  if dry_run then (false, Ok tt)
  else (true, if (exit_code =? 0)%Z then Ok tt else Err RuntimeError).
(** os.path.dirname: up to the last slash, without trailing slashes unless there is nothing else *)
Fixpoint upto_last_slash (s : string) : string :=
  match s with
  | EmptyString => EmptyString
  | String c s' =>
      match upto_last_slash s' with
      | EmptyString => if Ascii.eqb c "/" then String c EmptyString else EmptyString
      | h => String c h
      end
  end.
Fixpoint strip_slashes (s : string) : string :=
  match s with
  | EmptyString => EmptyString
  | String c s' =>
      match strip_slashes s' with
      | EmptyString => if Ascii.eqb c "/" then EmptyString else String c EmptyString
      | h => String c h
      end
  end.
Definition dirname (s : string) : string :=
  let head := upto_last_slash s in
  match strip_slashes head with EmptyString => head | h => h end.
(** create_path, :30-36: [makedirs] says whether os.makedirs fails with OSError.  The handler then
    evaluates errno, which the module does not import. *)
Definition create_path (exists_ makedirs_fails : string -> bool) (path : string) : res unit :=
  let d := dirname path in
  if exists_ d then Ok tt
  else if makedirs_fails d then Err NameError else Ok tt.
