(** * Model of the files written by the experiment scripts

    hand_eye_calibration_experiments/bin/compute_set_of_hand_eye_calibrations.py:81-96, 327-355 and
    bin/optimization_experiments.py:436-443, 545-552.

    What is on disk outlives a run; what was written to a file object and not yet handed to the
    operating system does not.  Simplifications: of the per-pair files only the existence is
    modelled, a closed or dropped file object is flushed (CPython), nobody else touches the files
    during a run, and create_path (C57) has created the directories. *)

From Coq Require Import String List Bool Arith.
From Verif Require Import Experiments.
Import ListNotations.
Local Open Scope string_scope.

(** the result file's text, if it exists, and which of the two files of an algorithm's pair exist *)
Record disk := mkDisk { results : option string; dq_file : string -> nat -> bool; pose_file : string -> nat -> bool }.

(** the file operations of a run, in program order *)
Inductive op :=
| OCreate                            (** open(result_file_path, 'w'), :86 *)
| OWrite (s : string)                (** output_file.write(s), :88, :355 *)
| OAppend                            (** output_file = open(result_file_path, 'a'), :328; drops the old object *)
| OCheck (a : string) (i : nat)      (** the assertions :338-343 *)
| OOpenDq (a : string) (i : nat)     (** :345-346 *)
| OOpenPose (a : string) (i : nat).  (** :347-348 *)

(** what an iteration writes: the algorithm's name and a line per pair (Driver.iteration_lines) *)
Definition iteration := (string * list string)%type.

(** the loop over pairs :329-355 *)
Fixpoint pair_ops (a : string) (i : nat) (lines : list string) : list op :=
  match lines with
  | [] => []
  | l :: lines' => [OCheck a i; OOpenDq a i; OOpenPose a i; OWrite l] ++ pair_ops a (S i) lines'
  end%list.
Definition iteration_ops (it : iteration) : list op := OAppend :: pair_ops (fst it) 0 (snd it).
(** creating the file :85-88 *)
Definition prepare_ops (exists_ : bool) : list op := if exists_ then [] else [OCreate; OWrite get_header].
Definition driver_ops (its : list iteration) (exists_ : bool) : list op :=
  (prepare_ops exists_ ++ flat_map iteration_ops its)%list.
(** optimization_experiments.py:440-443, 545-552: all lines are written at the end *)
Definition sweep_ops (lines : list string) (exists_ : bool) : list op :=
  (prepare_ops exists_ ++ OAppend :: map OWrite lines)%list.

Definition set_file (f : string -> nat -> bool) (a : string) (i : nat) : string -> nat -> bool :=
  fun a' i' => if (String.eqb a' a && (i' =? i)%nat)%bool then true else f a' i'.
(** handing text to the operating system *)
Definition flush (d : disk) (s : string) : disk :=
  mkDisk (option_map (fun c => c ++ s) (results d)) (dq_file d) (pose_file d).

(** one operation on the disk and the buffer of output_file; None: an assertion fails *)
Definition apply_op (o : op) (d : disk) (buffer : string) : option (disk * string) :=
  match o with
  | OCreate => Some (mkDisk (Some "") (dq_file d) (pose_file d), "")
  | OWrite s => Some (d, buffer ++ s)
  | OAppend =>
      let d := mkDisk (Some (match results d with Some c => c | None => "" end)) (dq_file d) (pose_file d) in
      Some (flush d buffer, "")
  | OCheck a i =>
      if (if dq_file d a i then pose_file d a i else negb (pose_file d a i)) then Some (d, buffer) else None
  | OOpenDq a i => Some (mkDisk (results d) (set_file (dq_file d) a i) (pose_file d), buffer)
  | OOpenPose a i => Some (mkDisk (results d) (dq_file d) (set_file (pose_file d) a i), buffer)
  end.

Inductive outcome := Completed | Raised | Killed.

(** The executions of a run: any part of the buffer may reach the disk at any time; any code in
    between may raise, and the interpreter's exit then flushes; the process may be killed at any time. *)
Inductive exec : list op -> disk -> string -> outcome -> disk -> Prop :=
| x_done : forall d b, exec [] d b Completed (flush d b)
| x_raise : forall ops d b, exec ops d b Raised (flush d b)
| x_kill : forall ops d b, exec ops d b Killed d
| x_drain : forall ops d p rest o d', exec ops (flush d p) rest o d' -> exec ops d (p ++ rest) o d'
| x_op : forall x ops d b d1 b1 o d', apply_op x d b = Some (d1, b1) -> exec ops d1 b1 o d' -> exec (x :: ops) d b o d'
| x_assert : forall x ops d b, apply_op x d b = None -> exec (x :: ops) d b Raised (flush d b).

(** os.path.exists(result_file_path), :85 *)
Definition has_results (d : disk) : bool := match results d with Some _ => true | None => false end.
(** Histories: runs one after the other; [script] gives the operations of a run from its input. *)
Inductive history {A} (script : A -> bool -> list op) : disk -> list (A * outcome) -> disk -> Prop :=
| h_nil : forall d, history script d [] d
| h_run : forall d x o d1 rs d2, exec (script x (has_results d)) d "" o d1 -> history script d1 rs d2 ->
    history script d ((x, o) :: rs) d2.
