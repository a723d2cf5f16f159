(** * Model of concurrent calls of create_path, bash_utils.py:30-36

    The worker processes of optimization_experiments.py:276, :304 call create_path for the same missing
    directory.  The directory is given by its depth: level l exists if l <= [existing]; nothing is removed,
    and mkdir fails only with EEXIST.  One step of a process is one system call. *)

From Coq Require Import List Arith.
Import ListNotations.

(** where a call is; [Making l]: about to call mkdir for level l inside os.makedirs *)
Inductive position := Started | Descending (l : nat) | Making (l : nat) | Returned | Raised.

(** os.makedirs(name): if the head does not exist, makedirs(head) with EEXIST ignored; then mkdir(name).
    The EEXIST of the outermost mkdir reaches :35, where [errno] is not defined: NameError. *)
Definition step (depth existing : nat) (p : position) : nat * position :=
  match p with
  | Started => if depth <=? existing then (existing, Returned) else (existing, Descending depth)
  | Descending l => if pred l <=? existing then (existing, Making l) else (existing, Descending (pred l))
  | Making l =>
      let finished := l =? depth in
      if l <=? existing then (existing, if finished then Raised else Making (S l))
      else (l, if finished then Returned else Making (S l))
  | Returned => (existing, Returned)
  | Raised => (existing, Raised)
  end.
Fixpoint set_nth {A} (l : list A) (i : nat) (x : A) : list A :=
  match l, i with
  | [], _ => []
  | _ :: l', O => x :: l'
  | y :: l', S i' => y :: set_nth l' i' x
  end.
(** one step of process i *)
Definition advance (depth : nat) (s : nat * list position) (i : nat) : nat * list position :=
  match nth_error (snd s) i with
  | Some p => let '(existing, p') := step depth (fst s) p in (existing, set_nth (snd s) i p')
  | None => s
  end.
(** an execution: which process moves, step by step *)
Definition execute (depth : nat) (s : nat * list position) (moves : list nat) : nat * list position := fold_left (advance depth) moves s.
