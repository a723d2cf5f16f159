(** * Python control flow: exceptions as values, list indexing, loops. *)

From Coq Require Import List Bool Arith.
Import ListNotations.

(** Exception classes raised by the modelled code (or by the library calls it makes). *)
Inductive exn :=
| AssertionError | IndexError | NameError | UnboundLocalError | ValueError
| ZeroDivisionError | TypeError | AttributeError | KeyError | LinAlgError
| OSError | RuntimeError.

Inductive res (A : Type) :=
| Ok (a : A)
| Err (e : exn).
Arguments Ok {A} a.
Arguments Err {A} e.

Definition bind {A B} (m : res A) (f : A -> res B) : res B :=
  match m with Ok a => f a | Err e => Err e end.

Notation "'do' x <- m ; k" := (bind m (fun x => k))
  (at level 200, x pattern, m at level 100, k at level 200, right associativity).

(** [assert c] followed by the continuation. *)
Definition assert_ (c : bool) : res unit := if c then Ok tt else Err AssertionError.

Notation "'assert' c ; k" := (bind (assert_ c) (fun _ => k))
  (at level 200, c at level 100, k at level 200, right associativity).

(** Python list indexing with a non-negative index. *)
Definition index {A} (l : list A) (i : nat) : res A :=
  match nth_error l i with Some a => Ok a | None => Err IndexError end.

(** Sequential map; the first exception aborts (list comprehension / for loop with append). *)
Fixpoint mapM {A B} (f : A -> res B) (l : list A) : res (list B) :=
  match l with
  | [] => Ok []
  | a :: l' => do b <- f a; do bs <- mapM f l'; Ok (b :: bs)
  end.

(** [l[i] = a] *)
Fixpoint update {A} (l : list A) (i : nat) (a : A) : list A :=
  match l, i with
  | [], _ => []
  | _ :: l', O => a :: l'
  | x :: l', S i' => x :: update l' i' a
  end.

(** [l.pop(i)] (result discarded) *)
Fixpoint remove_at {A} (l : list A) (i : nat) : list A :=
  match l, i with
  | [], _ => []
  | _ :: l', O => l'
  | x :: l', S i' => x :: remove_at l' i'
  end.

(** itertools.compress(l, flags) *)
Fixpoint compress {A} (l : list A) (flags : list bool) : list A :=
  match l, flags with
  | x :: l', b :: f' => if b then x :: compress l' f' else compress l' f'
  | _, _ => []
  end.

(** Writing the elements of [news] back to the flagged positions of [l]: the effect on [l] of
    mutating, in order, the objects selected by [compress l flags] (aliasing). *)
Fixpoint scatter {A} (l : list A) (flags : list bool) (news : list A) : list A :=
  match l, flags with
  | x :: l', true :: f' =>
      match news with
      | y :: n' => y :: scatter l' f' n'
      | [] => x :: scatter l' f' []
      end
  | x :: l', false :: f' => x :: scatter l' f' news
  | _, _ => l
  end.

(** sum(flags) / flags.count(True) *)
Fixpoint count_true (l : list bool) : nat :=
  match l with [] => 0 | true :: l' => S (count_true l') | false :: l' => count_true l' end.

(** Outcome of a loop that is not known to terminate. *)
Inductive outcome (A : Type) :=
| Done (r : res A)
| OutOfFuel.
Arguments Done {A} r.
Arguments OutOfFuel {A}.
