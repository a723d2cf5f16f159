(** * Scalar arithmetic used by the Python code, as an abstract interface.

    All model functions take an instance of [Num].  The Python code computes with
    numpy float64 scalars ("numpy semantics": division by zero or an invalid argument gives
    inf/nan, never an exception).  The fields below are exactly the scalar operations that the
    modelled files use.  Instances: [XReal.XR] (extended reals, exact) and [F64.F64] (binary64). *)

From Coq Require Import ZArith List Bool.
Import ListNotations.

Class Num := {
  T : Type;
  (** [lit m e] is the decimal literal m * 10^e, e.g. 1e-8 = [lit 1 (-8)]. *)
  lit : Z -> Z -> T;
  add : T -> T -> T;
  sub : T -> T -> T;
  mul : T -> T -> T;
  div : T -> T -> T;
  opp : T -> T;
  absv : T -> T;
  sqrtn : T -> T;
  sinn : T -> T;
  cosn : T -> T;
  acosn : T -> T;
  lnn : T -> T;
  npi : T;
  (** np.mod *)
  modn : T -> T -> T;
  ninf : T;
  isfin : T -> bool;
  ltb : T -> T -> bool;
  leb : T -> T -> bool;
  eqb : T -> T -> bool;
  (** int(x): truncation towards zero; [None] when x is inf or nan. *)
  trunc : T -> option Z
}.

Declare Scope num_scope.
Delimit Scope num_scope with num.
Bind Scope num_scope with T.
Infix "+" := add : num_scope.
Infix "-" := sub : num_scope.
Infix "*" := mul : num_scope.
Infix "/" := div : num_scope.
Notation "- x" := (opp x) : num_scope.
Infix "<?" := ltb : num_scope.
Infix "<=?" := leb : num_scope.
Infix "=?" := eqb : num_scope.
Notation "x >? y" := (ltb y x) (only parsing) : num_scope.
Notation "x >=? y" := (leb y x) (only parsing) : num_scope.

Section Derived.
  Context {N : Num}.
  Local Open Scope num_scope.

  (** Integer literals 0, 1, 2, 4. *)
  Definition n0 : T := lit 0 0.
  Definition n1 : T := lit 1 0.
  Definition n2 : T := lit 2 0.
  Definition n4 : T := lit 4 0.
  (** 0.5 *)
  Definition nhalf : T := lit 5 (-1).
  (** Conversion of a Python int (a length or counter) to a float. *)
  Definition of_nat (n : nat) : T := lit (Z.of_nat n) 0.

  (** numpy.isclose(a, b, rtol, atol): |a-b| <= atol + rtol*|b| for finite values, equality
      otherwise (numpy/core/numeric.py, within_tol). *)
  Definition isclose_gen (rtol atol a b : T) : bool :=
    if isfin a && isfin b
    then absv (a - b) <=? atol + rtol * absv b
    else a =? b.
  (** All calls in the repository pass only atol (or nothing): rtol keeps its default 1e-5. *)
  Definition isclose (atol a b : T) : bool := isclose_gen (lit 1 (-5)) atol a b.
  (** The default atol=1e-8. *)
  Definition atol_default : T := lit 1 (-8).

  (** numpy.allclose on two equally long vectors. *)
  Fixpoint allclose (atol : T) (a b : list T) : bool :=
    match a, b with
    | x :: a', y :: b' => isclose atol x y && allclose atol a' b'
    | _, _ => true
    end.

  (** numpy.clip(x, lo, hi) = minimum(maximum(x, lo), hi) *)
  Definition clip (lo hi x : T) : T :=
    let x1 := if x <? lo then lo else x in
    if hi <? x1 then hi else x1.

  (** sum of a list, left to right, starting from 0 *)
  Definition sumn (l : list T) : T := fold_left add l n0.

  (** numpy.degrees / math.degrees *)
  Definition degrees (x : T) : T := x * (lit 180 0 / npi).

  (** x to the power of a non-negative integer (math.pow with an int exponent). *)
  Fixpoint powi (x : T) (k : nat) : T :=
    match k with O => n1 | S k' => x * powi x k' end.
End Derived.
