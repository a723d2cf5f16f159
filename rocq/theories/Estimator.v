(** * Model of the files read and written by hand_eye_calibration_batch_estimation/src/batch_estimator.cc

    [None] stands for the end of the process by a failed CHECK, by LOG(FATAL) or by an exception of std::stod, none of
    which is caught.  The estimation itself (aslam_incremental_calibration) is not modelled.  As in CsvText.v, text is
    a list of characters and a finite double is its real value. *)

From Coq Require Import Reals ZArith List Bool Ascii.
From Verif Require Import Py XReal CsvText.
Import ListNotations.
Local Open Scope R_scope.

Definition bind_option {A B} (m : option A) (f : A -> option B) : option B :=
  match m with Some x => f x | None => None end.
Fixpoint all_some {A B} (f : A -> option B) (l : list A) : option (list B) :=
  match l with
  | [] => Some []
  | x :: l' => bind_option (f x) (fun y => bind_option (all_some f l') (fun ys => Some (y :: ys)))
  end.

(** ** Reading *)
(** while (std::getline(stream, s, d)), :88 with d = '\n' and :92 with d = ',': the pieces between delimiters; there
    is no piece after a delimiter at the end of the stream *)
Fixpoint getlines (d : ascii) (t : text) : list text :=
  match t with
  | [] => []
  | c :: t' =>
      if Ascii.eqb c d then [] :: getlines d t'
      else match getlines d t' with
           | [] => [[c]]
           | l :: ls => (c :: l) :: ls
           end
  end.
(** std::stod :93: white space, sign, digits, optional point and digits, optional exponent; whatever follows is ignored,
    also a letter e without digits behind it.  Without a digit it throws std::invalid_argument.  Hexadecimal numbers,
    inf and nan, and std::out_of_range for magnitudes that no normal double has, are not modelled. *)
Definition stod (t : text) : option R :=
  let t := lstrip t in
  let '(sign, body) :=
    match t with
    | c :: t' => if Ascii.eqb c minus then (-1, t') else if Ascii.eqb c plus then (1, t') else (1, t)
    | [] => (1, [])
    end in
  let '(int, k, rest) := take_digits 0 0 body in
  let '(n, d, rest') := take_fraction int rest in
  let e :=
    match rest' with
    | c :: r => if is_e c then match exp_digits r with Some (e, _) => e | None => 0 end else 0
    | [] => 0
    end%Z in
  if (k + d =? 0)%nat then None else Some (to_double (sign * scaled n d e)).

Section Rows.
  (** the numbers: doubles by their real value here, any scalars in the composition with Cli.v *)
  Context {A : Type} (neg : A -> A).
  (** CHECK_NEAR(1, q.norm(), 1e-8) :102 *)
  Context (near_one : A * A * A * A -> bool).

  (** what addMeasurement is called with, :96 and :103 *)
  Inductive measurement :=
  | Outlier (stamp : A)
  | Pose (stamp : A) (q : A * A * A * A) (t : A * A * A).

  (** toInternalQuaternionConvention :60-62; sm::kinematics::quatInv negates the first three components *)
  Definition to_internal (use_jpl : bool) (q : A * A * A * A) : A * A * A * A :=
    let '(x, y, z, w) := q in if use_jpl then q else (neg x, neg y, neg z, w).
  (** :95-104 *)
  Definition measurement_of (use_jpl : bool) (values : list A) : option measurement :=
    match values with
    | [v0] => Some (Outlier v0)
    | [v0; v1; v2; v3; v4; v5; v6; v7] =>
        let q := to_internal use_jpl (v4, v5, v6, v7) in
        if near_one q then Some (Pose v0 q (v1, v2, v3)) else None
    | _ => None
    end.
End Rows.
Arguments measurement : clear implicits.

Section Text.
  Context (near_one : R * R * R * R -> bool).
  (** the loop body :89-104 *)
  Definition read_line (use_jpl : bool) (line : text) : option (measurement R) :=
    bind_option (all_some stod (getlines comma line)) (measurement_of Ropp near_one use_jpl).
  (** readPosesFromCsv :83-109; [None]: the file cannot be opened, :106-108 *)
  Definition read_poses (use_jpl : bool) (file : option text) : option (list (measurement R)) :=
    bind_option file (fun t => all_some (read_line use_jpl) (getlines nl t)).
End Text.

(** ** Writing *)
Section Out.
  (** getModelAt(t) and getTransformationTo(world): the orientation (internal convention) and the position at a time,
      :119-120.  Times are nanoseconds; the conversion to seconds is [seconds], :122. *)
  Context (pose_at : Z -> (R * R * R * R) * (R * R * R)).
  Context (seconds : Z -> R).
  Definition out_row (use_jpl : bool) (t : Z) : list R :=
    let '(q, (x, y, z)) := pose_at t in
    let '(a, b, c, d) := to_internal Ropp use_jpl q in         (* fromInternalQuaternionConvention :63-65, :121 *)
    [seconds t; x; y; z; a; b; c; d].
  (** the loop :118-123, t += delta while t <= end; [n] bounds the number of rounds *)
  Fixpoint out_rows (use_jpl : bool) (n : nat) (t stop delta : Z) : list (list R) :=
    match n with
    | O => []
    | S n' => if (t <=? stop)%Z then out_row use_jpl t :: out_rows use_jpl n' (t + delta) stop delta else []
    end.
  (** writePosesToCsv :111-127: fixed notation with 18 decimals (:113-114) and ", " between the numbers (:116, :122).
      For delta > 0, stop - start + 1 rounds suffice. *)
  Definition write_poses (use_jpl : bool) (start stop delta : Z) : text :=
    concat (map (fun row => join [comma; space] (map fmt18 row) ++ [nl])
                (out_rows use_jpl (Z.to_nat (stop - start + 1)) start stop delta)).
End Out.
