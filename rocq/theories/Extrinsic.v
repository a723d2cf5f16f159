(** * Model of python/hand_eye_calibration/extrinsic_calibration.py and of computeCircle
      (scripts/close_the_circle_test.py:28-32)

    A JSON file is modelled by the value it holds: json.dump writes floats with repr and json.load
    reads them back unchanged, so the text layer is the identity on values (trusted). *)

From Coq Require Import ZArith List Bool String.
From Verif Require Import Num Py Quat DualQuat.
Import ListNotations.
Local Open Scope num_scope.
Local Open Scope string_scope.

Section Extrinsic.
  Context {N : Num}.

  (** JSON values that the format uses: numbers and objects *)
  Inductive json :=
  | JNum (x : T)
  | JObj (members : list (string * json)).

  (** data[key]: KeyError for a missing key; subscripting a number raises TypeError *)
  Fixpoint find_key (key : string) (l : list (string * json)) : res json :=
    match l with
    | [] => Err KeyError
    | (k, v) :: l' => if String.eqb k key then Ok v else find_key key l'
    end.
  Definition subscript (j : json) (key : string) : res json :=
    match j with
    | JNum _ => Err TypeError
    | JObj l => find_key key l
    end.
  (** float(value) *)
  Definition to_float (j : json) : res T :=
    match j with
    | JNum x => Ok x
    | JObj _ => Err TypeError
    end.

  (** class ExtrinsicCalibration extrinsic_calibration.py:6-9 *)
  Record calibration := mkCalib { time_offset : T; pose_dq : dquat }.

  (** writeJson :11-22.  to_pose normalises the receiver in place; the result is the new receiver
      and the value written (keys sorted). *)
  Definition write_json (c : calibration) (switch : bool) : calibration * json :=
    let '(dq, p) := to_pose (pose_dq c) in
    let q := ori p in
    let flip x := if switch then x * lit (-1) 0 else x in
    (mkCalib (time_offset c) dq,
     JObj [ ("delay", JNum (time_offset c));
            ("rotation", JObj [ ("i", JNum (flip (qx q))); ("j", JNum (flip (qy q)));
                                ("k", JNum (flip (qz q))); ("w", JNum (qw q)) ]);
            ("translation", JObj [ ("x", JNum (vx (pos p))); ("y", JNum (vy (pos p)));
                                   ("z", JNum (vz (pos p))) ]) ]).

  (** fromJson :24-36 *)
  Definition member (data : json) (group name : string) : res T :=
    do g <- subscript data group;
    do v <- subscript g name;
    to_float v.
  Definition from_json (data : json) (switch : bool) : res calibration :=
    do x <- member data "translation" "x";
    do y <- member data "translation" "y";
    do z <- member data "translation" "z";
    do i <- member data "rotation" "i";
    do j <- member data "rotation" "j";
    do k <- member data "rotation" "k";
    do w <- member data "rotation" "w";
    let flip x := if switch then x * lit (-1) 0 else x in
    let dq := from_pose_vector (mkPose (mkV x y z) (mkQ (flip i) (flip j) (flip k) w)) in
    do d <- subscript data "delay";
    do delay <- to_float d;
    Ok (mkCalib delay dq).

  (** __mul__ :41-44 with another calibration (anything else gives NotImplemented) *)
  Definition calib_mul (a b : calibration) : calibration :=
    mkCalib (time_offset a + time_offset b) (dmul (pose_dq a) (pose_dq b)).

  (** computeCircle, close_the_circle_test.py:28-32: the product and, in the printed text
      (__str__ :38-39), its time offset and its pose *)
  Definition compute_circle (calibs : list calibration) : res (T * pose) :=
    do c <- index calibs 0;
    let c := fold_left calib_mul (tl calibs) c in
    Ok (time_offset c, snd (to_pose (pose_dq c))).
End Extrinsic.
