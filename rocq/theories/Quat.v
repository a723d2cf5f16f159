(** * Model of python/hand_eye_calibration/quaternion.py

    Paths are relative to /repo/hand_eye_calibration.  A [Quaternion] object is its 4-vector
    [q = [x, y, z, w]]; arrays of any other length are not modelled. *)

From Coq Require Import ZArith List Bool.
From Verif Require Import Num Py.
Import ListNotations.
Local Open Scope num_scope.

Section Quaternion.
  Context {N : Num}.

  (** class Quaternion, quaternion.py:7-15, properties x y z w :214-228 *)
  Record quat := mkQ { qx : T; qy : T; qz : T; qw : T }.
  (** 3-vectors (np.array of length 3) and 3x3 matrices (rows) *)
  Record vec3 := mkV { vx : T; vy : T; vz : T }.
  Record mat3 := mkM { row0 : vec3; row1 : vec3; row2 : vec3 }.
  (** 4x4 matrices: four rows of four entries *)
  Record vec4 := mkV4 { c0 : T; c1 : T; c2 : T; c3 : T }.
  Record mat4 := mkM4 { r0 : vec4; r1 : vec4; r2 : vec4; r3 : vec4 }.

  (** the numpy array q.q as a list *)
  Definition q_list (q : quat) : list T := [qx q; qy q; qz q; qw q].

  (** Dynamic type of the constructor argument [q=] and of arithmetic operands. *)
  Inductive q_arg :=
  | ArgNone                       (* q=None: use x, y, z, w *)
  | ArgArray (a : quat)           (* np.ndarray of length 4 *)
  | ArgOther.                     (* anything else, e.g. a Python list *)
  Inductive operand :=
  | OpQuat (q : quat)
  | OpNum (t : T)
  | OpOther.

  (** Quaternion.__init__, quaternion.py:17-26; [None] in [coords] stands for a non-Number. *)
  Definition quat_init (x y z w : option T) (q : q_arg) : res quat :=
    match q with
    | ArgNone =>
        match x, y, z, w with
        | Some x, Some y, Some z, Some w => Ok (mkQ x y z w)
        | _, _, _, _ => Err AssertionError
        end
    | ArgArray a => Ok a
    | ArgOther => Err AssertionError
    end.

  (** __add__ :34-37, __neg__ :39-40, __sub__ :42-45 *)
  Definition qadd (p q : quat) : quat :=
    mkQ (qx p + qx q) (qy p + qy q) (qz p + qz q) (qw p + qw q).
  Definition qneg (q : quat) : quat := mkQ (- qx q) (- qy q) (- qz q) (- qw q).
  Definition qsub (p q : quat) : quat :=
    mkQ (qx p - qx q) (qy p - qy q) (qz p - qz q) (qw p - qw q).

  (** __mul__ with a Quaternion, quaternion.py:55-64 *)
  Definition qmul (p q : quat) : quat :=
    mkQ (qw p * qx q + qx p * qw q + qy p * qz q - qz p * qy q)
        (qw p * qy q - qx p * qz q + qy p * qw q + qz p * qx q)
        (qw p * qz q + qx p * qy q - qy p * qx q + qz p * qw q)
        (qw p * qw q - qx p * qx q - qy p * qy q - qz p * qz q).

  (** __mul__ with a Number :65-68, and __rmul__ :78-81 (multiplication is commutative
      component-wise, but the operand order is kept). *)
  Definition qscale (q : quat) (t : T) : quat :=
    mkQ (qx q * t) (qy q * t) (qz q * t) (qw q * t).
  Definition qscale_l (t : T) (q : quat) : quat :=
    mkQ (t * qx q) (t * qy q) (t * qz q) (t * qw q).

  (** Full dispatch of __mul__ :47-70 and __rmul__ :72-83 *)
  Definition quat_mul (p : quat) (o : operand) : res quat :=
    match o with
    | OpQuat q => Ok (qmul p q)
    | OpNum t => Ok (qscale p t)
    | OpOther => Err AssertionError
    end.
  Definition quat_rmul (p : quat) (o : operand) : res quat :=
    match o with
    | OpNum t => Ok (qscale_l t p)
    | _ => Err AssertionError
    end.

  (** division by a Number, quaternion.py:95-98 *)
  Definition qdivs (q : quat) (t : T) : quat :=
    mkQ (qx q / t) (qy q / t) (qz q / t) (qw q / t).

  (** conjugate :154-156 *)
  Definition qconj (q : quat) : quat := mkQ (- qx q) (- qy q) (- qz q) (qw q).

  (** np.dot of two 4-vectors *)
  Definition qdot (p q : quat) : T :=
    qx p * qx q + qy p * qy q + qz p * qz q + qw p * qw q.

  (** squared_norm :158-160, inverse :162-164, norm :166-168 *)
  Definition qsqnorm (q : quat) : T := qdot q q.
  Definition qinv (q : quat) : quat := qdivs (qconj q) (qsqnorm q).
  Definition qnorm (q : quat) : T := sqrtn (qdot q q).

  (** __truediv__ :85-100, __div__ :102-103 *)
  Definition quat_div (p : quat) (o : operand) : res quat :=
    match o with
    | OpQuat q => Ok (qmul p (qinv q))
    | OpNum t => Ok (qdivs p t)
    | OpOther => Err AssertionError
    end.

  (** normalize :170-175 (in place; the new value is returned) *)
  Definition qnormalize (q : quat) : quat :=
    let norm := qnorm q in
    if norm >? lit 1 (-8) then qdivs q norm else q.

  (** from_rotation_matrix :105-113 *)
  Definition from_rotation_matrix (m : mat3) : quat :=
    let w := sqrtn (n1 + vx (row0 m) + vy (row1 m) + vz (row2 m)) / n2 in
    let w4 := n4 * w in
    let x := (vy (row2 m) - vz (row1 m)) / w4 in
    let y := (vz (row0 m) - vx (row2 m)) / w4 in
    let z := (vx (row1 m) - vy (row0 m)) / w4 in
    mkQ x y z w.

  (** from_angle_axis :115-122 *)
  Definition from_angle_axis (angle : T) (axis : vec3) : quat :=
    let q := mkQ (vx axis) (vy axis) (vz axis) n0 in
    let q_norm := qnorm q in
    let q := if q_norm >? lit 1 (-16)
             then qscale q (sinn (angle / n2) / q_norm) else q in
    mkQ (qx q) (qy q) (qz q) (cosn (angle / n2)).

  (** np.linalg.norm of a 3-vector *)
  Definition vnorm (v : vec3) : T := sqrtn (vx v * vx v + vy v * vy v + vz v * vz v).
  Definition vdot (u v : vec3) : T := vx u * vx v + vy u * vy v + vz u * vz v.

  (** get_random :124-133; the drawn axis and angle are arguments (random oracle). *)
  Definition get_random (raw_axis : vec3) (angle : T) : res quat :=
    let n := vnorm raw_axis in
    let axis := mkV (vx raw_axis / n) (vy raw_axis / n) (vz raw_axis / n) in
    assert isclose (lit 1 (-8)) (vnorm axis) n1;
    Ok (from_angle_axis angle axis).

  (** angle_axis :135-148; the result array [x, y, z, angle] is (axis, angle). *)
  Definition angle_axis (q : quat) : vec3 * T :=
    if isclose (lit 1 (-12)) (qw q) n1 then (mkV n1 n0 n0, n0)
    else
      let angle := n2 * acosn (qw q) in
      let s := sqrtn (n1 - qw q * qw q) in
      (mkV (qx q / s) (qy q / s) (qz q / s), angle).

  (** rotate_vector :177-189 *)
  Definition rotate_vector (q : quat) (v : vec3) : vec3 :=
    let '(mkQ x y z w) := q in
    mkV ((n1 - n2 * (y * y) - n2 * (z * z)) * vx v + n2 * (x * y - z * w) * vy v
           + n2 * (x * z + y * w) * vz v)
        (n2 * (x * y + z * w) * vx v + (n1 - n2 * (x * x) - n2 * (z * z)) * vy v
           + n2 * (y * z - x * w) * vz v)
        (n2 * (x * z - y * w) * vx v + n2 * (y * z + x * w) * vy v
           + (n1 - n2 * (x * x) - n2 * (y * y)) * vz v).

  (** to_rotation_matrix :191-206 *)
  Definition to_rotation_matrix (q : quat) : mat3 :=
    let '(mkQ x y z w) := q in
    mkM (mkV (n1 - n2 * (y * y) - n2 * (z * z)) (n2 * x * y - n2 * z * w) (n2 * x * z + n2 * y * w))
        (mkV (n2 * x * y + n2 * z * w) (n1 - n2 * (x * x) - n2 * (z * z)) (n2 * y * z - n2 * x * w))
        (mkV (n2 * x * z - n2 * y * w) (n2 * y * z + n2 * x * w) (n1 - n2 * (x * x) - n2 * (y * y))).

  (** np.identity(4) with the upper-left block and the last column assigned, as done in
      quaternion.py:208-212 and dual_quaternion.py:258-264 *)
  Definition mat4_of (m : mat3) (t : vec3) : mat4 :=
    mkM4 (mkV4 (vx (row0 m)) (vy (row0 m)) (vz (row0 m)) (vx t))
         (mkV4 (vx (row1 m)) (vy (row1 m)) (vz (row1 m)) (vy t))
         (mkV4 (vx (row2 m)) (vy (row2 m)) (vz (row2 m)) (vz t))
         (mkV4 n0 n0 n0 n1).

  (** to_transformation_matrix :208-212 *)
  Definition to_transformation_matrix (q : quat) : mat4 :=
    mat4_of (to_rotation_matrix q) (mkV n0 n0 n0).

  (** Unit-norm precondition of slerp and lerp: np.isclose(q.norm(), 1.0, atol=1e-8) *)
  Definition is_unit_ (q : quat) : bool := isclose (lit 1 (-8)) (qnorm q) n1.

  (** quaternion_slerp :231-267 (the isinstance assertions hold by typing) *)
  Definition quaternion_slerp (q_1 q_2 : quat) (fraction : T) : res quat :=
    assert (fraction >=? n0) && (fraction <=? n1);
    assert is_unit_ q_1;
    assert is_unit_ q_2;
    if fraction =? n0 then Ok q_1 else
    if fraction =? n1 then Ok q_2 else
    let dot_product := qdot q_1 q_2 in
    let '(dot_product, q1) :=
      if dot_product <? n0 then (- dot_product, qscale q_1 (lit (-1) 0))
      else (dot_product, q_1) in
    let dot_product := clip (lit (-1) 0) n1 dot_product in
    let theta_prime := acosn dot_product in
    let theta := theta_prime * fraction in
    let q_3 := qnormalize (qsub q_2 (qscale q1 dot_product)) in
    Ok (qadd (qscale q1 (cosn theta)) (qscale q_3 (sinn theta))).

  (** quaternion_lerp :270-291 *)
  Definition quaternion_lerp (q_1 q_2 : quat) (fraction : T) : res quat :=
    assert (fraction >=? n0) && (fraction <=? n1);
    assert is_unit_ q_1;
    assert is_unit_ q_2;
    if fraction =? n0 then Ok q_1 else
    if fraction =? n1 then Ok q_2 else
    Ok (qadd q_1 (qscale_l fraction (qsub q_2 q_1))).

  (** quaternion_nlerp :294-298 *)
  Definition quaternion_nlerp (q_1 q_2 : quat) (fraction : T) : res quat :=
    do q <- quaternion_lerp q_1 q_2 fraction;
    Ok (qnormalize q).

  (** quaternions_interpolate :301-307 *)
  Definition quaternions_interpolate (q_left : quat) (t_left : T) (q_right : quat) (t_right : T)
      (times : list T) : res (list quat) :=
    mapM (fun time => quaternion_slerp q_left q_right ((time - t_left) / (t_right - t_left))) times.

  (** angle_between_quaternions :310-314 *)
  Definition angle_between_quaternions (q1 q2 : quat) : T :=
    if allclose (lit 1 (-12)) (q_list q1) (q_list q2) then n0
    else n2 * acosn (qw (qmul q1 (qinv q2))).

  (** angular_velocity_between_quaternions :317-325 *)
  Definition angular_velocity_between_quaternions (q1 q2 : quat) (t : T) : vec3 :=
    let d := qmul q1 (qinv q2) in
    let d := if qw d <? n0 then qneg d else d in
    let '(axis, angle) := angle_axis d in
    let k := nhalf / t * angle in
    mkV (k * vx axis) (k * vy axis) (k * vz axis).
End Quaternion.
