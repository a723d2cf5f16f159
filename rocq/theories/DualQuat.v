(** * Model of python/hand_eye_calibration/dual_quaternion.py

    A [DualQuaternion] object is its 8-vector dq = [q_rot (4), q_dual (4)].  Methods that mutate
    the receiver return the new receiver first. *)

From Coq Require Import ZArith List Bool.
From Verif Require Import Num Py Quat.
Import ListNotations.
Local Open Scope num_scope.

Section DualQuaternion.
  Context {N : Num}.

  (** class DualQuaternion, dual_quaternion.py:9-21; properties q_rot, q_dual :287-293 *)
  Record dquat := mkDQ { rot : quat; dual : quat }.

  (** the numpy array dq.dq as a list *)
  Definition dq_list (d : dquat) : list T := q_list (rot d) ++ q_list (dual d).

  (** A pose vector [x, y, z, qx, qy, qz, qw] as (position, quaternion) *)
  Record pose := mkPose { pos : vec3; ori : quat }.

  (** norm :187-194.  [assert self.q_rot.norm() > 1e-8] *)
  Definition dnorm (d : dquat) : res (T * T) :=
    assert qnorm (rot d) >? lit 1 (-8);
    let real_norm := qnorm (rot d) in
    let dual_norm := qdot (rot d) (dual d) / real_norm in
    Ok (real_norm, dual_norm).

  (** is_normalized :196-199 *)
  Definition is_normalized (d : dquat) : res bool :=
    do n <- dnorm d;
    let real_part := absv (fst n - n1) <? lit 1 (-8) in
    let dual_part := absv (snd n) <? lit 1 (-8) in
    Ok (real_part && dual_part).

  (** assert_normalization :201-202.  The method is not called: [assert self.is_normalized] tests
      the truth value of a bound method object, which is always True. *)
  Definition bound_method_truth : bool := true.
  Definition assert_normalization (d : dquat) : res unit := assert_ bound_method_truth.

  (** __init__ :23-36 (the isinstance assertions hold by typing) *)
  Definition dq_init (q_rot q_dual : quat) : res dquat :=
    let self := mkDQ q_rot q_dual in
    do _ <- assert_normalization self;
    Ok self.

  (** __add__ :44-47, __sub__ :49-52; from_vector :128-136 only copies *)
  Definition dadd (a b : dquat) : dquat := mkDQ (qadd (rot a) (rot b)) (qadd (dual a) (dual b)).
  Definition dsub (a b : dquat) : dquat := mkDQ (qsub (rot a) (rot b)) (qsub (dual a) (dual b)).

  (** __mul__ with a DualQuaternion :66-70 *)
  Definition dmul (a b : dquat) : dquat :=
    mkDQ (qmul (rot a) (rot b))
         (qadd (qmul (rot a) (dual b)) (qmul (dual a) (rot b))).
  (** with a Number :71-74, __rmul__ :84-87 *)
  Definition dscale (a : dquat) (t : T) : dquat := mkDQ (qscale (rot a) t) (qscale (dual a) t).
  Definition dscale_l (t : T) (a : dquat) : dquat :=
    mkDQ (qscale_l t (rot a)) (qscale_l t (dual a)).

  (** unary minus on the array self.dq *)
  Definition dneg (a : dquat) : dquat := mkDQ (qneg (rot a)) (qneg (dual a)).

  (** Dynamic operand type *)
  Inductive dq_operand :=
  | DOpDQ (d : dquat)
  | DOpNum (t : T)
  | DOpOther.

  (** conjugate :171-173 *)
  Definition dconj (a : dquat) : dquat := mkDQ (qconj (rot a)) (qconj (dual a)).

  (** inverse :175-179 *)
  Definition dinv (a : dquat) : res dquat :=
    do n <- dnorm a;
    assert fst n >? lit 1 (-8);
    Ok (mkDQ (qinv (rot a)) (qmul (qmul (qneg (qinv (rot a))) (dual a)) (qinv (rot a)))).

  (** full dispatch: __mul__ :54-76, __rmul__ :78-89, __truediv__ :91-109 *)
  Definition dual_mul (a : dquat) (o : dq_operand) : res dquat :=
    match o with
    | DOpDQ b => Ok (dmul a b)
    | DOpNum t => Ok (dscale a t)
    | DOpOther => Err AssertionError
    end.
  Definition dual_rmul (a : dquat) (o : dq_operand) : res dquat :=
    match o with
    | DOpNum t => Ok (dscale_l t a)
    | _ => Err AssertionError
    end.
  Definition dual_div (a : dquat) (o : dq_operand) : res dquat :=
    match o with
    | DOpDQ b => do i <- dinv b; Ok (dmul a i)
    | DOpNum t => Ok (mkDQ (qdivs (rot a) t) (qdivs (dual a) t))
    | DOpOther => Err AssertionError
    end.

  (** __eq__ :121-126: np.allclose with both default tolerances *)
  Definition dual_eq (a : dquat) (o : dq_operand) : bool :=
    match o with
    | DOpDQ b => allclose atol_default (dq_list a) (dq_list b)
    | _ => false
    end.

  (** from_pose :138-144 *)
  Definition from_pose (p : vec3) (q : quat) : dquat :=
    let qr := qnormalize q in
    let qt := qscale (qmul (mkQ (vx p) (vy p) (vz p) n0) qr) nhalf in
    mkDQ qr qt.
  (** from_pose_vector :146-149 *)
  Definition from_pose_vector (p : pose) : dquat := from_pose (pos p) (ori p).

  (** from_transformation_matrix :151-159 *)
  Definition upper_left (m : mat4) : mat3 :=
    mkM (mkV (c0 (r0 m)) (c1 (r0 m)) (c2 (r0 m)))
        (mkV (c0 (r1 m)) (c1 (r1 m)) (c2 (r1 m)))
        (mkV (c0 (r2 m)) (c1 (r2 m)) (c2 (r2 m))).
  Definition last_column (m : mat4) : vec3 := mkV (c3 (r0 m)) (c3 (r1 m)) (c3 (r2 m)).
  Definition from_transformation_matrix (m : mat4) : dquat :=
    from_pose (last_column m) (from_rotation_matrix (upper_left m)).

  (** identity :161-165 *)
  Definition didentity : dquat := mkDQ (mkQ n0 n0 n0 n1) (mkQ n0 n0 n0 n0).

  (** enforce_positive_q_rot_w :181-185 (in place) *)
  Definition enforce_positive_w (a : dquat) : res dquat :=
    do n <- dnorm a;
    assert fst n >? lit 1 (-8);
    Ok (if qw (rot a) <? n0 then dneg a else a).

  (** normalize :204-209 (in place; no guard against a vanishing norm) *)
  Definition dnormalize (a : dquat) : dquat :=
    let real_norm := qnorm (rot a) in
    mkDQ (qdivs (rot a) real_norm) (qdivs (dual a) real_norm).

  (** scalar :211-219.  npt.assert_allclose(actual, 0, atol=1e-6) (rtol default 1e-7 multiplies
      |desired| = 0) fails for nan and inf. *)
  Definition scalar (a : dquat) : res dquat :=
    let s := dscale_l nhalf (dadd a (dconj a)) in
    let chk x := isclose_gen (lit 1 (-7)) (lit 1 (-6)) x n0 in
    assert chk (qx (rot s)) && chk (qy (rot s)) && chk (qz (rot s))
           && chk (qx (dual s)) && chk (qy (dual s)) && chk (qz (dual s));
    Ok s.

  (** screw_axis :221-238; returns (screw_axis, rotation, translation) *)
  Definition screw_axis (a : dquat) : vec3 * T * T :=
    let rotation := n2 * degrees (acosn (qw (rot a))) in
    let rotation := modn rotation (lit 360 0) in
    if rotation >? lit 1 (-12) then
      let s := sinn (rotation / n2 * npi / lit 180 0) in
      let translation := lit (-2) 0 * qw (dual a) / s in
      (mkV (qx (rot a) / s) (qy (rot a) / s) (qz (rot a) / s), rotation, translation)
    else
      let d := dual a in
      let translation := n2 * sqrtn (qx d * qx d + qy d * qy d + qz d * qz d) in
      if translation >? lit 1 (-12) then
        (mkV (n2 * qx d / translation) (n2 * qy d / translation) (n2 * qz d / translation),
         rotation, translation)
      else (mkV n0 n0 n0, rotation, translation).

  (** to_pose :266-281: normalises the receiver in place *)
  Definition to_pose (a : dquat) : dquat * pose :=
    let a := dnormalize a in
    let q_rot := rot a in
    let q_rot := if qw q_rot <? n0 then qneg q_rot else q_rot in
    let t := qmul (qscale_l n2 (dual a)) (qconj (rot a)) in
    (a, mkPose (mkV (qx t) (qy t) (qz t)) q_rot).

  (** to_matrix :258-264 *)
  Definition to_matrix (a : dquat) : dquat * mat4 :=
    let a := dnormalize a in
    let m := to_rotation_matrix (rot a) in
    let '(a', p) := to_pose a in
    (a', mat4_of m (pos p)).

  (** passive_transform_point :240-247, active_transform_point :249-252 *)
  Definition passive_transform_point (a : dquat) (p : vec3) : vec3 :=
    let point_dq := from_pose p (mkQ n0 n0 n0 n1) in
    pos (snd (to_pose (dmul a point_dq))).
  Definition active_transform_point (a : dquat) (p : vec3) : res vec3 :=
    do i <- dinv a;
    Ok (passive_transform_point i p).
End DualQuaternion.
