(** * Independent specification vocabulary: real vectors, quaternions, rotations, rigid motions.

    Nothing in this file refers to the model. *)

From Coq Require Import Reals List.
Import ListNotations.
Local Open Scope R_scope.

(** Vectors of R^3 *)
Record rv := RV { v1 : R; v2 : R; v3 : R }.
Definition dot3 (u v : rv) : R := v1 u * v1 v + v2 u * v2 v + v3 u * v3 v.
Definition cross3 (u v : rv) : rv :=
  RV (v2 u * v3 v - v3 u * v2 v) (v3 u * v1 v - v1 u * v3 v) (v1 u * v2 v - v2 u * v1 v).
Definition vadd (u v : rv) : rv := RV (v1 u + v1 v) (v2 u + v2 v) (v3 u + v3 v).
Definition vsub (u v : rv) : rv := RV (v1 u - v1 v) (v2 u - v2 v) (v3 u - v3 v).
Definition vscale (k : R) (v : rv) : rv := RV (k * v1 v) (k * v2 v) (k * v3 v).
Definition vzero : rv := RV 0 0 0.
Definition len3 (v : rv) : R := sqrt (dot3 v v).

(** 3x3 real matrices by rows *)
Record rm := RM { m1 : rv; m2 : rv; m3 : rv }.
Definition mapply (m : rm) (v : rv) : rv := RV (dot3 (m1 m) v) (dot3 (m2 m) v) (dot3 (m3 m) v).
Definition mtrans (m : rm) : rm :=
  RM (RV (v1 (m1 m)) (v1 (m2 m)) (v1 (m3 m)))
     (RV (v2 (m1 m)) (v2 (m2 m)) (v2 (m3 m)))
     (RV (v3 (m1 m)) (v3 (m2 m)) (v3 (m3 m))).
Definition mmul (a b : rm) : rm :=
  let bt := mtrans b in
  RM (mapply bt (m1 a)) (mapply bt (m2 a)) (mapply bt (m3 a)).
Definition mid : rm := RM (RV 1 0 0) (RV 0 1 0) (RV 0 0 1).
Definition mdet (m : rm) : R := dot3 (m1 m) (cross3 (m2 m) (m3 m)).
Definition mtrace (m : rm) : R := v1 (m1 m) + v2 (m2 m) + v3 (m3 m).
(** Proper rotations *)
Definition is_rotation (m : rm) : Prop := mmul m (mtrans m) = mid /\ mdet m = 1.

(** Real quaternions: vector part and scalar part *)
Record rq := RQ { qv : rv; qs : R }.
Definition hmul (p q : rq) : rq :=
  RQ (vadd (vadd (vscale (qs p) (qv q)) (vscale (qs q) (qv p))) (cross3 (qv p) (qv q)))
     (qs p * qs q - dot3 (qv p) (qv q)).
Definition hconj (q : rq) : rq := RQ (vscale (-1) (qv q)) (qs q).
Definition hneg (q : rq) : rq := RQ (vscale (-1) (qv q)) (- qs q).
Definition hadd (p q : rq) : rq := RQ (vadd (qv p) (qv q)) (qs p + qs q).
Definition hsub (p q : rq) : rq := RQ (vsub (qv p) (qv q)) (qs p - qs q).
Definition hscale (k : R) (q : rq) : rq := RQ (vscale k (qv q)) (k * qs q).
Definition hdot (p q : rq) : R := dot3 (qv p) (qv q) + qs p * qs q.
Definition hone : rq := RQ vzero 1.
Definition hzero : rq := RQ vzero 0.
Definition hnorm2 (q : rq) : R := hdot q q.
Definition hnorm (q : rq) : R := sqrt (hnorm2 q).
Definition unitq (q : rq) : Prop := hnorm2 q = 1.

(** The rotation of R^3 given by a unit quaternion: v |-> vector part of q v q*. *)
Definition hrot (q : rq) (v : rv) : rv := qv (hmul (hmul q (RQ v 0)) (hconj q)).

(** Dual quaternions *)
Record rdq := RD { dr : rq; dd : rq }.
Definition dqmul (a b : rdq) : rdq :=
  RD (hmul (dr a) (dr b)) (hadd (hmul (dr a) (dd b)) (hmul (dd a) (dr b))).
Definition dqone : rdq := RD hone hzero.
Definition dqneg (a : rdq) : rdq := RD (hneg (dr a)) (hneg (dd a)).
Definition dqscale (k : R) (a : rdq) : rdq := RD (hscale k (dr a)) (hscale k (dd a)).
Definition dqadd (a b : rdq) : rdq := RD (hadd (dr a) (dr b)) (hadd (dd a) (dd b)).
Definition dqconj (a : rdq) : rdq := RD (hconj (dr a)) (hconj (dd a)).
(** Unit dual quaternions = rigid motions *)
Definition unitdq (a : rdq) : Prop := hnorm2 (dr a) = 1 /\ hdot (dr a) (dd a) = 0.
(** Translation vector of a unit dual quaternion *)
Definition trans_of (a : rdq) : rv := vscale 2 (qv (hmul (dd a) (hconj (dr a)))).
(** The dual quaternion of the motion v |-> q v q* + t, for unit q *)
Definition dq_of (q : rq) (t : rv) : rdq := RD q (hscale (1 / 2) (hmul (RQ t 0) q)).
(** Action on points *)
Definition move (a : rdq) (p : rv) : rv := vadd (hrot (dr a) p) (trans_of a).

(** 4x4 homogeneous matrices as rotation block + translation column *)
Record hm := HM { hm_rot : rm; hm_t : rv }.
Definition hm_mul (a b : hm) : hm :=
  HM (mmul (hm_rot a) (hm_rot b)) (vadd (mapply (hm_rot a) (hm_t b)) (hm_t a)).
Definition hm_id : hm := HM mid vzero.

(** ** Eight-vectors and the singular value decomposition *)
(** A row of an m x 8 matrix, or an 8-vector, is stored as a pair of 4-vectors. *)
Definition dot8 (a b : rdq) : R := hdot (dr a) (dr b) + hdot (dd a) (dd b).
Definition dqsum (l : list rdq) : rdq := fold_right dqadd (RD hzero hzero) l.
(** inner product of the images of x and y under the matrix with rows [m] *)
Definition gram (m : list rdq) (x y : rdq) : R :=
  fold_right (fun r acc => dot8 r x * dot8 r y + acc) 0 m.

(** What a (numerically exact) np.linalg.svd of the m x 8 matrix with rows [m] returns: the
    singular values in descending order and the rows of V, an orthonormal basis of R^8 whose
    images under the matrix are orthogonal with the singular values (or 0) as lengths. *)
Record svd_spec (m : list rdq) (s : list R) (v : list rdq) : Prop := {
  svd_rows : length v = 8%nat;
  svd_count : length s = Nat.min (length m) 8;
  svd_basis : forall y, y = dqsum (map (fun vi => dqscale (dot8 y vi) vi) v);
  svd_orthonormal : forall i j vi vj, nth_error v i = Some vi -> nth_error v j = Some vj ->
      dot8 vi vj = if Nat.eqb i j then 1 else 0;
  svd_orthogonal : forall i j vi vj, nth_error v i = Some vi -> nth_error v j = Some vj -> i <> j ->
      gram m vi vj = 0;
  svd_values : forall i vi, nth_error v i = Some vi -> gram m vi vi = nth i s 0 * nth i s 0;
  svd_nonneg : forall i, 0 <= nth i s 0;
  svd_sorted : forall i j, (i <= j)%nat -> nth j s 0 <= nth i s 0;
}.
(** every row of the matrix is orthogonal to y *)
Definition kills (m : list rdq) (y : rdq) : Prop := Forall (fun r => dot8 r y = 0) m.

(** ** Hand-eye data *)
(** The pairs of a noise-free experiment *)
Definition consistent (x : rdq) (p : rdq * rdq) : Prop := dqmul (fst p) x = dqmul x (snd p).
(** two of the motions rotate about non-parallel axes *)
Definition two_axes (l : list (rdq * rdq)) : Prop :=
  exists p q, In p l /\ In q l /\ cross3 (qv (dr (fst p))) (qv (dr (fst q))) <> vzero.
(** np.allclose's element test |x - y| <= atol + 1e-5 |y|, on the two scalar parts *)
Definition close_to (tol x y : R) : Prop := Rabs (x - y) <= tol + 1 / 100000 * Rabs y.
Definition scalars_close (tol : R) (a b : rdq) : Prop :=
  close_to tol (qs (dr a)) (qs (dr b)) /\ close_to tol (qs (dd a)) (qs (dd b)).
(** the dual quaternion is the identity, component by component, up to 1e-8 (plus 1e-5 relative) *)
Definition near_one (a : rdq) : Prop :=
  let near := close_to (1 / 100000000) in
  near (v1 (qv (dr a))) 0 /\ near (v2 (qv (dr a))) 0 /\ near (v3 (qv (dr a))) 0 /\ near (qs (dr a)) 1 /\
  near (v1 (qv (dd a))) 0 /\ near (v2 (qv (dd a))) 0 /\ near (v3 (qv (dd a))) 0 /\ near (qs (dd a)) 0.

(** ** Pose errors *)
(** the unit quaternion with non-negative scalar part in the direction of q *)
Definition canon (q : rq) : rq :=
  let u := hscale (/ hnorm q) q in if Rlt_dec (qs u) 0 then hneg u else u.
(** the angle (degrees) of the rotation taking one orientation to the other *)
Definition geodesic (p q : rq) : R := 2 * acos (Rabs (hdot (canon p) (canon q))) * (180 / PI).
Definition sum_squares (l : list R) : R := fold_right (fun x a => x * x + a) 0 l.
Definition rms (l : list R) : R := sqrt (sum_squares l / INR (length l)).
