(** * Embedding of the real specification objects into the model's (extended) objects. *)

From Coq Require Import Reals List.
From Verif Require Import Num Py XReal Quat DualQuat Spec.
Import ListNotations.

Definition inV (v : rv) : vec3 (N:=XR) := mkV (N:=XR) (Fin (v1 v)) (Fin (v2 v)) (Fin (v3 v)).
Definition inM (m : rm) : mat3 (N:=XR) := mkM (inV (m1 m)) (inV (m2 m)) (inV (m3 m)).
Definition inQ (q : rq) : quat (N:=XR) :=
  mkQ (N:=XR) (Fin (v1 (qv q))) (Fin (v2 (qv q))) (Fin (v3 (qv q))) (Fin (qs q)).
Definition inD (d : rdq) : dquat (N:=XR) := mkDQ (inQ (dr d)) (inQ (dd d)).
Definition inP (t : rv) (q : rq) : pose (N:=XR) := mkPose (inV t) (inQ q).
(** homogeneous matrix with bottom row (0 0 0 1) *)
Definition inH (h : hm) : mat4 (N:=XR) :=
  let m := hm_rot h in let t := hm_t h in
  mkM4 (mkV4 (N:=XR) (Fin (v1 (m1 m))) (Fin (v2 (m1 m))) (Fin (v3 (m1 m))) (Fin (v1 t)))
       (mkV4 (N:=XR) (Fin (v1 (m2 m))) (Fin (v2 (m2 m))) (Fin (v3 (m2 m))) (Fin (v2 t)))
       (mkV4 (N:=XR) (Fin (v1 (m3 m))) (Fin (v2 (m3 m))) (Fin (v3 (m3 m))) (Fin (v3 t)))
       (mkV4 (N:=XR) (Fin 0) (Fin 0) (Fin 0) (Fin 1)).

(** All components are real numbers (not inf, not nan). *)
Definition finiteQ (q : quat (N:=XR)) : Prop := exists r, q = inQ r.
Definition finiteD (d : dquat (N:=XR)) : Prop := exists r, d = inD r.

(** hand and eye lists of a list of pairs *)
Definition hands (l : list (rdq * rdq)) := map (fun p => inD (fst p)) l.
Definition eyes (l : list (rdq * rdq)) := map (fun p => inD (snd p)) l.
(** a list of poses *)
Definition poses (l : list (rv * rq)) := map (fun p => inP (fst p) (snd p)) l.
