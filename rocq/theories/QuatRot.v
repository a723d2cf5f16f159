(** * Rotation matrices: facts used by the property theorems. *)

From Coq Require Import Reals ZArith Bool List Lra Psatz Nsatz.
From Verif Require Import Num Py XReal XFacts Quat DualQuat Spec Embed QuatFacts QuatTrig.
Import ListNotations.
Local Open Scope R_scope.

(** The matrix whose action is [hrot q]. *)
Definition rot_matrix (q : rq) : rm :=
  let x := v1 (qv q) in let y := v2 (qv q) in let z := v3 (qv q) in let w := qs q in
  RM (RV (1 - 2 * (y * y) - 2 * (z * z)) (2 * x * y - 2 * z * w) (2 * x * z + 2 * y * w))
     (RV (2 * x * y + 2 * z * w) (1 - 2 * (x * x) - 2 * (z * z)) (2 * y * z - 2 * x * w))
     (RV (2 * x * z - 2 * y * w) (2 * y * z + 2 * x * w) (1 - 2 * (x * x) - 2 * (y * y))).

Lemma to_rotation_matrix_in q : to_rotation_matrix (inQ q) = inM (rot_matrix q).
Proof. reflexivity. Qed.
Lemma rotate_vector_in q v : rotate_vector (inQ q) (inV v) = inV (mapply (rot_matrix q) v).
Proof.
  unfold rotate_vector, inQ, inV, mapply, rot_matrix, dot3; simpl.
  f_equal; f_equal; ring.
Qed.

Lemma unit_w2 q : unitq q ->
  qs q * qs q = 1 - v1 (qv q) * v1 (qv q) - v2 (qv q) * v2 (qv q) - v3 (qv q) * v3 (qv q).
Proof. unfold unitq, hnorm2, hdot, dot3; intros; lra. Qed.

Lemma rot_matrix_apply q v : unitq q -> mapply (rot_matrix q) v = hrot q v.
Proof.
  intros U. pose proof (unit_w2 q U) as E. destruct q as [[x y z] w], v as [a b c].
  simpl in E. unfold hrot, mapply, rot_matrix, hmul, hconj, cross3, vadd, vscale, dot3; simpl.
  apply rv_eq; simpl; ring_simplify; replace (w ^ 2) with (w * w) by ring; rewrite E; ring.
Qed.

Lemma rm_eq a b : m1 a = m1 b -> m2 a = m2 b -> m3 a = m3 b -> a = b.
Proof. destruct a, b; simpl; congruence. Qed.

Lemma rot_matrix_rotation q : unitq q -> is_rotation (rot_matrix q).
Proof.
  intros U. pose proof (unit_w2 q U) as E. destruct q as [[x y z] w]. simpl in E.
  split.
  - apply rm_eq; apply rv_eq; unfold mmul, mapply, mtrans, rot_matrix, mid, dot3; simpl;
      ring_simplify; replace (w ^ 2) with (w * w) by ring; rewrite E; ring.
  - unfold mdet, rot_matrix, cross3, dot3; simpl.
    ring_simplify. replace (w ^ 4) with ((w * w) * (w * w)) by ring.
    replace (w ^ 2) with (w * w) by ring. rewrite E; ring.
Qed.

Lemma mat_ext a b : (forall v, mapply a v = mapply b v) -> a = b.
Proof.
  intros A. pose proof (A (RV 1 0 0)) as A1. pose proof (A (RV 0 1 0)) as A2.
  pose proof (A (RV 0 0 1)) as A3. clear A.
  destruct a as [[] [] []], b as [[] [] []]. specu.
  injection A1; injection A2; injection A3; clear A1 A2 A3; intros.
  f_equal; f_equal; lra.
Qed.

Lemma rot_matrix_mul p q : unitq p -> unitq q ->
  rot_matrix (hmul p q) = mmul (rot_matrix p) (rot_matrix q).
Proof.
  intros Up Uq.
  assert (Upq : unitq (hmul p q)).
  { unfold unitq in *. rewrite hnorm2_mul, Up, Uq. ring. }
  assert (A : forall v, mapply (rot_matrix (hmul p q)) v
                      = mapply (mmul (rot_matrix p) (rot_matrix q)) v).
  { intros v. rewrite rot_matrix_apply by easy.
    assert (M : forall a b w, mapply (mmul a b) w = mapply a (mapply b w)).
    { intros [[] [] []] [[] [] []] []. apply rv_eq; specu; ring. }
    rewrite M, (rot_matrix_apply q) by easy. rewrite (rot_matrix_apply p) by easy.
    unfold hrot. rewrite hconj_mul.
    assert (Z : RQ (qv (hmul (hmul q (RQ v 0)) (hconj q))) 0 = hmul (hmul q (RQ v 0)) (hconj q)).
    { apply rq_eq; simpl; try easy. unfold dot3; simpl. ring. }
    rewrite Z. now rewrite !hmul_assoc. }
  now apply mat_ext.
Qed.

Lemma rot_matrix_neg q : rot_matrix (hneg q) = rot_matrix q.
Proof. apply rm_eq; apply rv_eq; simpl; ring. Qed.

(** ** Round trip through the matrix *)
Lemma from_rotation_matrix_in m : 0 < 1 + mtrace m ->
  let w := sqrt (1 + mtrace m) / 2 in
  from_rotation_matrix (inM m) =
  inQ (RQ (RV ((v2 (m3 m) - v3 (m2 m)) / (4 * w)) ((v3 (m1 m) - v1 (m3 m)) / (4 * w))
              ((v1 (m2 m) - v2 (m1 m)) / (4 * w))) w).
Proof.
  intros H w. unfold from_rotation_matrix, n1, n2, n4.
  cbn [lit XR inM inV vx vy vz row0 row1 row2 add sub mul div sqrtn Rlit xadd xsub].
  replace (1 + v1 (m1 m) + v2 (m2 m) + v3 (m3 m)) with (1 + mtrace m) by (unfold mtrace; ring).
  rewrite xsqrt_fin by lra. rewrite xdiv_fin by lra. fold w. cbn [xmul].
  assert (0 < w). { unfold w. pose proof (sqrt_lt_R0 _ H). lra. }
  rewrite !xdiv_fin by lra. reflexivity.
Qed.

Lemma rot_matrix_trace q : unitq q -> 1 + mtrace (rot_matrix q) = 4 * (qs q * qs q).
Proof. intros U. rewrite (unit_w2 q U). unfold mtrace, rot_matrix; simpl. ring. Qed.

Lemma roundtrip_quat q : unitq q -> qs q <> 0 ->
  from_rotation_matrix (to_rotation_matrix (inQ q)) = inQ (if Rlt_dec 0 (qs q) then q else hneg q).
Proof.
  intros U W. rewrite to_rotation_matrix_in, from_rotation_matrix_in.
  2:{ rewrite rot_matrix_trace by easy. assert (0 < qs q * qs q) by nra. lra. }
  rewrite rot_matrix_trace by easy.
  assert (S : sqrt (4 * (qs q * qs q)) / 2 = Rabs (qs q)).
  { replace (4 * (qs q * qs q)) with (Rsqr (2 * qs q)) by (unfold Rsqr; ring).
    rewrite sqrt_Rsqr_abs, Rabs_mult, (Rabs_pos_eq 2) by lra. field. }
  rewrite S. destruct (Rlt_dec 0 (qs q)).
  - rewrite Rabs_pos_eq by lra. apply inQ_eq; unfold rot_matrix; simpl; field; lra.
  - rewrite Rabs_left1 by lra. apply inQ_eq; unfold rot_matrix; simpl; try field; lra.
Qed.

Lemma roundtrip_quat_halfturn q : unitq q -> qs q = 0 ->
  exists x y z, from_rotation_matrix (to_rotation_matrix (inQ q)) = mkQ (N:=XR) x y z (Fin 0) /\
    x = NaN /\ y = NaN /\ z = NaN.
Proof.
  intros U W. rewrite to_rotation_matrix_in.
  unfold from_rotation_matrix, n1, n2, n4.
  cbn [lit XR inM inV vx vy vz row0 row1 row2 add sub mul div sqrtn Rlit xadd xsub].
  pose proof (rot_matrix_trace q U) as TR. rewrite W in TR. unfold mtrace in TR.
  replace (1 + v1 (m1 (rot_matrix q)) + v2 (m2 (rot_matrix q)) + v3 (m3 (rot_matrix q))) with 0 by lra.
  rewrite xsqrt_fin by lra. rewrite sqrt_0, xdiv_fin by lra.
  replace (0 / 2) with 0 by field. cbn [xmul]. replace (4 * 0) with 0 by ring.
  assert (D : forall a, a = 0 -> xdiv (Fin a) (Fin 0) = NaN).
  { intros a ->. simpl. destruct (Req_EM_T 0 0); [|easy]. unfold inf_signed.
    repeat destruct (Rlt_dec _ _); try lra; easy. }
  do 3 eexists. split; [reflexivity|]. rewrite !D; try easy; unfold rot_matrix; simpl; rewrite W; ring.
Qed.

(** Scalar form of "orthonormal rows and determinant 1": cofactors and columns. *)
Section RotationEntries.
  Variables a b c d e f g h i : R.
  Hypothesis R11 : a * a + b * b + c * c = 1.
  Hypothesis R12 : a * d + b * e + c * f = 0.
  Hypothesis R13 : a * g + b * h + c * i = 0.
  Hypothesis R22 : d * d + e * e + f * f = 1.
  Hypothesis R23 : d * g + e * h + f * i = 0.
  Hypothesis R33 : g * g + h * h + i * i = 1.
  Hypothesis Det : a * (e * i - f * h) + b * (f * g - d * i) + c * (d * h - e * g) = 1.

  Lemma cof_a : a = e * i - f * h. Proof. nsatz. Qed.
  Lemma cof_b : b = f * g - d * i. Proof. nsatz. Qed.
  Lemma cof_c : c = d * h - e * g. Proof. nsatz. Qed.
  Lemma cof_d : d = c * h - b * i. Proof. nsatz. Qed.
  Lemma cof_e : e = a * i - c * g. Proof. nsatz. Qed.
  Lemma cof_f : f = b * g - a * h. Proof. nsatz. Qed.
  Lemma cof_g : g = b * f - c * e. Proof. nsatz. Qed.
  Lemma cof_h : h = c * d - a * f. Proof. nsatz. Qed.
  Lemma cof_i : i = a * e - b * d. Proof. nsatz. Qed.
  Lemma col11 : a * a + d * d + g * g = 1.
  Proof. pose proof cof_a; pose proof cof_d; pose proof cof_g. clear R12 R13 R22 R23 R33 R11. nsatz. Qed.
  Lemma col22 : b * b + e * e + h * h = 1.
  Proof. pose proof cof_b; pose proof cof_e; pose proof cof_h. clear R12 R13 R22 R23 R33 R11. nsatz. Qed.
  Lemma col33 : c * c + f * f + i * i = 1.
  Proof. pose proof cof_c; pose proof cof_f; pose proof cof_i. clear R12 R13 R22 R23 R33 R11. nsatz. Qed.
  Lemma col12 : a * b + d * e + g * h = 0.
  Proof. pose proof cof_b; pose proof cof_e; pose proof cof_h. clear R12 R13 R22 R23 R33 R11 Det. nsatz. Qed.
  Lemma col13 : a * c + d * f + g * i = 0.
  Proof. pose proof cof_c; pose proof cof_f; pose proof cof_i. clear R12 R13 R22 R23 R33 R11 Det. nsatz. Qed.
  Lemma col23 : b * c + e * f + h * i = 0.
  Proof. pose proof cof_c; pose proof cof_f; pose proof cof_i. clear R12 R13 R22 R23 R33 R11 Det. nsatz. Qed.

  Lemma diag_a : (c - g) * (c - g) + (d - b) * (d - b) = 2 * (1 + (a + e + i)) * (1 - a).
  Proof. pose proof col11; pose proof cof_e; pose proof cof_i. clear R12 R13 R22 R23 R33 Det. nsatz. Qed.
  Lemma diag_e : (h - f) * (h - f) + (d - b) * (d - b) = 2 * (1 + (a + e + i)) * (1 - e).
  Proof. pose proof col22; pose proof cof_a; pose proof cof_i. clear R12 R13 R11 R23 R33 Det. nsatz. Qed.
  Lemma diag_i : (h - f) * (h - f) + (c - g) * (c - g) = 2 * (1 + (a + e + i)) * (1 - i).
  Proof. pose proof col33; pose proof cof_a; pose proof cof_e. clear R12 R13 R11 R23 R22 Det. nsatz. Qed.
  Lemma off_bd : (h - f) * (c - g) = (b + d) * (1 + (a + e + i)).
  Proof. pose proof cof_b; pose proof cof_d; pose proof col12. clear R11 R13 R22 R23 R33 Det. nsatz. Qed.
  Lemma off_cg : (h - f) * (d - b) = (c + g) * (1 + (a + e + i)).
  Proof. pose proof cof_c; pose proof cof_g; pose proof col13. clear R11 R12 R22 R23 R33 Det. nsatz. Qed.
  Lemma off_fh : (c - g) * (d - b) = (f + h) * (1 + (a + e + i)).
  Proof. pose proof cof_f; pose proof cof_h; pose proof col23. clear R11 R12 R22 R13 R33 Det. nsatz. Qed.

  Lemma trace_ge : 0 <= 1 + (a + e + i).
  Proof.
    assert (A : a <= 1) by (clear - R11; nra). assert (E : e <= 1) by (clear - R22; nra).
    assert (I : i <= 1) by (clear - R33; nra).
    assert (K : forall x y u v, y <= 1 -> y <> 1 -> u * u + v * v = 2 * x * (1 - y) -> 0 <= x).
    { clear. intros x y u v H1 H2 H3. assert (0 <= x * (1 - y)) by nra.
      destruct (Rle_dec 0 x); [easy|]. assert (0 < 1 - y) by lra. nra. }
    destruct (Req_dec a 1); [|exact (K _ _ _ _ A H diag_a)].
    destruct (Req_dec e 1); [|exact (K _ _ _ _ E H0 diag_e)].
    destruct (Req_dec i 1); [|exact (K _ _ _ _ I H1 diag_i)]. lra.
  Qed.
End RotationEntries.

Lemma rotation_trace_ge m : is_rotation m -> 0 <= 1 + mtrace m.
Proof.
  intros [O D]. destruct m as [[a b c] [d e f] [g h i]]. specu.
  injection O; clear O; intros. apply (trace_ge a b c d e f g h i); lra.
Qed.

Lemma roundtrip_matrix m : is_rotation m -> 0 < 1 + mtrace m ->
  to_rotation_matrix (from_rotation_matrix (inM m)) = inM m.
Proof.
  intros [O D] T0. rewrite from_rotation_matrix_in by easy. rewrite to_rotation_matrix_in.
  f_equal.
  destruct m as [[a b c] [d e f] [g h i]]. unfold rot_matrix. specu.
  set (t := 1 + (a + e + i)) in *.
  set (s := sqrt t) in *.
  assert (S0 : 0 < s) by now apply sqrt_lt_R0.
  assert (S2 : s * s = t) by (apply sqrt_def; lra).
  injection O; clear O; intros.
  assert (R12 : a * d + b * e + c * f = 0) by lra.
  assert (R13 : a * g + b * h + c * i = 0) by lra.
  assert (R23 : d * g + e * h + f * i = 0) by lra.
  pose proof (diag_a a b c d e f g h i ltac:(lra) R12 R13 ltac:(lra) R23 ltac:(lra) D) as Da.
  pose proof (diag_e a b c d e f g h i ltac:(lra) R12 R13 ltac:(lra) R23 ltac:(lra) D) as De.
  pose proof (diag_i a b c d e f g h i ltac:(lra) R12 R13 ltac:(lra) R23 ltac:(lra) D) as Di.
  pose proof (off_bd a b c d e f g h i ltac:(lra) R12 R13 ltac:(lra) R23 ltac:(lra) D) as Ob.
  pose proof (off_cg a b c d e f g h i ltac:(lra) R12 R13 ltac:(lra) R23 ltac:(lra) D) as Oc.
  pose proof (off_fh a b c d e f g h i ltac:(lra) R12 R13 ltac:(lra) R23 ltac:(lra) D) as Of.
  fold t in Da, De, Di, Ob, Oc, Of.
  assert (I : / s * / s * t = 1) by (rewrite <- S2; field; lra).
  assert (W : s / 2 = / s * t / 2) by (rewrite <- S2; field; lra).
  assert (V : forall x, x / (4 * (s / 2)) = x * / s / 2) by (intros; field; lra).
  rewrite !V, W. set (r := / s) in *. clearbody r.
  clear - Da De Di Ob Oc Of I. clearbody t.
  f_equal; f_equal.
  - transitivity (1 - r * r / 2 * ((c - g) * (c - g) + (d - b) * (d - b))); [field|]. rewrite Da.
    transitivity (1 - r * r * t * (1 - a)); [field|rewrite I; ring].
  - transitivity (r * r / 2 * ((h - f) * (c - g)) - r * r * t * (d - b) / 2); [field|]. rewrite Ob. 
    transitivity (r * r * t * ((b + d) / 2) - r * r * t * ((d - b) / 2)); [field|rewrite I; field].
  - transitivity (r * r / 2 * ((h - f) * (d - b)) + r * r * t * (c - g) / 2); [field|]. rewrite Oc. 
    transitivity (r * r * t * ((c + g) / 2) + r * r * t * ((c - g) / 2)); [field|rewrite I; field].
  - transitivity (r * r / 2 * ((h - f) * (c - g)) + r * r * t * (d - b) / 2); [field|]. rewrite Ob. 
    transitivity (r * r * t * ((b + d) / 2) + r * r * t * ((d - b) / 2)); [field|rewrite I; field].
  - transitivity (1 - r * r / 2 * ((h - f) * (h - f) + (d - b) * (d - b))); [field|]. rewrite De.
    transitivity (1 - r * r * t * (1 - e)); [field|rewrite I; ring].
  - transitivity (r * r / 2 * ((c - g) * (d - b)) - r * r * t * (h - f) / 2); [field|]. rewrite Of. 
    transitivity (r * r * t * ((f + h) / 2) - r * r * t * ((h - f) / 2)); [field|rewrite I; field].
  - transitivity (r * r / 2 * ((h - f) * (d - b)) - r * r * t * (c - g) / 2); [field|]. rewrite Oc. 
    transitivity (r * r * t * ((c + g) / 2) - r * r * t * ((c - g) / 2)); [field|rewrite I; field].
  - transitivity (r * r / 2 * ((c - g) * (d - b)) + r * r * t * (h - f) / 2); [field|]. rewrite Of. 
    transitivity (r * r * t * ((f + h) / 2) + r * r * t * ((h - f) / 2)); [field|rewrite I; field].
  - transitivity (1 - r * r / 2 * ((h - f) * (h - f) + (c - g) * (c - g))); [field|]. rewrite Di.
    transitivity (1 - r * r * t * (1 - i)); [field|rewrite I; ring].
Qed.
