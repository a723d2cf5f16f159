(** * How far apart two rigid motions can be that move the same motions to nearby places. *)

From Coq Require Import Reals List Lra Lia Psatz.
From Verif Require Import Spec QuatFacts QuatRot DualFacts FloatQuat.
Import ListNotations.
Local Open Scope R_scope.

(** ** Lengths *)
Lemma len3_pure v : len3 v = hnorm (RQ v 0).
Proof. unfold len3, hnorm. f_equal. destruct v. specu. ring. Qed.
Lemma len3_pos v : 0 <= len3 v. Proof. apply sqrt_pos. Qed.
Lemma len3_sqr v : len3 v * len3 v = dot3 v v.
Proof. apply sqrt_sqrt. destruct v. specu. nra. Qed.
Lemma len3_triangle u v : len3 (vadd u v) <= len3 u + len3 v.
Proof. rewrite !len3_pure. replace (RQ (vadd u v) 0) with (hadd (RQ u 0) (RQ v 0)); [apply hnorm_triangle|]. destruct u, v. apply rq_eq; specu; ring. Qed.
Lemma len3_sym u v : len3 (vsub u v) = len3 (vsub v u).
Proof. unfold len3. f_equal. destruct u, v. specu. ring. Qed.
Lemma len3_qv q : len3 (qv q) <= hnorm q.
Proof. unfold len3, hnorm. apply sqrt_le_1_alt. destruct q as [[] ?]. specu. nra. Qed.
Lemma hrot_len q v : unitq q -> len3 (hrot q v) = len3 v.
Proof.
  intros U. unfold len3. f_equal. unfold unitq in U.
  assert (E : dot3 (hrot q v) (hrot q v) = hnorm2 q * hnorm2 q * dot3 v v) by (destruct q as [[] ?], v; specu; ring).
  rewrite E, U. ring.
Qed.
(** a rotation moves a vector by twice the length of the product with the vector part *)
Lemma hrot_moves d y : unitq d -> len3 (vsub (hrot d y) y) = 2 * len3 (cross3 (qv d) y).
Proof.
  intros U. apply Rsqr_inj; [apply len3_pos|pose proof (len3_pos (cross3 (qv d) y)); lra|]. unfold Rsqr.
  replace (2 * len3 (cross3 (qv d) y) * (2 * len3 (cross3 (qv d) y))) with (4 * (len3 (cross3 (qv d) y) * len3 (cross3 (qv d) y))) by ring.
  rewrite !len3_sqr. unfold unitq in U.
  assert (E : vsub (hrot d y) y = vadd (vscale (2 * qs d) (cross3 (qv d) y)) (vscale 2 (cross3 (qv d) (cross3 (qv d) y)))).
  { transitivity (vadd (vadd (vscale (2 * qs d) (cross3 (qv d) y)) (vscale 2 (cross3 (qv d) (cross3 (qv d) y)))) (vscale (hnorm2 d - 1) y)).
    - clear U. destruct d as [[] ?], y. apply rv_eq; specu; ring.
    - rewrite U. destruct d as [[] ?], y. apply rv_eq; specu; ring. }
  rewrite E. set (c := cross3 (qv d) y).
  assert (G : dot3 (qv d) c = 0) by (unfold c; destruct (qv d), y; specu; ring).
  assert (F : dot3 (vadd (vscale (2 * qs d) c) (vscale 2 (cross3 (qv d) c))) (vadd (vscale (2 * qs d) c) (vscale 2 (cross3 (qv d) c)))
    = 4 * (qs d * qs d * dot3 c c) + 4 * (dot3 (qv d) (qv d) * dot3 c c - dot3 (qv d) c * dot3 (qv d) c)) by (destruct (qv d), c; specu; ring).
  rewrite F, G. unfold hnorm2, hdot in U. replace (qs d * qs d) with (1 - dot3 (qv d) (qv d)) by lra. ring.
Qed.
Lemma cross_len u v : len3 (cross3 u v) <= len3 u * len3 v.
Proof.
  rewrite <- (sqrt_square (len3 u * len3 v)) by (apply Rmult_le_pos; apply len3_pos). unfold len3 at 1. apply sqrt_le_1_alt.
  replace (len3 u * len3 v * (len3 u * len3 v)) with (len3 u * len3 u * (len3 v * len3 v)) by ring. rewrite !len3_sqr.
  assert (E : dot3 (cross3 u v) (cross3 u v) = dot3 u u * dot3 v v - dot3 u v * dot3 u v) by (destruct u, v; specu; ring).
  rewrite E. nra.
Qed.
Lemma dot_len u v : - (len3 u * len3 v) <= dot3 u v <= len3 u * len3 v.
Proof.
  assert (H : dot3 u v * dot3 u v <= (len3 u * len3 v) * (len3 u * len3 v)).
  { replace (len3 u * len3 v * (len3 u * len3 v)) with (len3 u * len3 u * (len3 v * len3 v)) by ring. rewrite !len3_sqr.
    assert (E : dot3 (cross3 u v) (cross3 u v) = dot3 u u * dot3 v v - dot3 u v * dot3 u v) by (destruct u, v; specu; ring).
    assert (P : 0 <= dot3 (cross3 u v) (cross3 u v)) by (rewrite <- len3_sqr; pose proof (len3_pos (cross3 u v)); nra). lra. }
  assert (0 <= len3 u * len3 v) by (apply Rmult_le_pos; apply len3_pos). split; nra.
Qed.
(** the angle between two axes is at most the sum of their angles to a third *)
Lemma cross_triangle d y z : len3 d * len3 (cross3 y z) <= len3 (cross3 d y) * len3 z + len3 (cross3 d z) * len3 y.
Proof.
  set (ly := len3 y). set (lz := len3 z). set (cy := len3 (cross3 d y)). set (cz := len3 (cross3 d z)).
  assert (Py : 0 <= ly) by apply len3_pos. assert (Pz : 0 <= lz) by apply len3_pos. assert (Qy : 0 <= cy) by apply len3_pos. assert (Qz : 0 <= cz) by apply len3_pos.
  assert (R0 : 0 <= cy * lz + cz * ly) by nra.
  apply Rsqr_incr_0_var; [|exact R0]. unfold Rsqr.
  replace (len3 d * len3 (cross3 y z) * (len3 d * len3 (cross3 y z))) with (len3 d * len3 d * (len3 (cross3 y z) * len3 (cross3 y z))) by ring.
  replace ((cy * lz + cz * ly) * (cy * lz + cz * ly)) with (cy * cy * (lz * lz) + cz * cz * (ly * ly) + 2 * (cy * cz * (ly * lz))) by ring.
  assert (Ey : ly * ly = dot3 y y) by apply len3_sqr. assert (Ez : lz * lz = dot3 z z) by apply len3_sqr.
  assert (Fy : cy * cy = dot3 (cross3 d y) (cross3 d y)) by apply len3_sqr. assert (Fz : cz * cz = dot3 (cross3 d z) (cross3 d z)) by apply len3_sqr.
  pose proof (dot_len y z) as B. fold ly lz in B. pose proof (dot_len (cross3 d y) (cross3 d z)) as C. fold cy cz in C.
  rewrite !len3_sqr, Ey, Ez, Fy, Fz.
  set (b := dot3 y z) in *. set (g := dot3 (cross3 d y) (cross3 d z)) in *.
  assert (H : - (cy * cz * (ly * lz)) <= b * g).
  { assert (N1 : 0 <= ly * lz) by nra. assert (N2 : 0 <= cy * cz) by nra. set (m := ly * lz) in *. set (k := cy * cz) in *.
    destruct (Rle_dec 0 b), (Rle_dec 0 g); nra. }
  assert (G : dot3 d d * dot3 (cross3 y z) (cross3 y z) + dot3 d (cross3 y z) * dot3 d (cross3 y z) + 2 * (b * g)
    = dot3 (cross3 d y) (cross3 d y) * dot3 z z + dot3 (cross3 d z) (cross3 d z) * dot3 y y).
  { unfold b, g. destruct d, y, z. specu. ring. }
  assert (S : 0 <= dot3 d (cross3 y z) * dot3 d (cross3 y z)) by nra.
  lra.
Qed.

(** ** Angles and distances of unit quaternions *)
Lemma cos_chord t : 0 <= t <= PI -> 2 - 2 * cos t <= t * t.
Proof.
  intros [A B]. destruct (Req_dec t 0) as [->|N]; [rewrite cos_0; lra|].
  replace t with (2 * (t / 2)) at 1 by field. rewrite cos_2a_sin.
  assert (L : sin (t / 2) < t / 2) by (apply sin_lt_x; lra).
  assert (P : 0 <= sin (t / 2)) by (apply sin_ge_0; lra).
  nra.
Qed.
Lemma chord p q : unitq p -> unitq q ->
  dist p q <= acos (Rabs (hdot p q)) \/ dist p (hneg q) <= acos (Rabs (hdot p q)).
Proof.
  intros Up Uq. pose proof (unit_dot_bound p q Up Uq) as B. unfold unitq in Up, Uq.
  set (k := Rabs (hdot p q)). assert (K : -1 <= k <= 1) by (unfold k, Rabs; destruct (Rcase_abs _); lra).
  assert (T : forall r, hnorm2 r = 1 -> hdot p r = k -> dist p r <= acos k).
  { intros r Ur E. pose proof (acos_bound k) as Bk. pose proof (cos_chord (acos k) Bk) as C. rewrite cos_acos in C by easy.
    unfold dist, hnorm. rewrite <- (sqrt_square (acos k)) by lra. apply sqrt_le_1_alt.
    assert (F : hnorm2 (hsub p r) = hnorm2 p + hnorm2 r - 2 * hdot p r) by (destruct p as [[] ?], r as [[] ?]; specu; ring).
    rewrite F, Up, Ur, E. lra. }
  destruct (Rle_dec 0 (hdot p q)) as [L|L].
  - left. apply T; [easy|]. unfold k. now rewrite Rabs_pos_eq.
  - right. apply T; [now rewrite hnorm2_neg|]. unfold k. rewrite Rabs_left by lra.
    destruct p as [[] ?], q as [[] ?]; specu; ring.
Qed.
Lemma dist_neg_r p q : dist (hneg p) q = dist p (hneg q).
Proof. unfold dist, hnorm. f_equal. destruct p as [[] ?], q as [[] ?]; specu; ring. Qed.
(** two quaternions near the same one, up to signs *)
Lemma near_both a b h r s : (dist h a <= r \/ dist h (hneg a) <= r) -> (dist h b <= s \/ dist h (hneg b) <= s) ->
  dist a b <= r + s \/ dist a (hneg b) <= r + s.
Proof.
  intros [A|A] [B|B].
  - left. pose proof (dist_triangle a h b). rewrite (dist_sym a h) in H. lra.
  - right. pose proof (dist_triangle a h (hneg b)). rewrite (dist_sym a h) in H. lra.
  - right. pose proof (dist_triangle (hneg a) h b). rewrite (dist_sym (hneg a) h), dist_neg_r in H. lra.
  - left. pose proof (dist_triangle (hneg a) h (hneg b)). rewrite (dist_sym (hneg a) h), dist_neg in H. lra.
Qed.
Lemma scalar_dist a b : Rabs (qs a - qs b) <= dist a b.
Proof.
  unfold dist, hnorm. rewrite <- sqrt_Rsqr_abs. unfold Rsqr. apply sqrt_le_1_alt.
  assert (E : hnorm2 (hsub a b) = dot3 (vsub (qv a) (qv b)) (vsub (qv a) (qv b)) + (qs a - qs b) * (qs a - qs b)) by reflexivity.
  rewrite E, <- len3_sqr. pose proof (len3_pos (vsub (qv a) (qv b))). nra.
Qed.
Lemma not_opposite a b r : qs a = qs b -> r < 2 * Rabs (qs a) -> (dist a b <= r \/ dist a (hneg b) <= r) -> dist a b <= r.
Proof.
  intros E L [H|H]; [easy|]. exfalso. pose proof (scalar_dist a (hneg b)) as S. cbn [hneg qs] in S. rewrite <- E in S.
  replace (qs a - - qs a) with (2 * qs a) in S by ring. rewrite Rabs_mult, (Rabs_pos_eq 2) in S by lra. lra.
Qed.
(** rotating by nearby quaternions *)
Lemma hrot_near p q v : unitq p -> unitq q -> len3 (vsub (hrot p v) (hrot q v)) <= 2 * dist p q * len3 v.
Proof.
  intros Up Uq. assert (Hp : hnorm p = 1) by (unfold hnorm; rewrite Up; apply sqrt_1).
  assert (Hq : hnorm q = 1) by (unfold hnorm; rewrite Uq; apply sqrt_1).
  set (A := hmul (hmul p (RQ v 0)) (hconj p)). set (B := hmul (hmul q (RQ v 0)) (hconj q)).
  apply Rle_trans with (dist A B).
  - unfold hrot. fold A B. unfold dist. change (vsub (qv A) (qv B)) with (qv (hsub A B)). apply len3_qv.
  - apply Rle_trans with (dist A (hmul (hmul p (RQ v 0)) (hconj q)) + dist (hmul (hmul p (RQ v 0)) (hconj q)) B); [apply dist_triangle|].
    unfold A, B. rewrite dist_mul_l, (dist_mul_r (hconj q)), dist_mul_r, dist_conj, hnorm_mul, hnorm_conj, Hp, Hq, <- len3_pure. lra.
Qed.

(** ** The motion of a rigid motion seen through another *)
Definition seen (x m : rdq) : rdq := dqmul (dqmul x m) (dqconj x).
Lemma seen_unit x m : unitdq x -> unitdq m -> unitdq (seen x m).
Proof. intros. apply unitdq_mul; [now apply unitdq_mul|now apply unitdq_conj]. Qed.
Lemma seen_scalar x m : unitdq x -> qs (dr (seen x m)) = qs (dr m).
Proof.
  intros [U _]. transitivity (hnorm2 (dr x) * qs (dr m)); [|rewrite U; ring]. clear U.
  unfold seen. cbn [dqmul dqconj dr]. destruct x as [[[] ?] ?], m as [[[] ?] ?]. cbn [dr]. specu. ring.
Qed.
Lemma seen_axis x m : unitdq x -> qv (dr (seen x m)) = hrot (dr x) (qv (dr m)).
Proof.
  intros [U _]. unfold seen. cbn [dqmul dqconj dr]. unfold hrot.
  destruct x as [[[] ?] ?], m as [[[] ?] ?]. cbn [dr]. apply rv_eq; specu; ring.
Qed.
Lemma conj_inv_rot q v : unitq q -> hrot q (hrot (hconj q) v) = v.
Proof.
  intros U. transitivity (vscale (hnorm2 q * hnorm2 q) v).
  - clear U. destruct q as [[] ?], v. apply rv_eq; specu; ring.
  - rewrite U. destruct v. apply rv_eq; specu; ring.
Qed.
Lemma hrot_conj_inv q v : unitq q -> hrot (hconj q) (hrot q v) = v.
Proof.
  intros U. transitivity (vscale (hnorm2 q * hnorm2 q) v).
  - clear U. destruct q as [[] ?], v. apply rv_eq; specu; ring.
  - rewrite U. destruct v. apply rv_eq; specu; ring.
Qed.
Lemma trans_conj x : unitdq x -> trans_of (dqconj x) = vscale (-1) (hrot (hconj (dr x)) (trans_of x)).
Proof.
  intros U. assert (V := U). destruct V as [V _].
  assert (E : trans_of (dqmul (dqconj x) x) = vzero).
  { rewrite <- unitdq_inv_conj, dqmul_inv_l by auto using unitdq_n2. apply rv_eq; specu; ring. }
  rewrite trans_of_mul in E; [|unfold unitq; cbn [dqconj dr]; now rewrite hnorm2_conj|exact V]. cbn [dqconj dr] in E.
  destruct (hrot (hconj (dr x)) (trans_of x)) as [a b c], (trans_of (dqconj x)) as [a' b' c'].
  injection E as E1 E2 E3. apply rv_eq; specu; cbn [v1 v2 v3] in *; lra.
Qed.
Lemma seen_trans x m : unitdq x -> unitdq m ->
  trans_of (seen x m) = vadd (vadd (hrot (dr x) (trans_of m)) (trans_of x)) (vscale (-1) (hrot (dr (seen x m)) (trans_of x))).
Proof.
  intros Ux Um. assert (Ux' := Ux). assert (Um' := Um). destruct Ux' as [U1 _], Um' as [U2 _].
  assert (Uc : unitq (hconj (dr x))) by (unfold unitq; now rewrite hnorm2_conj).
  unfold seen. rewrite trans_of_mul; [|cbn [dqmul dr]; unfold unitq; rewrite hnorm2_mul, U1, U2; ring|exact Uc].
  rewrite trans_of_mul by easy. rewrite trans_conj by easy. cbn [dqmul dqconj dr].
  rewrite (hrot_mul (hmul (dr x) (dr m)) (hconj (dr x))); [|unfold unitq; rewrite hnorm2_mul, U1, U2; ring|exact Uc].
  set (T := hrot (hconj (dr x)) (trans_of x)). set (W := hmul (dr x) (dr m)).
  assert (L : hrot W (vscale (-1) T) = vscale (-1) (hrot W T)) by (destruct W as [[] ?], T; apply rv_eq; specu; ring).
  rewrite L. destruct (hrot (dr x) (trans_of m)), (trans_of x), (hrot W T). apply rv_eq; specu; ring.
Qed.

(** ** Two motions x and x' that see m and n at nearby places are near each other *)
Section Apart.
  Context (x x' : rdq) (Ux : unitdq x) (Ux' : unitdq x').
  Let D : rq := hmul (dr x') (hconj (dr x)).
  Lemma apart_unit : unitq D.
  Proof. destruct Ux as [A _], Ux' as [B _]. unfold unitq, D. rewrite hnorm2_mul, hnorm2_conj, A, B. ring. Qed.
  Lemma apart_rot v : hrot (dr x') v = hrot D (hrot (dr x) v).
  Proof.
    destruct Ux as [A _], Ux' as [B _]. unfold D.
    rewrite hrot_mul; [|exact B|unfold unitq; now rewrite hnorm2_conj]. now rewrite hrot_conj_inv.
  Qed.
  (** a motion seen through both *)
  Lemma apart_axis m : unitdq m ->
    dist (dr (seen x m)) (dr (seen x' m)) = 2 * len3 (cross3 (qv D) (hrot (dr x) (qv (dr m)))).
  Proof.
    intros Um. rewrite <- hrot_moves by apply apart_unit. rewrite <- apart_rot, <- !seen_axis by easy.
    unfold dist. rewrite len3_sym, len3_pure. f_equal. apply rq_eq; cbn [hsub qv qs]; try reflexivity.
    rewrite !seen_scalar by easy. ring.
  Qed.
  Context (m n : rdq) (Um : unitdq m) (Un : unitdq n) (rho : R)
    (Hm : dist (dr (seen x m)) (dr (seen x' m)) <= rho) (Hn : dist (dr (seen x n)) (dr (seen x' n)) <= rho).
  Let c := len3 (cross3 (qv (dr m)) (qv (dr n))).
  Lemma hrot_cross q u v : unitq q -> cross3 (hrot q u) (hrot q v) = hrot q (cross3 u v).
  Proof.
    intros U. transitivity (vscale (hnorm2 q) (hrot q (cross3 u v))).
    - clear U. destruct q as [[] ?], u, v. apply rv_eq; specu; ring.
    - rewrite U. destruct (hrot q _). apply rv_eq; specu; ring.
  Qed.
  Lemma axis_le1 y : unitdq y -> len3 (hrot (dr x) (qv (dr y))) <= 1.
  Proof.
    intros [U _]. destruct Ux as [A _]. rewrite hrot_len by exact A. apply Rle_trans with (hnorm (dr y)); [apply len3_qv|].
    unfold hnorm. rewrite U, sqrt_1. lra.
  Qed.
  Lemma apart_c : len3 (cross3 (hrot (dr x) (qv (dr m))) (hrot (dr x) (qv (dr n)))) = c.
  Proof. destruct Ux as [A _]. rewrite hrot_cross, hrot_len by exact A. reflexivity. Qed.
  Lemma apart_D : c * len3 (qv D) <= rho.
  Proof.
    pose proof (cross_triangle (qv D) (hrot (dr x) (qv (dr m))) (hrot (dr x) (qv (dr n)))) as T. rewrite apart_c in T.
    rewrite apart_axis in Hm, Hn by easy.
    pose proof (axis_le1 m Um) as L1. pose proof (axis_le1 n Un) as L2.
    set (a := len3 (cross3 (qv D) (hrot (dr x) (qv (dr m))))) in *. set (b := len3 (cross3 (qv D) (hrot (dr x) (qv (dr n))))) in *.
    assert (0 <= a) by apply len3_pos. assert (0 <= b) by apply len3_pos.
    pose proof (len3_pos (hrot (dr x) (qv (dr m)))). pose proof (len3_pos (hrot (dr x) (qv (dr n)))). nra.
  Qed.
  Lemma apart_rotation v : c * len3 (vsub (hrot (dr x) v) (hrot (dr x') v)) <= 2 * rho * len3 v.
  Proof.
    rewrite apart_rot, len3_sym, hrot_moves by apply apart_unit.
    pose proof (cross_len (qv D) (hrot (dr x) v)) as C. rewrite (hrot_len (dr x)) in C by apply Ux.
    pose proof apart_D as A. assert (0 <= c) by apply len3_pos. pose proof (len3_pos v). nra.
  Qed.
  Context (P : R) (Pm : len3 (vsub (trans_of (seen x m)) (trans_of (seen x' m))) <= P)
    (Pn : len3 (vsub (trans_of (seen x n)) (trans_of (seen x' n))) <= P).
  Let u := vsub (trans_of x) (trans_of x').
  Lemma apart_step y : unitdq y -> dist (dr (seen x y)) (dr (seen x' y)) <= rho ->
    len3 (vsub (trans_of (seen x y)) (trans_of (seen x' y))) <= P ->
    c * (2 * len3 (cross3 u (hrot (dr x) (qv (dr y))))) <= c * (P + 2 * rho * len3 (trans_of x')) + 2 * rho * len3 (trans_of y).
  Proof.
    intros Uy Dy Py. pose proof (seen_unit x y Ux Uy) as [Us _]. pose proof (seen_unit x' y Ux' Uy) as [Us' _].
    set (Q := dr (seen x y)) in *. set (Q' := dr (seen x' y)) in *.
    assert (E : vsub u (hrot Q u) = vadd (vadd (vsub (trans_of (seen x y)) (trans_of (seen x' y))) (vsub (hrot (dr x') (trans_of y)) (hrot (dr x) (trans_of y))))
                                         (vsub (hrot Q (trans_of x')) (hrot Q' (trans_of x')))).
    { rewrite !seen_trans by easy. fold Q Q'. unfold u.
      replace (hrot Q (vsub (trans_of x) (trans_of x'))) with (vsub (hrot Q (trans_of x)) (hrot Q (trans_of x')))
        by (destruct Q as [[] ?], (trans_of x), (trans_of x'); apply rv_eq; specu; ring).
      destruct (hrot Q (trans_of x)), (hrot Q (trans_of x')), (hrot Q' (trans_of x')), (trans_of x), (trans_of x'), (hrot (dr x) (trans_of y)), (hrot (dr x') (trans_of y)).
      apply rv_eq; specu; ring. }
    assert (M : 2 * len3 (cross3 u (hrot (dr x) (qv (dr y)))) = len3 (vsub u (hrot Q u))).
    { rewrite len3_sym, hrot_moves by exact Us. unfold Q. rewrite seen_axis by easy. f_equal. unfold len3. f_equal.
      destruct u, (hrot (dr x) (qv (dr y))). specu. ring. }
    rewrite M, E. pose proof (apart_rotation (trans_of y)) as B. rewrite len3_sym in B.
    pose proof (hrot_near Q Q' (trans_of x') Us Us') as C.
    assert (C2 : 2 * dist Q Q' * len3 (trans_of x') <= 2 * rho * len3 (trans_of x')) by (pose proof (len3_pos (trans_of x')); nra).
    match goal with |- c * len3 (vadd (vadd ?a ?b) ?d) <= _ => pose proof (len3_triangle (vadd a b) d) as T1; pose proof (len3_triangle a b) as T2 end.
    assert (0 <= c) by apply len3_pos. nra.
  Qed.
  Lemma apart_translation :
    c * (c * len3 u) <= c * (P + 2 * rho * len3 (trans_of x')) + rho * (len3 (trans_of m) + len3 (trans_of n)).
  Proof.
    pose proof (apart_step m Um Hm Pm) as A. pose proof (apart_step n Un Hn Pn) as B.
    pose proof (cross_triangle u (hrot (dr x) (qv (dr m))) (hrot (dr x) (qv (dr n)))) as T. rewrite apart_c in T.
    pose proof (axis_le1 m Um) as L1. pose proof (axis_le1 n Un) as L2.
    pose proof (len3_pos (hrot (dr x) (qv (dr m)))) as K1. pose proof (len3_pos (hrot (dr x) (qv (dr n)))) as K2.
    set (a := len3 (cross3 u (hrot (dr x) (qv (dr m))))) in *. set (b := len3 (cross3 u (hrot (dr x) (qv (dr n))))) in *.
    assert (0 <= a) by apply len3_pos. assert (0 <= b) by apply len3_pos. assert (0 <= c) by apply len3_pos.
    assert (len3 u * c <= a + b) by nra. nra.
  Qed.
End Apart.
