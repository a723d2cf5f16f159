(** * Dual quaternions in double precision: conversion from poses, inversion, normalisation. *)

From Coq Require Import Reals ZArith Bool List Lra Lia Psatz.
From Flocq Require Import Core BinarySingleNaN.
From Verif Require Import Num Py Quat DualQuat HandEye F64 Spec QuatFacts F64Facts FloatFacts PropFloat FloatQuat.
Import ListNotations.
Local Open Scope R_scope.

(** the real numbers a vector, a dual quaternion of floats stands for *)
Definition valv {L} (v : @vec3 (F64 L)) : rv := RV (V (vx v)) (V (vy v)) (V (vz v)).
Definition vald {L} (d : @dquat (F64 L)) : rdq := RD (val (rot d)) (val (dual d)).
Definition finv {L} (v : @vec3 (F64 L)) : Prop := fin (vx v) /\ fin (vy v) /\ fin (vz v).

Lemma close_dist e p q : 0 <= e -> close_to e p q -> dist p q <= 2 * e.
Proof. intros E (A & B & C & D). now apply norm_components. Qed.
Lemma dist_close e p q : dist p q <= e -> close_to e p q.
Proof.
  intros H. destruct (component_le (hsub p q)) as (A & B & C & D). fold (dist p q) in A, B, C, D.
  split; [exact (Rle_trans _ _ _ A H)|]. split; [exact (Rle_trans _ _ _ B H)|]. split; [exact (Rle_trans _ _ _ C H)|exact (Rle_trans _ _ _ D H)].
Qed.
Lemma len_norm v : hnorm (RQ v 0) = len3 v.
Proof. unfold hnorm, hnorm2, hdot, len3. cbn [qv qs]. f_equal. ring. Qed.
Lemma len_norm_le v w : len3 v <= hnorm (RQ v w).
Proof. unfold hnorm, hnorm2, hdot, len3. cbn [qv qs]. apply sqrt_le_1_alt. nra. Qed.
Lemma direction_norm q : 0 < hnorm q -> hnorm (direction q) = 1.
Proof. intros H. unfold hnorm at 1. rewrite direction_unit by easy. apply sqrt_1. Qed.

Lemma half_V : fin (f_lit 5 (-1)) /\ V (f_lit 5 (-1)) = 1 / 2.
Proof.
  destruct (lit_V 5 1 ltac:(lia) ltac:(lia) ltac:(lia)) as [F E]. split; [exact F|]. change (Z.opp 1) with (Z.neg 1) in E. rewrite E. change (IZR (10 ^ 1)) with 10.
  replace (5 / 10) with (bpow radix2 (-1)) by (cbn; lra). replace (1 / 2) with (bpow radix2 (-1)) by (cbn; lra).
  apply round_generic; [apply valid_rnd_round_mode|]. apply generic_format_bpow. vm_compute. discriminate.
Qed.
(** multiplication of a quaternion by 1/2 and by 2 *)
Lemma scale_near {L} (q s : @quat (F64 L)) (c : f64) k : fin c -> V c = k -> 0 <= k <= 2 -> finq q -> hnorm (val q) <= M50 ->
  s = qscale (N:=F64 L) q c \/ s = qscale_l (N:=F64 L) c q ->
  finq s /\ dist (val s) (hscale k (val q)) <= 2 * u * (k * hnorm (val q)) + 2 * eta.
Proof.
  intros FC VC K (F1 & F2 & F3 & F4) B S. set (h := hnorm (val q)) in *. assert (H0 : 0 <= h) by apply hnorm_pos. pose proof big_huge as BH. pose proof eta_pos as EP. pose proof u_pos as UP.
  assert (KH : 0 <= k * h <= 2 * h) by (split; [apply Rmult_le_pos; lra|apply Rmult_le_compat_r; lra]). unfold M50 in B.
  assert (G : forall a : f64, fin a -> Rabs (V a) <= h ->
    (fin (Bmult mode_NE a c) /\ Rabs (V (Bmult mode_NE a c) - k * V a) <= u * (k * h) + eta) /\
    (fin (Bmult mode_NE c a) /\ Rabs (V (Bmult mode_NE c a) - k * V a) <= u * (k * h) + eta)).
  { intros a FA HA. assert (H : Rabs (k * V a) <= k * h) by (rewrite Rabs_mult, (Rabs_pos_eq k) by lra; apply Rmult_le_compat_l; lra).
    pose proof (rnd_within _ _ H) as R.
    split.
    - destruct (mul_ok a c FA FC) as [F E]; rewrite VC, (Rmult_comm (V a) k) in *; [lra|]. split; [exact F|]. rewrite E. absle; lra.
    - destruct (mul_ok c a FC FA) as [F E]; rewrite VC in *; [lra|]. split; [exact F|]. rewrite E. absle; lra. }
  destruct (component_le (val q)) as (x & y & z & w). fold h in x, y, z, w. cbn [val qv qs v1 v2 v3] in x, y, z, w.
  destruct (G _ F1 x) as [[A1 B1] [C1 D1]]. destruct (G _ F2 y) as [[A2 B2] [C2 D2]]. destruct (G _ F3 z) as [[A3 B3] [C3 D3]]. destruct (G _ F4 w) as [[A4 B4] [C4 D4]]. clear G.
  assert (UK : 0 <= u * (k * h)) by (apply Rmult_le_pos; lra).
  replace (2 * u * (k * h) + 2 * eta) with (2 * (u * (k * h) + eta)) by ring.
  destruct S as [-> | ->].
  - split; [exact (conj A1 (conj A2 (conj A3 A4)))|]. unfold dist. apply norm_components; [lra|exact B1|exact B2|exact B3|exact B4].
  - split; [exact (conj C1 (conj C2 (conj C3 C4)))|]. unfold dist. apply norm_components; [lra|exact D1|exact D2|exact D3|exact D4].
Qed.

(** a quaternion that [normalize] can handle: finite norm above the threshold *)
Definition normal {L} (q : @quat (F64 L)) : Prop := isfin (Num:=F64 L) (qnorm q) = true /\ ltb (Num:=F64 L) (lit (Num:=F64 L) 1 (-8)) (qnorm q) = true.
Lemma normal_pos {L} (q : @quat (F64 L)) : normal q -> 0 < hnorm (val q).
Proof. intros [F G]. destruct (norm_error q F G) as (_ & H & _). lra. Qed.
Definition e25 : R := 10000000000000000000000000.
Lemma from_pose_near {L} (p : @vec3 (F64 L)) (q : @quat (F64 L)) : finv p -> len3 (valv p) <= e25 -> normal q ->
  let x := from_pose p q in let d := direction (val q) in
  finq (rot x) /\ finq (dual x) /\ dist (val (rot x)) d <= 6 / 1000000000000000 /\
  dist (val (dual x)) (dd (dq_of d (valv p))) <= 5 / 1000000000000000 * len3 (valv p) + 22 * eta.
Proof.
  intros (P1 & P2 & P3) PL NQ x d. destruct (C70_normalize L q (proj1 NQ) (proj2 NQ)) as (FR & CR & _). fold d in CR.
  assert (DN : hnorm d = 1) by (apply direction_norm; now apply normal_pos).
  assert (DR : dist (val (qnormalize q)) d <= 6 / 1000000000000000) by (eapply Rle_trans; [apply close_dist; [|exact CR]|]; lra).
  change (rot x) with (qnormalize q). set (r := qnormalize q) in *.
  set (pq := mkQ (vx p) (vy p) (vz p) (n0 (N:=F64 L))).
  destruct (of_Z_V 0 ltac:(lia)) as [F0 V0].
  assert (FP : finq pq) by exact (conj P1 (conj P2 (conj P3 F0))).
  assert (VP : val pq = RQ (valv p) 0). { unfold val, valv. cbn [pq qx qy qz qw]. change (V (n0 (N:=F64 L))) with (V (f_of_Z 0)). now rewrite V0. }
  assert (NP : hnorm (val pq) = len3 (valv p)) by (rewrite VP; apply len_norm).
  set (m := len3 (valv p)) in *. assert (M0 : 0 <= m) by apply sqrt_pos. unfold e25 in PL.
  assert (NR : hnorm (val r) <= 1 + 6 / 1000000000000000) by (eapply Rle_trans; [apply (dist_norm _ d)|]; lra).
  assert (MR : m * hnorm (val r) <= m * (1 + 6 / 1000000000000000)) by (apply Rmult_le_compat_l; lra).
  destruct (qmul_near pq r FP FR) as [FM DM]; [rewrite NP; unfold M50; lra|]. rewrite NP in DM.
  set (t := qmul pq r) in *.
  assert (DT : dist (val t) (hmul (RQ (valv p) 0) d) <= 8001 / 1000000000000000000 * m + 20 * eta).
  { eapply Rle_trans; [apply (dist_triangle _ (hmul (val pq) (val r)))|]. rewrite VP at 2. rewrite dist_mul_l, len_norm. fold m.
    assert (m * dist (val r) d <= m * (6 / 1000000000000000)) by (apply Rmult_le_compat_l; lra). lra. }
  assert (NT : hnorm (val t) <= 2 * m + 20 * eta).
  { eapply Rle_trans; [apply (dist_norm _ (hmul (RQ (valv p) 0) d))|]. rewrite hnorm_mul, len_norm, DN. fold m. lra. }
  destruct half_V as [FH VH].
  destruct (scale_near t (dual x) (f_lit 5 (-1)) (1 / 2) FH VH ltac:(lra) FM) as [FS DS]; [unfold M50; nums; lra|left; reflexivity|].
  split; [exact FR|]. split; [exact FS|]. split; [exact DR|].
  eapply Rle_trans; [apply (dist_triangle _ (hscale (1 / 2) (val t)))|]. cbn [dq_of dd]. rewrite dist_scale by lra.
  assert (u * (1 / 2 * hnorm (val t)) <= u * (1 / 2 * (2 * m + 20 * eta))) by (apply Rmult_le_compat_l; [left; apply u_pos|lra]).
  pose proof eta_pos. nums. lra.
Qed.

(** ** The product of an inverse and the dual quaternion itself *)
Lemma cancel_zero x t : hzero = hadd (hmul x t) (hmul (hmul (hneg x) t) hone).
Proof. rewrite hmul_1_r. qr. Qed.
Lemma dist_zero x : dist x hzero = hnorm x.
Proof. unfold dist. f_equal. qr. Qed.
Lemma inverse_product {L} (r t : @quat (F64 L)) K : finq r -> finq t -> Rabs (hnorm (val r) - 1) <= 1 / 10000000000000 ->
  hnorm (val t) <= K -> K <= e25 ->
  let i := qinv r in
  let c := qmul (qmul (qneg i) t) i in
  let s := qadd (qmul i t) (qmul c r) in
  finq i /\ dist (val i) (hscale (/ hnorm2 (val r)) (hconj (val r))) <= 31 / 10000000000000000 /\
  finq (qmul i r) /\ dist (val (qmul i r)) hone <= 6 / 1000000000000000 /\
  finq s /\ hnorm (val s) <= 13 / 1000000000000000 * K + 1000 * eta.
Proof.
  intros FR FT NR NT KB i c s. unfold e25 in KB. pose proof (hnorm_pos (val t)) as T0. pose proof eta_pos as EP.
  apply Rabs_le_inv in NR. set (h := hnorm (val r)) in *.
  assert (HH : h * h = hnorm2 (val r)) by apply hnorm_sqr.
  assert (H2 : 1 / 4 <= hnorm2 (val r) <= 4) by (rewrite <- HH; nra).
  destruct (qinv_near r FR H2) as [FI DI]. fold i h in FI, DI.
  set (i0 := hscale (/ hnorm2 (val r)) (hconj (val r))) in *.
  assert (HI : / h <= 1 + 2 / 10000000000000).
  { apply Rmult_le_reg_r with h; [lra|]. rewrite Rinv_l by lra. nra. }
  assert (DI' : dist (val i) i0 <= 31 / 10000000000000000) by (eapply Rle_trans; [exact DI|]; unfold Rdiv; lra).
  assert (NI0 : hnorm i0 = / h).
  { unfold i0. rewrite hnorm_scale by (left; apply Rinv_0_lt_compat; lra). rewrite hnorm_conj. fold h. rewrite <- HH. field. lra. }
  assert (NI : hnorm (val i) <= 1 + 3 / 10000000000000) by (eapply Rle_trans; [apply (dist_norm _ i0)|]; lra).
  assert (NIp := hnorm_pos (val i)).
  assert (IR : hmul i0 (val r) = hone) by (apply hmul_inv_l; lra).
  assert (B1 : hnorm (val i) * h <= 1 + 5 / 10000000000000) by (apply Rle_trans with ((1 + 3 / 10000000000000) * (1 + 1 / 10000000000000)); [apply Rmult_le_compat; lra|lra]).
  destruct (qmul_near i r FI FR) as [FIR DIR]; [fold h; unfold M50; lra|]. fold h in DIR.
  assert (DE : dist (hmul (val i) (val r)) hone <= 32 / 10000000000000000).
  { rewrite <- IR, dist_mul_r. fold h. apply Rle_trans with (31 / 10000000000000000 * (1 + 1 / 10000000000000)); [apply Rmult_le_compat; try lra; apply dist_pos|lra]. }
  split; [exact FI|]. split; [exact DI'|]. split; [exact FIR|]. split.
  { eapply Rle_trans; [apply (dist_triangle _ (hmul (val i) (val r)))|]. nums. lra. }
  (* the dual part *)
  set (k := 1 + 1 / 1000000000000).
  assert (Ka : hnorm (val i) * hnorm (val t) <= k * K) by (apply Rmult_le_compat; unfold k; lra).
  destruct (qmul_near i t FI FT) as [FA DA]; [unfold M50, k in *; lra|]. set (a := qmul i t) in *.
  destruct (finq_neg i FI) as [FN VN].
  destruct (qmul_near (qneg i) t FN FT) as [FB DB]; [rewrite VN, hnorm_neg; unfold M50, k in *; lra|]. set (b := qmul (qneg i) t) in *. rewrite VN, hnorm_neg in DB.
  set (E1 := 2 / 1000000000000000 * (k * K) + 20 * eta).
  assert (DA' : dist (val a) (hmul (val i) (val t)) <= E1) by (unfold E1; lra).
  assert (DB' : dist (val b) (hmul (hneg (val i)) (val t)) <= E1) by (unfold E1; lra).
  assert (NB : hnorm (val b) <= k * K + E1).
  { eapply Rle_trans; [apply (dist_norm _ (hmul (hneg (val i)) (val t)))|]. rewrite hnorm_mul, hnorm_neg. lra. }
  assert (NBp := hnorm_pos (val b)).
  assert (Kb : hnorm (val b) * hnorm (val i) <= k * (k * K + E1)) by (rewrite Rmult_comm; apply Rmult_le_compat; unfold k in *; lra).
  destruct (qmul_near b i FB FI) as [FC DC]; [eapply Rle_trans; [exact Kb|]; unfold M50, E1, k; clear - KB; nums; lra|]. fold c in FC, DC.
  set (E2 := 2 / 1000000000000000 * (k * (k * K + E1)) + 20 * eta).
  assert (DC' : dist (val c) (hmul (val b) (val i)) <= E2) by (unfold E2; lra).
  assert (NC : hnorm (val c) <= k * (k * K + E1) + E2).
  { eapply Rle_trans; [apply (dist_norm _ (hmul (val b) (val i)))|]. rewrite hnorm_mul. lra. }
  assert (NCp := hnorm_pos (val c)).
  assert (Kc : hnorm (val c) * h <= k * (k * (k * K + E1) + E2)) by (rewrite Rmult_comm; apply Rmult_le_compat; unfold k in *; lra).
  destruct (qmul_near c r FC FR) as [FD DD]; [fold h; eapply Rle_trans; [exact Kc|]; unfold M50, E2, E1, k; clear - KB; nums; lra|]. fold h in DD. set (d := qmul c r) in *.
  set (E3 := 2 / 1000000000000000 * (k * (k * (k * K + E1) + E2)) + 20 * eta).
  assert (DD' : dist (val d) (hmul (val c) (val r)) <= E3) by (unfold E3; lra).
  (* the exact expression *)
  set (z := hmul (hmul (hneg (val i)) (val t)) (hmul (val i) (val r))).
  assert (DZ : dist (hadd (hmul (val i) (val t)) z) hzero <= k * K * (32 / 10000000000000000)).
  { rewrite (cancel_zero (val i) (val t)). unfold z.
    eapply Rle_trans; [apply dist_add|]. rewrite dist_refl, dist_mul_l, hnorm_mul, hnorm_neg.
    rewrite Rplus_0_l. apply Rmult_le_compat; try lra; [apply Rmult_le_pos; lra|apply dist_pos]. }
  assert (DCD : dist (hmul (val c) (val r)) z <= E2 * k + E1 * k * k).
  { eapply Rle_trans; [apply (dist_triangle _ (hmul (hmul (val b) (val i)) (val r)))|]. rewrite dist_mul_r. fold h. unfold z. rewrite hmul_assoc, dist_mul_r, hnorm_mul. fold h.
    apply Rplus_le_compat; [apply Rmult_le_compat; try lra; [apply dist_pos|unfold k; lra]|].
    rewrite Rmult_assoc. apply Rmult_le_compat; try lra; [apply dist_pos|apply Rmult_le_pos; lra|apply Rmult_le_compat; unfold k; lra]. }
  assert (DS : dist (hadd (val a) (val d)) hzero <= E1 + E3 + E2 * k + E1 * k * k + k * K * (32 / 10000000000000000)).
  { eapply Rle_trans; [apply (dist_triangle _ (hadd (hmul (val i) (val t)) z))|]. pose proof (dist_add (val a) (hmul (val i) (val t)) (val d) z) as H.
    pose proof (dist_triangle (val d) (hmul (val c) (val r)) z). lra. }
  assert (NS : hnorm (hadd (val a) (val d)) <= 12 / 1000000000000000 * K + 900 * eta).
  { rewrite dist_zero in DS.
    eapply Rle_trans; [exact DS|]. assert (K0 : 0 <= K) by lra. unfold E3, E2, E1, k. clear - K0. nums. lra. }
  assert (NA : hnorm (val a) <= k * K + E1) by (eapply Rle_trans; [apply (dist_norm _ (hmul (val i) (val t)))|]; rewrite hnorm_mul; lra).
  assert (ND : hnorm (val d) <= k * (k * (k * K + E1) + E2) + E3) by (eapply Rle_trans; [apply (dist_norm _ (hmul (val c) (val r)))|]; rewrite hnorm_mul; fold h; lra).
  destruct (qadd_near a d FA FD) as [FS DS']; [eapply Rle_trans; [apply (Rplus_le_compat _ _ _ _ NA ND)|]; unfold M50, E3, E2, E1, k; clear - KB; nums; lra|].
  split; [exact FS|]. change s with (qadd a d).
  eapply Rle_trans; [apply (dist_norm _ (hadd (val a) (val d)))|].
  assert (u * hnorm (hadd (val a) (val d)) <= u * (12 / 1000000000000000 * K + 900 * eta)) by (apply Rmult_le_compat_l; [left; apply u_pos|easy]).
  nums. lra.
Qed.

(** ** Floating-point dual quaternions that approximate an exact one *)
(** rotation part within e, dual part within f (Euclidean norms) *)
Definition approx {L} (e f : R) (d : @dquat (F64 L)) (D : rdq) : Prop :=
  finq (rot d) /\ finq (dual d) /\ dist (val (rot d)) (dr D) <= e /\ dist (val (dual d)) (dd D) <= f.
Lemma approx_weaken {L} e f e' f' (d : @dquat (F64 L)) D : approx e f d D -> e <= e' -> f <= f' -> approx e' f' d D.
Proof. intros (A & B & C & E) H1 H2. split; [exact A|]. split; [exact B|]. split; lra. Qed.
Lemma approx_neg {L} e f (d : @dquat (F64 L)) D : approx e f d D -> approx e f (dneg d) (dqneg D).
Proof.
  intros (A & B & C & E). destruct (finq_neg _ A) as [A1 A2]. destruct (finq_neg _ B) as [B1 B2]. unfold approx. cbn [dneg dqneg rot dual dr dd].
  rewrite A2, B2, !dist_neg. now split.
Qed.
Definition tol3 : R := 3 / 1000000000000000.
Lemma dmul_approx {L} (a b : @dquat (F64 L)) A B e f e' f' P Q :
  approx e f a A -> approx e' f' b B -> hnorm (dr A) = 1 -> hnorm (dr B) = 1 -> hnorm (dd A) <= P -> hnorm (dd B) <= Q ->
  e <= 1 / 1000000 -> e' <= 1 / 1000000 -> P + f <= e25 -> Q + f' <= e25 ->
  approx (e + e' + e * e' + tol3) (f + f' + (e + tol3) * (Q + f') + (e' + tol3) * (P + f) + 100 * eta) (dmul a b) (dqmul A B).
Proof.
  intros (FA & FA' & DA & DA') (FB & FB' & DB & DB') NA NB NP NQ E0 E0' BP BQ. unfold tol3, e25 in *. pose proof eta_pos as EP.
  assert (e0 : 0 <= e) by (eapply Rle_trans; [apply dist_pos|exact DA]). assert (e0' : 0 <= e') by (eapply Rle_trans; [apply dist_pos|exact DB]).
  assert (f0 : 0 <= f) by (eapply Rle_trans; [apply dist_pos|exact DA']). assert (f0' : 0 <= f') by (eapply Rle_trans; [apply dist_pos|exact DB']).
  assert (P0 : 0 <= P) by (eapply Rle_trans; [apply hnorm_pos|exact NP]). assert (Q0 : 0 <= Q) by (eapply Rle_trans; [apply hnorm_pos|exact NQ]).
  assert (Na : hnorm (val (rot a)) <= 1 + e) by (eapply Rle_trans; [apply (dist_norm _ (dr A))|]; lra).
  assert (Nb : hnorm (val (rot b)) <= 1 + e') by (eapply Rle_trans; [apply (dist_norm _ (dr B))|]; lra).
  assert (Na' : hnorm (val (dual a)) <= P + f) by (eapply Rle_trans; [apply (dist_norm _ (dd A))|]; lra).
  assert (Nb' : hnorm (val (dual b)) <= Q + f') by (eapply Rle_trans; [apply (dist_norm _ (dd B))|]; lra).
  pose proof (hnorm_pos (val (rot a))). pose proof (hnorm_pos (val (rot b))). pose proof (hnorm_pos (val (dual a))). pose proof (hnorm_pos (val (dual b))).
  set (S := P + f) in *. set (S' := Q + f') in *. assert (S0 : 0 <= S) by (unfold S; lra). assert (S0' : 0 <= S') by (unfold S'; lra).
  set (k := 1 + 1 / 1000000).
  assert (M1 : hnorm (val (rot a)) * hnorm (val (rot b)) <= k * k) by (apply Rmult_le_compat; unfold k; lra).
  assert (M2 : hnorm (val (rot a)) * hnorm (val (dual b)) <= k * S') by (apply Rmult_le_compat; unfold k; lra).
  assert (M3 : hnorm (val (dual a)) * hnorm (val (rot b)) <= k * S) by (rewrite Rmult_comm; apply Rmult_le_compat; unfold k; lra).
  destruct (qmul_near (rot a) (rot b) FA FB) as [F1 D1]; [unfold M50, k in *; lra|].
  destruct (qmul_near (rot a) (dual b) FA FB') as [F2 D2]; [unfold M50, k in *; lra|].
  destruct (qmul_near (dual a) (rot b) FA' FB) as [F3 D3]; [unfold M50, k in *; lra|].
  set (x := qmul (rot a) (dual b)) in *. set (y := qmul (dual a) (rot b)) in *.
  assert (T1 : dist (hmul (val (rot a)) (val (rot b))) (hmul (dr A) (dr B)) <= e + e' + e * e').
  { eapply Rle_trans; [apply (dist_triangle _ (hmul (val (rot a)) (dr B)))|]. rewrite dist_mul_l, dist_mul_r, NB.
    assert (hnorm (val (rot a)) * dist (val (rot b)) (dr B) <= (1 + e) * e') by (apply Rmult_le_compat; try lra; apply dist_pos). lra. }
  assert (T2 : dist (hmul (val (rot a)) (val (dual b))) (hmul (dr A) (dd B)) <= f' + e * S').
  { eapply Rle_trans; [apply (dist_triangle _ (hmul (val (rot a)) (dd B)))|]. rewrite dist_mul_l, dist_mul_r.
    assert (hnorm (val (rot a)) * dist (val (dual b)) (dd B) <= (1 + e) * f') by (apply Rmult_le_compat; try lra; apply dist_pos).
    assert (dist (val (rot a)) (dr A) * hnorm (dd B) <= e * Q) by (apply Rmult_le_compat; try lra; [apply dist_pos|apply hnorm_pos]). unfold S'. lra. }
  assert (T3 : dist (hmul (val (dual a)) (val (rot b))) (hmul (dd A) (dr B)) <= f + e' * S).
  { eapply Rle_trans; [apply (dist_triangle _ (hmul (dd A) (val (rot b))))|]. rewrite dist_mul_l, dist_mul_r.
    assert (dist (val (dual a)) (dd A) * hnorm (val (rot b)) <= f * (1 + e')) by (apply Rmult_le_compat; try lra; apply dist_pos).
    assert (hnorm (dd A) * dist (val (rot b)) (dr B) <= P * e') by (apply Rmult_le_compat; try lra; [apply hnorm_pos|apply dist_pos]). unfold S. lra. }
  assert (X1 : dist (val x) (hmul (dr A) (dd B)) <= f' + e * S' + 21 / 10000000000000000 * S' + 20 * eta).
  { eapply Rle_trans; [apply (dist_triangle _ (hmul (val (rot a)) (val (dual b))))|]. clear - D2 T2 M2 S0'. unfold k in *. lra. }
  assert (Y1 : dist (val y) (hmul (dd A) (dr B)) <= f + e' * S + 21 / 10000000000000000 * S + 20 * eta).
  { eapply Rle_trans; [apply (dist_triangle _ (hmul (val (dual a)) (val (rot b))))|]. clear - D3 T3 M3 S0. unfold k in *. lra. }
  assert (NX : hnorm (val x) <= 2 * S' + 20 * eta).
  { eapply Rle_trans; [apply (dist_norm _ (hmul (val (rot a)) (val (dual b))))|]. rewrite hnorm_mul. clear - D2 M2 S0'. unfold k in *. lra. }
  assert (NY : hnorm (val y) <= 2 * S + 20 * eta).
  { eapply Rle_trans; [apply (dist_norm _ (hmul (val (dual a)) (val (rot b))))|]. rewrite hnorm_mul. clear - D3 M3 S0. unfold k in *. lra. }
  destruct (qadd_near x y F2 F3) as [FS DS]; [unfold M50; clear - NX NY BP BQ; nums; lra|].
  assert (NS : u * hnorm (hadd (val x) (val y)) <= u * (2 * S + 2 * S' + 40 * eta)).
  { apply Rmult_le_compat_l; [left; apply u_pos|]. eapply Rle_trans; [apply hnorm_triangle|]. lra. }
  unfold approx. cbn [dmul rot dual dqmul dr dd]. fold x y. split; [exact F1|]. split; [exact FS|]. split.
  - eapply Rle_trans; [apply (dist_triangle _ (hmul (val (rot a)) (val (rot b))))|]. clear - D1 T1 M1. unfold k in *. nums. lra.
  - eapply Rle_trans; [apply (dist_triangle _ (hadd (val x) (val y)))|]. pose proof (dist_add (val x) (hmul (dr A) (dd B)) (val y) (hmul (dd A) (dr B))) as DD.
    set (eS := e * S') in *. set (eS' := e' * S) in *. replace ((e + 3 / 1000000000000000) * S') with (eS + 3 / 1000000000000000 * S') by (unfold eS; ring). replace ((e' + 3 / 1000000000000000) * S) with (eS' + 3 / 1000000000000000 * S) by (unfold eS'; ring).
    clearbody eS eS'. clear - DS NS DD X1 Y1 S0 S0'. nums. lra.
Qed.
(** the norm of the rotation part *)
Lemma approx_norm {L} e f (d : @dquat (F64 L)) D : approx e f d D -> hnorm (dr D) = 1 -> Rabs (hnorm (val (rot d)) - 1) <= e.
Proof.
  intros (_ & _ & H & _) N. pose proof (dist_norm (val (rot d)) (dr D)) as A. pose proof (dist_norm (dr D) (val (rot d))) as B. rewrite dist_sym in B. absle; lra.
Qed.
Lemma norm_range h e : Rabs (h - 1) <= e -> e <= 1 / 1000000 -> 1 / 4 <= h * h <= 4.
Proof. intros H E. apply Rabs_le_inv in H. nra. Qed.
Lemma lit_lt {L} (q : @quat (F64 L)) : fin (qnorm q) -> 1 / 2 <= V (qnorm q) -> ltb (lit (Num:=F64 L) 1 (-8)) (qnorm q) = true.
Proof. intros F B. destruct lit_8 as [F8 B8]. change (Bltb (f_lit 1 (-8)) (qnorm q) = true). apply ltb_V; [exact F8|exact F|lra]. Qed.
Lemma rot_normal {L} e f (d : @dquat (F64 L)) D : approx e f d D -> hnorm (dr D) = 1 -> e <= 1 / 1000000 ->
  normal (rot d) /\ Rabs (V (qnorm (rot d)) - hnorm (val (rot d))) <= 2 / 1000000000000000 * hnorm (val (rot d)).
Proof.
  intros A N E. pose proof (approx_norm e f d D A N) as H. pose proof (norm_range _ _ H E) as R. rewrite hnorm_sqr in R.
  destruct (norm_near (rot d) (proj1 A) R) as (_ & F & B). split; [|exact B]. split; [exact F|]. apply lit_lt; [exact F|].
  apply Rabs_le_inv in H, B. lra.
Qed.
Lemma dnorm_approx {L} e f (d : @dquat (F64 L)) D : approx e f d D -> hnorm (dr D) = 1 -> e <= 1 / 1000000 -> exists z, dnorm d = Ok (qnorm (rot d), z).
Proof. intros A N E. destruct (rot_normal e f d D A N E) as [[_ G] _]. unfold dnorm. rewrite G. eexists. reflexivity. Qed.

Lemma dinv_approx {L} (a : @dquat (F64 L)) A e f P :
  approx e f a A -> hnorm (dr A) = 1 -> hnorm (dd A) <= P -> e <= 1 / 1000000 -> P + f <= e25 ->
  exists i, dinv a = Ok i /\ i = mkDQ (qinv (rot a)) (qmul (qmul (qneg (qinv (rot a))) (dual a)) (qinv (rot a))) /\
    approx (e + 2 * e * e + 4 / 1000000000000000) (f + 4 * (e + 4 / 1000000000000000) * (P + f) + 100 * eta) i
      (RD (hconj (dr A)) (hmul (hmul (hneg (hconj (dr A))) (dd A)) (hconj (dr A)))).
Proof.
  intros AP NA NP E0 BP. pose proof AP as (FA & FA' & DA & DA'). unfold e25 in *. pose proof eta_pos as EP.
  assert (e0 : 0 <= e) by (eapply Rle_trans; [apply dist_pos|exact DA]).
  assert (f0 : 0 <= f) by (eapply Rle_trans; [apply dist_pos|exact DA']).
  assert (P0 : 0 <= P) by (eapply Rle_trans; [apply hnorm_pos|exact NP]).
  destruct (rot_normal e f a A AP NA E0) as [[FN GN] _]. destruct (dnorm_approx e f a A AP NA E0) as [z EZ].
  eexists. split; [unfold dinv; rewrite EZ; cbn [bind fst]; rewrite GN; reflexivity|]. split; [reflexivity|].
  pose proof (approx_norm e f a A AP NA) as H. pose proof (norm_range _ _ H E0) as R. rewrite hnorm_sqr in R. apply Rabs_le_inv in H.
  set (r := rot a) in *. set (t := dual a) in *. set (h := hnorm (val r)) in *.
  destruct (qinv_near r FA R) as [FI DI]. fold h in DI. set (i := qinv r) in *. set (i0 := hscale (/ hnorm2 (val r)) (hconj (val r))) in *.
  assert (HI : / h <= 1 + 11 / 10 * e).
  { apply Rmult_le_reg_r with h; [lra|]. rewrite Rinv_l by lra. nra. }
  assert (NI0 : hnorm i0 = / h).
  { unfold i0. rewrite hnorm_scale by (left; apply Rinv_0_lt_compat; lra). rewrite hnorm_conj. fold h. rewrite <- hnorm_sqr. fold h. field. lra. }
  assert (D0 : dist i0 (hconj (dr A)) <= (1 + 11 / 10 * e) * e).
  { assert (IR : hmul i0 (val r) = hone) by (apply hmul_inv_l; lra).
    assert (AR : hmul (dr A) (hconj (dr A)) = hone) by (apply unit_conj_r; now apply unit_hnorm).
    replace i0 with (hmul i0 (hmul (dr A) (hconj (dr A)))) by (rewrite AR; apply hmul_1_r).
    replace (hconj (dr A)) with (hmul (hmul i0 (val r)) (hconj (dr A))) at 2 by (rewrite IR; apply hmul_1_l).
    rewrite hmul_assoc, dist_mul_l, dist_mul_r, hnorm_conj, NA, NI0, Rmult_1_r, dist_sym.
    apply Rmult_le_compat; try lra; [left; apply Rinv_0_lt_compat; lra|apply dist_pos]. }
  assert (DI' : dist (val i) i0 <= 31 / 10000000000000000) by (eapply Rle_trans; [exact DI|]; unfold Rdiv; lra).
  set (g := e + 2 * e * e + 4 / 1000000000000000).
  assert (G : dist (val i) (hconj (dr A)) <= g).
  { eapply Rle_trans; [apply (dist_triangle _ i0)|]. unfold g. nra. }
  assert (g0 : 0 <= g <= 2 / 1000000) by (unfold g; nra).
  assert (NC : hnorm (hconj (dr A)) = 1) by (rewrite hnorm_conj; exact NA). set (c := hconj (dr A)) in *.
  set (S := P + f) in *. assert (S0 : 0 <= S) by (unfold S; lra). set (k := 1 + 3 / 1000000).
  assert (Ni : hnorm (val i) <= 1 + g) by (eapply Rle_trans; [apply (dist_norm _ c)|]; lra). pose proof (hnorm_pos (val i)) as Ni0.
  assert (Nt : hnorm (val t) <= S) by (eapply Rle_trans; [apply (dist_norm _ (dd A))|]; unfold S; lra). pose proof (hnorm_pos (val t)) as Nt0.
  destruct (finq_neg i FI) as [FN' VN].
  assert (M1 : hnorm (val (qneg i)) * hnorm (val t) <= k * S) by (rewrite VN, hnorm_neg; apply Rmult_le_compat; unfold k; lra).
  destruct (qmul_near (qneg i) t FN' FA') as [FB DB]; [unfold M50, k, S in *; lra|]. set (b := qmul (qneg i) t) in *.
  assert (T1 : dist (hmul (val (qneg i)) (val t)) (hmul (hneg c) (dd A)) <= f + g * S).
  { rewrite VN. eapply Rle_trans; [apply (dist_triangle _ (hmul (hneg (val i)) (dd A)))|]. rewrite dist_mul_l, dist_mul_r, hnorm_neg, dist_neg.
    assert (hnorm (val i) * dist (val t) (dd A) <= (1 + g) * f) by (apply Rmult_le_compat; try lra; apply dist_pos).
    assert (dist (val i) c * hnorm (dd A) <= g * P) by (apply Rmult_le_compat; try lra; [apply dist_pos|apply hnorm_pos]). unfold S. lra. }
  assert (B1 : dist (val b) (hmul (hneg c) (dd A)) <= f + g * S + 21 / 10000000000000000 * S + 20 * eta).
  { eapply Rle_trans; [apply (dist_triangle _ (hmul (val (qneg i)) (val t)))|]. clear - DB T1 M1 S0. unfold k in *. lra. }
  assert (Nb : hnorm (val b) <= (1 + 4 / 1000000) * S + 20 * eta).
  { eapply Rle_trans; [apply (dist_norm _ (hmul (val (qneg i)) (val t)))|]. rewrite hnorm_mul. clear - DB M1 S0. unfold k in *. lra. }
  pose proof (hnorm_pos (val b)) as Nb0.
  assert (M2 : hnorm (val b) * hnorm (val i) <= ((1 + 4 / 1000000) * S + 20 * eta) * k) by (apply Rmult_le_compat; unfold k; lra).
  destruct (qmul_near b i FB FI) as [FC DC]; [eapply Rle_trans; [exact M2|]; unfold M50, k, S; clear - BP; unfold S in *; nums; lra|].
  unfold approx. cbn [rot dual dr dd]. split; [exact FI|]. split; [exact FC|]. split; [exact G|].
  eapply Rle_trans; [apply (dist_triangle _ (hmul (val b) (val i)))|].
  assert (T2 : dist (hmul (val b) (val i)) (hmul (hmul (hneg c) (dd A)) c) <= g * ((1 + 4 / 1000000) * S + 20 * eta) + (f + g * S + 21 / 10000000000000000 * S + 20 * eta)).
  { eapply Rle_trans; [apply (dist_triangle _ (hmul (val b) c))|]. rewrite dist_mul_l, dist_mul_r, NC, Rmult_1_r. rewrite Rmult_comm.
    apply Rplus_le_compat; [apply Rmult_le_compat; try lra; apply dist_pos|exact B1]. }
  set (gS := g * S) in *. assert (GS : gS <= (1 + 3 / 1000000) * (e + 4 / 1000000000000000) * S).
  { unfold gS. apply Rmult_le_compat_r; [exact S0|]. unfold g. nra. }
  replace (g * ((1 + 4 / 1000000) * S + 20 * eta)) with ((1 + 4 / 1000000) * gS + g * (20 * eta)) in T2 by (unfold gS; ring).
  assert (GE : g * (20 * eta) <= 1 * (20 * eta)) by (apply Rmult_le_compat_r; lra).
  set (eS := (e + 4 / 1000000000000000) * S) in *. assert (ES : 4 / 1000000000000000 * S <= eS) by (unfold eS; apply Rmult_le_compat_r; lra).
  replace ((1 + 3 / 1000000) * (e + 4 / 1000000000000000) * S) with ((1 + 3 / 1000000) * eS) in GS by (unfold eS; ring).
  replace (4 * (e + 4 / 1000000000000000) * S) with (4 * eS) by (unfold eS; ring). clearbody gS eS.
  clear - DC M2 T2 GS GE S0 ES EP. unfold k in *. lra.
Qed.

(** ** Normalisation and conversion to a pose *)
Lemma dnormalize_approx {L} (a : @dquat (F64 L)) A e f P :
  approx e f a A -> hnorm (dr A) = 1 -> hnorm (dd A) <= P -> e <= 1 / 1000000 -> P + f <= e25 ->
  approx (2 * e + 6 / 1000000000000000) (f + (2 * e + 5 / 1000000000000000) * (P + f) + 2 * eta) (dnormalize a) A /\
  fin (qnorm (rot (dnormalize a))) /\ Rabs (V (qnorm (rot (dnormalize a))) - 1) <= 1 / 10000000000000 /\ is_unit_ (rot (dnormalize a)) = true.
Proof.
  intros AP NA NP E0 BP. pose proof AP as (FA & FA' & DA & DA'). unfold e25 in *.
  assert (e0 : 0 <= e) by (eapply Rle_trans; [apply dist_pos|exact DA]).
  assert (f0 : 0 <= f) by (eapply Rle_trans; [apply dist_pos|exact DA']).
  assert (P0 : 0 <= P) by (eapply Rle_trans; [apply hnorm_pos|exact NP]).
  destruct (rot_normal e f a A AP NA E0) as [[FN GN] DN]. pose proof (approx_norm e f a A AP NA) as H. apply Rabs_le_inv in H.
  destruct (C70_divided L (rot a) FN GN) as (F1 & C1 & F2 & D2 & U).
  set (h := hnorm (val (rot a))) in *. set (S := P + f) in *. assert (S0 : 0 <= S) by (unfold S; lra).
  assert (Nt : hnorm (val (dual a)) <= S) by (eapply Rle_trans; [apply (dist_norm _ (dd A))|]; unfold S; lra). pose proof (hnorm_pos (val (dual a))) as Nt0.
  destruct (qdivs_near (dual a) (qnorm (rot a)) (2 / 1000000000000000) h FA') as [F3 D3]; [unfold M50, S in *; lra|lra|lra|exact DN|].
  split; [|exact (conj F2 (conj D2 U))].
  assert (HI : 1 - 2 * e <= / h <= 1 + 11 / 10 * e).
  { split; apply Rmult_le_reg_r with h; try lra; rewrite Rinv_l by lra; nra. }
  unfold approx. cbn [dnormalize rot dual]. split; [exact F1|]. split; [exact F3|]. split.
  - eapply Rle_trans; [apply (dist_triangle _ (direction (val (rot a))))|].
    pose proof (close_dist (3 / 1000000000000000) _ _ ltac:(lra) C1) as C2.
    assert (D4 : dist (direction (val (rot a))) (val (rot a)) <= e).
    { unfold dist, direction. fold h. replace (hsub (hscale (/ h) (val (rot a))) (val (rot a))) with (hscale (/ h - 1) (val (rot a))) by qr.
      assert (SC : forall k q, hnorm (hscale k q) = Rabs k * hnorm q).
      { intros k q. unfold hnorm. rewrite hnorm2_scale. rewrite sqrt_mult_alt by nra. f_equal. change (k * k) with (Rsqr k). apply sqrt_Rsqr_abs. }
      rewrite SC. fold h. rewrite <- (Rabs_pos_eq h) at 2 by lra. rewrite <- Rabs_mult. replace ((/ h - 1) * h) with (1 - h) by (field; lra). absle; lra. }
    pose proof (dist_triangle (direction (val (rot a))) (val (rot a)) (dr A)). lra.
  - eapply Rle_trans; [apply (dist_triangle _ (hscale (/ h) (val (dual a))))|].
    assert (D4 : dist (hscale (/ h) (val (dual a))) (val (dual a)) <= 2 * e * S).
    { unfold dist. replace (hsub (hscale (/ h) (val (dual a))) (val (dual a))) with (hscale (/ h - 1) (val (dual a))) by qr.
      assert (SC : forall k q, hnorm (hscale k q) = Rabs k * hnorm q).
      { intros k q. unfold hnorm. rewrite hnorm2_scale. rewrite sqrt_mult_alt by nra. f_equal. change (k * k) with (Rsqr k). apply sqrt_Rsqr_abs. }
      rewrite SC. apply Rmult_le_compat; [apply Rabs_pos|easy|absle; lra|exact Nt]. }
    pose proof (dist_triangle (hscale (/ h) (val (dual a))) (val (dual a)) (dd A)) as D5.
    assert (D6 : hnorm (val (dual a)) / h <= (1 + 11 / 10000000) * S).
    { unfold Rdiv. rewrite Rmult_comm. apply Rmult_le_compat; lra. }
    set (eS := e * S) in *. replace (2 * e * S) with (2 * eS) in D4 by (unfold eS; ring). replace ((2 * e + 5 / 1000000000000000) * S) with (2 * eS + 5 / 1000000000000000 * S) by (unfold eS; ring).
    clear - D3 D4 D5 D6 DA' S0. lra.
Qed.
Lemma len_dist v w a b : len3 (vsub v w) <= dist (RQ v a) (RQ w b).
Proof. unfold dist, hsub. cbn [qv qs]. apply len_norm_le. Qed.
Lemma two_V : fin (f_of_Z 2) /\ V (f_of_Z 2) = 2.
Proof. apply of_Z_V. lia. Qed.
(** the pose of an approximate unit dual quaternion; the quaternion is returned with non-negative w *)
Lemma to_pose_approx {L} (a : @dquat (F64 L)) A e f P :
  approx e f a A -> hnorm (dr A) = 1 -> hnorm (dd A) <= P -> e <= 1 / 1000000 -> P + f <= e25 ->
  let p := snd (to_pose a) in
  finv (pos p) /\ len3 (vsub (valv (pos p)) (trans_of A)) <= 2 * f + (9 * e + 30 / 1000000000000000) * (P + f) + 100 * eta /\
  (exists s, (s = dr A \/ s = hneg (dr A)) /\ dist (val (ori p)) s <= 2 * e + 6 / 1000000000000000) /\ 0 <= V (qw (ori p)).
Proof.
  intros AP NA NP E0 BP p. destruct (dnormalize_approx a A e f P AP NA NP E0 BP) as ((F1 & F2 & D1 & D2) & _). unfold e25 in *. pose proof eta_pos as EP.
  assert (e0 : 0 <= e) by (destruct AP as (_ & _ & H & _); eapply Rle_trans; [apply dist_pos|exact H]).
  assert (f0 : 0 <= f) by (destruct AP as (_ & _ & _ & H); eapply Rle_trans; [apply dist_pos|exact H]).
  assert (P0 : 0 <= P) by (eapply Rle_trans; [apply hnorm_pos|exact NP]).
  unfold p, to_pose. set (b := dnormalize a) in *. cbn [snd pos ori]. clearbody b. clear p.
  set (S := P + f) in *. assert (S0 : 0 <= S) by (unfold S; lra).
  set (g := 2 * e + 6 / 1000000000000000) in *. assert (g0 : 0 <= g <= 3 / 1000000) by (unfold g; lra).
  set (w := f + (2 * e + 5 / 1000000000000000) * S + 2 * eta) in *.
  assert (eS0 : 0 <= e * S <= 1 / 1000000 * S) by (split; [apply Rmult_le_pos; lra|apply Rmult_le_compat_r; lra]).
  assert (Nt : hnorm (val (dual b)) <= (1 + 3 / 1000000) * S + 2 * eta).
  { eapply Rle_trans; [apply (dist_norm _ (dd A))|]. unfold w, S in *. lra. }
  pose proof (hnorm_pos (val (dual b))) as Nt0.
  destruct two_V as [FT VT].
  destruct (scale_near (dual b) (qscale_l (N:=F64 L) (f_of_Z 2) (dual b)) (f_of_Z 2) 2 FT VT ltac:(lra) F2) as [F3 D3]; [unfold M50; clear - Nt BP S0; unfold S in *; nums; lra|right; reflexivity|].
  change (n2 (N:=F64 L)) with (f_of_Z 2). set (t := qscale_l (N:=F64 L) (f_of_Z 2) (dual b)) in *.
  destruct (finq_conj (rot b) F1) as [F4 V4].
  assert (Nr : hnorm (val (rot b)) <= 1 + g) by (eapply Rle_trans; [apply (dist_norm _ (dr A))|]; lra). pose proof (hnorm_pos (val (rot b))) as Nr0.
  assert (UN : u * hnorm (val (dual b)) <= u * ((1 + 3 / 1000000) * S + 2 * eta)) by (apply Rmult_le_compat_l; [left; apply u_pos|exact Nt]).
  assert (NT : hnorm (val t) <= (2 + 7 / 1000000) * S + 10 * eta).
  { eapply Rle_trans; [apply (dist_norm _ (hscale 2 (val (dual b))))|]. rewrite hnorm_scale by lra. clear - D3 UN Nt S0. nums. lra. }
  pose proof (hnorm_pos (val t)) as NT0.
  assert (M : hnorm (val t) * hnorm (val (qconj (rot b))) <= ((2 + 7 / 1000000) * S + 10 * eta) * (1 + 3 / 1000000)) by (rewrite V4, hnorm_conj; apply Rmult_le_compat; lra).
  destruct (qmul_near t (qconj (rot b)) F3 F4) as [F5 D5]; [eapply Rle_trans; [exact M|]; unfold M50; clear - BP S0; unfold S in *; nums; lra|].
  set (y := qmul t (qconj (rot b))) in *.
  split; [destruct F5 as (a1 & a2 & a3 & _); exact (conj a1 (conj a2 a3))|]. split.
  - set (z := hmul (hscale 2 (dd A)) (hconj (dr A))).
    assert (Z : trans_of A = qv z) by (unfold z, trans_of; rewrite hmul_scale_l; reflexivity). rewrite Z.
    eapply Rle_trans; [exact (len_dist (valv (mkV (qx y) (qy y) (qz y))) (qv z) (V (qw y)) (qs z))|].
    replace (RQ (qv z) (qs z)) with z by (destruct z; reflexivity).
    change (dist (val y) z <= 2 * f + (9 * e + 30 / 1000000000000000) * S + 100 * eta).
    assert (T1 : dist (val t) (hscale 2 (dd A)) <= 2 * w + 2 * u * (2 * hnorm (val (dual b))) + 2 * eta).
    { eapply Rle_trans; [apply (dist_triangle _ (hscale 2 (val (dual b))))|]. rewrite dist_scale by lra. lra. }
    assert (T2 : dist (hmul (val t) (val (qconj (rot b)))) z <= ((2 + 7 / 1000000) * S + 10 * eta) * g + (2 * w + 2 * u * (2 * hnorm (val (dual b))) + 2 * eta)).
    { eapply Rle_trans; [apply (dist_triangle _ (hmul (val t) (hconj (dr A))))|]. unfold z. rewrite dist_mul_l, dist_mul_r, hnorm_conj, NA, Rmult_1_r, V4, dist_conj.
      apply Rplus_le_compat; [apply Rmult_le_compat; try lra; apply dist_pos|exact T1]. }
    pose proof (dist_triangle (val y) (hmul (val t) (val (qconj (rot b)))) z) as T3.
    set (eS := e * S) in *.
    assert (W : w = f + 2 * eS + 5 / 1000000000000000 * S + 2 * eta) by (unfold w, eS; ring).
    assert (GS : ((2 + 7 / 1000000) * S + 10 * eta) * g <= (2 + 7 / 1000000) * (2 * eS + 6 / 1000000000000000 * S) + 10 * eta).
    { replace (((2 + 7 / 1000000) * S + 10 * eta) * g) with ((2 + 7 / 1000000) * (2 * eS + 6 / 1000000000000000 * S) + 10 * (eta * g)) by (unfold g, eS; ring).
      assert (eta * g <= eta * 1) by (apply Rmult_le_compat_l; lra). lra. }
    replace ((9 * e + 30 / 1000000000000000) * S) with (9 * eS + 30 / 1000000000000000 * S) by (unfold eS; ring).
    rewrite W in T2. clearbody eS. clear - D5 M T2 T3 GS UN S0 eS0. nums. lra.
  - destruct (of_Z_V 0 ltac:(lia)) as [FZ VZ]. change (n0 (N:=F64 L)) with (f_of_Z 0).
    pose proof (ltb_V (qw (rot b)) (f_of_Z 0) (proj2 (proj2 (proj2 F1))) FZ) as LV. rewrite VZ in LV.
    change (ltb (Num:=F64 L) (qw (rot b)) (f_of_Z 0)) with (Bltb (qw (rot b)) (f_of_Z 0)).
    destruct (Bltb (qw (rot b)) (f_of_Z 0)).
    + destruct (finq_neg (rot b) F1) as [F6 V6]. split.
      * exists (hneg (dr A)). split; [now right|]. rewrite V6, dist_neg. exact D1.
      * change (qw (qneg (rot b))) with (Bopp (qw (rot b))). rewrite opp_V. pose proof (proj1 LV eq_refl). lra.
    + split; [exists (dr A); split; [now left|exact D1]|].
      destruct (Rle_lt_dec 0 (V (qw (rot b)))) as [|C]; [easy|]. pose proof (proj2 LV C). discriminate.
Qed.
