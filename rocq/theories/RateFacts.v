(** * How far noise in two orientations moves the rotation rate between them. *)

From Coq Require Import Reals ZArith Bool List Lra Lia Psatz.
From Flocq Require Import Core.
From Verif Require Import Num Py XReal XFacts Quat DualQuat TimeAlign Spec TimeSpec Embed QuatFacts QuatTrig DualFacts
  ListFacts TimeFacts FloatQuat StabilityFacts PropEval PropFilter PropTwoSensors.
Import ListNotations.
Local Open Scope R_scope.

Lemma sin_chord x : 0 <= x <= PI / 2 -> 2 / PI * x <= sin x.
Proof.
  intros [X0 X1]. pose proof PI_RGT_0 as P.
  destruct (Req_dec x 0) as [-> |N0]; [rewrite sin_0; lra|].
  destruct (Req_dec x (PI / 2)) as [-> |N1]; [rewrite sin_PI2; right; field; lra|].
  destruct (Rle_lt_dec (2 / PI * x) (sin x)) as [|L]; [easy|exfalso].
  assert (D : forall y, derivable_pt_lim (fun z => sin z - 2 / PI * z) y (cos y - 2 / PI)).
  { intros y. apply derivable_pt_lim_minus; [apply derivable_pt_lim_sin|].
    replace (2 / PI) with (2 / PI * 1) at 2 by ring. apply derivable_pt_lim_scal, derivable_pt_lim_id. }
  destruct (MVT_cor2 (fun z => sin z - 2 / PI * z) (fun y => cos y - 2 / PI) 0 x ltac:(lra) ltac:(intros; apply D)) as (c1 & E1 & C1).
  destruct (MVT_cor2 (fun z => sin z - 2 / PI * z) (fun y => cos y - 2 / PI) x (PI / 2) ltac:(lra) ltac:(intros; apply D)) as (c2 & E2 & C2).
  cbv beta in E1, E2. rewrite sin_0 in E1. rewrite sin_PI2 in E2. replace (2 / PI * (PI / 2)) with 1 in E2 by (field; lra).
  assert (K : cos c2 < cos c1) by (apply cos_decreasing_1; lra).
  assert (A1 : cos c1 - 2 / PI < 0) by (apply (Rmult_lt_reg_r (x - 0)); lra).
  assert (A2 : 0 < cos c2 - 2 / PI) by (apply (Rmult_lt_reg_r (PI / 2 - x)); lra). lra.
Qed.

(** the vector whose direction is the axis of d and whose length is half its angle *)
Definition half_turn_vector (d : rq) : rv := vscale (acos (qs d) / sqrt (1 - qs d * qs d)) (qv d).

Lemma unit_split d : unitq d -> 0 <= qs d -> let t := acos (qs d) in
  0 <= t <= PI / 2 /\ cos t = qs d /\ dot3 (qv d) (qv d) = sin t * sin t /\ sqrt (1 - qs d * qs d) = sin t /\ 0 <= sin t.
Proof.
  intros U W t. assert (Q : dot3 (qv d) (qv d) = 1 - qs d * qs d) by (unfold unitq in U; destruct d as [[] ?]; specu; cbn in *; lra).
  assert (P : 0 <= dot3 (qv d) (qv d)) by (rewrite <- len3_sqr; apply Rle_0_sqr). assert (B : -1 <= qs d <= 1) by nra.
  assert (C : cos t = qs d) by now apply cos_acos. pose proof (acos_bound (qs d)) as AB. fold t in AB.
  assert (T : t <= PI / 2).
  { destruct (Rle_lt_dec t (PI / 2)) as [|G]; [easy|exfalso]. pose proof (cos_lt_0 t G ltac:(lra)). lra. }
  assert (S : 0 <= sin t) by (apply sin_ge_0; lra).
  split; [lra|]. split; [exact C|]. pose proof (sin2_cos2 t) as SC. unfold Rsqr in SC. rewrite C in SC.
  split; [lra|]. split; [|exact S]. replace (1 - qs d * qs d) with (sin t * sin t) by lra. now apply sqrt_square.
Qed.
Lemma half_vector_len d : unitq d -> 0 <= qs d -> len3 (half_turn_vector d) = acos (qs d).
Proof.
  intros U W. destruct (unit_split d U W) as (T & C & D & S & P). cbv zeta in *. unfold half_turn_vector. rewrite S. set (t := acos (qs d)) in *.
  destruct (Req_dec (sin t) 0) as [Z|NZ].
  - assert (T0 : t = 0). { pose proof (sin_chord t T) as J. pose proof PI_RGT_0. assert (0 < 2 / PI) by (apply Rdiv_lt_0_compat; lra). nra. }
    rewrite T0. rewrite Z, T0 in *. replace (0 / sin 0) with 0 by (unfold Rdiv; ring). unfold len3, dot3, vscale. cbn [v1 v2 v3].
    match goal with |- sqrt ?z = _ => replace z with 0 by ring end. apply sqrt_0.
  - assert (L : len3 (vscale (t / sin t) (qv d)) = sqrt ((t * t))).
    { unfold len3. f_equal. transitivity ((t / sin t) * (t / sin t) * dot3 (qv d) (qv d)); [unfold dot3, vscale; cbn [v1 v2 v3]; ring|].
      rewrite D. field. exact NZ. }
    rewrite L. apply sqrt_square. lra.
Qed.

Lemma half_vector_near d e : unitq d -> unitq e -> 0 <= qs d -> 0 <= qs e ->
  len3 (vsub (half_turn_vector d) (half_turn_vector e)) <= PI / 2 * dist d e.
Proof.
  intros Ud Ue Wd We.
  destruct (unit_split d Ud Wd) as (T1 & C1 & D1 & S1 & P1). destruct (unit_split e Ue We) as (T2 & C2 & D2 & S2 & P2). cbv zeta in *.
  unfold half_turn_vector. rewrite S1, S2. set (s := acos (qs d)) in *. set (t := acos (qs e)) in *.
  pose proof PI_RGT_0 as PP.
  assert (RATIO : forall z, 0 <= z <= PI / 2 -> exists k, z / sin z = k /\ k * sin z = z /\ 0 <= k <= PI / 2).
  { intros z Z. pose proof (sin_chord z Z) as J. destruct (Req_dec z 0) as [-> |NZ].
    - exists 0. unfold Rdiv. rewrite Rmult_0_l. split; [easy|]. lra.
    - assert (Q : 0 < 2 / PI) by (apply Rdiv_lt_0_compat; lra). assert (SP : 0 < sin z) by (apply sin_gt_0; lra).
      exists (z / sin z). split; [easy|]. assert (E : z / sin z * sin z = z) by (field; lra). split; [exact E|].
      split; [apply Rlt_le, Rdiv_lt_0_compat; lra|]. apply (Rmult_le_reg_r (sin z)); [easy|]. rewrite E.
      apply (Rmult_le_reg_l (2 / PI)); [easy|]. replace (2 / PI * (PI / 2 * sin z)) with (sin z) by (field; lra). exact J. }
  destruct (RATIO s T1) as (k & -> & Ks & KB). destruct (RATIO t T2) as (h & -> & Ht & HB).
  set (u := qv d) in *. set (w := qv e) in *.
  assert (CS : dot3 u w <= sin s * sin t).
  { assert (B : dot3 u w * dot3 u w <= (sin s * sin t) * (sin s * sin t)).
    { replace (sin s * sin t * (sin s * sin t)) with (dot3 u u * dot3 w w) by (rewrite D1, D2; ring).
      destruct u as [a1 a2 a3], w as [b1 b2 b3]. unfold dot3. cbn [v1 v2 v3].
      pose proof (Rle_0_sqr (a1 * b2 - a2 * b1)). pose proof (Rle_0_sqr (a1 * b3 - a3 * b1)). pose proof (Rle_0_sqr (a2 * b3 - a3 * b2)). unfold Rsqr in *. lra. }
    assert (0 <= sin s * sin t) by now apply Rmult_le_pos. nra. }
  set (p := sin s * sin t - dot3 u w). assert (P0 : 0 <= p) by (unfold p; lra).
  (* both squared lengths *)
  assert (L2 : dot3 (vsub (vscale k u) (vscale h w)) (vsub (vscale k u) (vscale h w)) = (s - t) * (s - t) + 2 * (k * h) * p).
  { transitivity (k * k * dot3 u u + h * h * dot3 w w - 2 * (k * h) * dot3 u w); [unfold dot3, vsub, vscale; cbn [v1 v2 v3]; ring|].
    rewrite D1, D2. unfold p. set (ss := sin s) in *. set (st := sin t) in *. clearbody ss st. clear - Ks Ht. rewrite <- Ks, <- Ht. ring. }
  assert (R2 : dist d e * dist d e = 2 - 2 * cos (s - t) + 2 * p).
  { unfold dist. rewrite hnorm_sqr. rewrite cos_minus, C1, C2.
    transitivity (hnorm2 d + hnorm2 e - 2 * (dot3 u w + qs d * qs e)); [unfold u, w; destruct d as [[] ?], e as [[] ?]; specu; ring|].
    unfold unitq in Ud, Ue. rewrite Ud, Ue. unfold p. ring. }
  assert (HALF : (s - t) * (s - t) <= PI / 2 * (PI / 2) * (2 - 2 * cos (s - t))).
  { replace (2 - 2 * cos (s - t)) with (4 * (sin (Rabs (s - t) / 2) * sin (Rabs (s - t) / 2))).
    - assert (B : 0 <= Rabs (s - t) / 2 <= PI / 2) by (split; [pose proof (Rabs_pos (s - t)); lra|unfold Rabs; destruct (Rcase_abs _); lra]).
      pose proof (sin_chord _ B) as J. set (z := Rabs (s - t) / 2) in *.
      assert (Z : (s - t) * (s - t) = 4 * (z * z)) by (unfold z, Rabs; destruct (Rcase_abs _); field). rewrite Z.
      assert (J2 : z <= PI / 2 * sin z).
      { apply (Rmult_le_reg_l (2 / PI)); [apply Rdiv_lt_0_compat; lra|]. replace (2 / PI * (PI / 2 * sin z)) with (sin z) by (field; lra). exact J. }
      assert (z * z <= (PI / 2 * sin z) * (PI / 2 * sin z)) by (apply Rmult_le_compat; lra). lra.
    - assert (E : cos (s - t) = cos (2 * (Rabs (s - t) / 2))).
      { replace (2 * (Rabs (s - t) / 2)) with (Rabs (s - t)) by field. unfold Rabs. destruct (Rcase_abs _); [now rewrite cos_neg|easy]. }
      rewrite E, cos_2a. pose proof (sin2_cos2 (Rabs (s - t) / 2)) as SC. unfold Rsqr in SC. lra. }
  assert (KH : k * h <= PI / 2 * (PI / 2)) by (apply Rmult_le_compat; lra).
  assert (FIN : dot3 (vsub (vscale k u) (vscale h w)) (vsub (vscale k u) (vscale h w)) <= (PI / 2 * dist d e) * (PI / 2 * dist d e)).
  { rewrite L2. replace ((PI / 2 * dist d e) * (PI / 2 * dist d e)) with (PI / 2 * (PI / 2) * (dist d e * dist d e)) by ring. rewrite R2.
    assert (k * h * p <= PI / 2 * (PI / 2) * p) by (apply Rmult_le_compat_r; lra). lra. }
  unfold len3. rewrite <- (sqrt_square (PI / 2 * dist d e)); [now apply sqrt_le_1_alt|].
  apply Rmult_le_pos; [lra|apply dist_pos].
Qed.

Lemma dead_small w : w <= 1 -> Rabs (w - 1) <= 1 / 1000000000000 + 1 / 100000 -> acos w <= 9 / 2000.
Proof.
  intros W1 D. apply Rabs_le_inv in D. assert (B : -1 <= w <= 1) by lra.
  destruct (Rle_lt_dec (acos w) (9 / 2000)) as [|G]; [easy|exfalso].
  pose proof (acos_bound w) as AB. pose proof PI_RGT_0.
  assert (C : cos (acos w) < cos (9 / 2000)) by (apply cos_decreasing_1; lra). rewrite cos_acos in C by easy.
  pose proof (COS_bound (9 / 2000)) as _. destruct (pre_cos_bound (9 / 2000) 0) as [_ U]; [lra|lra|].
  unfold cos_approx, cos_term in U. cbn in U. lra.
Qed.
