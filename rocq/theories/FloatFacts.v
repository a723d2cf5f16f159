(** * Rounding errors of sums of products, norms and comparisons in double precision. *)

From Coq Require Import Reals ZArith Bool List Lra Lia Psatz.
From Flocq Require Import Core BinarySingleNaN.
From Verif Require Import Num Py Quat DualQuat F64 Spec F64Facts.
Import ListNotations.
Local Open Scope R_scope.

(** ** Specification: the numbers a quaternion of floats stands for *)
Definition val {L} (q : @quat (F64 L)) : rq := RQ (RV (V (qx q)) (V (qy q)) (V (qz q))) (V (qw q)).
Definition finq {L} (q : @quat (F64 L)) : Prop := fin (qx q) /\ fin (qy q) /\ fin (qz q) /\ fin (qw q).

Lemma rnd_within r B : Rabs r <= B -> r - (u * B + eta) <= rnd r <= r + (u * B + eta).
Proof.
  intros H. pose proof (rnd_error r) as E. apply Rabs_le_inv in E. assert (u * Rabs r <= u * B) by (apply Rmult_le_compat_l; [left; apply u_pos|easy]). lra.
Qed.
Strategy 1000 [f_lit f_of_Z Bltb Bleb Bplus Bminus Bmult Bdiv Bsqrt].
Opaque f_lit f_of_Z.
Ltac nums := unfold u, eta in *.
Ltac absle := apply Rabs_le; split.

(** ** Sums of four products *)
Lemma dot_error {L} (p q : @quat (F64 L)) : fin (qdot p q) -> finq p /\ finq q /\
  Rabs (V (qdot p q) - hdot (val p) (val q)) <=
    1 / 1000000000000000 * (Rabs (V (qx p) * V (qx q)) + Rabs (V (qy p) * V (qy q)) + Rabs (V (qz p) * V (qz q)) + Rabs (V (qw p) * V (qw q))) + 10 * eta.
Proof.
  unfold qdot. cbn [add mul F64 T]. intros F.
  apply add_fin in F as (F3 & Fw & ->). apply add_fin in F3 as (F2 & Fz & ->). apply add_fin in F2 as (Fx & Fy & ->).
  apply mul_fin in Fx as (X1 & X2 & ->). apply mul_fin in Fy as (Y1 & Y2 & ->). apply mul_fin in Fz as (Z1 & Z2 & ->). apply mul_fin in Fw as (W1 & W2 & ->).
  split; [easy|]. split; [easy|]. unfold hdot, dot3, val. cbn [qv qs v1 v2 v3].
  set (a := V (qx p) * V (qx q)). set (b := V (qy p) * V (qy q)). set (c := V (qz p) * V (qz q)). set (d := V (qw p) * V (qw q)). clearbody a b c d. clear.
  set (A := Rabs a). set (B := Rabs b). set (C := Rabs c). set (D := Rabs d).
  assert (HA : - A <= a <= A) by (apply Rabs_le_inv; unfold A; lra). assert (HB : - B <= b <= B) by (apply Rabs_le_inv; unfold B; lra).
  assert (HC : - C <= c <= C) by (apply Rabs_le_inv; unfold C; lra). assert (HD : - D <= d <= D) by (apply Rabs_le_inv; unfold D; lra).
  pose proof (rnd_within a A (Rle_refl _)) as RA. pose proof (rnd_within b B (Rle_refl _)) as RB.
  pose proof (rnd_within c C (Rle_refl _)) as RC. pose proof (rnd_within d D (Rle_refl _)) as RD.
  generalize dependent (rnd a). intros ra RA. generalize dependent (rnd b). intros rb RB. generalize dependent (rnd c). intros rc RC. generalize dependent (rnd d). intros rd RD.
  clearbody A B C D.
  pose proof (rnd_within (ra + rb) ((1 + u) * (A + B) + 2 * eta)) as R1. specialize (R1 ltac:(absle; nums; lra)).
  generalize dependent (rnd (ra + rb)). intros s1 R1.
  pose proof (rnd_within (s1 + rc) ((1 + 3 * u) * (A + B + C) + 5 * eta)) as R2. specialize (R2 ltac:(absle; nums; lra)).
  generalize dependent (rnd (s1 + rc)). intros s2 R2.
  pose proof (rnd_within (s2 + rd) ((1 + 5 * u) * (A + B + C + D) + 8 * eta)) as R3. specialize (R3 ltac:(absle; nums; lra)).
  generalize dependent (rnd (s2 + rd)). intros s3 R3.
  absle; nums; lra.
Qed.
Lemma four_squares a b c d : Rabs (a * a) + Rabs (b * b) + Rabs (c * c) + Rabs (d * d) = a * a + b * b + c * c + d * d.
Proof. rewrite !Rabs_pos_eq by nra. ring. Qed.
Lemma sqnorm_error {L} (q : @quat (F64 L)) : fin (qdot q q) -> finq q /\
  Rabs (V (qdot q q) - hnorm2 (val q)) <= 1 / 1000000000000000 * hnorm2 (val q) + 10 * eta.
Proof.
  intros F. apply dot_error in F as (F & _ & E). split; [easy|]. rewrite four_squares in E.
  replace (hnorm2 (val q)) with (V (qx q) * V (qx q) + V (qy q) * V (qy q) + V (qz q) * V (qz q) + V (qw q) * V (qw q)) at 2 by (unfold hnorm2, hdot, dot3, val; cbn; ring).
  exact E.
Qed.
(** square root of a sum with a small relative error *)
Lemma sqrt_error S X N e : 0 <= S -> 0 <= e <= 1 / 1000 -> Rabs (S - X) <= e * X -> N = rnd (sqrt S) -> 1 / 1000000000000000000000 <= X ->
  Rabs (N - sqrt X) <= (e + 2 * u) * sqrt X.
Proof.
  intros S0 E0 E -> XP.
  set (h := sqrt X). assert (H0 : 0 < h) by (apply sqrt_lt_R0; lra). assert (HH : h * h = X) by (apply sqrt_sqrt; lra).
  assert (HB : 1 / 100000000000 <= h).
  { destruct (Rle_lt_dec (1 / 100000000000) h); [easy|]. exfalso. assert (h * h < 1 / 100000000000 * (1 / 100000000000)) by (apply Rmult_le_0_lt_compat; lra). lra. }
  set (s := sqrt S). assert (SP : 0 <= s) by apply sqrt_pos. assert (SS : s * s = S) by (apply sqrt_sqrt; lra).
  assert (D : Rabs (s - h) <= e * h).
  { assert (Rabs (s - h) * h <= e * h * h); [|apply Rmult_le_reg_r with h; lra].
    apply Rle_trans with (Rabs (s - h) * (s + h)); [apply Rmult_le_compat_l; [apply Rabs_pos|lra]|].
    rewrite <- (Rabs_pos_eq (s + h)) by lra. rewrite <- Rabs_mult. replace ((s - h) * (s + h)) with (S - X) by nra. replace (e * h * h) with (e * X) by (rewrite <- HH; ring). exact E. }
  apply Rabs_le_inv in D.
  assert (EH : 0 <= e * h <= 1 / 1000 * h) by (split; [apply Rmult_le_pos; lra|apply Rmult_le_compat_r; lra]).
  pose proof (rnd_within s (h + e * h) ltac:(absle; lra)) as R. fold s. absle; nums; lra.
Qed.
(** comparison with the literal 1e-8 *)
Lemma lit_8 : fin (f_lit 1 (-8)) /\ 99999999 / 10000000000000000 <= V (f_lit 1 (-8)) <= 100000001 / 10000000000000000.
Proof.
  destruct (lit_V 1 8 ltac:(lia) ltac:(lia) ltac:(lia)) as [F E]. split; [exact F|]. change (Z.opp 8) with (Z.neg 8) in E. rewrite E. change (IZR (10 ^ 8)) with 100000000.
  pose proof (rnd_within (1 / 100000000) (1 / 100000000) ltac:(absle; lra)). nums. lra.
Qed.
Lemma norm_error {L} (q : @quat (F64 L)) : fin (qnorm q) -> ltb (Num:=F64 L) (lit (Num:=F64 L) 1 (-8)) (qnorm q) = true ->
  finq q /\ 1 / 200000000 <= hnorm (val q) /\ Rabs (V (qnorm q) - hnorm (val q)) <= 2 / 1000000000000000 * hnorm (val q).
Proof.
  intros F G. change (Bltb (f_lit 1 (-8)) (qnorm q) = true) in G. destruct lit_8 as [F8 B8]. pose proof (proj1 (ltb_V _ _ F8 F) G) as G'. clear G. rename G' into G.
  unfold qnorm in *. cbn [sqrtn F64 T] in *. apply sqrt_fin in F as (F & P & E). apply sqnorm_error in F as (FQ & D). rewrite E in *.
  set (S := V (qdot q q)) in *. set (X := hnorm2 (val q)) in *. unfold hnorm. fold X. split; [easy|].
  assert (SB : 8 / 1000000000 <= sqrt S).
  { pose proof (sqrt_pos S). pose proof (rnd_within (sqrt S) (sqrt S) ltac:(absle; lra)) as R. nums. lra. }
  assert (SS : 64 / 1000000000000000000 <= S).
  { assert (H : 8 / 1000000000 * (8 / 1000000000) <= sqrt S * sqrt S) by (apply Rmult_le_compat; lra). rewrite sqrt_sqrt in H by easy. lra. }
  apply Rabs_le_inv in D.
  assert (XB : 60 / 1000000000000000000 <= X) by (nums; lra).
  assert (D' : Rabs (S - X) <= 11 / 10000000000000000 * X) by (absle; nums; lra).
  split.
  - destruct (Rle_lt_dec (1 / 200000000) (sqrt X)) as [|C]; [easy|]. exfalso. pose proof (sqrt_pos X).
    assert (H1 : sqrt X * sqrt X < 1 / 200000000 * (1 / 200000000)) by (apply Rmult_le_0_lt_compat; lra). rewrite sqrt_sqrt in H1 by lra. lra.
  - pose proof (sqrt_error S X _ (11 / 10000000000000000) P ltac:(lra) D' eq_refl ltac:(lra)) as R. pose proof (sqrt_pos X).
    eapply Rle_trans; [exact R|]. apply Rmult_le_compat_r; [easy|]. nums. lra.
Qed.
(** sums of products of moderate numbers do not overflow *)
Lemma dot_ok {L} (p q : @quat (F64 L)) B C : finq p -> finq q -> 0 <= B <= 10000000000000000000000000 -> 0 <= C <= 10000000000000000000000000 ->
  Rabs (V (qx p)) <= B -> Rabs (V (qy p)) <= B -> Rabs (V (qz p)) <= B -> Rabs (V (qw p)) <= B ->
  Rabs (V (qx q)) <= C -> Rabs (V (qy q)) <= C -> Rabs (V (qz q)) <= C -> Rabs (V (qw q)) <= C -> fin (qdot p q).
Proof.
  intros (X1 & Y1 & Z1 & W1) (X2 & Y2 & Z2 & W2) B0 C0 x1 y1 z1 w1 x2 y2 z2 w2. pose proof big_huge as BH.
  set (M := 100000000000000000000000000000000000000000000000000).
  assert (G : forall a b : f64, fin a -> fin b -> Rabs (V a) <= B -> Rabs (V b) <= C ->
    fin (Bmult mode_NE a b) /\ - (2 * M) <= V (Bmult mode_NE a b) <= 2 * M).
  { intros a b FA FB HA HB. assert (H : Rabs (V a * V b) <= M).
    { rewrite Rabs_mult. pose proof (Rabs_pos (V a)). pose proof (Rabs_pos (V b)). apply Rle_trans with (B * C); [apply Rmult_le_compat; lra|].
      apply Rle_trans with (10000000000000000000000000 * 10000000000000000000000000); [apply Rmult_le_compat; lra|unfold M; lra]. }
    destruct (mul_ok a b FA FB) as [F E]; [unfold M in H; lra|]. split; [exact F|]. rewrite E. pose proof (rnd_within _ _ H). apply Rabs_le_inv in H. unfold M in *. nums. lra. }
  unfold qdot. cbn [add mul F64 T].
  destruct (G _ _ X1 X2 x1 x2) as [Fx Hx]. destruct (G _ _ Y1 Y2 y1 y2) as [Fy Hy]. destruct (G _ _ Z1 Z2 z1 z2) as [Fz Hz]. destruct (G _ _ W1 W2 w1 w2) as [Fw Hw]. clear G.
  destruct (add_ok _ _ Fx Fy) as [F1 E1]; [unfold M in *; absle; lra|].
  pose proof (rnd_within _ (4 * M) (ltac:(absle; unfold M in *; lra) : Rabs (V (Bmult mode_NE (qx p) (qx q)) + V (Bmult mode_NE (qy p) (qy q))) <= 4 * M)) as R1. rewrite <- E1 in R1.
  destruct (add_ok _ _ F1 Fz) as [F2 E2]; [unfold M in *; nums; absle; lra|].
  match type of E2 with _ = rnd ?r => pose proof (rnd_within r (7 * M) ltac:(absle; unfold M in *; nums; lra)) as R2 end. rewrite <- E2 in R2.
  refine (proj1 (add_ok _ _ F2 Fw _)). unfold M in *; nums; absle; lra.
Qed.
(** the computed norm of a quaternion that is almost a unit quaternion *)
Lemma component_le q : Rabs (v1 (qv q)) <= hnorm q /\ Rabs (v2 (qv q)) <= hnorm q /\ Rabs (v3 (qv q)) <= hnorm q /\ Rabs (qs q) <= hnorm q.
Proof.
  destruct q as [[x y z] w]. unfold hnorm, hnorm2, hdot, dot3. cbn [qv qs v1 v2 v3].
  assert (G : forall a b, a * a <= b -> Rabs a <= sqrt b).
  { intros a b H. rewrite <- sqrt_Rsqr_abs. apply sqrt_le_1_alt. exact H. }
  repeat split; apply G; nra.
Qed.
Lemma norm_near {L} (q : @quat (F64 L)) : finq q -> 1 / 4 <= hnorm2 (val q) <= 4 ->
  fin (qdot q q) /\ fin (qnorm q) /\ Rabs (V (qnorm q) - hnorm (val q)) <= 2 / 1000000000000000 * hnorm (val q).
Proof.
  intros F B. pose proof (component_le (val q)) as (x & y & z & w). cbn [val qv qs v1 v2 v3] in x, y, z, w.
  assert (H2 : hnorm (val q) <= 2). { unfold hnorm. replace 2 with (sqrt 4) by (replace 4 with (2 * 2) by lra; apply sqrt_square; lra). now apply sqrt_le_1_alt. }
  assert (FD : fin (qdot q q)) by (apply (dot_ok q q 2 2); try assumption; lra).
  split; [exact FD|]. pose proof (sqnorm_error q FD) as [_ D]. unfold hnorm. set (X := hnorm2 (val q)) in *.
  assert (D' : Rabs (V (qdot q q) - X) <= 11 / 10000000000000000 * X) by (apply Rabs_le_inv in D; absle; nums; lra).
  assert (P : 0 < V (qdot q q)) by (apply Rabs_le_inv in D'; lra).
  destruct (sqrt_ok _ FD P) as [FN EN]. unfold qnorm. cbn [sqrtn F64 T]. split; [exact FN|].
  pose proof (sqrt_error _ X _ (11 / 10000000000000000) (Rlt_le _ _ P) ltac:(lra) D' EN ltac:(lra)) as R. pose proof (sqrt_pos X).
  eapply Rle_trans; [exact R|]. apply Rmult_le_compat_r; [easy|]. nums. lra.
Qed.
(** ** The comparison np.isclose(., ., atol=1e-8) accepts numbers that differ by 9e-9 *)
Lemma lit_5 : fin (f_lit 1 (-5)) /\ 99999999 / 10000000000000 <= V (f_lit 1 (-5)) <= 100000001 / 10000000000000.
Proof.
  destruct (lit_V 1 5 ltac:(lia) ltac:(lia) ltac:(lia)) as [F E]. split; [exact F|]. change (Z.opp 5) with (Z.neg 5) in E. rewrite E. change (IZR (10 ^ 5)) with 100000.
  pose proof (rnd_within (1 / 100000) (1 / 100000) ltac:(absle; lra)). nums. lra.
Qed.
Lemma isclose_near {L} (a b : @T (F64 L)) : fin (a : f64) -> fin (b : f64) -> Rabs (V b) <= 10 -> Rabs (V a - V b) <= 9 / 1000000000 ->
  isclose (N:=F64 L) (lit (Num:=F64 L) 1 (-8)) a b = true.
Proof.
  intros FA FB B D. pose proof big_huge as BH. unfold isclose, isclose_gen. cbn [isfin leb absv add sub mul lit F64 T] in *. rewrite FA, FB. cbn [andb].
  destruct lit_8 as [F8 B8]. destruct lit_5 as [F5 B5].
  destruct (sub_ok a b FA FB ltac:(lra)) as [FD ED].
  assert (B0 : 0 <= Rabs (V b)) by apply Rabs_pos.
  assert (P : 0 <= V (f_lit 1 (-5)) * Rabs (V b) <= 1) by (split; [apply Rmult_le_pos; lra|apply Rle_trans with (1 / 10 * 10); [apply Rmult_le_compat; lra|lra]]).
  destruct (mul_ok (f_lit 1 (-5)) (Babs b) F5 ltac:(now rewrite abs_fin)) as [FM EM]; [rewrite abs_V; absle; lra|]. rewrite abs_V in EM.
  assert (M0 : 0 <= V (Bmult mode_NE (f_lit 1 (-5)) (Babs b)) <= 2) by (rewrite EM; pose proof (rnd_pos _ (proj1 P)); pose proof (rnd_within (V (f_lit 1 (-5)) * Rabs (V b)) 1 ltac:(absle; lra)); nums; lra).
  destruct (add_ok _ _ F8 FM) as [FS ES]; [absle; lra|].
  apply leb_V; [now rewrite abs_fin|exact FS|]. rewrite abs_V, ED, ES.
  assert (L1 : V (f_lit 1 (-8)) <= rnd (V (f_lit 1 (-8)) + V (Bmult mode_NE (f_lit 1 (-5)) (Babs b)))) by (rewrite <- (rnd_self (f_lit 1 (-8))) at 1; apply rnd_le; lra).
  assert (L2 : Rabs (rnd (V a - V b)) <= 91 / 10000000000).
  { pose proof (rnd_within _ _ D) as R. apply Rabs_le_inv in D. absle; nums; lra. }
  lra.
Qed.
