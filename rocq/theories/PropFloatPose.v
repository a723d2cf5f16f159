(** * Property C108: the errors of a pair of poses in double precision. *)

From Coq Require Import Reals ZArith Bool List Arith Lra Lia Psatz Machin Ratan.
From Flocq Require Import Core BinarySingleNaN.
From Verif Require Import Num Py Quat DualQuat HandEye Ransac F64 Spec ListFacts QuatFacts QuatTrig DualFacts F64Facts FloatFacts PropFloat FloatQuat FloatDual PropFloatDual HandEyeFacts XFacts PropEval.
Import ListNotations.
Local Open Scope R_scope.

(** ** Specification *)
(** the arccosine of the libm: accurate to 1e-15 between -1 and 1, not a number elsewhere (C99, numpy) *)
Definition arccosine (L : libm) : Prop := forall x : f64, fin x ->
  (Rabs (V x) <= 1 -> fin (m_acos L x) /\ Rabs (V (m_acos L x) - acos (V x)) <= 1 / 1000000000000000) /\
  (1 < Rabs (V x) -> m_acos L x = B754_nan).

(** the value that answers no comparison *)
Definition nan64 {L} : @T (F64 L) := (B754_nan : f64).

(** ** pi *)
Lemma PI_near : 314159265 / 100000000 <= PI <= 314159266 / 100000000.
Proof.
  destruct (PI_2_3_7_ineq 4) as [A B]. unfold PI_2_3_7_tg, tg_alt, Ratan_seq in A, B. cbn [sum_f_R0 Nat.mul Nat.add] in A, B.
  cbn [pow INR Nat.add Nat.mul] in A, B. lra.
Qed.
Lemma pi_V : fin f_pi /\ V f_pi = 884279719003555 / 281474976710656.
Proof.
  split; [vm_compute; reflexivity|].
  unfold f_pi. pose proof (binary_normalize_correct 53 1024 f64_prec f64_emax mode_NE 884279719003555 (-48) false) as C. cbv zeta in C.
  assert (E : F2R (Float radix2 884279719003555 (-48)) = 884279719003555 / 281474976710656) by (unfold F2R; cbn; lra).
  assert (G : rnd (F2R (Float radix2 884279719003555 (-48))) = F2R (Float radix2 884279719003555 (-48))).
  { apply round_generic; [apply valid_rnd_round_mode|]. rewrite fexp_FLT. apply generic_format_FLT. exists (Float radix2 884279719003555 (-48)); cbn; [reflexivity|lia|lia]. }
  rewrite G, E in C. rewrite Rlt_bool_true in C; [exact (proj1 C)|].
  apply Rlt_le_trans with (bpow radix2 3); [|apply bpow_le; lia]. rewrite Rabs_pos_eq by lra. cbn. lra.
Qed.
Lemma degree_V : let k := Bdiv mode_NE (f_lit 180 0) f_pi in fin k /\ Rabs (V k - 180 / PI) <= 3 / 1000000.
Proof.
  destruct pi_V as [FP VP]. destruct (of_Z_V 180 ltac:(lia)) as [FA VA]. change (f_lit 180 0) with (f_of_Z 180). pose proof big_huge as BH.
  assert (Q : 57295779 / 1000000 <= 180 / V f_pi <= 57295780 / 1000000) by (rewrite VP; lra).
  destruct (div_ok (f_of_Z 180) f_pi FA ltac:(rewrite VP; lra)) as [FD ED]; [rewrite VA; absle; lra|].
  split; [exact FD|]. rewrite ED, VA. pose proof (rnd_within (180 / V f_pi) 60 ltac:(absle; lra)) as W. destruct PI_near as [P1 P2].
  assert (K : 57295778 / 1000000 <= 180 / PI <= 57295781 / 1000000).
  { assert (E : 180 / PI * PI = 180) by (field; lra). split; apply Rmult_le_reg_r with PI; try lra; rewrite E; lra. }
  absle; nums; lra.
Qed.

(** ** The arccosine of nearby numbers *)
Lemma acos_le d x : 0 <= x <= 1 -> d <= 1 -> 1 - d <= 2 * ((x / 2 - x / 2 * (x / 2) * (x / 2) / 6) * (x / 2 - x / 2 * (x / 2) * (x / 2) / 6)) -> acos d <= x.
Proof.
  intros X D1 H. assert (P := PI2_1). set (y := x / 2) in *. assert (L := sin_lb y ltac:(unfold y; lra)).
  set (l := y - y * y * y / 6) in *.
  assert (L0 : 0 <= l). { unfold l. assert (0 <= y <= 1 / 2) by (unfold y; lra). assert (y * y <= 1) by nra. assert (y * y * y <= y) by nra. lra. }
  assert (C : cos x <= d).
  { replace x with (2 * y) by (unfold y; lra). rewrite cos_2a_sin. assert (l * l <= sin y * sin y) by (apply Rmult_le_compat; lra). lra. }
  destruct (Rle_lt_dec (acos d) x) as [|G]; [easy|]. exfalso.
  assert (B := acos_bound d). assert (cos (acos d) < cos x) by (apply cos_decreasing_1; lra).
  rewrite cos_acos in H0; [lra|]. assert (C1 := COS_bound x). lra.
Qed.
Lemma acos_near a b : -1 <= a <= 1 -> -1 <= b <= 1 -> forall x, 0 <= x <= 1 ->
  Rabs (a - b) <= 2 * ((x / 2 - x / 2 * (x / 2) * (x / 2) / 6) * (x / 2 - x / 2 * (x / 2) * (x / 2) / 6)) -> Rabs (acos a - acos b) <= x.
Proof.
  assert (K : forall a b, -1 <= a <= 1 -> -1 <= b <= 1 -> b <= a -> forall x, 0 <= x <= 1 ->
    a - b <= 2 * ((x / 2 - x / 2 * (x / 2) * (x / 2) / 6) * (x / 2 - x / 2 * (x / 2) * (x / 2) / 6)) -> 0 <= acos b - acos a <= x).
  { clear. intros a b A B L x X H. assert (BA := acos_bound a). assert (BB := acos_bound b).
    assert (CA := cos_acos a A). assert (CB := cos_acos b B). set (s := acos a) in *. set (t := acos b) in *.
    assert (ST : s <= t). { destruct (Rle_lt_dec s t); [easy|]. exfalso. assert (cos s < cos t) by (apply cos_decreasing_1; lra). lra. }
    split; [lra|].
    assert (E : cos s - cos t = 2 * sin ((s + t) / 2) * sin ((t - s) / 2)).
    { assert (E1 : cos s = cos ((s + t) / 2 - (t - s) / 2)) by (f_equal; lra). assert (E2 : cos t = cos ((s + t) / 2 + (t - s) / 2)) by (f_equal; lra). rewrite E1, E2, cos_minus, cos_plus. ring. }
    assert (S1 : sin ((t - s) / 2) <= sin ((s + t) / 2)).
    { destruct (Rle_lt_dec ((s + t) / 2) (PI / 2)) as [G|G]; [apply sin_incr_1; lra|].
      rewrite <- (sin_PI_x ((s + t) / 2)). apply sin_incr_1; lra. }
    assert (S0 : 0 <= sin ((t - s) / 2)) by (apply sin_ge_0; lra).
    assert (S2 : sin ((t - s) / 2) * sin ((t - s) / 2) <= sin ((s + t) / 2) * sin ((t - s) / 2)) by (apply Rmult_le_compat_r; easy).
    replace (t - s) with (acos (cos (t - s))) by (apply acos_cos; lra).
    apply acos_le; [easy|apply COS_bound|]. replace (cos (t - s)) with (1 - 2 * sin ((t - s) / 2) * sin ((t - s) / 2)); [lra|].
    assert (E1 : cos (t - s) = cos (2 * ((t - s) / 2))) by (f_equal; lra). rewrite E1, cos_2a_sin. ring. }
  intros A B x X H. destruct (Rle_lt_dec b a) as [L|L].
  - rewrite Rabs_pos_eq in H by lra. pose proof (K a b A B L x X H). absle; lra.
  - rewrite Rabs_left in H by lra. pose proof (K b a B A ltac:(lra) x X ltac:(lra)). absle; lra.
Qed.

(** ** The cosine of half the angle *)
Definition same_rotation (s q : rq) : Prop := s = direction q \/ s = hneg (direction q).
Lemma canonical_near {L} (q : @quat (F64 L)) : normal q ->
  let p := positive_w (qnormalize q) in finq p /\ exists s, same_rotation s (val q) /\ dist (val p) s <= 6 / 1000000000000000.
Proof.
  intros [F G]. destruct (C70_normalize L q F G) as (FR & C & _). set (r := qnormalize q) in *.
  apply close_dist in C; [|lra]. unfold positive_w. destruct (ltb (qw r) n0).
  - destruct (finq_neg r FR) as [FN E]. split; [exact FN|]. exists (hneg (direction (val q))). split; [now right|]. rewrite E, dist_neg. lra.
  - split; [exact FR|]. exists (direction (val q)). split; [now left|lra].
Qed.
Lemma rotation_norm s q : 0 < hnorm q -> same_rotation s q -> hnorm s = 1.
Proof. intros P [-> | ->]; [|rewrite hnorm_neg]; now apply direction_norm. Qed.
Lemma quotient_near {L} (a b : @quat (F64 L)) sa sb : finq a -> finq b -> hnorm sa = 1 -> hnorm sb = 1 ->
  dist (val a) sa <= 6 / 1000000000000000 -> dist (val b) sb <= 6 / 1000000000000000 ->
  let w := qw (qmul a (qinv b)) in fin (w : f64) /\ Rabs (V w - hdot sa sb) <= 4 / 100000000000000.
Proof.
  intros FA FB NA NB DA DB w. pose proof (dist_pos (val a) sa). pose proof (dist_pos (val b) sb).
  pose proof (dist_norm (val a) sa) as A1. pose proof (dist_norm sa (val a)) as A2. rewrite dist_sym in A2.
  pose proof (dist_norm (val b) sb) as B1. pose proof (dist_norm sb (val b)) as B2. rewrite dist_sym in B2.
  set (ha := hnorm (val a)) in *. set (hb := hnorm (val b)) in *. rewrite NA in *. rewrite NB in *.
  assert (HB : 1 / 4 <= hnorm2 (val b) <= 4). { rewrite <- hnorm_sqr. fold hb. apply norm_range with (6 / 1000000000000000); [absle; lra|lra]. }
  destruct (qinv_near b FB HB) as [FI DI]. set (i := qinv b) in *. fold hb in DI.
  assert (IB : 0 < / hb <= 1 + 7 / 1000000000000000).
  { split; [apply Rinv_0_lt_compat; lra|]. apply Rmult_le_reg_r with hb; [lra|]. rewrite Rinv_l by lra. nra. }
  assert (DI' : dist (val i) (hconj (val b)) <= 17 / 1000000000000000).
  { eapply Rle_trans; [apply (dist_triangle _ (hscale (/ hnorm2 (val b)) (hconj (val b))))|].
    assert (E : dist (hscale (/ hnorm2 (val b)) (hconj (val b))) (hconj (val b)) = Rabs (1 - hb * hb) * / hb).
    { unfold dist. rewrite <- hnorm_sqr. fold hb.
      assert (Q : forall k p, hnorm (hsub (hscale k p) p) = Rabs (k - 1) * hnorm p).
      { clear. intros k p. rewrite <- hnorm_scale_abs. f_equal. destruct p as [[] ?]. apply rq_eq; cbn; ring. }
      rewrite Q, hnorm_conj. fold hb. replace (/ (hb * hb) - 1) with ((1 - hb * hb) * (/ hb * / hb)) by (field; lra).
      rewrite !Rabs_mult, (Rabs_pos_eq (/ hb)) by lra. rewrite !Rmult_assoc, Rinv_l by lra. now rewrite Rmult_1_r. }
    rewrite E. assert (Rabs (1 - hb * hb) <= 13 / 1000000000000000) by (absle; nra). pose proof (Rabs_pos (1 - hb * hb)).
    assert (Rabs (1 - hb * hb) * / hb <= 13 / 1000000000000000 * (1 + 7 / 1000000000000000)) by (apply Rmult_le_compat; lra). unfold Rdiv in DI at 1. lra. }
  assert (DS : dist (val i) (hconj sb) <= 23 / 1000000000000000).
  { eapply Rle_trans; [apply (dist_triangle _ (hconj (val b)))|]. rewrite dist_conj. lra. }
  pose proof (dist_norm (val i) (hconj sb)) as I1. rewrite hnorm_conj, NB in I1. pose proof (hnorm_pos (val i)) as I0.
  assert (HM : ha * hnorm (val i) <= 2) by nra.
  destruct (qmul_near a i FA FI) as [FM DM]; [fold ha; unfold M50; lra|]. fold ha in DM.
  assert (DT : dist (val (qmul a i)) (hmul sa (hconj sb)) <= 4 / 100000000000000).
  { eapply Rle_trans; [apply (dist_triangle _ (hmul (val a) (val i)))|].
    pose proof (dist_triangle (hmul (val a) (val i)) (hmul (val a) (hconj sb)) (hmul sa (hconj sb))) as T.
    rewrite dist_mul_l, dist_mul_r, hnorm_conj, NB in T. fold ha in T. pose proof (dist_pos (val i) (hconj sb)).
    assert (ha * dist (val i) (hconj sb) <= (1 + 6 / 1000000000000000) * (23 / 1000000000000000)) by (apply Rmult_le_compat; lra). nums. lra. }
  split; [exact (proj2 (proj2 (proj2 FM)))|].
  destruct (component_le (hsub (val (qmul a i)) (hmul sa (hconj sb)))) as (_ & _ & _ & Q). eapply Rle_trans; [|eapply Rle_trans; [exact Q|exact DT]].
  right. f_equal. unfold w. clear. destruct sa as [[] ?], sb as [[] ?]. unfold hsub, hdot, dot3, hmul, hconj, vscale, dot3. cbn. ring.
Qed.

(** ** The angle in degrees *)
Definition folded {N : Num} (d : T) : T := if ltb (lit 180 0) d then absv (sub (lit 360 0) d) else d.
Definition reported {N : Num} (w : T) : T := folded (degrees (mul n2 (acosn w))).
Lemma folded_nan L : folded (N:=F64 L) B754_nan = B754_nan.
Proof. reflexivity. Qed.
Lemma reported_nan L (w : f64) : m_acos L w = B754_nan -> reported (N:=F64 L) w = B754_nan.
Proof. intros E. unfold reported, degrees. cbn [acosn mul F64 T]. rewrite E. reflexivity. Qed.
Lemma reported_near L (w : f64) : arccosine L -> fin w -> Rabs (V w) <= 1 ->
  fin (reported (N:=F64 L) w : f64) /\ Rabs (V (reported (N:=F64 L) w) - 2 * acos (Rabs (V w)) * (180 / PI)) <= 3 / 100000.
Proof.
  intros A FW B. destruct (A w FW) as [H _]. destruct (H B) as [FA DA]. clear H. pose proof big_huge as BH. pose proof (proj1 PI_near) as P1. pose proof (proj2 PI_near) as P2.
  pose proof (acos_bound (V w)) as BA. unfold reported, degrees. cbn [acosn mul div lit npi F64 T].
  set (a := m_acos L w) in *. set (th := acos (V w)) in *. apply Rabs_le_inv in DA.
  destruct two_V as [F2 V2]. change (@n2 (F64 L)) with (f_of_Z 2).
  destruct (mul_ok (f_of_Z 2) a F2 FA) as [FT ET]; [rewrite V2; absle; lra|]. rewrite V2 in ET. set (t := Bmult mode_NE (f_of_Z 2) a) in *.
  pose proof (rnd_within (2 * V a) 7 ltac:(absle; lra)) as RT. rewrite <- ET in RT.
  destruct degree_V as [FK DK]. cbv zeta in FK, DK. set (k := Bdiv mode_NE (f_lit 180 0) f_pi) in *. apply Rabs_le_inv in DK.
  assert (EK : 180 / PI * PI = 180) by (field; lra).
  assert (KB : 57 <= 180 / PI <= 58) by (split; apply Rmult_le_reg_r with PI; try lra; rewrite EK; lra).
  set (K := 180 / PI) in *.
  assert (ED : Rabs (V t * V k - 2 * th * K) <= 25 / 1000000).
  { replace (V t * V k - 2 * th * K) with (V t * (V k - K) + (V t - 2 * th) * K) by ring.
    eapply Rle_trans; [apply Rabs_triang|]. rewrite !Rabs_mult.
    assert (Rabs (V t) <= 7) by (absle; nums; lra). assert (Rabs (V k - K) <= 3 / 1000000) by (absle; lra). assert (Rabs (V t - 2 * th) <= 1 / 100000000000000) by (absle; nums; lra).
    assert (Rabs K <= 58) by (absle; lra). pose proof (Rabs_pos (V t)). pose proof (Rabs_pos (V k - K)). pose proof (Rabs_pos (V t - 2 * th)). pose proof (Rabs_pos K).
    assert (Rabs (V t) * Rabs (V k - K) <= 7 * (3 / 1000000)) by (apply Rmult_le_compat; lra).
    assert (Rabs (V t - 2 * th) * Rabs K <= 1 / 100000000000000 * 58) by (apply Rmult_le_compat; lra). lra. }
  apply Rabs_le_inv in ED.
  assert (TB : 0 <= 2 * th * K <= 360) by (split; [apply Rmult_le_pos; lra|]; replace 360 with (2 * PI * K) by (unfold K; field; lra); apply Rmult_le_compat_r; lra).
  destruct (mul_ok t k FT FK) as [FD EDV]; [absle; lra|]. set (d := Bmult mode_NE t k) in *.
  pose proof (rnd_within (V t * V k) 400 ltac:(absle; lra)) as RD. rewrite <- EDV in RD.
  assert (DD : 2 * th * K - 26 / 1000000 <= V d <= 2 * th * K + 26 / 1000000) by (nums; lra).
  destruct (acos_abs (V w) (Rabs_le_inv _ _ B)) as [EA _]. fold th in EA. fold K in EA. rewrite <- EA. clear EA.
  destruct (of_Z_V 180 ltac:(lia)) as [F1 V1]. destruct (of_Z_V 360 ltac:(lia)) as [F3 V3].
  assert (F6 : fin (Babs (Bminus mode_NE (f_of_Z 360) d)) /\ Rabs (V (Babs (Bminus mode_NE (f_of_Z 360) d)) - Rabs (360 - V d)) <= 1 / 1000000).
  { destruct (sub_ok (f_of_Z 360) d F3 FD) as [FS ES]; [rewrite V3; absle; lra|]. rewrite abs_fin, abs_V, ES, V3. split; [exact FS|].
    pose proof (rnd_within (360 - V d) 400 ltac:(absle; lra)) as R. assert (Rabs (rnd (360 - V d) - (360 - V d)) <= 1 / 1000000) by (absle; nums; lra).
    eapply Rle_trans; [apply Rabs_triang_inv2|exact H]. }
  destruct F6 as [F6 E6]. apply Rabs_le_inv in E6.
  unfold folded. cbn [ltb lit absv sub F64 T]. change (f_lit 180 0) with (f_of_Z 180). change (f_lit 360 0) with (f_of_Z 360).
  destruct (Bltb (f_of_Z 180) d) eqn:Q; destruct (Rlt_dec 180 (2 * th * K)) as [G|G].
  - apply ltb_V in Q; [|exact F1|exact FD]. rewrite V1 in Q. split; [exact F6|]. clear - E6 DD G Q TB. set (y := V (Babs _)) in *. clearbody y. split_Rabs; lra.
  - apply ltb_V in Q; [|exact F1|exact FD]. rewrite V1 in Q. split; [exact F6|]. clear - E6 DD G Q TB. set (y := V (Babs _)) in *. clearbody y. split_Rabs; lra.
  - assert (Q' : V d <= 180). { destruct (Rle_lt_dec (V d) 180) as [|Q2]; [easy|]. exfalso. rewrite <- V1 in Q2. apply ltb_V in Q2; [congruence|exact F1|exact FD]. }
    split; [exact FD|]. clear - DD G Q' TB. split_Rabs; lra.
  - split; [exact FD|]. absle; lra.
Qed.

(** ** Quaternions that agree component by component *)
Lemma lit_12 : fin (f_lit 1 (-12)) /\ 0 <= V (f_lit 1 (-12)) <= 11 / 10000000000000.
Proof.
  destruct (lit_V 1 12 ltac:(lia) ltac:(lia) ltac:(lia)) as [F E]. split; [exact F|]. change (Z.opp 12) with (Z.neg 12) in E. rewrite E. change (IZR (10 ^ 12)) with 1000000000000.
  pose proof (rnd_within (1 / 1000000000000) (1 / 1000000000000) ltac:(absle; lra)). nums. lra.
Qed.
Lemma isclose_bound {L} (a b : @T (F64 L)) : fin (a : f64) -> fin (b : f64) -> Rabs (V a) <= 2 -> Rabs (V b) <= 2 -> isclose (N:=F64 L) (lit (Num:=F64 L) 1 (-12)) a b = true ->
  Rabs (V a - V b) <= 12 / 10000000000000 + 100001 / 10000000000 * Rabs (V b).
Proof.
  intros FA FB BA BB. pose proof big_huge as BH. unfold isclose, isclose_gen. cbn [isfin leb absv add sub mul lit F64 T] in *. rewrite FA, FB. cbn [andb]. intros H.
  destruct lit_12 as [F8 B8]. destruct lit_5 as [F5 B5]. pose proof (Rabs_le_inv _ _ BA). pose proof (Rabs_le_inv _ _ BB).
  destruct (sub_ok a b FA FB ltac:(absle; lra)) as [FD ED].
  assert (B0 : 0 <= Rabs (V b)) by apply Rabs_pos.
  assert (P : 0 <= V (f_lit 1 (-5)) * Rabs (V b) <= 100000001 / 10000000000000 * Rabs (V b)) by (split; [apply Rmult_le_pos; lra|apply Rmult_le_compat_r; lra]).
  destruct (mul_ok (f_lit 1 (-5)) (Babs b) F5 ltac:(now rewrite abs_fin)) as [FM EM]; [rewrite abs_V; absle; lra|]. rewrite abs_V in EM.
  pose proof (rnd_within (V (f_lit 1 (-5)) * Rabs (V b)) _ ltac:(rewrite Rabs_pos_eq by lra; apply Rle_refl)) as RM. rewrite <- EM in RM.
  set (m := Bmult mode_NE (f_lit 1 (-5)) (Babs b)) in *. set (p := V (f_lit 1 (-5)) * Rabs (V b)) in *.
  destruct (add_ok _ _ F8 FM) as [FS ES]; [nums; absle; lra|].
  apply leb_V in H; [|now rewrite abs_fin|exact FS]. rewrite abs_V, ED, ES in H.
  pose proof (rnd_within (V (f_lit 1 (-12)) + V m) (11 / 10000000000000 + 2 * p + 2 * eta) ltac:(nums; absle; lra)) as RS.
  pose proof (rnd_within (V a - V b) 4 ltac:(absle; lra)) as RD.
  assert (Rabs (V a - V b) <= Rabs (rnd (V a - V b)) + (u * 4 + eta)) by (clear - RD; nums; split_Rabs; lra).
  nums. lra.
Qed.
Lemma unit_dot_dist p q : hnorm p = 1 -> hnorm q = 1 -> hdot p q = 1 - dist p q * dist p q / 2.
Proof.
  intros P Q. unfold dist. rewrite hnorm_sqr. apply unit_hnorm in P. apply unit_hnorm in Q. unfold unitq in *.
  replace (hnorm2 (hsub p q)) with (hnorm2 p + hnorm2 q - 2 * hdot p q) by (destruct p as [[] ?], q as [[] ?]; unfold hnorm2, hdot, dot3, hsub, vsub; cbn; ring). rewrite P, Q. field.
Qed.
Lemma sq_abs z : z * z = Rabs z * Rabs z.
Proof. rewrite <- Rabs_mult. symmetry. apply Rabs_pos_eq. exact (Rle_0_sqr z). Qed.
Lemma allclose_angle {L} (a b : @quat (F64 L)) sa sb : finq a -> finq b -> hnorm sa = 1 -> hnorm sb = 1 ->
  dist (val a) sa <= 6 / 1000000000000000 -> dist (val b) sb <= 6 / 1000000000000000 ->
  allclose (N:=F64 L) (lit 1 (-12)) (q_list a) (q_list b) = true -> 1 - 6 / 100000000000 <= hdot sa sb <= 1.
Proof.
  intros FA FB NA NB DA DB H. pose proof (dist_norm (val a) sa) as A1. rewrite NA in A1. pose proof (dist_norm (val b) sb) as B1. rewrite NB in B1.
  destruct (component_le (val a)) as (xa & ya & za & wa). destruct (component_le (val b)) as (xb & yb & zb & wb). cbn [val qv qs v1 v2 v3] in *.
  assert (K : forall x : f64, Rabs (V x) <= hnorm (val a) -> Rabs (V x) <= 2) by (intros; lra).
  assert (K' : forall x : f64, Rabs (V x) <= hnorm (val b) -> Rabs (V x) <= 2) by (intros; lra).
  destruct a as [ax ay az aw], b as [bx by_ bz bw]. cbn [q_list allclose qx qy qz qw] in *. destruct FA as (Fx & Fy & Fz & Fw), FB as (Gx & Gy & Gz & Gw). cbn [qx qy qz qw] in *.
  apply andb_true_iff in H as [Hx H]. apply andb_true_iff in H as [Hy H]. apply andb_true_iff in H as [Hz H]. apply andb_true_iff in H as [Hw _].
  apply isclose_bound in Hx; [|assumption|assumption|now apply K|now apply K'].
  apply isclose_bound in Hy; [|assumption|assumption|now apply K|now apply K'].
  apply isclose_bound in Hz; [|assumption|assumption|now apply K|now apply K'].
  apply isclose_bound in Hw; [|assumption|assumption|now apply K|now apply K'].
  set (a := mkQ (N:=F64 L) ax ay az aw) in *. set (b := mkQ (N:=F64 L) bx by_ bz bw) in *.
  assert (S : forall x y, Rabs y <= 2 -> Rabs (x - y) <= 12 / 10000000000000 + 100001 / 10000000000 * Rabs y ->
    (x - y) * (x - y) <= 1 / 10000000000000000 + 10001 / 100000000000000 * (y * y)).
  { clear. intros x y Y H. set (m := Rabs y) in *. assert (M0 : 0 <= m) by apply Rabs_pos. assert (E : y * y = m * m) by apply sq_abs.
    assert (E' : (x - y) * (x - y) = Rabs (x - y) * Rabs (x - y)) by apply sq_abs. rewrite E, E'. pose proof (Rabs_pos (x - y)).
    assert (Rabs (x - y) * Rabs (x - y) <= (12 / 10000000000000 + 100001 / 10000000000 * m) * (12 / 10000000000000 + 100001 / 10000000000 * m)) by (apply Rmult_le_compat; lra). nra. }
  apply S in Hx; [|lra]. apply S in Hy; [|lra]. apply S in Hz; [|lra]. apply S in Hw; [|lra].
  assert (D2 : hnorm2 (hsub (val a) (val b)) <= 4 / 10000000000000000 + 10001 / 100000000000000 * hnorm2 (val b)).
  { unfold hnorm2, hdot, dot3, hsub, vsub. cbn [val qv qs v1 v2 v3 a b qx qy qz qw]. lra. }
  assert (B2 : hnorm2 (val b) <= 10001 / 10000) by (rewrite <- hnorm_sqr; pose proof (hnorm_pos (val b)); nra).
  assert (DD : dist (val a) (val b) <= 100011 / 10000000000).
  { unfold dist. pose proof (hnorm_pos (hsub (val a) (val b))). pose proof (hnorm_sqr (hsub (val a) (val b))). nra. }
  assert (DS : dist sa sb <= 10002 / 1000000000).
  { pose proof (dist_triangle sa (val a) sb). pose proof (dist_triangle (val a) (val b) sb). pose proof (dist_sym sa (val a)). lra. }
  rewrite unit_dot_dist by easy. pose proof (dist_pos sa sb). nra.
Qed.

(** ** The distance *)
Lemma vnorm_near L (v : @vec3 (F64 L)) : finv v -> len3 (valv v) <= 9 * e24 ->
  fin (vnorm v : f64) /\ Rabs (V (vnorm v) - len3 (valv v)) <= 3 / 1000000000000000 * len3 (valv v) + 3 / 1000000000000000000.
Proof.
  intros (X & Y & Z) B. set (q := mkQ (N:=F64 L) (vx v) (vy v) (vz v) (f_of_Z 0)). destruct (of_Z_V 0 ltac:(lia)) as [F0 V0].
  assert (FQ : finq q) by (split; [|split; [|split]]; assumption).
  assert (EV : val q = RQ (valv v) 0) by (unfold val, valv, q; cbn [qx qy qz qw]; now rewrite V0).
  assert (EN : hnorm (val q) = len3 (valv v)) by (rewrite EV; apply len_norm). set (h := len3 (valv v)) in *.
  destruct (component_le (val q)) as (x & y & z & w). rewrite EN in *. cbn [val qv qs v1 v2 v3] in *. unfold e24 in B. assert (H0 : 0 <= h) by apply sqrt_pos.
  assert (FD : fin (qdot q q)) by (apply (dot_ok q q h h); try assumption; lra).
  pose proof (sqnorm_error q FD) as [_ D]. rewrite <- hnorm_sqr, EN in D.
  unfold qdot in FD, D. cbn [add mul F64 T q qx qy qz qw] in FD, D. apply add_fin in FD as (F3 & FZ & ED). rewrite ED in D.
  set (s := Bplus mode_NE (Bplus mode_NE (Bmult mode_NE (vx v) (vx v)) (Bmult mode_NE (vy v) (vy v))) (Bmult mode_NE (vz v) (vz v))) in *.
  assert (Z0 : V (Bmult mode_NE (f_of_Z 0) (f_of_Z 0)) = 0) by (destruct (mul_fin _ _ FZ) as (_ & _ & ->); rewrite V0, Rmult_0_l; apply rnd_0).
  rewrite Z0, Rplus_0_r, rnd_self in D. clear ED FZ Z0.
  assert (S0 : 0 <= V s).
  { unfold s in *. apply add_fin in F3 as (F2 & Fz & ->). apply add_fin in F2 as (Fx & Fy & E2). rewrite E2.
    apply mul_fin in Fx as (_ & _ & Ex). apply mul_fin in Fy as (_ & _ & Ey). apply mul_fin in Fz as (_ & _ & Ez). rewrite Ex, Ey, Ez.
    assert (SQ : forall r, 0 <= rnd (r * r)) by (intros r; apply rnd_pos; exact (Rle_0_sqr r)).
    pose proof (SQ (V (vx v))). pose proof (SQ (V (vy v))). pose proof (SQ (V (vz v))). apply rnd_pos. assert (0 <= rnd (rnd (V (vx v) * V (vx v)) + rnd (V (vy v) * V (vy v)))) by (apply rnd_pos; lra). lra. }
  assert (FS : fin (Bsqrt mode_NE s) /\ V (Bsqrt mode_NE s) = rnd (sqrt (V s))).
  { destruct S0 as [S0|S0]; [now apply sqrt_ok|]. pose proof (Bsqrt_correct 53 1024 f64_prec f64_emax mode_NE s) as (C1 & C2 & _). split; [|exact C1].
    rewrite C2. destruct s as [? | ? | |b m e Q]; try easy. exfalso. cbn in S0. destruct b; [|].
    - symmetry in S0. apply eq_0_F2R in S0. discriminate S0.
    - symmetry in S0. apply eq_0_F2R in S0. discriminate S0. }
  destruct FS as [FS ES]. change (vnorm v) with (Bsqrt mode_NE s). split; [exact FS|].
  destruct (Rle_lt_dec (1 / 1000000000000000000000) (h * h)) as [G|G].
  - assert (D' : Rabs (V s - h * h) <= 11 / 10000000000000000 * (h * h)) by (apply Rabs_le_inv in D; absle; nums; lra).
    pose proof (sqrt_error (V s) (h * h) _ (11 / 10000000000000000) S0 ltac:(lra) D' ES G) as R. rewrite sqrt_square in R by easy.
    eapply Rle_trans; [exact R|]. nums. lra.
  - rewrite ES. set (r := sqrt (V s)). assert (R0 : 0 <= r) by apply sqrt_pos. assert (RR : r * r = V s) by (now apply sqrt_sqrt). rewrite <- RR in D.
    assert (HS : h < 1 / 10000000000) by nra. apply Rabs_le_inv in D.
    assert (Q : Rabs (r - h) <= 12 / 10000000000000000000).
    { destruct (Rle_lt_dec (Rabs (r - h)) (12 / 10000000000000000000)) as [|Q]; [easy|]. exfalso.
      assert (K : Rabs (r - h) * Rabs (r - h) <= Rabs (r * r - h * h)).
      { replace (r * r - h * h) with ((r - h) * (r + h)) by ring. rewrite Rabs_mult. apply Rmult_le_compat_l; [apply Rabs_pos|]. rewrite (Rabs_pos_eq (r + h)) by lra. absle; lra. }
      assert (Rabs (r * r - h * h) <= 12 / 10000000000000000000 * (12 / 10000000000000000000)) by (absle; nums; lra).
      assert (12 / 10000000000000000000 * (12 / 10000000000000000000) < Rabs (r - h) * Rabs (r - h)) by (apply Rmult_le_0_lt_compat; lra). lra. }
    apply Rabs_le_inv in Q. pose proof (rnd_within r (1 / 1000000000) ltac:(absle; lra)) as W. absle; nums; lra.
Qed.
Lemma distance_near L (a b : @vec3 (F64 L)) : finv a -> finv b -> len3 (valv a) <= e24 -> len3 (valv b) <= e24 ->
  let D := len3 (vsub (valv a) (valv b)) in
  fin (vnorm (vsub3 a b) : f64) /\ Rabs (V (vnorm (vsub3 a b)) - D) <= 5 / 1000000000000000 * D + 4 / 1000000000000000000.
Proof.
  intros (A1 & A2 & A3) (B1 & B2 & B3) BA BB D. pose proof big_huge as BH. unfold e24 in *.
  assert (D0 : 0 <= D) by apply sqrt_pos.
  assert (DB : D <= 2000000000000000000000000).
  { unfold D. rewrite <- len_norm. replace (RQ (vsub (valv a) (valv b)) 0) with (hsub (RQ (valv a) 0) (RQ (valv b) 0)) by (unfold hsub; cbn; f_equal; ring).
    pose proof (dist_triangle (RQ (valv a) 0) hzero (RQ (valv b) 0)) as T. rewrite (dist_sym hzero), !dist_zero, !len_norm in T. unfold dist in T. lra. }
  assert (CD : Rabs (v1 (vsub (valv a) (valv b))) <= D /\ Rabs (v2 (vsub (valv a) (valv b))) <= D /\ Rabs (v3 (vsub (valv a) (valv b))) <= D).
  { destruct (component_le (RQ (vsub (valv a) (valv b)) 0)) as (x & y & z & _). rewrite len_norm in *. easy. }
  destruct CD as (C1 & C2 & C3). cbn [valv vsub v1 v2 v3] in C1, C2, C3.
  assert (K : forall x y : f64, fin x -> fin y -> Rabs (V x - V y) <= D -> fin (Bminus mode_NE x y) /\ Rabs (V (Bminus mode_NE x y) - (V x - V y)) <= u * D + eta).
  { intros x y X Y H. destruct (sub_ok x y X Y ltac:(lra)) as [F E]. split; [exact F|]. rewrite E. pose proof (rnd_within _ _ H). absle; lra. }
  destruct (K _ _ A1 B1 C1) as [S1 E1]. destruct (K _ _ A2 B2 C2) as [S2 E2]. destruct (K _ _ A3 B3 C3) as [S3 E3].
  set (v := vsub3 a b). assert (FV : finv v) by (split; [|split]; assumption).
  assert (DV : dist (RQ (valv v) 0) (RQ (vsub (valv a) (valv b)) 0) <= 2 * (u * D + eta)).
  { unfold dist. apply norm_components; cbn [hsub vsub valv qv qs v1 v2 v3]; [nums; lra|exact E1|exact E2|exact E3|]. rewrite Rminus_0_r, Rabs_R0. nums. lra. }
  pose proof (dist_norm (RQ (valv v) 0) (RQ (vsub (valv a) (valv b)) 0)) as N1. pose proof (dist_norm (RQ (vsub (valv a) (valv b)) 0) (RQ (valv v) 0)) as N2. rewrite dist_sym in N2. rewrite !len_norm in N1, N2. fold D in N1, N2.
  destruct (vnorm_near L v FV) as [FN EN]; [unfold e24; nums; lra|]. split; [exact FN|]. apply Rabs_le_inv in EN. absle; nums; lra.
Qed.

(** ** C108 *)
Lemma canon_rotation q : same_rotation (canon q) q.
Proof. unfold same_rotation, canon. cbv zeta. destruct (Rlt_dec _ _); [now right|now left]. Qed.
Lemma rotations_dot p q a b : same_rotation a p -> same_rotation b q -> Rabs (hdot a b) = Rabs (hdot (direction p) (direction q)).
Proof.
  assert (L : forall x y, hdot (hneg x) y = - hdot x y) by (intros [[] ?] [[] ?]; unfold hdot, dot3, hneg; cbn; ring).
  assert (R : forall x y, hdot x (hneg y) = - hdot x y) by (intros [[] ?] [[] ?]; unfold hdot, dot3, hneg; cbn; ring).
  intros [-> | ->] [-> | ->]; rewrite ?L, ?R, ?Rabs_Ropp; reflexivity.
Qed.
(** The position error is the distance; the orientation error is the angle, or zero for orientations that differ by less than
    0.002 degrees, or not a number for orientations that differ by less than 0.0001 degrees. *)
Theorem C108_pose_error : forall L (a b : @pose (F64 L)), arccosine L -> usable e24 a -> usable e24 b ->
  let distance := len3 (vsub (valv (pos a)) (valv (pos b))) in let angle := geodesic (val (ori a)) (val (ori b)) in
  exists e d, compute_pose_error a b = Ok (e, d) /\
    fin (e : f64) /\ Rabs (V e - distance) <= 5 / 1000000000000000 * distance + 4 / 1000000000000000000 /\
    ((fin (d : f64) /\ Rabs (V d - angle) <= 1 / 10000) \/ (fin (d : f64) /\ V d = 0 /\ angle <= 1 / 500) \/ (d = nan64 /\ angle <= 1 / 10000)).
Proof.
  intros L a b AC (FA & BA & NA) (FB & BB & NB) distance angle.
  destruct (canonical_near (ori a) NA) as (QA & sa & SA & DA). destruct (canonical_near (ori b) NB) as (QB & sb & SB & DB).
  pose proof (rotation_norm _ _ (normal_pos _ NA) SA) as UA. pose proof (rotation_norm _ _ (normal_pos _ NB) SB) as UB.
  destruct (distance_near L (pos a) (pos b) FA FB BA BB) as [FE EE]. fold distance in EE.
  pose proof (proj1 PI_near) as P1. pose proof (proj2 PI_near) as P2. assert (EK : 180 / PI * PI = 180) by (field; lra).
  assert (KB : 57 <= 180 / PI <= 58) by (split; apply Rmult_le_reg_r with PI; try lra; rewrite EK; lra).
  set (pa := positive_w (qnormalize (ori a))) in *. set (pb := positive_w (qnormalize (ori b))) in *.
  set (c := hdot sa sb). assert (CB : -1 <= c <= 1) by (apply unit_dot_bound; now apply unit_hnorm).
  assert (EG : angle = 2 * acos (Rabs c) * (180 / PI)).
  { unfold angle, geodesic. do 3 f_equal. unfold c. rewrite (rotations_dot _ _ _ _ (canon_rotation _) (canon_rotation _)). symmetry. now apply rotations_dot. }
  exists (vnorm (vsub3 (pos a) (pos b))), (folded (degrees (angle_between_quaternions pa pb))). split; [reflexivity|]. split; [exact FE|]. split; [exact EE|].
  unfold angle_between_quaternions. destruct (allclose (lit 1 (-12)) (q_list pa) (q_list pb)) eqn:AL.
  - right. left. pose proof (allclose_angle pa pb sa sb QA QB UA UB DA DB AL) as H. fold c in H.
    split; [vm_compute; reflexivity|]. split; [vm_compute; reflexivity|]. rewrite EG, Rabs_pos_eq by lra.
    assert (A : acos c <= 12 / 1000000) by (apply acos_le; lra). pose proof (acos_bound c) as AB.
    assert (2 * acos c * (180 / PI) <= 2 * (12 / 1000000) * 58) by (apply Rmult_le_compat; lra). lra.
  - destruct (quotient_near pa pb sa sb QA QB UA UB DA DB) as [FW EW]. cbv zeta in FW, EW. fold c in EW. set (w := qw (qmul pa (qinv pb))) in *.
    change (folded (degrees (mul n2 (acosn w)))) with (reported (N:=F64 L) w). apply Rabs_le_inv in EW.
    destruct (Rle_lt_dec (Rabs (V w)) 1) as [W|W].
    + left. destruct (reported_near L w AC FW W) as [FR ER]. split; [exact FR|]. rewrite EG.
      assert (A : Rabs (acos (Rabs (V w)) - acos (Rabs c)) <= 4 / 10000000).
      { pose proof (Rabs_pos (V w)). pose proof (Rabs_pos c). assert (Rabs c <= 1) by (absle; lra). apply acos_near; [lra|lra|lra|].
        assert (Rabs (Rabs (V w) - Rabs c) <= 4 / 100000000000000) by (eapply Rle_trans; [apply Rabs_triang_inv2|]; absle; lra). lra. }
      apply Rabs_le_inv in A. apply Rabs_le_inv in ER.
      assert (M : -(4 / 10000000 * 58) <= (acos (Rabs (V w)) - acos (Rabs c)) * (180 / PI) <= 4 / 10000000 * 58) by (split; nra). absle; lra.
    + right. right. split; [apply reported_nan; now apply (AC w FW)|]. rewrite EG.
      assert (CC : 1 - 4 / 100000000000000 <= Rabs c <= 1).
      { split; [|absle; lra]. revert W. clear - EW. split_Rabs; lra. }
      assert (A : acos (Rabs c) <= 4 / 10000000) by (apply acos_le; lra). pose proof (acos_bound (Rabs c)) as AB.
      assert (2 * acos (Rabs c) * (180 / PI) <= 2 * (4 / 10000000) * 58) by (apply Rmult_le_compat; lra). lra.
Qed.

(** ** The evaluation of a calibration *)
(** not a number, or without a minus sign *)
Definition nn (x : f64) : Prop := is_nan x = true \/ Bsign x = false.
Lemma nn_ltb x : nn x -> Bltb x (f_of_Z 0) = false.
Proof. intros [H|H]; destruct x as [s|s| |s m e Q]; try discriminate H; cbn in *; subst; reflexivity. Qed.
Lemma nn_V x : nn x -> 0 <= V x.
Proof. intros [H|H]; destruct x as [s|s| |s m e Q]; try discriminate H; cbn in *; try lra. subst s. apply F2R_ge_0. cbn. lia. Qed.
Lemma sign_overflow s (x : f64) : B2SF x = binary_overflow 53 1024 mode_NE s -> Bsign x = s.
Proof. destruct x as [b|b| |b m e Q]; cbn; intros E; destruct s; try discriminate E; try (injection E as ->; reflexivity). Qed.
Lemma nn_square (x : f64) : nn (Bmult mode_NE x x).
Proof.
  destruct (is_finite x) eqn:F; [|destruct x as [s|s| |s m e Q]; try discriminate F; [right; destruct s; reflexivity|left; reflexivity]].
  pose proof (Bmult_correct 53 1024 f64_prec f64_emax mode_NE x x) as C. destruct (Rlt_bool _ _).
  - destruct C as (_ & FM & S). right. rewrite S; [apply xorb_nilpotent|]. rewrite F in FM. destruct (Bmult mode_NE x x); try reflexivity; discriminate FM.
  - right. rewrite (sign_overflow _ _ C). apply xorb_nilpotent.
Qed.
Lemma nn_add (x y : f64) : nn x -> nn y -> nn (Bplus mode_NE x y).
Proof.
  intros X Y. destruct (is_finite x) eqn:FX.
  - destruct (is_finite y) eqn:FY.
    + pose proof (Bplus_correct 53 1024 f64_prec f64_emax mode_NE x y FX FY) as C. pose proof (nn_V x X). pose proof (nn_V y Y).
      assert (SX : Bsign x = false) by (destruct X as [X|]; [destruct x; discriminate|easy]). assert (SY : Bsign y = false) by (destruct Y as [Y|]; [destruct y; discriminate|easy]).
      destruct (Rlt_bool _ _); [|right; rewrite (sign_overflow _ _ (proj1 C)); exact SX].
      destruct C as (_ & _ & S). right. rewrite S, SX. destruct (Rcompare_spec (V x + V y) 0); [exfalso; lra|reflexivity|reflexivity].
    + destruct y as [s|s| |s m e Q]; try discriminate FY; [|destruct x; try discriminate FX; left; reflexivity].
      destruct Y as [Y|Y]; [discriminate Y|]. cbn in Y. subst s. destruct x; try discriminate FX; right; reflexivity.
  - destruct x as [s|s| |s m e Q]; try discriminate FX; [|left; destruct y; reflexivity]. destruct X as [X|X]; [discriminate X|]. cbn in X. subst s.
    destruct y as [s|s| |s m e Q]; try (right; reflexivity). destruct Y as [Y|Y]; [discriminate Y|]. cbn in Y. subst s. right. reflexivity.
Qed.
Lemma nn_div (x y : f64) : nn x -> nn y -> nn (Bdiv mode_NE x y).
Proof.
  intros X Y. destruct (is_nan x) eqn:NX; [left; destruct x; try discriminate NX; destruct y; reflexivity|]. destruct (is_nan y) eqn:NY; [left; destruct y; try discriminate NY; destruct x; reflexivity|].
  assert (SX : Bsign x = false) by (destruct X; congruence). assert (SY : Bsign y = false) by (destruct Y; congruence). clear X Y.
  destruct (Req_dec (V y) 0) as [Z|Z].
  - destruct y as [s|s| |s m e Q]; try discriminate NY.
    + cbn in SY. subst s. destruct x as [s|s| |s m e Q]; try discriminate NX; cbn in *; subst; [left; reflexivity|right; reflexivity|right; reflexivity].
    + cbn in SY. subst s. destruct x as [s|s| |s m e Q]; try discriminate NX; cbn in *; subst; [right; reflexivity|left; reflexivity|right; reflexivity].
    + exfalso. cbn in Z. apply eq_0_F2R in Z. destruct s; discriminate Z.
  - destruct (is_finite x) eqn:FX.
    + pose proof (Bdiv_correct 53 1024 f64_prec f64_emax mode_NE x y Z) as C. destruct (Rlt_bool _ _).
      * destruct C as (_ & F & S). right. rewrite S, SX, SY; [reflexivity|]. rewrite FX in F. destruct (Bdiv mode_NE x y); try reflexivity; discriminate F.
      * right. rewrite (sign_overflow _ _ C), SX, SY. reflexivity.
    + destruct x as [s|s| |s m e Q]; try discriminate FX; try discriminate NX. cbn in SX. subst s. destruct y as [s|s| |s m e Q]; try discriminate NY; cbn in SY; subst; [right; reflexivity|left; reflexivity|right; reflexivity].
Qed.
Lemma nn_of_Z n : (0 <= n)%Z -> nn (f_of_Z n).
Proof.
  intros H. unfold f_of_Z. pose proof (binary_normalize_correct 53 1024 f64_prec f64_emax mode_NE n 0 false) as C. cbv zeta in C.
  assert (P : 0 <= F2R (Float radix2 n 0)) by (apply F2R_ge_0; exact H).
  destruct (Rlt_bool _ _).
  - destruct C as (_ & _ & S). right. rewrite S. destruct (Rcompare_spec (F2R (Float radix2 n 0)) 0); [exfalso; lra|reflexivity|reflexivity].
  - right. rewrite (sign_overflow _ _ C). apply Rlt_bool_false. exact P.
Qed.
Lemma nn_sum (l : list f64) : forall a : f64, nn a -> Forall nn l -> nn (fold_left (Bplus mode_NE) l a).
Proof. induction l as [|x l IH]; intros a A H; cbn; [exact A|]. inversion H; subst. apply IH; [|assumption]. now apply nn_add. Qed.
Lemma rms_ok L (l : list f64) n : math_sqrt (N:=F64 L) (div (Num:=F64 L) (sumn (N:=F64 L) (map (fun x : f64 => Bmult mode_NE x x) l)) (of_nat (N:=F64 L) n)) =
  Ok (Bsqrt mode_NE (Bdiv mode_NE (fold_left (Bplus mode_NE) (map (fun x : f64 => Bmult mode_NE x x) l) (f_of_Z 0)) (f_of_Z (Z.of_nat n * 1)))).
Proof.
  unfold math_sqrt. cbn [ltb div sqrtn F64 T]. unfold sumn, of_nat, n0. cbn [add lit F64]. change (f_lit 0 0) with (f_of_Z 0). change (f_lit (Z.of_nat n) 0) with (f_of_Z (Z.of_nat n * 1)).
  rewrite nn_ltb; [reflexivity|]. apply nn_div; [|apply nn_of_Z; lia]. apply nn_sum; [right; reflexivity|]. apply Forall_forall. intros x H. apply in_map_iff in H as (y & <- & _). apply nn_square.
Qed.
(** The evaluation never raises, whatever the poses contain: infinities and nans included *)
Theorem C108_evaluation_total : forall L (cfg : config (F64 L)) A B, length A = length B -> exists r, evaluate_alignment cfg A B = Ok r.
Proof.
  intros L cfg A B E. unfold evaluate_alignment. rewrite E, Nat.eqb_refl. cbn [assert_ bind].
  assert (K : exists errs, for_pairs compute_pose_error A B = Ok errs).
  { revert B E. induction A as [|a A IH]; intros [|b B] E; try discriminate E; [now exists []|]. injection E as E. destruct (IH B E) as [errs EE]. eexists. cbn [for_pairs]. unfold compute_pose_error at 1. cbn [bind]. rewrite EE. cbn [bind]. reflexivity. }
  destruct K as [errs ->]. cbn [bind].
  pose proof (rms_ok L (map (@fst f64 f64) errs) (length B)) as R1. rewrite map_map in R1. pose proof (rms_ok L (map (@snd f64 f64) errs) (length B)) as R2. rewrite map_map in R2.
  eexists. etransitivity; [apply (f_equal (fun x => bind x _)); exact R1|]. cbn [bind]. etransitivity; [apply (f_equal (fun x => bind x _)); exact R2|]. cbn [bind]. reflexivity.
Qed.
(** What the flag of a pair says about the exact errors *)
Theorem C108_flags : forall L (cfg : config (F64 L)) A B rp ro flags, arccosine L -> Forall (usable e24) A -> Forall (usable e24) B ->
  fin (ransac_position_error_threshold_m cfg : f64) -> fin (ransac_orientation_error_threshold_deg cfg : f64) ->
  evaluate_alignment cfg A B = Ok (rp, ro, flags) ->
  forall i a b, nth_error A i = Some a -> nth_error B i = Some b ->
    let distance := len3 (vsub (valv (pos a)) (valv (pos b))) in let angle := geodesic (val (ori a)) (val (ori b)) in
    let tol := 5 / 1000000000000000 * distance + 4 / 1000000000000000000 in
    exists flag, nth_error flags i = Some flag /\
      (flag = true -> distance < V (ransac_position_error_threshold_m cfg) + tol /\ angle < V (ransac_orientation_error_threshold_deg cfg) + 1 / 500) /\
      (flag = false -> V (ransac_position_error_threshold_m cfg) - tol <= distance \/ V (ransac_orientation_error_threshold_deg cfg) - 1 / 10000 <= angle \/ angle <= 1 / 10000).
Proof.
  intros L cfg A B rp ro flags AC UA UB FP FO E i a b HA HB distance angle tol.
  destruct (C31_flags cfg A B rp ro flags E) as (_ & _ & H). destruct (H i a b HA HB) as (e & d & EE & FL). exists (ltb d (ransac_orientation_error_threshold_deg cfg) && ltb e (ransac_position_error_threshold_m cfg)). split; [exact FL|].
  assert (Ua : usable e24 a) by (rewrite Forall_forall in UA; apply UA; eapply nth_error_In; exact HA).
  assert (Ub : usable e24 b) by (rewrite Forall_forall in UB; apply UB; eapply nth_error_In; exact HB).
  destruct (C108_pose_error L a b AC Ua Ub) as (e' & d' & EE' & FE & DE & K). rewrite EE in EE'. assert (e' = e) by congruence. assert (d' = d) by congruence. subst e' d'. clear EE EE' H FL E HA HB.
  fold distance in DE. fold tol in DE. fold angle in K. apply Rabs_le_inv in DE.
  assert (AP : 0 <= angle).
  { unfold angle, geodesic. pose proof PI_RGT_0. apply Rmult_le_pos; [pose proof (acos_bound (Rabs (hdot (canon (val (ori a))) (canon (val (ori b)))))); lra|]. apply Rmult_le_pos; [lra|]. left. now apply Rinv_0_lt_compat. }
  change (ltb d (ransac_orientation_error_threshold_deg cfg)) with (Bltb d (ransac_orientation_error_threshold_deg cfg)). change (ltb e (ransac_position_error_threshold_m cfg)) with (Bltb e (ransac_position_error_threshold_m cfg)).
  set (to := ransac_orientation_error_threshold_deg cfg) in *. set (tp := ransac_position_error_threshold_m cfg) in *. clearbody to tp tol angle distance. cbn [T F64] in *.
  split; intros FL.
  - apply andb_true_iff in FL as [F1 F2]. apply ltb_V in F2; [|exact FE|exact FP]. split; [lra|].
    destruct K as [(FD & D)|[(FD & D & DA)|(-> & _)]].
    + apply ltb_V in F1; [|exact FD|exact FO]. apply Rabs_le_inv in D. lra.
    + apply ltb_V in F1; [|exact FD|exact FO]. lra.
    + destruct to; discriminate F1.
  - apply andb_false_iff in FL as [F1|F2].
    + destruct K as [(FD & D)|[(FD & D & _)|(-> & D)]]; [right; left|right; left|right; right; exact D].
      * apply Rabs_le_inv in D. destruct (Rle_lt_dec (V to) (V d)) as [|Q]; [lra|]. apply ltb_V in Q; [congruence|exact FD|exact FO].
      * destruct (Rle_lt_dec (V to) (V d)) as [|Q]; [lra|]. apply ltb_V in Q; [congruence|exact FD|exact FO].
    + left. destruct (Rle_lt_dec (V tp) (V e)) as [|Q]; [lra|]. apply ltb_V in Q; [congruence|exact FE|exact FP].
Qed.

(** ** A nan spoils the evaluation, and the sample is lost *)
Lemma nan_sum (l : list f64) : forall a : f64, (a = B754_nan \/ In B754_nan l) -> fold_left (Bplus mode_NE) l a = B754_nan.
Proof.
  induction l as [|x l IH]; intros a H; cbn [fold_left].
  - destruct H as [H|[]]; exact H.
  - apply IH. destruct H as [->|[->|H]]; [left; reflexivity|left; destruct a; reflexivity|right; exact H].
Qed.
Theorem C108_nan_spreads : forall L (cfg : config (F64 L)) A B i a b e, length A = length B ->
  nth_error A i = Some a -> nth_error B i = Some b -> compute_pose_error a b = Ok (e, nan64) ->
  exists rp flags, evaluate_alignment cfg A B = Ok (rp, nan64, flags) /\ nth_error flags i = Some false.
Proof.
  intros L cfg A B i a b e LE HA HB EE. destruct (C108_evaluation_total L cfg A B LE) as [[[rp ro] flags] E]. exists rp, flags.
  destruct (C31_flags cfg A B rp ro flags E) as (_ & _ & H). destruct (H i a b HA HB) as (e' & d & EE' & FL). rewrite EE in EE'.
  assert (d = nan64) by congruence. subst d. clear H EE'. split.
  - rewrite E. do 2 f_equal. f_equal. unfold evaluate_alignment in E. apply assert_ok in E as [_ E]. apply bind_ok in E as (errs & ER & E).
    apply bind_ok in E as (r1 & _ & E). apply bind_ok in E as (r2 & E2 & E). assert (r2 = ro) by congruence. subst r2.
    destruct (CalibFacts.for_pairs_short _ _ _ _ ER i a HA) as (b' & c & Hb' & C & Hc). rewrite HB in Hb'. assert (b' = b) by congruence. subst b'. rewrite EE in C. assert (c = (e, nan64)) by congruence. subst c.
    pose proof (rms_ok L (map (@snd f64 f64) errs) (length A)) as R2. rewrite map_map in R2. rewrite nan_sum in R2.
    + assert (Q : Ok (A:=f64) ro = Ok (B754_nan : f64)); [|injection Q as Q; exact Q]. etransitivity; [symmetry; exact E2|]. etransitivity; [exact R2|]. destruct (f_of_Z (Z.of_nat (length A) * 1)); reflexivity.
    + right. apply in_map_iff. exists (e, nan64 (L:=L)). split; [reflexivity|]. eapply nth_error_In. exact Hc.
  - rewrite FL. destruct (ransac_orientation_error_threshold_deg cfg); reflexivity.
Qed.
(** a calibration evaluated with such an error never replaces the best one *)
Theorem C108_sample_lost : forall L (cfg : config (F64 L)) sample dq rp n sv bad st st' stop,
  account cfg sample (Evaluated dq rp nan64 n sv bad) st = Ok (st', stop) ->
  best st' = best st /\ best_num_inliers st' = best_num_inliers st /\ best_rmse_position st' = best_rmse_position st /\
  best_rmse_orientation st' = best_rmse_orientation st /\ sample_number st' = S (sample_number st) /\ full_iterations st' = S (full_iterations st).
Proof.
  intros L cfg sample dq rp n sv bad st st' stop H. cbn [account] in H.
  replace (ltb (Num:=F64 L) nan64 (best_rmse_orientation st)) with false in H by (cbn [ltb F64]; destruct (best_rmse_orientation st); reflexivity).
  rewrite andb_false_r in H. apply bind_ok in H as (s & _ & H). assert (E : st' = mkState (best st) (best_bad st) (best_num_inliers st) (best_rmse_position st) (best_rmse_orientation st) (S (sample_number st)) (S (full_iterations st)) (prerejected_samples st)) by congruence.
  rewrite E. repeat (split; [reflexivity|]). reflexivity.
Qed.

(** ** Two poses without an orientation error *)
Definition spot L : @vec3 (F64 L) := mkV (N:=F64 L) (f_of_Z 1) (f_of_Z 2) (f_of_Z 3).
(** (1,0,0,5) and (1, 2^-24, 0, 5): about 1.3e-6 degrees apart *)
Definition left_pose L : @pose (F64 L) := mkPose (spot L) (mkQ (N:=F64 L) (f_of_Z 1) (f_of_Z 0) (f_of_Z 0) (f_of_Z 5)).
Definition right_pose L : @pose (F64 L) := mkPose (spot L) (mkQ (N:=F64 L) (f_of_Z 1) (Bdiv mode_NE (f_of_Z 1) (f_of_Z 16777216)) (f_of_Z 0) (f_of_Z 5)).
Lemma spot_near L : finv (spot L) /\ len3 (valv (spot L)) <= e24.
Proof.
  destruct (of_Z_V 1 ltac:(lia)) as [F1 V1]. destruct (of_Z_V 2 ltac:(lia)) as [F2 V2]. destruct (of_Z_V 3 ltac:(lia)) as [F3 V3].
  split; [exact (conj F1 (conj F2 F3))|]. unfold valv, spot. cbn [vx vy vz]. rewrite V1, V2, V3. rewrite <- len_norm.
  eapply Rle_trans; [apply (norm_components _ 3)|unfold e24; lra]; cbn; try lra; absle; lra.
Qed.
Lemma above_one L (w : f64) : arccosine L -> fin w -> Bltb (f_of_Z 1) w = true -> m_acos L w = B754_nan.
Proof. intros AC FW H. apply (AC _ FW). destruct (of_Z_V 1 ltac:(lia)) as [F1 V1]. apply ltb_V in H; [|exact F1|exact FW]. rewrite V1 in H. rewrite Rabs_pos_eq; lra. Qed.
Theorem C108_nan_refuted : forall L, arccosine L -> usable e24 (left_pose L) /\ usable e24 (right_pose L) /\
  exists e, compute_pose_error (left_pose L) (right_pose L) = Ok (e, nan64).
Proof.
  intros L AC. destruct (spot_near L) as [F B]. split; [|split].
  - split; [exact F|]. split; [exact B|]. split; vm_compute; reflexivity.
  - split; [exact F|]. split; [exact B|]. split; vm_compute; reflexivity.
  - eexists. unfold compute_pose_error.
    set (pa := positive_w (qnormalize (ori (left_pose L)))). set (pb := positive_w (qnormalize (ori (right_pose L)))). cbv zeta. apply (f_equal Ok). f_equal.
    change (folded (degrees (angle_between_quaternions pa pb)) = (B754_nan : f64)). unfold angle_between_quaternions.
    replace (allclose (lit 1 (-12)) (q_list pa) (q_list pb)) with false by (vm_compute; reflexivity).
    change (folded (degrees (mul n2 (acosn (qw (qmul pa (qinv pb))))))) with (reported (N:=F64 L) (qw (qmul pa (qinv pb)))). apply reported_nan.
    assert (FW : fin (qw (qmul pa (qinv pb)) : f64)) by (vm_compute; reflexivity).
    assert (H : Bltb (f_of_Z 1) (qw (qmul pa (qinv pb))) = true) by (vm_compute; reflexivity).
    exact (above_one L _ AC FW H).
Qed.

(** ** Examples *)
(** a libm with such an arccosine: the nearest multiple of 2^-50 *)
Definition grid_acos (x : f64) : f64 :=
  if Bleb (Babs x) (f_of_Z 1) then binary_normalize 53 1024 f64_prec f64_emax mode_NE (Znearest (fun z => negb (Z.even z)) (acos (V x) * 1125899906842624)) (-50) false else B754_nan.
Definition grid_libm : libm := Build_libm (fun _ => f_of_Z 0) (fun _ => f_of_Z 0) grid_acos (fun _ => f_of_Z 0) (fun _ _ => f_of_Z 0).
Example C108_arccosine_example : arccosine grid_libm.
Proof.
  intros x F. cbn [m_acos grid_libm]. unfold grid_acos. destruct (of_Z_V 1 ltac:(lia)) as [F1 V1]. split; intros H.
  - rewrite (proj2 (leb_V (Babs x) (f_of_Z 1) ltac:(now rewrite abs_fin) F1)) by (now rewrite abs_V, V1).
    set (r := acos (V x)). pose proof (acos_bound (V x)) as AB. fold r in AB. pose proof (proj1 PI_near). pose proof (proj2 PI_near).
    set (m := Znearest (fun z => negb (Z.even z)) (r * 1125899906842624)).
    assert (M : Rabs (IZR m - r * 1125899906842624) <= 1 / 2) by (rewrite Rabs_minus_sym; pose proof (Znearest_half (fun z => negb (Z.even z)) (r * 1125899906842624)); fold m in H2; lra).
    apply Rabs_le_inv in M.
    assert (MB : (Z.abs m < 2 ^ 53)%Z) by (apply lt_IZR; rewrite abs_IZR; change (IZR (2 ^ 53)) with 9007199254740992; apply Rabs_def1; lra).
    pose proof (binary_normalize_correct 53 1024 f64_prec f64_emax mode_NE m (-50) false) as C. cbv zeta in C.
    assert (E : F2R (Float radix2 m (-50)) = IZR m / 1125899906842624) by (unfold F2R; cbn; lra).
    assert (G : rnd (F2R (Float radix2 m (-50))) = F2R (Float radix2 m (-50))).
    { apply round_generic; [apply valid_rnd_round_mode|]. rewrite fexp_FLT. apply generic_format_FLT. exists (Float radix2 m (-50)); cbn; [reflexivity|exact MB|lia]. }
    rewrite G, E in C. rewrite Rlt_bool_true in C.
    + destruct C as (C1 & C2 & _). split; [exact C2|]. rewrite C1. absle; lra.
    + apply Rlt_le_trans with (bpow radix2 3); [|apply bpow_le; lia]. change (bpow radix2 3) with 8. apply Rabs_def1; lra.
  - replace (Bleb (Babs x) (f_of_Z 1)) with false; [reflexivity|]. symmetry. apply not_true_iff_false. intros Q. apply leb_V in Q; [|now rewrite abs_fin|exact F1]. rewrite abs_V, V1 in Q. lra.
Qed.
Example C108_example : exists rp flags, evaluate_alignment (N:=F64 grid_libm) default_config
    [right_pose grid_libm; left_pose grid_libm] [right_pose grid_libm; right_pose grid_libm] = Ok (rp, nan64, flags) /\ nth_error flags 1 = Some false.
Proof.
  destruct (C108_nan_refuted grid_libm C108_arccosine_example) as (_ & _ & e & E).
  exact (C108_nan_spreads grid_libm _ [right_pose grid_libm; left_pose grid_libm] [right_pose grid_libm; right_pose grid_libm] 1 (left_pose grid_libm) (right_pose grid_libm) e eq_refl eq_refl eq_refl E).
Qed.
