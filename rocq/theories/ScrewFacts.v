(** * Screw parameters and screw congruence. *)

From Coq Require Import Reals ZArith Bool List Lra Psatz.
From Verif Require Import Num Py XReal XFacts Quat DualQuat Spec Embed QuatFacts QuatTrig QuatRot DualFacts.
Import ListNotations.
Local Open Scope R_scope.

Lemma qs_mul_comm p q : qs (hmul p q) = qs (hmul q p).
Proof. destruct p as [[] ?], q as [[] ?]. specu; ring. Qed.
Lemma qs_add p q : qs (hadd p q) = qs p + qs q.
Proof. reflexivity. Qed.

(** A X = X B for unit X: A and B have the same scalar parts. *)
Lemma screw_congruence a b x : unitdq x -> dqmul a x = dqmul x b ->
  qs (dr a) = qs (dr b) /\ qs (dd a) = qs (dd b).
Proof.
  intros [U D] E.
  assert (Er : hmul (dr a) (dr x) = hmul (dr x) (dr b)).
  { change (dr (dqmul a x) = dr (dqmul x b)). now rewrite E. }
  assert (Ed : hadd (hmul (dr a) (dd x)) (hmul (dd a) (dr x))
             = hadd (hmul (dr x) (dd b)) (hmul (dd x) (dr b))).
  { change (dd (dqmul a x) = dd (dqmul x b)). now rewrite E. }
  assert (Ar : dr a = hmul (hmul (dr x) (dr b)) (hconj (dr x))).
  { now rewrite <- Er, hmul_assoc, unit_conj_r, hmul_1_r. }
  split.
  - rewrite Ar, qs_mul_comm, <- hmul_assoc, unit_conj_l, hmul_1_l; easy.
  - (* take the scalar part of Ed * x^* *)
    pose proof (f_equal (fun q => qs (hmul q (hconj (dr x)))) Ed) as H; cbn beta in H.
    rewrite !hmul_add_l, !qs_add in H.
    rewrite (hmul_assoc (dd a)), unit_conj_r, hmul_1_r in H by easy.
    assert (H1 : qs (hmul (hmul (dr x) (dd b)) (hconj (dr x))) = qs (dd b)).
    { rewrite qs_mul_comm, <- hmul_assoc, unit_conj_l, hmul_1_l; easy. }
    rewrite H1 in H.
    assert (H2 : qs (hmul (hmul (dr a) (dd x)) (hconj (dr x)))
               = qs (hmul (dr b) (hmul (hconj (dr x)) (dd x)))).
    { rewrite Ar. rewrite qs_mul_comm, !hmul_assoc, <- (hmul_assoc (hconj (dr x)) (dr x)).
      rewrite unit_conj_l, hmul_1_l by easy. easy. }
    assert (H3 : qs (hmul (hmul (dd x) (dr b)) (hconj (dr x)))
               = qs (hmul (dr b) (hmul (hconj (dr x)) (dd x)))).
    { now rewrite hmul_assoc, qs_mul_comm, hmul_assoc. }
    rewrite H2, H3 in H. lra.
Qed.

Lemma conj_equation a x : unitdq x -> dqmul a x = dqmul x (dqmul (dqmul (dqinv x) a) x).
Proof.
  intros U. rewrite !dqmul_assoc, <- (dqmul_assoc x (dqinv x)).
  now rewrite dqmul_inv_r, dqmul_1_l by now apply unitdq_n2.
Qed.

Lemma hconj_add p : hadd p (hconj p) = RQ vzero (2 * qs p).
Proof. qring. Qed.
Lemma scalar_in a : scalar (inD a) = Ok (inD (RD (RQ vzero (qs (dr a))) (RQ vzero (qs (dd a))))).
Proof.
  unfold scalar. rewrite dconj_in, dadd_in. unfold nhalf; cbn [lit XR]. rewrite dscale_l_in.
  assert (E : dqscale (Rlit 5 (-1)) (dqadd a (dqconj a))
            = RD (RQ vzero (qs (dr a))) (RQ vzero (qs (dd a)))).
  { unfold dqscale, dqadd, dqconj; cbn [dr dd]. rewrite !hconj_add, Rlit_half.
    apply rdq_eq; cbn [dr dd]; apply rq_eq; simpl; lra. }
  rewrite E. rewrite assert_true; [easy|].
  unfold inD, inQ, vzero; cbn [dr dd qv v1 v2 v3 rot dual qx qy qz].
  assert (Z : isclose_gen (N:=XR) (Fin (Rlit 1 (-7))) (Fin (Rlit 1 (-6))) (Fin 0) n0 = true).
  { unfold isclose_gen, n0; cbn [lit XR sub add absv mul leb isfin xabs xsub xadd xmul xleb xfin Rlit].
    rewrite Rleb_t; [easy|]. replace (0 - 0) with 0 by ring. rewrite Rabs_R0.
    rewrite !Rmult_0_r, Rplus_0_r. simpl; lra. }
  rewrite Z. reflexivity.
Qed.

(** Rotation angle in degrees, before the modulo. *)
Definition turn_deg (w : R) : R := 2 * (acos w * (180 / PI)).

Lemma turn_bounds w : -1 <= w <= 1 -> 0 <= turn_deg w <= 360.
Proof.
  intros H. unfold turn_deg. pose proof (acos_bound w). pose proof PI_RGT_0.
  split.
  - apply Rmult_le_pos; [lra|]. apply Rmult_le_pos; [lra|]. apply Rlt_le, Rdiv_lt_0_compat; lra.
  - replace 360 with (2 * (PI * (180 / PI))) by (field; lra).
    apply Rmult_le_compat_l; [lra|]. apply Rmult_le_compat_r; [|lra].
    apply Rlt_le, Rdiv_lt_0_compat; lra.
Qed.
Lemma Int_part_0 x : 0 <= x < 1 -> Int_part x = 0%Z.
Proof.
  intros. destruct (base_Int_part x) as [A B].
  assert (C1 : (Int_part x < 1)%Z) by (apply lt_IZR; simpl; lra).
  assert (C2 : (-1 < Int_part x)%Z) by (apply lt_IZR; simpl; lra). lia.
Qed.
Lemma Int_part_1 : Int_part 1 = 1%Z.
Proof.
  destruct (base_Int_part 1) as [A B].
  assert (C1 : (Int_part 1 < 2)%Z) by (apply lt_IZR; simpl; lra).
  assert (C2 : (0 < Int_part 1)%Z) by (apply lt_IZR; simpl; lra). lia.
Qed.
Lemma acos_lt_PI w : -1 < w <= 1 -> acos w < PI.
Proof.
  intros H. pose proof (acos_bound w). destruct (Req_dec (acos w) PI) as [E|]; [|lra].
  pose proof (cos_acos w ltac:(lra)) as C. rewrite E, cos_PI in C. lra.
Qed.
Lemma turn_lt w : -1 < w <= 1 -> turn_deg w < 360.
Proof.
  intros H. pose proof (acos_lt_PI w H). pose proof PI_RGT_0. unfold turn_deg.
  replace 360 with (2 * (PI * (180 / PI))) by (field; lra).
  apply Rmult_lt_compat_l; [lra|]. apply Rmult_lt_compat_r; [|lra].
  apply Rdiv_lt_0_compat; lra.
Qed.
Lemma acos_m1 : acos (-1) = PI.
Proof. replace (-1) with (Ropp 1) by ring. rewrite acos_opp, acos_1; ring. Qed.
Lemma turn_m1 : turn_deg (-1) = 360.
Proof. unfold turn_deg. rewrite acos_m1. pose proof PI_RGT_0. field; lra. Qed.
Lemma turn_1 : turn_deg 1 = 0.
Proof. unfold turn_deg. rewrite acos_1; ring. Qed.

(** The rotation angle reported: w = -1 (a full turn) wraps to 0. *)
Definition turn_mod (w : R) : R := if Req_EM_T w (-1) then 0 else turn_deg w.
Lemma xmod_turn w : -1 <= w <= 1 -> xmod (Fin (turn_deg w)) (Fin 360) = Fin (turn_mod w).
Proof.
  intros H. unfold xmod. destruct (Req_EM_T 360 0); [lra|]. unfold turn_mod. f_equal.
  pose proof (turn_bounds w H). destruct (Req_EM_T w (-1)) as [->|].
  - rewrite turn_m1. replace (360 / 360) with 1 by field. rewrite Int_part_1. simpl; ring.
  - pose proof (turn_lt w ltac:(lra)). rewrite Int_part_0; [simpl; ring|].
    split; [apply Rmult_le_pos; lra|]. apply Rmult_lt_reg_r with 360; [lra|].
    unfold Rdiv. rewrite Rmult_assoc, Rinv_l by lra. lra.
Qed.
Lemma turn_mod_range w : -1 <= w <= 1 -> 0 <= turn_mod w < 360.
Proof.
  intros H. unfold turn_mod. destruct (Req_EM_T w (-1)); [lra|].
  split; [apply turn_bounds; lra | apply turn_lt; lra].
Qed.
Lemma sin_half_turn w : -1 < w <= 1 ->
  sin (turn_deg w / 2 * PI / 180) = sqrt (1 - w * w).
Proof.
  intros H. pose proof PI_RGT_0. unfold turn_deg.
  replace (2 * (acos w * (180 / PI)) / 2 * PI / 180) with (acos w) by (field; lra).
  apply acos_sin; lra.
Qed.
Lemma turn_pos_w w : -1 < w <= 1 -> 0 < turn_deg w -> w < 1.
Proof. intros H T. destruct (Req_dec w 1) as [->|]; [|lra]. rewrite turn_1 in T; lra. Qed.

(** The three branches. *)
Definition eps12 : R := 1 / 1000000000000.

Lemma screw_axis_rot a : unitq (dr a) -> eps12 < turn_mod (qs (dr a)) ->
  let s := len3 (qv (dr a)) in
  0 < s /\
  screw_axis (inD a) = (inV (vscale (/ s) (qv (dr a))), Fin (turn_mod (qs (dr a))),
                        Fin (-2 * qs (dd a) / s)).
Proof.
  intros U T s. pose proof (unit_qs_bound _ U) as B. set (w := qs (dr a)) in *.
  unfold eps12 in T.
  assert (W : w <> -1).
  { intros E. unfold turn_mod in T. destruct (Req_EM_T w (-1)); lra. }
  assert (TT : turn_mod w = turn_deg w) by (unfold turn_mod; destruct (Req_EM_T w (-1)); lra).
  assert (W1 : w < 1) by (apply turn_pos_w; [lra|rewrite <- TT; lra]).
  assert (S2 : s = sqrt (1 - w * w)).
  { unfold s, len3. f_equal. unfold unitq, hnorm2, hdot in U. fold w in U. lra. }
  assert (S : 0 < s) by (rewrite S2; apply sqrt_lt_R0; nra).
  split; [easy|].
  unfold screw_axis, n2, degrees. cbn [lit XR mul div acosn modn npi sinn ltb].
  unfold inD; cbn [rot dual]. change (qw (inQ (dr a))) with (Fin w).
  rewrite xacos_fin by lra. rewrite (xdiv_fin (Rlit 180 0) PI) by (pose proof PI_RGT_0; lra).
  cbn [xmul Rlit]. change (2 * (acos w * (180 / PI))) with (turn_deg w).
  rewrite xmod_turn by lra. cbn [xltb]. change (Rlit 1 (-12)) with (1 / 1000000000000).
  rewrite Rltb_t by lra. rewrite !xdiv_fin by lra. cbn [xmul]. rewrite xdiv_fin by lra. cbn [xsin].
  rewrite TT, sin_half_turn by lra. rewrite <- S2.
  cbn [inQ qx qy qz qw xmul]. rewrite !xdiv_fin by lra.
  unfold inV. cbn [vscale v1 v2 v3]. rewrite !(Rmult_comm (/ s)). reflexivity.
Qed.

Lemma screw_axis_norot a : unitq (dr a) -> turn_mod (qs (dr a)) <= eps12 ->
  screw_axis (inD a) =
    (inV (if Rlt_dec eps12 (2 * len3 (qv (dd a)))
          then vscale (/ len3 (qv (dd a))) (qv (dd a)) else vzero),
     Fin (turn_mod (qs (dr a))), Fin (2 * len3 (qv (dd a)))).
Proof.
  intros U T. pose proof (unit_qs_bound _ U) as B. set (w := qs (dr a)) in *.
  unfold eps12 in *.
  unfold screw_axis, n2, degrees. cbn [lit XR mul div acosn modn npi sinn ltb].
  unfold inD; cbn [rot dual]. change (qw (inQ (dr a))) with (Fin w).
  rewrite xacos_fin by lra. rewrite (xdiv_fin (Rlit 180 0) PI) by (pose proof PI_RGT_0; lra).
  cbn [xmul Rlit]. change (2 * (acos w * (180 / PI))) with (turn_deg w).
  rewrite xmod_turn by lra. cbn [xltb]. change (Rlit 1 (-12)) with (1 / 1000000000000).
  rewrite Rltb_f by lra. cbn [inQ qx qy qz qw xmul add XR xadd sqrtn].
  change (v1 (qv (dd a)) * v1 (qv (dd a)) + v2 (qv (dd a)) * v2 (qv (dd a))
          + v3 (qv (dd a)) * v3 (qv (dd a))) with (dot3 (qv (dd a)) (qv (dd a))).
  rewrite xsqrt_fin by apply dot3_pos. fold (len3 (qv (dd a))). cbn [xmul xltb].
  change (IZR (Zpos 2)) with 2.
  unfold Rltb. change (IZR 1 / IZR (Z.pow_pos 10 12)) with (1 / 1000000000000).
  destruct (Rlt_dec (1 / 1000000000000) (2 * len3 (qv (dd a)))).
  - rewrite !xdiv_fin by lra. unfold inV; cbn [vscale v1 v2 v3].
    assert (E : forall x, 2 * x / (2 * len3 (qv (dd a))) = / len3 (qv (dd a)) * x)
      by (intros; field; lra).
    now rewrite !E.
  - reflexivity.
Qed.

(** Translation along the axis *)
Lemma trans_dot_axis a : unitdq a -> dot3 (trans_of a) (qv (dr a)) = -2 * qs (dd a).
Proof.
  intros [U D]. destruct a as [[[x y z] w] [[x' y' z'] w']]. unfold unitq, hnorm2 in U. specu.
  replace (-2 * w') with (-2 * w' * (x * x + y * y + z * z + w * w)) by (rewrite U; ring).
  assert (E : x' * x + y' * y + z' * z = - (w * w')) by lra.
  clear D U.
  replace (-2 * w' * (x * x + y * y + z * z + w * w))
    with (-2 * w' * (x * x + y * y + z * z) + 2 * w * (- (w * w'))) by ring.
  rewrite <- E. ring.
Qed.
