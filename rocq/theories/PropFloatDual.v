(** * Properties C72 and C73: dual quaternions in double precision. *)

From Coq Require Import Reals ZArith Bool List Arith Lra Lia Psatz.
From Flocq Require Import Core BinarySingleNaN.
From Verif Require Import Num Py Quat DualQuat HandEye F64 Spec ListFacts QuatFacts DualFacts F64Facts FloatFacts PropFloat FloatQuat FloatDual.
Import ListNotations.
Local Open Scope R_scope.

(** ** Specification *)
(** the exact rigid motion given by a pose whose quaternion need not be normalised *)
Definition exact_motion {L} (p : @pose (F64 L)) : rdq := dq_of (direction (val (ori p))) (valv (pos p)).
(** a pose with finite coordinates, at most R from the origin, whose quaternion has a finite norm above 1e-8 *)
Definition usable {L} (R : R) (p : @pose (F64 L)) : Prop :=
  finv (pos p) /\ len3 (valv (pos p)) <= R /\
  isfin (Num:=F64 L) (qnorm (ori p)) = true /\ ltb (Num:=F64 L) (lit (Num:=F64 L) 1 (-8)) (qnorm (ori p)) = true.
Definition far {L} (p : @pose (F64 L)) : R := len3 (valv (pos p)).
Definition tiny50 : R := 1 / 100000000000000000000000000000000000000000000000000.
Definition e24 : R := 1000000000000000000000000.

Lemma far_pos {L} (p : @pose (F64 L)) : 0 <= far p. Proof. apply sqrt_pos. Qed.
Lemma exact_unit {L} R (p : @pose (F64 L)) : usable R p -> unitdq (exact_motion p).
Proof. intros (_ & _ & N). apply dq_of_unit. unfold unitq. apply direction_unit. exact (normal_pos _ N). Qed.
Lemma exact_rot {L} R (p : @pose (F64 L)) : usable R p -> hnorm (dr (exact_motion p)) = 1.
Proof. intros (_ & _ & N). apply direction_norm. exact (normal_pos _ N). Qed.
Lemma exact_dual {L} R (p : @pose (F64 L)) : usable R p -> hnorm (dd (exact_motion p)) = 1 / 2 * far p.
Proof.
  intros U. pose proof (exact_rot R p U) as N. unfold exact_motion, dq_of in *. cbn [dr dd] in *. rewrite hnorm_scale, hnorm_mul, N, len_norm by lra. unfold far. ring.
Qed.
Lemma usable_approx {L} (p : @pose (F64 L)) : usable e24 p ->
  approx (6 / 1000000000000000) (5 / 1000000000000000 * far p + 22 * eta) (from_pose_vector p) (exact_motion p).
Proof.
  intros (F & B & N). destruct (from_pose_near (pos p) (ori p) F) as (A1 & A2 & A3 & A4); [unfold e24, e25 in *; lra|exact N|].
  exact (conj A1 (conj A2 (conj A3 A4))).
Qed.

(** ** C73: poses and dual quaternions *)
(** A pose that is converted to a dual quaternion and back returns with its position up to the relative error 6e-14 and its
    normalised quaternion up to sign and 2e-14; the sign is the one with w >= 0. *)
Theorem C73_round_trip : forall L (p : @pose (F64 L)), usable e24 p ->
  let p' := snd (to_pose (from_pose_vector p)) in
  finv (pos p') /\ len3 (vsub (valv (pos p')) (valv (pos p))) <= 6 / 100000000000000 * far p + tiny50 /\
  (exists s, (s = direction (val (ori p)) \/ s = hneg (direction (val (ori p)))) /\ close_to (2 / 100000000000000) (val (ori p')) s) /\
  0 <= V (qw (ori p')).
Proof.
  intros L p U p'. pose proof (far_pos p) as F0. pose proof U as (_ & FB & _). fold (far p) in FB. unfold e24, tiny50 in *.
  destruct (to_pose_approx (from_pose_vector p) (exact_motion p) (6 / 1000000000000000) (5 / 1000000000000000 * far p + 22 * eta) (1 / 2 * far p)
    (usable_approx p U) (exact_rot _ p U) (Req_le _ _ (exact_dual _ p U))) as (A1 & A2 & (s & S & A3) & A4); [lra|unfold e25; nums; lra|].
  split; [exact A1|]. split.
  - fold p' in A2. replace (trans_of (exact_motion p)) with (valv (pos p)) in A2.
    + eapply Rle_trans; [exact A2|]. clear - F0 FB. nums. lra.
    + symmetry. apply trans_dq_of. exact (proj1 (exact_unit _ p U)).
  - split; [|exact A4]. exists s. split; [exact S|]. apply dist_close. fold p' in A3. lra.
Qed.
(** The product of the dual quaternions of two poses is the pose of the composed motion: the position within 1.1e-13 times the
    distances involved, the quaternion within 4e-14 up to sign. *)
Theorem C73_compose : forall L (a b : @pose (F64 L)), usable e24 a -> usable e24 b ->
  let p := snd (to_pose (dmul (from_pose_vector a) (from_pose_vector b))) in
  let qa := direction (val (ori a)) in let qb := direction (val (ori b)) in
  finv (pos p) /\ len3 (vsub (valv (pos p)) (vadd (hrot qa (valv (pos b))) (valv (pos a)))) <= 11 / 100000000000000 * (far a + far b) + tiny50 /\
  (exists s, (s = hmul qa qb \/ s = hneg (hmul qa qb)) /\ close_to (4 / 100000000000000) (val (ori p)) s) /\ 0 <= V (qw (ori p)).
Proof.
  intros L a b UA UB p qa qb. pose proof (far_pos a) as A0. pose proof (far_pos b) as B0. pose proof UA as (_ & FA & _). pose proof UB as (_ & FB & _). fold (far a) in FA. fold (far b) in FB. unfold e24, tiny50 in *.
  pose proof (usable_approx a UA) as PA. pose proof (usable_approx b UB) as PB.
  pose proof (exact_rot _ a UA) as NA. pose proof (exact_rot _ b UB) as NB. pose proof (Req_le _ _ (exact_dual _ a UA)) as DA. pose proof (Req_le _ _ (exact_dual _ b UB)) as DB.
  set (A := exact_motion a) in *. set (B := exact_motion b) in *.
  pose proof (dmul_approx _ _ A B _ _ _ _ _ _ PA PB NA NB DA DB ltac:(lra) ltac:(lra) ltac:(unfold e25; nums; lra) ltac:(unfold e25; nums; lra)) as M. unfold tol3 in M.
  apply (approx_weaken _ _ (151 / 10000000000000000) (97 / 10000000000000000 * (far a + far b) + 200 * eta)) in M; [|lra|clear - A0 B0 FA FB; nums; lra].
  assert (NM : hnorm (dr (dqmul A B)) = 1) by (cbn [dqmul dr]; rewrite hnorm_mul, NA, NB; ring).
  assert (DM : hnorm (dd (dqmul A B)) <= 1 / 2 * (far a + far b)).
  { cbn [dqmul dd]. eapply Rle_trans; [apply hnorm_triangle|]. rewrite !hnorm_mul, NA, NB. lra. }
  destruct (to_pose_approx _ _ _ _ _ M NM DM) as (A1 & A2 & (s & S & A3) & A4); [lra|unfold e25; nums; lra|].
  fold p in A1, A2, A3, A4. split; [exact A1|]. split; [|split; [|exact A4]].
  - rewrite trans_of_mul in A2; [|exact (proj1 (exact_unit _ a UA))|exact (proj1 (exact_unit _ b UB))].
    unfold A, B, exact_motion in A2. rewrite !trans_dq_of in A2; [|exact (proj1 (exact_unit _ a UA))|exact (proj1 (exact_unit _ b UB))].
    eapply Rle_trans; [exact A2|]. clear - A0 B0 FA FB. nums. lra.
  - exists s. split; [exact S|]. apply dist_close. lra.
Qed.
(** Transforming a point: passive_transform_point of the dual quaternion of a pose. *)
Lemma identity_usable {L} (v : @vec3 (F64 L)) : finv v -> len3 (valv v) <= e24 -> usable e24 (mkPose v (mkQ n0 n0 n0 n1)).
Proof. intros F B. split; [exact F|]. split; [exact B|]. split; vm_compute; reflexivity. Qed.
Theorem C73_transform_point : forall L (a : @pose (F64 L)) (v : @vec3 (F64 L)), usable e24 a -> finv v -> len3 (valv v) <= e24 ->
  let r := passive_transform_point (from_pose_vector a) v in
  finv r /\ len3 (vsub (valv r) (vadd (hrot (direction (val (ori a))) (valv v)) (valv (pos a)))) <= 11 / 100000000000000 * (far a + len3 (valv v)) + tiny50.
Proof.
  intros L a v UA FV BV r. destruct (C73_compose L a (mkPose v (mkQ n0 n0 n0 n1)) UA (identity_usable v FV BV)) as (A1 & A2 & _). exact (conj A1 A2).
Qed.

(** ** C72: the steps of the calibration on dual quaternions never raise in double precision *)
(** [scalar] succeeds exactly if the six imaginary components are finite *)
Lemma self_cancel (x : f64) : fin x -> fin (Bplus mode_NE x (Bopp x)) /\ V (Bplus mode_NE x (Bopp x)) = 0.
Proof.
  intros F. pose proof big_huge as BH. destruct (add_ok x (Bopp x) F ltac:(now rewrite opp_fin)) as [A B].
  - rewrite opp_V, Rplus_opp_r, Rabs_R0. lra.
  - split; [exact A|]. rewrite B, opp_V, Rplus_opp_r. apply rnd_0.
Qed.
Definition imaginary_finite {L} (d : @dquat (F64 L)) : Prop :=
  fin (qx (rot d)) /\ fin (qy (rot d)) /\ fin (qz (rot d)) /\ fin (qx (dual d)) /\ fin (qy (dual d)) /\ fin (qz (dual d)).
Lemma check_zero L (x : f64) : isclose_gen (N:=F64 L) (lit 1 (-7)) (lit 1 (-6)) (mul (Num:=F64 L) nhalf (add (Num:=F64 L) x (opp (Num:=F64 L) x))) n0 = true <-> fin x.
Proof.
  destruct half_V as [FH VH]. destruct (of_Z_V 0 ltac:(lia)) as [F0 V0].
  change (nhalf (N:=F64 L)) with (f_lit 5 (-1)). change (n0 (N:=F64 L)) with (f_of_Z 0).
  change (mul (Num:=F64 L) (f_lit 5 (-1)) (add (Num:=F64 L) x (opp (Num:=F64 L) x))) with (Bmult mode_NE (f_lit 5 (-1)) (Bplus mode_NE x (Bopp x))).
  split.
  - intros H. destruct x as [s|s| |s m e B]; [reflexivity| | |reflexivity]; exfalso.
    + destruct s; vm_compute in H; discriminate H.
    + vm_compute in H. discriminate H.
  - intros F. destruct (self_cancel x F) as [FA VA]. pose proof big_huge as BH.
    destruct (mul_ok (f_lit 5 (-1)) _ FH FA) as [FM VM]; [rewrite VA, Rmult_0_r, Rabs_R0; lra|]. rewrite VA, Rmult_0_r, rnd_0 in VM.
    set (y := Bmult mode_NE (f_lit 5 (-1)) (Bplus mode_NE x (Bopp x))) in *. clearbody y.
    unfold isclose_gen. change (isfin (Num:=F64 L) y) with (is_finite y). change (isfin (Num:=F64 L) (f_of_Z 0)) with (is_finite (f_of_Z 0)). rewrite FM, F0. cbn [andb].
    set (tolr := Bplus mode_NE (f_lit 1 (-6)) (Bmult mode_NE (f_lit 1 (-7)) (Babs (f_of_Z 0)))).
    change (Bleb (Babs (Bminus mode_NE y (f_of_Z 0))) tolr = true).
    assert (FT : fin tolr) by (vm_compute; reflexivity).
    destruct (sub_ok y (f_of_Z 0) FM F0) as [FS VS]; [rewrite VM, V0, Rminus_0_r, Rabs_R0; lra|].
    apply leb_V; [now rewrite abs_fin|exact FT|]. rewrite abs_V, VS, VM, V0, Rminus_0_r, rnd_0, Rabs_R0, <- V0. apply leb_V; [exact F0|exact FT|vm_compute; reflexivity].
Qed.
Theorem C72_scalar : forall L (d : @dquat (F64 L)), (exists s, scalar d = Ok s) <-> imaginary_finite d.
Proof.
  intros L d. unfold scalar, imaginary_finite. cbn [dscale_l dadd dconj rot dual qscale_l qadd qconj qx qy qz].
  rewrite <- !(check_zero L).
  set (a := isclose_gen _ _ (mul nhalf (add (qx (rot d)) _)) _). set (b := isclose_gen _ _ (mul nhalf (add (qy (rot d)) _)) _). set (c := isclose_gen _ _ (mul nhalf (add (qz (rot d)) _)) _).
  set (a' := isclose_gen _ _ (mul nhalf (add (qx (dual d)) _)) _). set (b' := isclose_gen _ _ (mul nhalf (add (qy (dual d)) _)) _). set (c' := isclose_gen _ _ (mul nhalf (add (qz (dual d)) _)) _).
  clearbody a b c a' b' c'. destruct a, b, c, a', b', c'; cbn [andb assert_ bind]; split; intros H; try (destruct H as [? H]; discriminate H); try (destruct H as (H1 & H2 & H3 & H4 & H5 & H6); congruence); try (repeat split; reflexivity). eexists. reflexivity.
Qed.

(** Alignment.  [approx e f x D]: the components of x are finite, the rotation part of x is within e and the dual part within f
    (Euclidean distance) of those of D. *)
Definition million : R := 1000000.
Lemma usable_weaken {L} R R' (p : @pose (F64 L)) : R <= R' -> usable R p -> usable R' p.
Proof. intros H (A & B & C). split; [exact A|]. split; [lra|exact C]. Qed.
Lemma inverse_of {L} (p : @pose (F64 L)) : usable e24 p ->
  exists i, dinv (from_pose_vector p) = Ok i /\
    i = mkDQ (qinv (rot (from_pose_vector p))) (qmul (qmul (qneg (qinv (rot (from_pose_vector p)))) (dual (from_pose_vector p))) (qinv (rot (from_pose_vector p)))) /\
    approx (101 / 10000000000000000) (26 / 1000000000000000 * far p + 200 * eta) i (dqconj (exact_motion p)) /\
    hnorm (dr (dqconj (exact_motion p))) = 1 /\ hnorm (dd (dqconj (exact_motion p))) = 1 / 2 * far p.
Proof.
  intros U. pose proof (far_pos p) as F0. pose proof U as (_ & FB & _). fold (far p) in FB. unfold e24 in FB.
  pose proof (exact_rot _ p U) as N. pose proof (exact_dual _ p U) as D. pose proof (exact_unit _ p U) as UD.
  destruct (dinv_approx (from_pose_vector p) (exact_motion p) _ _ _ (usable_approx p U) N (Req_le _ _ D)) as (i & E & EI & A); [lra|unfold e25; nums; lra|].
  exists i. split; [exact E|]. split; [exact EI|]. split.
  - assert (CE : RD (hconj (dr (exact_motion p))) (hmul (hmul (hneg (hconj (dr (exact_motion p)))) (dd (exact_motion p))) (hconj (dr (exact_motion p)))) = dqconj (exact_motion p)).
    { rewrite <- (unitdq_inv_conj _ UD). unfold dqinv. assert (HE : hinv (dr (exact_motion p)) = hconj (dr (exact_motion p))).
      { unfold hinv. rewrite (proj1 UD). replace (/ 1) with 1 by field. apply hscale_1. }
      now rewrite HE. }
    rewrite CE in A. eapply approx_weaken; [exact A|lra|]. clear - F0 FB. nums. lra.
  - cbn [dqconj dr dd]. rewrite !hnorm_conj. split; [exact N|exact D].
Qed.
Lemma flip_approx {L} e f (x : @dquat (F64 L)) D : approx e f x D -> (exists s, (s = D \/ s = dqneg D) /\ approx e f (flip_negative x) s) /\ 0 <= V (qw (rot (flip_negative x))).
Proof.
  intros A. destruct (of_Z_V 0 ltac:(lia)) as [FZ VZ]. unfold flip_negative.
  pose proof (ltb_V (qw (rot x)) (f_of_Z 0) (proj2 (proj2 (proj2 (proj1 A)))) FZ) as LV. rewrite VZ in LV.
  change (ltb (Num:=F64 L) (qw (rot x)) (n0 (N:=F64 L))) with (Bltb (qw (rot x)) (f_of_Z 0)).
  destruct (Bltb (qw (rot x)) (f_of_Z 0)).
  - split; [exists (dqneg D); split; [now right|now apply approx_neg]|].
    change (qw (rot (dneg x))) with (Bopp (qw (rot x))). rewrite opp_V. pose proof (proj1 LV eq_refl). lra.
  - split; [exists D; split; [now left|exact A]|]. destruct (Rle_lt_dec 0 (V (qw (rot x)))) as [|C]; [easy|]. pose proof (proj2 LV C). discriminate.
Qed.
Lemma close_8 L (x : f64) n : fin x -> (n = 0 \/ n = 1)%Z -> Rabs (V x - IZR n) <= 9 / 1000000000 -> isclose (N:=F64 L) (lit (Num:=F64 L) 1 (-8)) x (f_of_Z n) = true.
Proof.
  intros F N H. destruct (of_Z_V n ltac:(lia)) as [FN VN]. apply isclose_near; [exact F|exact FN|rewrite VN|rewrite VN; exact H]. destruct N as [-> | ->]; absle; lra.
Qed.
Lemma is_origin_8 L (d : @dquat (F64 L)) :
  isclose (lit 1 (-8)) (qx (rot d)) n0 = true -> isclose (lit 1 (-8)) (qy (rot d)) n0 = true -> isclose (lit 1 (-8)) (qz (rot d)) n0 = true -> isclose (lit 1 (-8)) (qw (rot d)) n1 = true ->
  isclose (lit 1 (-8)) (qx (dual d)) n0 = true -> isclose (lit 1 (-8)) (qy (dual d)) n0 = true -> isclose (lit 1 (-8)) (qz (dual d)) n0 = true -> isclose (lit 1 (-8)) (qw (dual d)) n0 = true ->
  is_origin d = true.
Proof.
  intros A B C D A' B' C' D'. destruct d as [[x y z w] [x' y' z' w']]. unfold is_origin, dq_list, q_list, didentity. cbn [rot dual qx qy qz qw app] in *. cbn [allclose].
  rewrite A, B, C, D, A', B', C', D'. reflexivity.
Qed.
Lemma rotate_nth {A} (l : list A) i j x : (i < length l)%nat -> nth_error l j = Some x -> nth_error (skipn i l ++ firstn i l) ((j + length l - i) mod length l) = Some x.
Proof.
  intros HI E. assert (HJ : (j < length l)%nat) by (apply nth_error_Some; congruence).
  assert (LS : length (skipn i l) = (length l - i)%nat) by apply skipn_length.
  destruct (le_lt_dec i j) as [G|G].
  - replace ((j + length l - i) mod length l)%nat with (j - i)%nat.
    + rewrite nth_error_app1 by lia. rewrite nth_error_skipn. now replace (i + (j - i))%nat with j by lia.
    + replace (j + length l - i)%nat with ((j - i) + 1 * length l)%nat by lia. rewrite Nat.mod_add by lia. now rewrite Nat.mod_small by lia.
  - rewrite Nat.mod_small by lia. rewrite nth_error_app2 by lia. rewrite LS. replace (j + length l - i - (length l - i))%nat with j by lia.
    rewrite <- E. rewrite <- (firstn_skipn i l) at 2. rewrite nth_error_app1; [easy|]. rewrite firstn_length. lia.
Qed.

Theorem C72_align : forall L (poses : list (@pose (F64 L))) i p,
  nth_error poses i = Some p -> usable million p ->
  exists aligned, align_paths_at_index (map from_pose_vector poses) i = Ok aligned /\ length aligned = length poses /\
    (exists first rest, aligned = first :: rest /\
      approx (6 / 1000000000000000) (7 / 1000000000000000 * far p + tiny50) first dqone) /\
    forall j q, nth_error poses j = Some q -> usable e24 q ->
      exists x, nth_error aligned ((j + length poses - i) mod length poses) = Some x /\
        (let rel := dqmul (dqconj (exact_motion p)) (exact_motion q) in
         exists s, (s = rel \/ s = dqneg rel) /\
           approx (2 / 100000000000000) (4 / 100000000000000 * (far p + far q) + tiny50) x s) /\
        0 <= V (qw (rot x)).
Proof.
  intros L poses i p E U. pose proof (far_pos p) as F0. pose proof U as (_ & FB & _). fold (far p) in FB. unfold million in *.
  assert (U' : usable e24 p) by (revert U; apply usable_weaken; unfold e24; lra).
  destruct (inverse_of p U') as (inv & EI & EI' & AI & NI & DI).
  assert (HI : (i < length poses)%nat) by (apply nth_error_Some; congruence).
  unfold align_paths_at_index. unfold index at 1. rewrite (map_nth_error from_pose_vector i poses E). cbn [bind]. rewrite EI. cbn [bind].
  set (f := fun x => flip_negative (dmul inv x)). set (l := map f (map from_pose_vector poses)).
  assert (LL : length l = length poses) by (unfold l; now rewrite !map_length).
  assert (NTH : forall j q, nth_error poses j = Some q -> nth_error (skipn i l ++ firstn i l) ((j + length poses - i) mod length poses) = Some (f (from_pose_vector q))).
  { intros j q EQ. rewrite <- LL. apply rotate_nth; [lia|]. unfold l. apply map_nth_error. now apply map_nth_error. }
  pose proof (NTH i p E) as H0. replace ((i + length poses - i) mod length poses)%nat with 0%nat in H0 by (replace (i + length poses - i)%nat with (length poses) by lia; now rewrite Nat.mod_same by lia).
  set (al := skipn i l ++ firstn i l) in *.
  assert (LA : length al = length poses) by (unfold al; rewrite app_length, skipn_length, firstn_length; lia).
  unfold index. rewrite H0. cbn [bind]. destruct al as [|first rest] eqn:EAL; [discriminate H0|]. cbn in H0. injection H0 as H0.
  (* the first one *)
  set (d := from_pose_vector p) in *.
  assert (DM : dmul inv d = mkDQ (qmul (qinv (rot d)) (rot d)) (qadd (qmul (qinv (rot d)) (dual d)) (qmul (qmul (qmul (qneg (qinv (rot d))) (dual d)) (qinv (rot d))) (rot d)))) by (rewrite EI'; reflexivity).
  pose proof (usable_approx p U') as PA. fold d in PA. pose proof (exact_rot _ p U') as NP. pose proof (exact_dual _ p U') as DP.
  assert (NR : Rabs (hnorm (val (rot d)) - 1) <= 1 / 10000000000000) by (eapply Rle_trans; [exact (approx_norm _ _ _ _ PA NP)|lra]).
  assert (ND : hnorm (val (dual d)) <= 501 / 1000 * far p + 22 * eta).
  { destruct PA as (_ & _ & _ & PD). eapply Rle_trans; [apply (dist_norm _ (dd (exact_motion p)))|]. lra. }
  destruct (inverse_product (rot d) (dual d) _ (proj1 PA) (proj1 (proj2 PA)) NR ND) as (_ & _ & F1 & D1 & F2 & D2); [unfold e25; nums; lra|].
  set (a := qmul (qinv (rot d)) (rot d)) in *. set (b := qadd _ _) in *.
  assert (FW : flip_negative (dmul inv d) = mkDQ a b).
  { rewrite DM. unfold flip_negative. cbn [rot]. destruct (of_Z_V 0 ltac:(lia)) as [FZ VZ].
    change (ltb (Num:=F64 L) (qw a) (n0 (N:=F64 L))) with (Bltb (qw a) (f_of_Z 0)).
    destruct (Bltb (qw a) (f_of_Z 0)) eqn:B; [|reflexivity]. pose proof (proj1 (ltb_V (qw a) (f_of_Z 0) (proj2 (proj2 (proj2 F1))) FZ) B) as B'. rewrite VZ in B'.
    destruct (dist_close _ _ _ D1) as (_ & _ & _ & W). cbn [hone qs val] in W. apply Rabs_le_inv in W. lra. }
  assert (AP : approx (6 / 1000000000000000) (7 / 1000000000000000 * far p + tiny50) first dqone).
  { rewrite H0. unfold f. rewrite FW. split; [exact F1|]. split; [exact F2|]. split; [exact D1|]. cbn [dual dqone dd]. rewrite dist_zero.
    eapply Rle_trans; [exact D2|]. clear - F0 FB. unfold tiny50. nums. lra. }
  assert (OR : is_origin first = true).
  { destruct AP as (G1 & G2 & G3 & G4). destruct (dist_close _ _ _ G3) as (w1 & w2 & w3 & w4). destruct (dist_close _ _ _ G4) as (y1 & y2 & y3 & y4).
    destruct G1 as (g1 & g2 & g3 & g4). destruct G2 as (k1 & k2 & k3 & k4). cbn [dqone dr dd hone hzero vzero qv qs v1 v2 v3 val] in *.
    unfold tiny50 in *.
    assert (T6 : 6 / 1000000000000000 <= 9 / 1000000000) by lra. assert (T7 : 7 / 1000000000000000 * far p + 1 / 100000000000000000000000000000000000000000000000000 <= 9 / 1000000000) by lra.
    apply is_origin_8.
    - exact (close_8 L _ 0 g1 (or_introl eq_refl) (Rle_trans _ _ _ w1 T6)).
    - exact (close_8 L _ 0 g2 (or_introl eq_refl) (Rle_trans _ _ _ w2 T6)).
    - exact (close_8 L _ 0 g3 (or_introl eq_refl) (Rle_trans _ _ _ w3 T6)).
    - exact (close_8 L _ 1 g4 (or_intror eq_refl) (Rle_trans _ _ _ w4 T6)).
    - exact (close_8 L _ 0 k1 (or_introl eq_refl) (Rle_trans _ _ _ y1 T7)).
    - exact (close_8 L _ 0 k2 (or_introl eq_refl) (Rle_trans _ _ _ y2 T7)).
    - exact (close_8 L _ 0 k3 (or_introl eq_refl) (Rle_trans _ _ _ y3 T7)).
    - exact (close_8 L _ 0 k4 (or_introl eq_refl) (Rle_trans _ _ _ y4 T7)). }
  rewrite <- H0, OR. cbn [assert_ bind]. exists (first :: rest). split; [reflexivity|]. split; [exact LA|]. split; [exists first, rest; now split|].
  intros j q EQ UQ. exists (f (from_pose_vector q)). split; [now apply NTH|]. cbv zeta.
  pose proof (far_pos q) as Q0. pose proof UQ as (_ & QB & _). fold (far q) in QB. unfold e24 in QB.
  pose proof (dmul_approx _ _ _ _ _ _ _ _ _ _ AI (usable_approx q UQ) NI (exact_rot _ q UQ) (Req_le _ _ DI) (Req_le _ _ (exact_dual _ q UQ)) ltac:(lra) ltac:(lra) ltac:(unfold e25; nums; lra) ltac:(unfold e25; nums; lra)) as M. unfold tol3 in M.
  unfold f. apply flip_approx. eapply approx_weaken; [exact M|lra|]. clear - F0 Q0 FB QB. unfold tiny50. nums. lra.
Qed.

(** Moving a trajectory into another pair of frames (inverse, two products, normalisation, check of the norm) *)
Theorem C72_offset : forall L (poses : list (@pose (F64 L))) he bw,
  usable e24 he -> usable e24 bw -> Forall (usable e24) poses ->
  exists out, compute_dual_quaternions_with_offset (map from_pose_vector poses) (from_pose_vector he) (from_pose_vector bw) = Ok out /\
    Forall2 (fun p x =>
      approx (7 / 100000000000000) (8 / 100000000000000 * (far p + far he + far bw) + tiny50) x
        (dqmul (dqmul (dqconj (exact_motion bw)) (exact_motion p)) (exact_motion he)) /\
      is_unit_ (rot x) = true) poses out.
Proof.
  intros L poses he bw UH UB UP. pose proof (far_pos he) as H0. pose proof UH as (_ & HB & _). fold (far he) in HB. pose proof (far_pos bw) as B0. pose proof UB as (_ & BB & _). fold (far bw) in BB. unfold e24 in HB, BB.
  destruct (inverse_of bw UB) as (inv & EI & _ & AI & NI & DI). unfold compute_dual_quaternions_with_offset. rewrite EI. cbn [bind].
  induction UP as [|p poses U UP (out & E & F)]; [exists []; split; [reflexivity|constructor]|].
  pose proof (far_pos p) as P0. pose proof U as (_ & PB & _). fold (far p) in PB. unfold e24 in PB.
  pose proof (exact_rot _ p U) as NP. pose proof (exact_rot _ he UH) as NH.
  pose proof (dmul_approx _ _ _ _ _ _ _ _ _ _ AI (usable_approx p U) NI NP (Req_le _ _ DI) (Req_le _ _ (exact_dual _ p U)) ltac:(lra) ltac:(lra) ltac:(unfold e25; nums; lra) ltac:(unfold e25; nums; lra)) as M. unfold tol3 in M.
  apply (approx_weaken _ _ (192 / 10000000000000000) (4 / 100000000000000 * (far bw + far p) + 400 * eta)) in M; [|lra|clear - B0 P0 BB PB; nums; lra].
  set (X := dqmul (dqconj (exact_motion bw)) (exact_motion p)) in *.
  assert (NX : hnorm (dr X) = 1) by (unfold X; cbn [dqmul dr]; rewrite hnorm_mul, NP; cbn [dqconj dr] in *; rewrite NI; ring).
  assert (DX : hnorm (dd X) <= 1 / 2 * (far bw + far p)).
  { unfold X. cbn [dqmul dd]. eapply Rle_trans; [apply hnorm_triangle|]. rewrite !hnorm_mul, NP, NI, DI, (exact_dual _ p U). lra. }
  pose proof (dmul_approx _ _ _ _ _ _ _ _ _ _ M (usable_approx he UH) NX NH DX (Req_le _ _ (exact_dual _ he UH)) ltac:(lra) ltac:(lra) ltac:(unfold e25; nums; lra) ltac:(unfold e25; nums; lra)) as M2. unfold tol3 in M2.
  apply (approx_weaken _ _ (283 / 10000000000000000) (45 / 1000000000000000 * (far p + far he + far bw) + 600 * eta)) in M2; [|lra|clear - H0 HB B0 P0 BB PB; nums; lra].
  set (Y := dqmul X (exact_motion he)) in *.
  assert (NY : hnorm (dr Y) = 1) by (unfold Y; cbn [dqmul dr]; rewrite hnorm_mul, NX, NH; ring).
  assert (DY : hnorm (dd Y) <= 1 / 2 * (far p + far he + far bw)).
  { unfold Y. cbn [dqmul dd]. eapply Rle_trans; [apply hnorm_triangle|]. rewrite !hnorm_mul, NX, NH, (exact_dual _ he UH). lra. }
  destruct (dnormalize_approx _ _ _ _ _ M2 NY DY) as (M3 & FN & DN & UN); [lra|unfold e25; nums; lra|].
  set (x := dnormalize (dmul (dmul inv (from_pose_vector p)) (from_pose_vector he))) in *.
  assert (M4 : approx (7 / 100000000000000) (8 / 100000000000000 * (far p + far he + far bw) + tiny50) x Y).
  { eapply approx_weaken; [exact M3|lra|]. clear - H0 HB B0 P0 BB PB. unfold tiny50. nums. lra. }
  destruct (dnorm_approx _ _ _ _ M4 NY ltac:(lra)) as [z EZ].
  exists (x :: out). split; [|constructor; [split; [exact M4|exact UN]|exact F]].
  cbn [map mapM]. fold x. cbv zeta. rewrite EZ. cbn [bind fst]. unfold is_unit_ in UN. rewrite UN. cbn [assert_ bind]. rewrite E. reflexivity.
Qed.

(** ** Examples and counterexamples *)
Definition pose72 : @pose (F64 no_libm) := mkPose (N:=F64 no_libm) (mkV (N:=F64 no_libm) (f_lit 15 (-1)) (f_of_Z (-200)) (f_lit 1 (-1))) q70.
Lemma V_eq (x y : f64) : x = y -> V x = V y. Proof. now intros ->. Qed.
Lemma pose72_usable : usable million pose72.
Proof.
  assert (B : forall x : f64, fin x -> Bleb x (f_of_Z 1000) = true -> Bleb (f_of_Z (-1000)) x = true -> Rabs (V x) <= 1000).
  { intros x F H1 H2. destruct (of_Z_V 1000 ltac:(lia)) as [FA VA]. destruct (of_Z_V (-1000) ltac:(lia)) as [FB VB].
    apply leb_V in H1; [|exact F|exact FA]. apply leb_V in H2; [|exact FB|exact F]. rewrite VA in H1. rewrite VB in H2. absle; lra. }
  assert (F : finv (pos pose72)) by (vm_compute; repeat split).
  split; [exact F|]. split; [|split; vm_compute; reflexivity].
  destruct F as (F1 & F2 & F3).
  pose proof (B _ F1 ltac:(vm_compute; reflexivity) ltac:(vm_compute; reflexivity)) as B1. pose proof (B _ F2 ltac:(vm_compute; reflexivity) ltac:(vm_compute; reflexivity)) as B2. pose proof (B _ F3 ltac:(vm_compute; reflexivity) ltac:(vm_compute; reflexivity)) as B3.
  unfold million. rewrite <- len_norm. eapply Rle_trans; [apply (norm_components _ 1000)|lra]; [lra|exact B1|exact B2|exact B3|cbn; absle; lra].
Qed.
Example C72_align_example : exists first rest, align_paths_at_index (map from_pose_vector [pose72; pose72; pose72]) 1 = Ok (first :: rest) /\ length rest = 2%nat.
Proof.
  destruct (C72_align no_libm [pose72; pose72; pose72] 1 pose72 eq_refl pose72_usable) as (al & E & LA & (first & rest & -> & _) & _).
  exists first, rest. split; [exact E|]. cbn in LA. now injection LA.
Qed.
Example C73_example : usable e24 pose72.
Proof. apply (usable_weaken million); [unfold million, e24; lra|exact pose72_usable]. Qed.
(** A distance limit is necessary: for a pose about 7e7 from the origin (a position in millimetres, 70 km away), the first
    aligned pose is not the origin up to 1e-8 and the program raises an AssertionError. *)
Definition far_away L : @pose (F64 L) := mkPose (N:=F64 L) (mkV (N:=F64 L) (f_of_Z 40000000) (f_of_Z 40000000) (f_of_Z 40000000)) (mkQ (N:=F64 L) (f_of_Z 1) (f_of_Z 2) (f_of_Z 3) (f_of_Z 3)).
Definition raised {A} (r : res A) : bool := match r with Err AssertionError => true | _ => false end.
Lemma raises {A} (r : res A) : raised r = true -> r = Err AssertionError.
Proof. destruct r as [|[]]; cbn; congruence. Qed.
Theorem C72_far_refuted : forall L, usable e24 (far_away L) /\ align_paths_at_index (map from_pose_vector [far_away L]) 0 = Err AssertionError.
Proof.
  intros L. split; [|apply raises; vm_compute; reflexivity].
  destruct (of_Z_V 40000000 ltac:(lia)) as [FA VA].
  split; [exact (conj FA (conj FA FA))|]. split; [|split; vm_compute; reflexivity].
  rewrite <- len_norm. eapply Rle_trans; [apply (norm_components _ 40000000)|unfold e24; lra]; [lra| | | |cbn; absle; lra]; change (Rabs (V (f_of_Z 40000000)) <= 40000000); rewrite VA; absle; lra.
Qed.
Example C72_scalar_example : exists s, scalar (from_pose_vector pose72) = Ok s.
Proof.
  apply C72_scalar. destruct (usable_approx pose72 C73_example) as ((a & b & c & _) & (a' & b' & c' & _) & _). exact (conj a (conj b (conj c (conj a' (conj b' c'))))).
Qed.
Example C72_offset_example : exists out, compute_dual_quaternions_with_offset (map from_pose_vector [pose72; pose72]) (from_pose_vector pose72) (from_pose_vector pose72) = Ok out /\ length out = 2%nat.
Proof.
  destruct (C72_offset no_libm [pose72; pose72] pose72 pose72 C73_example C73_example) as (out & E & F); [repeat apply Forall_cons; try exact C73_example; apply Forall_nil|].
  exists out. split; [exact E|]. inversion F as [|? ? ? ? _ F1]. inversion F1 as [|? ? ? ? _ F2]. inversion F2. reflexivity.
Qed.
