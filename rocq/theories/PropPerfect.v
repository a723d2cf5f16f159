(** * Property C37: RANSAC on noise-free data. *)

From Coq Require Import Reals ZArith Bool List Lra Lia Psatz Classical.
From Verif Require Import Num Py XReal XFacts Quat DualQuat HandEye Ransac Spec Embed QuatFacts QuatTrig
  QuatRot DualFacts ScrewFacts ListFacts HandEyeFacts KernelFacts CalibFacts RansacFacts CalibExample
  PropCalib PropEval PropPrefilter PropBaseline PropRansac PropSampling.
Import ListNotations.
Local Open Scope R_scope.

(** ** Specification *)
(** The paths of a noise-free experiment: every eye pose is (fixed base offset) * hand pose *
    (hand-eye transform), up to the sign of the dual quaternion. *)
Definition perfect (x : rdq) (l : list (rdq * rdq)) : Prop :=
  exists t, unitdq t /\ Forall (fun p => unitdq (fst p) /\
    (snd p = dqmul (dqmul t (fst p)) x \/ snd p = dqneg (dqmul (dqmul t (fst p)) x))) l.
(** the hand motion from one pose to another *)
Definition motion (p q : rdq * rdq) : rdq := dqmul (dqinv (fst p)) (fst q).
(** no motion between two poses is a half turn *)
Definition no_half_turn (l : list (rdq * rdq)) : Prop :=
  forall p q, In p l -> In q l -> qs (dr (motion p q)) <> 0.
(** from some pose of the path, the motions to two others have non-parallel rotation axes *)
Definition rich (l : list (rdq * rdq)) : Prop :=
  exists p0 p q, In p0 l /\ In p l /\ In q l /\
    cross3 (qv (dr (motion p0 p))) (qv (dr (motion p0 q))) <> vzero.
(** an oracle that returns only exact decompositions (it may also raise) *)
Definition svd_exact (svd : list (@dquat XR) -> res (list (@T XR) * list (@dquat XR))) : Prop :=
  forall m s v, svd (map inD m) = Ok (s, v) ->
    exists sr vr, s = map Fin sr /\ v = map inD vr /\ svd_spec m sr vr.

(** ** Relative motions *)
Lemma dqinv_mul a b : unitdq a -> unitdq b -> dqinv (dqmul a b) = dqmul (dqinv b) (dqinv a).
Proof.
  intros A B. rewrite !unitdq_inv_conj by auto using unitdq_mul.
  apply rdq_eq; unfold dqmul, dqconj; cbn [dr dd]; qring.
Qed.
Lemma perfect_motion x t p q : unitdq x -> unitdq t -> unitdq (fst p) -> unitdq (fst q) ->
  (snd p = dqmul (dqmul t (fst p)) x \/ snd p = dqneg (dqmul (dqmul t (fst p)) x)) ->
  (snd q = dqmul (dqmul t (fst q)) x \/ snd q = dqneg (dqmul (dqmul t (fst q)) x)) ->
  consistent_up_to_sign x (motion p q, dqmul (dqinv (snd p)) (snd q)).
Proof.
  intros Ux Ut Up Uq Hp Hq. unfold consistent_up_to_sign; cbn [fst snd].
  assert (Upx : unitdq (dqmul (dqmul t (fst p)) x)) by auto using unitdq_mul.
  pose proof (pm_mul _ _ _ _ (pm_inv _ _ Upx Hp) Hq) as M.
  assert (E : dqmul x (dqmul (dqinv (dqmul (dqmul t (fst p)) x)) (dqmul (dqmul t (fst q)) x)) = dqmul (motion p q) x).
  { rewrite !dqinv_mul by auto using unitdq_mul. unfold motion. rewrite !dqmul_assoc.
    rewrite <- (dqmul_assoc x (dqinv x)), dqmul_inv_r, dqmul_1_l by now apply unitdq_n2.
    rewrite <- (dqmul_assoc (dqinv t) t), dqmul_inv_l, dqmul_1_l by now apply unitdq_n2. reflexivity. }
  rewrite <- E. apply pm_sym. apply pm_mul; [now left|exact M].
Qed.
Lemma flip_consistent x a b : unitdq x -> consistent_up_to_sign x (a, b) -> qs (dr a) <> 0 ->
  consistent x (rflip a, rflip b).
Proof.
  intros U C NZ. unfold consistent; cbn [fst snd]. destruct C as [C|C]; cbn [fst snd] in C.
  - destruct (consistent_scalars x (a, b) U C) as [S _]. cbn [fst snd] in S. unfold rflip. rewrite S.
    destruct (Rlt_dec _ _); [|easy]. rewrite dqmul_neg_l, dqmul_neg_r. congruence.
  - rewrite <- dqmul_neg_r in C. destruct (consistent_scalars x (a, dqneg b) U C) as [S _]. cbn [fst snd] in S.
    unfold rflip. cbn [dqneg dr hneg qs] in S. rewrite dqmul_neg_r in C.
    destruct (Rlt_dec (qs (dr a)) 0), (Rlt_dec (qs (dr b)) 0); try lra.
    + rewrite dqmul_neg_l, C. apply dqneg_neg.
    + now rewrite dqmul_neg_r.
Qed.
Lemma in_rotl {A} k (l : list A) y : In y (rotl k l) <-> In y l.
Proof.
  unfold rotl. rewrite <- (firstn_skipn k l) at 3. rewrite !in_app_iff. tauto.
Qed.
Lemma realign_in k p0 l p' : In p' (realign k p0 l) <->
  exists p, In p l /\ p' = (rflip (motion p0 p), rflip (dqmul (dqinv (snd p0)) (snd p))).
Proof.
  unfold realign. rewrite in_rotl, in_map_iff. unfold motion. split; intros (p & A & B); exists p; split; auto.
Qed.
Lemma realign_first k p0 l : nth_error l k = Some p0 -> unitdq (fst p0) -> unitdq (snd p0) ->
  exists rest, realign k p0 l = (dqone, dqone) :: rest.
Proof.
  intros H U1 U2. assert (K : (k < length l)%nat) by (apply nth_error_Some; congruence).
  assert (E : nth_error (realign k p0 l) 0 = Some (dqone, dqone)).
  { unfold realign. rewrite rotl_nth by (rewrite map_length; lia). rewrite map_length, Nat.add_0_r, Nat.mod_small by easy.
    rewrite nth_error_map, H. cbn [option_map]. rewrite !dqmul_inv_l by now apply unitdq_n2. now rewrite rflip_one. }
  destruct (realign k p0 l) as [|a rest]; [discriminate E|]. injection E as ->. now exists rest.
Qed.
Lemma perfect_units x l : unitdq x -> perfect x l -> forall p, In p l -> unitdq (fst p) /\ unitdq (snd p).
Proof.
  intros U (t & Ut & F) p I. rewrite Forall_forall in F. destruct (F p I) as [A B]. split; [easy|].
  apply (pm_unit _ (dqmul (dqmul t (fst p)) x)); auto using unitdq_mul.
Qed.
Lemma realign_perfect x l k p0 : unitdq x -> perfect x l -> no_half_turn l -> nth_error l k = Some p0 ->
  Forall (consistent x) (realign k p0 l) /\
  Forall (fun p => unitdq (fst p) /\ unitdq (snd p) /\ consistent_up_to_sign x p) (realign k p0 l).
Proof.
  intros U P NH H0. pose proof (perfect_units x l U P) as UU. destruct P as (t & Ut & F).
  assert (I0 : In p0 l) by now apply nth_error_In in H0. rewrite Forall_forall in F.
  assert (G : forall p', In p' (realign k p0 l) -> consistent x p' /\ unitdq (fst p') /\ unitdq (snd p')).
  { intros p' I. apply realign_in in I as (p & I & ->). destruct (F p I) as [A B]. destruct (F p0 I0) as [A0 B0].
    split; [|split; cbn [fst snd]].
    - apply flip_consistent; [easy| |now apply NH]. now apply (perfect_motion x t).
    - apply rflip_unit. unfold motion. apply unitdq_mul; [apply unitdq_inv|]; easy.
    - apply rflip_unit. apply unitdq_mul; [apply unitdq_inv|]; now apply UU. }
  split; apply Forall_forall; intros p' I; destruct (G p' I) as (C & U1 & U2); [easy|].
  split; [easy|]. split; [easy|]. now left.
Qed.

(** Richness does not depend on the pose the motions start from. *)
Lemma motion_change p0 p q : unitdq (fst p0) -> motion p q = dqmul (dqinv (motion p0 p)) (motion p0 q) \/ ~ unitdq (fst p).
Proof.
  intros U0. destruct (classic (unitdq (fst p))) as [Up|]; [left|now right]. unfold motion.
  rewrite dqinv_mul by auto using unitdq_inv.
  assert (II : dqinv (dqinv (fst p0)) = fst p0).
  { rewrite (unitdq_inv_conj (dqinv (fst p0))), (unitdq_inv_conj (fst p0)) by auto using unitdq_inv.
    apply rdq_eq; unfold dqconj; cbn [dr dd]; qring. }
  rewrite II, dqmul_assoc, <- (dqmul_assoc (fst p0)), dqmul_inv_r, dqmul_1_l by now apply unitdq_n2. reflexivity.
Qed.
Lemma parallel_combo w0 w1 w2 (a b c : rv) :
  cross3 a b = vzero -> cross3 a c = vzero -> cross3 b c = vzero ->
  cross3 (vsub (vscale w0 b) (vscale w1 a)) (vsub (vscale w0 c) (vscale w2 a)) = vzero.
Proof.
  intros A B C.
  transitivity (vadd (vadd (vscale (w0 * w0) (cross3 b c)) (vscale (w0 * w2) (cross3 a b))) (vscale (- (w1 * w0)) (cross3 a c))).
  - destruct a, b, c. specu. f_equal; ring.
  - rewrite A, B, C. specu. f_equal; ring.
Qed.
Lemma rich_from l p0 : (forall p, In p l -> unitdq (fst p)) -> rich l -> In p0 l ->
  exists p q, In p l /\ In q l /\ cross3 (qv (dr (motion p0 p))) (qv (dr (motion p0 q))) <> vzero.
Proof.
  intros UU (r0 & r1 & r2 & I0 & I1 & I2 & NZ) J0. apply NNPP. intros NO.
  assert (PAR : forall p q, In p l -> In q l -> cross3 (qv (dr (motion p0 p))) (qv (dr (motion p0 q))) = vzero).
  { intros p q Ip Iq. apply NNPP. intros K. apply NO. now exists p, q. }
  apply NZ.
  assert (M : forall p, In p l -> motion r0 p = dqmul (dqinv (motion p0 r0)) (motion p0 p)).
  { intros p I. destruct (motion_change p0 r0 p (UU _ J0)) as [E|E]; [easy|]. destruct E. now apply UU. }
  rewrite !M by easy.
  assert (Um : unitdq (motion p0 r0)) by (unfold motion; apply unitdq_mul; [apply unitdq_inv|]; auto).
  pose proof (PAR r0 r1 I0 I1) as P1. pose proof (PAR r0 r2 I0 I2) as P2. pose proof (PAR r1 r2 I1 I2) as P3.
  rewrite unitdq_inv_conj by easy.
  destruct (motion p0 r0) as [[a wa] ad], (motion p0 r1) as [[b wb] bd], (motion p0 r2) as [[c wc] cd].
  cbn [dr qv] in *.
  assert (V : forall u w, cross3 a u = vzero -> qv (dr (dqmul (dqconj (RD (RQ a wa) ad)) (RD (RQ u w) hzero))) = vsub (vscale wa u) (vscale w a)).
  { intros u w Z. unfold dqmul, dqconj, hmul, hconj. cbn [dr qv qs]. destruct a as [a1 a2 a3], u as [u1 u2 u3]. specu.
    injection Z as Z1 Z2 Z3. apply rv_eq; cbn [Spec.v1 Spec.v2 Spec.v3]; lra. }
  pose proof (V b wb P1) as V1. pose proof (V c wc P2) as V2.
  unfold dqmul at 1 2. unfold dqmul in V1, V2. cbn [dr] in *. rewrite V1, V2. now apply parallel_combo.
Qed.
Lemma cross_flip a b : cross3 (qv (dr a)) (qv (dr b)) <> vzero -> cross3 (qv (dr (rflip a))) (qv (dr (rflip b))) <> vzero.
Proof.
  intros NZ K. apply NZ. destruct (rflip_cases a) as [Ea|Ea], (rflip_cases b) as [Eb|Eb]; rewrite Ea, Eb in K; clear - K;
    destruct a as [[[] ?] ?], b as [[[] ?] ?]; unfold dqneg in K; specu; injection K as K1 K2 K3; f_equal; lra.
Qed.
Lemma realign_axes x l k p0 : unitdq x -> perfect x l -> rich l -> nth_error l k = Some p0 -> two_axes (realign k p0 l).
Proof.
  intros U P RI H0. pose proof (perfect_units x l U P) as UU.
  destruct (rich_from l p0) as (p & q & Ip & Iq & NZ); [intros p I; now apply UU|easy|now apply nth_error_In in H0|].
  exists (rflip (motion p0 p), rflip (dqmul (dqinv (snd p0)) (snd p))), (rflip (motion p0 q), rflip (dqmul (dqinv (snd p0)) (snd q))).
  split; [apply realign_in; now exists p|]. split; [apply realign_in; now exists q|]. cbn [fst]. now apply cross_flip.
Qed.

(** ** One calibration *)
Lemma rmatch_consistent x p : unitdq x -> consistent x p -> rmatch p = p.
Proof.
  intros U C. destruct (consistent_scalars x p U C) as [E _]. destruct p as [a b]. unfold rmatch; cbn [fst snd] in *.
  rewrite E. pose proof (Rle_0_sqr (qs (dr b))) as SQ. unfold Rsqr in SQ. destruct (Rlt_dec _ _); [lra|easy].
Qed.
Lemma calibrate_perfect svd (cfg : config XR) tol x l rest w r :
  svd_exact svd -> hand_eye_calibration_tolerance cfg = Fin tol -> 0 <= tol -> unitdq x -> 0 < qs (dr x) ->
  l = (dqone, dqone) :: rest -> Forall (consistent x) l -> two_axes l ->
  calibrate_normalized svd cfg (hands l) (eyes l) = (w, r) ->
  w = eyes l /\ forall dq sv bad, r = Ok (dq, sv, bad) -> dq = inD x.
Proof.
  intros SX T T0 U W EL C TA H. unfold calibrate_normalized in H. rewrite T in H.
  assert (M : map rmatch rest = rest).
  { subst l. apply Forall_inv_tail in C. clear - C U. induction C as [|p l Cp _ IH]; [easy|]. cbn [map].
    now rewrite IH, (rmatch_consistent x). }
  assert (E : compute_hand_eye_calibration svd (Fin tol) (hands l) (eyes l) = (eyes l, calibrate svd (Fin tol) (hands l) (eyes l))).
  { subst l. pose proof (compute_in svd (Fin tol) rest) as E. rewrite M in E. exact E. }
  rewrite E in H. injection H as <- <-. split; [easy|]. intros dq sv bad H.
  apply bind_ok in H as ([[d s] b] & H & K). injection K as <- <- <-.
  assert (H' := H). unfold calibrate in H'. apply bind_ok in H' as (u & _ & H'). apply bind_ok in H' as (m & ST & H').
  apply bind_ok in H' as ([s' v'] & SE & _). pose proof (setup_t_inv svd _ _ ST) as ->.
  destruct (SX _ _ _ SE) as (sr & vr & -> & -> & SP).
  destruct (calibrate_exact svd tol x l (trows l) sr vr T0 U W C TA ST SE SP) as (v7 & _ & H2).
  rewrite H in H2. destruct (Req_EM_T _ _); [discriminate H2|].
  apply (f_equal (fun r => match r with Ok (d, _, _) => d | Err _ => d end)) in H2. rewrite H2.
  now apply dnormalize_unit.
Qed.

Lemma compress_true {A} (l : list A) f : length f = length l -> Forall (fun b => b = true) f -> compress l f = l.
Proof.
  revert f; induction l as [|x l IH]; intros [|b f] L F; try discriminate L; [easy|].
  inversion F; subst. cbn. rewrite IH; auto.
Qed.
Lemma scatter_true {A} (l : list A) f n : length f = length l -> length n = length l ->
  Forall (fun b => b = true) f -> scatter l f n = n.
Proof.
  revert f n; induction l as [|x l IH]; intros [|b f] [|y n] L1 L2 F; try discriminate L1; try discriminate L2; [easy|].
  inversion F; subst. cbn. rewrite IH; auto.
Qed.
Lemma align_inv l i ab : align_paths_at_index (hands l) i = Ok ab -> exists p0, nth_error l i = Some p0.
Proof.
  unfold align_paths_at_index. intros H. apply bind_ok in H as (d & D & _). unfold hands in D. rewrite index_map in D.
  apply bind_ok in D as (p & D & _). unfold index in D. destruct (nth_error l i); [now exists p0|discriminate D].
Qed.
Lemma mapM_index_pairs (l : list (rdq * rdq)) : forall s sb sw, mapM (index (hands l)) s = Ok sb -> mapM (index (eyes l)) s = Ok sw ->
  exists sub, mapM (index l) s = Ok sub /\ sb = hands sub /\ sw = eyes sub /\ incl sub l.
Proof.
  induction s as [|i s IH]; cbn [mapM]; intros sb sw HB HW.
  - injection HB as <-. injection HW as <-. exists []. repeat split; easy.
  - apply bind_ok in HB as (b & B1 & HB). apply bind_ok in HB as (bs & B2 & HB). injection HB as <-.
    apply bind_ok in HW as (w & W1 & HW). apply bind_ok in HW as (ws & W2 & HW). injection HW as <-.
    destruct (IH bs ws B2 W2) as (sub & S1 & S2 & S3 & S4).
    unfold hands in B1. rewrite index_map in B1. apply bind_ok in B1 as (p & P & B1). injection B1 as <-.
    unfold eyes in W1. rewrite index_map, P in W1. cbn [bind] in W1. injection W1 as <-.
    exists (p :: sub). rewrite P, S1. cbn [bind]. split; [easy|]. subst. split; [easy|]. split; [easy|].
    intros q [<-|Q]; [|now apply S4]. unfold index in P. destruct (nth_error l i) eqn:E; [|discriminate P].
    injection P as ->. now apply nth_error_In in E.
Qed.
Lemma perfect_incl x l k : incl k l -> perfect x l -> perfect x k.
Proof. intros I (t & Ut & F). exists t. split; [easy|]. rewrite Forall_forall in *. intros p Ip. now apply F, I. Qed.
Lemma no_half_turn_incl l k : incl k l -> no_half_turn l -> no_half_turn k.
Proof. intros I F p q Ip Iq. apply F; now apply I. Qed.
Lemma aligned_perfect x l i aligned_b aligned_w : unitdq x -> perfect x l -> no_half_turn l -> rich l ->
  align_paths_at_index (hands l) i = Ok aligned_b -> align_paths_at_index (eyes l) i = Ok aligned_w ->
  exists a rest, a = (dqone, dqone) :: rest /\ aligned_b = hands a /\ aligned_w = eyes a /\ length a = length l /\
    Forall (consistent x) a /\ two_axes a /\
    Forall (fun p => unitdq (fst p) /\ unitdq (snd p) /\ consistent_up_to_sign x p) a.
Proof.
  intros U P NH RI AB AW. destruct (align_inv _ _ _ AB) as (p0 & E0).
  assert (I0 : In p0 l) by now apply nth_error_In in E0.
  destruct (perfect_units x l U P p0 I0) as [U1 U2].
  rewrite (align_hands _ _ _ E0) in AB by now apply unitdq_tiny. rewrite (align_eyes _ _ _ E0) in AW by now apply unitdq_tiny.
  assert (EB : hands (realign i p0 l) = aligned_b) by congruence. assert (EW : eyes (realign i p0 l) = aligned_w) by congruence.
  destruct (realign_first i p0 l E0 U1 U2) as (rest & ER). exists (realign i p0 l), rest.
  destruct (realign_perfect x l i p0 U P NH E0) as [C1 C2].
  split; [easy|]. split; [easy|]. split; [easy|]. split; [apply realign_length|]. split; [easy|]. split; [|easy].
  now apply (realign_axes x).
Qed.
Lemma gap_perfect (cfg : config XR) tp to x a rest h pb pw rp ro fl : unitdq x -> a = (dqone, dqone) :: rest ->
  Forall (fun p => unitdq (fst p) /\ unitdq (snd p) /\ consistent_up_to_sign x p) a ->
  ransac_position_error_threshold_m cfg = Fin tp -> ransac_orientation_error_threshold_deg cfg = Fin to ->
  get_aligned_poses (hands a) (eyes a) (inD x) = Ok (h, pb, pw) -> evaluate_alignment cfg pb pw = Ok (rp, ro, fl) ->
  h = hands a /\ rp = Fin 0 /\ ro = Fin 0 /\ length fl = length a /\ (0 < tp -> 0 < to -> Forall (fun f => f = true) fl).
Proof.
  intros U EA F TP TO G EV.
  assert (HD : exists w rest, a = (dqone, w) :: rest) by (subst; eauto).
  destruct (C32_equal_poses x a U F HD) as (ph & pe & E & _). rewrite E in G.
  destruct (C32_zero_error cfg tp to x a U F HD TP TO) as (h' & ph' & pe' & fl' & E1 & E2 & E3 & E4).
  assert (Q : Ok (h', ph', pe') = Ok (h, pb, pw)) by congruence.
  assert (Q1 : Ok (hands a) = Ok h) by (apply (f_equal (fun r => match r with Ok (d, _, _) => Ok d | Err e => Err e end)) in G; exact G).
  assert (QB : ph' = pb) by (apply (f_equal (fun r => match r with Ok (_, d, _) => d | Err _ => pb end)) in Q; exact Q).
  assert (QW : pe' = pw) by (apply (f_equal (fun r => match r with Ok (_, _, d) => d | Err _ => pw end)) in Q; exact Q).
  rewrite <- QB, <- QW, E2 in EV. injection EV as <- <- <-. split; [congruence|]. easy.
Qed.

(** Every evaluated sample yields exactly the true transform, with zero error and all poses as
    inliers (in rmse-threshold mode: provided the sampled poses themselves are rich, because
    there the sample alone determines the initial model). *)
Theorem C37_evaluated : forall svd (cfg : config XR) tol rtol tp to (x : rdq) (l lf : list (rdq * rdq)) s dq rp ro n sv bad,
  svd_exact svd -> hand_eye_calibration_tolerance cfg = Fin tol -> 0 <= tol ->
  ransac_sample_rejection_tolerance cfg = Fin rtol -> 0 <= rtol ->
  ransac_position_error_threshold_m cfg = Fin tp -> ransac_orientation_error_threshold_deg cfg = Fin to ->
  unitdq x -> 0 < qs (dr x) -> perfect x l -> no_half_turn l -> rich l -> incl lf l ->
  (ransac_inlier_classification cfg = RmseThreshold ->
     0 < tp /\ 0 < to /\ forall sub, mapM (index lf) s = Ok sub -> rich sub) ->
  evaluate_sample svd cfg (hands l) (eyes l) (hands lf) (eyes lf) s = Ok (Evaluated dq rp ro n sv bad) ->
  dq = inD x /\ rp = Fin 0 /\ ro = Fin 0 /\ n = length l.
Proof.
  intros svd cfg tol rtol tp to x l lf s dq rp ro n sv bad SX T T0 RT RT0 TP TO U W P NH RI IN MODE H.
  destruct (C34_evaluated _ _ _ _ _ _ _ _ _ _ _ _ _ _ H) as (_ & _ & i & ab0 & aw & _ & AB & AW & ab & flags & initial & EN & CLS & inl_w & b_ev & w_ev & b' & pb & pw & fl & SRC & EVL & G & EV).
  destruct (aligned_perfect x l i ab0 aw U P NH RI AB AW) as (a & rest & EA & -> & -> & LA & C & TA & F).
  assert (K : ab = hands a /\ length flags = length a /\ Forall (fun f => f = true) flags /\
              forall r0, initial = Some r0 -> fst (fst r0) = inD x).
  { destruct (ransac_inlier_classification cfg) eqn:MD.
    - destruct (MODE eq_refl) as (TP0 & TO0 & RS).
      destruct CLS as (sb & sw & asb & asw & r0 & pb0 & pw0 & rp0 & ro0 & SB & SW & ASB & ASW & CAL & INI & G0 & EV0 & _).
      destruct (mapM_index_pairs lf s sb sw SB SW) as (sub & S1 & -> & -> & S2).
      assert (IS : incl sub l) by (eapply incl_tran; eauto).
      destruct (aligned_perfect x sub 0 asb asw U (perfect_incl x l sub IS P) (no_half_turn_incl l sub IS NH) (RS sub S1) ASB ASW)
        as (a0 & rest0 & EA0 & -> & -> & _ & C0 & TA0 & _).
      destruct (calibrate_normalized svd cfg (hands a0) (eyes a0)) as [w0 rr] eqn:CN. cbn [snd] in CAL. subst rr.
      destruct (calibrate_perfect svd cfg tol x a0 rest0 w0 (Ok r0) SX T T0 U W EA0 C0 TA0 CN) as [_ E0].
      destruct r0 as [[d0 s0'] b0]. specialize (E0 _ _ _ eq_refl). cbn [fst] in *. subst d0.
      destruct (gap_perfect cfg tp to x a rest ab pb0 pw0 rp0 ro0 flags U EA F TP TO G0 EV0) as (E1 & _ & _ & E2 & E3).
      split; [easy|]. split; [easy|]. split; [now apply E3|]. intros r E. rewrite INI in E. injection E as <-. easy.
    - destruct CLS as (-> & -> & LF & FL). split; [easy|]. unfold hands in LF. rewrite map_length in LF. split; [easy|].
      split; [|easy]. apply Forall_forall. intros f If. apply In_nth_error in If as (j & Hj).
      assert (JL : (j < length a)%nat) by (rewrite <- LF; apply nth_error_Some; congruence).
      destruct (nth_error a j) as [p|] eqn:EP; [|apply nth_error_None in EP; lia].
      destruct (FL j (inD (fst p))) as (w & vb & vw & f' & Hw & Vb & Vw & Hf & EF); [unfold hands; now rewrite nth_error_map, EP|].
      rewrite Hj in Hf. injection Hf as <-. unfold eyes in Hw. rewrite nth_error_map, EP in Hw. cbn [option_map] in Hw.
      assert (Ew : w = inD (snd p)) by congruence. subst w. clear Hw.
      assert (SC : scalar_parts_close (N:=XR) (Fin rtol) (inD (snd p)) (inD (fst p)) = Ok f).
      { unfold scalar_parts_close. rewrite Vw, Vb. cbn [bind]. now rewrite EF, RT. }
      rewrite scalar_parts_closeb in SC by easy. injection SC as <-. apply closeb_iff.
      rewrite Forall_forall in C. destruct (consistent_scalars x p U (C p ltac:(now apply nth_error_In in EP))).
      apply scalars_close_eq; congruence.
    - destruct CLS. }
  destruct K as (-> & LF & FT & INI).
  assert (CB : compress (hands a) flags = hands a) by (apply compress_true; [unfold hands; now rewrite map_length|easy]).
  assert (CW : compress (eyes a) flags = eyes a) by (apply compress_true; [unfold eyes; now rewrite map_length|easy]).
  rewrite CB, CW in *.
  assert (D : inl_w = eyes a /\ dq = inD x).
  { destruct SRC as [[_ CN]|(_ & I0 & ->)].
    - destruct (calibrate_perfect svd cfg tol x a rest inl_w _ SX T T0 U W EA C TA CN) as [E1 E2].
      split; [easy|]. exact (E2 _ _ _ eq_refl).
    - split; [easy|]. exact (INI _ I0). }
  destruct D as [-> ->].
  assert (BW : b_ev = hands a /\ w_ev = eyes a).
  { destruct (ransac_evaluate_refined_model_on_inliers_only cfg); [easy|]. destruct EVL as [-> ->]. split; [easy|].
    apply scatter_true; unfold eyes; rewrite ?map_length; easy. }
  destruct BW as [-> ->].
  destruct (gap_perfect cfg tp to x a rest b' pb pw rp ro fl U EA F TP TO G EV) as (_ & -> & -> & _).
  split; [easy|]. split; [easy|]. split; [easy|]. rewrite EN. unfold hands. rewrite map_length. exact LA.
Qed.

Lemma filtered_pairs (cfg : config XR) l bf wf : filtered cfg (hands l) (eyes l) = Ok (bf, wf) ->
  exists lf, bf = hands lf /\ wf = eyes lf /\ incl lf l.
Proof.
  unfold filtered. destruct (prefilter_poses_enabled cfg).
  - intros H. apply bind_ok in H as (k & K & H). rewrite split_maps in H. injection H as <- <-.
    rewrite combine_hands_eyes in K.
    destruct (C29_prefilter XR (prefilter_dot_product_threshold cfg) (map (fun p => (inD (fst p), inD (snd p))) l)) as (keep & _ & _ & E).
    rewrite E in K. destruct (Nat.leb 2 (count_true keep)); [|discriminate K]. injection K as <-.
    rewrite compress_map. exists (compress l keep). unfold hands, eyes. rewrite !map_map. cbn [fst snd].
    split; [easy|]. split; [easy|]. clear. revert keep. induction l as [|p l IH]; intros [|[] f]; cbn; try apply incl_nil_l.
    + apply incl_cons; [now left|]. apply incl_tl, IH.
    + apply incl_tl, IH.
  - intros H. injection H as <- <-. exists l. split; [easy|]. split; [easy|]. apply incl_refl.
Qed.
(** Success on perfect data (scalar-part mode, random or exhaustive, with or without prefilter)
    means the exact transform, zero error and all poses as inliers. *)
Theorem C37_success : forall svd draw (cfg : config XR) fuel tol rtol tp to (x : rdq) (l : list (rdq * rdq)) r,
  svd_exact svd -> hand_eye_calibration_tolerance cfg = Fin tol -> 0 <= tol ->
  ransac_sample_rejection_tolerance cfg = Fin rtol -> 0 <= rtol ->
  ransac_position_error_threshold_m cfg = Fin tp -> ransac_orientation_error_threshold_deg cfg = Fin to ->
  unitdq x -> 0 < qs (dr x) -> perfect x l -> no_half_turn l -> rich l ->
  ransac_inlier_classification cfg = ScalarPartEquality ->
  compute_RANSAC svd draw fuel cfg (hands l) (eyes l) = Done (Ok r) -> success r = true ->
  dq_H_E r = Some (inD x) /\ rmse r = Some (Fin 0, Fin 0) /\ num_inliers r = Some (length l).
Proof.
  intros svd draw cfg fuel tol rtol tp to x l r SX T T0 RT RT0 TP TO U W P NH RI MD H SU.
  destruct (C34_success _ svd draw cfg fuel _ _ r XR_strict_order H SU) as (bf & wf & h & s & dq & rp & ro & n & sv & bad & F & HI & _ & I & -> & _).
  destruct (filtered_pairs cfg l bf wf F) as (lf & -> & -> & IN).
  apply In_nth_error in I as (k & I). destruct (HI k s _ I) as [_ EV].
  assert (K : dq = inD x /\ rp = Fin 0 /\ ro = Fin 0 /\ n = length l).
  { eapply (C37_evaluated svd cfg tol rtol tp to x l lf s); eauto. rewrite MD. discriminate. }
  destruct K as (-> & -> & -> & ->). cbn [dq_H_E rmse num_inliers]. rewrite to_pose_unit by easy. easy.
Qed.
(** The same in rmse-threshold mode when every sample drawn is itself rich. *)
Theorem C37_success_rmse : forall svd draw (cfg : config XR) fuel tol rtol tp to (x : rdq) (l : list (rdq * rdq)) r,
  svd_exact svd -> hand_eye_calibration_tolerance cfg = Fin tol -> 0 <= tol ->
  ransac_sample_rejection_tolerance cfg = Fin rtol -> 0 <= rtol ->
  ransac_position_error_threshold_m cfg = Fin tp -> ransac_orientation_error_threshold_deg cfg = Fin to ->
  0 < tp -> 0 < to -> unitdq x -> 0 < qs (dr x) -> perfect x l -> no_half_turn l -> rich l ->
  (forall lf i s sub, filtered cfg (hands l) (eyes l) = Ok (hands lf, eyes lf) ->
     sample_at draw cfg (length lf) i = Ok s -> mapM (index lf) s = Ok sub -> rich sub) ->
  compute_RANSAC svd draw fuel cfg (hands l) (eyes l) = Done (Ok r) -> success r = true ->
  dq_H_E r = Some (inD x) /\ rmse r = Some (Fin 0, Fin 0) /\ num_inliers r = Some (length l).
Proof.
  intros svd draw cfg fuel tol rtol tp to x l r SX T T0 RT RT0 TP TO TP0 TO0 U W P NH RI GP H SU.
  destruct (C34_success _ svd draw cfg fuel _ _ r XR_strict_order H SU) as (bf & wf & h & s & dq & rp & ro & n & sv & bad & F & HI & _ & I & -> & _).
  destruct (filtered_pairs cfg l bf wf F) as (lf & -> & -> & IN).
  apply In_nth_error in I as (k & I). destruct (HI k s _ I) as [SA EV].
  assert (K : dq = inD x /\ rp = Fin 0 /\ ro = Fin 0 /\ n = length l).
  { eapply (C37_evaluated svd cfg tol rtol tp to x l lf s); eauto. intros _. split; [easy|]. split; [easy|].
    intros sub HS. unfold eyes in SA. rewrite map_length in SA. eapply GP; eauto. }
  destruct K as (-> & -> & -> & ->). cbn [dq_H_E rmse num_inliers]. rewrite to_pose_unit by easy. easy.
Qed.
