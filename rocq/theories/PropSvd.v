(** * Property C105: the decompositions that the calibration needs exist, and what the freedom in choosing them means. *)

From Coq Require Import Reals ZArith Bool String List Lra Lia Psatz.
From Verif Require Import Num Py XReal XFacts Quat DualQuat HandEye Ransac TimeAlign CsvIo Experiments Extrinsic Cli Spec TimeSpec Embed
  QuatFacts QuatTrig QuatRot DualFacts ScrewFacts ListFacts HandEyeFacts KernelFacts CalibFacts RansacFacts TimeFacts ResampleFacts
  PropTimeOffset PropResample PropAligned PropFilter PropOffsetPath PropCsv
  PropCalib PropEval PropPrefilter PropBaseline PropRansac PropSampling PropTermination PropDriver PropPerfect PropExtrinsic CalibExample PropComplete PropCli PropScript PropPipeline SvdFacts.
Import ListNotations.
Local Open Scope R_scope.

(** Whatever the numbers are, a matrix with eight columns has a singular value decomposition. *)
Theorem C105_exists : forall m : list rdq, exists s v, svd_spec m s v.
Proof. exact svd_exists. Qed.

(** ** Turning the last two singular vectors *)
Definition blend (c d : R) (a b : rdq) : rdq := dqadd (dqscale c a) (dqscale d b).
Lemma dot8_blend r c d a b : dot8 r (blend c d a b) = c * dot8 r a + d * dot8 r b.
Proof. unfold blend. now rewrite dot8_add, !dot8_scale. Qed.
Lemma dot8_blend_l r c d a b : dot8 (blend c d a b) r = c * dot8 a r + d * dot8 b r.
Proof. now rewrite dot8_sym, dot8_blend, !(dot8_sym r). Qed.
Lemma kills_blend m c d a b : kills m a -> kills m b -> kills m (blend c d a b).
Proof.
  intros A B. apply Forall_forall. intros r I. unfold kills in A, B. rewrite Forall_forall in A, B. rewrite dot8_blend, (A r I), (B r I). ring.
Qed.
Lemma ortho_of_nth l : (forall i j vi vj, nth_error l i = Some vi -> nth_error l j = Some vj -> dot8 vi vj = if Nat.eqb i j then 1 else 0) -> ortho l.
Proof.
  induction l as [|v l IH]; intros H; [easy|]. split; [exact (H 0%nat 0%nat v v eq_refl eq_refl)|]. split.
  - apply Forall_forall. intros w I. apply In_nth_error in I as (j & J). exact (H 0%nat (S j) v w eq_refl J).
  - apply IH. intros i j vi vj Hi Hj. exact (H (S i) (S j) vi vj Hi Hj).
Qed.
Lemma svd_turn m s w0 w1 w2 w3 w4 w5 w6 w7 c d : svd_spec m s [w0; w1; w2; w3; w4; w5; w6; w7] -> kills m w6 -> kills m w7 -> c * c + d * d = 1 ->
  svd_spec m s [w0; w1; w2; w3; w4; w5; blend c d w6 w7; blend (- d) c w6 w7].
Proof.
  intros SP K6 K7 E. set (v := [w0; w1; w2; w3; w4; w5; w6; w7]) in *. set (a := blend c d w6 w7). set (b := blend (- d) c w6 w7).
  assert (O : forall i j vi vj, nth_error v i = Some vi -> nth_error v j = Some vj -> dot8 vi vj = if Nat.eqb i j then 1 else 0) by exact (svd_orthonormal _ _ _ SP).
  assert (KA : kills m a) by now apply kills_blend. assert (KB : kills m b) by now apply kills_blend.
  assert (D66 : dot8 w6 w6 = 1) by exact (O 6%nat 6%nat w6 w6 eq_refl eq_refl). assert (D77 : dot8 w7 w7 = 1) by exact (O 7%nat 7%nat w7 w7 eq_refl eq_refl).
  assert (D67 : dot8 w6 w7 = 0) by exact (O 6%nat 7%nat w6 w7 eq_refl eq_refl). assert (D76 : dot8 w7 w6 = 0) by (now rewrite dot8_sym).
  assert (A : dot8 a a = 1 /\ dot8 b b = 1 /\ dot8 a b = 0 /\ dot8 b a = 0).
  { unfold a, b. repeat split; rewrite dot8_blend, !dot8_blend_l, D66, D77, D67, D76; lra. }
  destruct A as (DA & DB & DAB & DBA).
  assert (Z : forall i w, (i < 6)%nat -> nth_error v i = Some w -> dot8 w a = 0 /\ dot8 w b = 0 /\ dot8 a w = 0 /\ dot8 b w = 0).
  { intros i w I W. assert (X6 : dot8 w w6 = 0) by (rewrite (O i 6%nat w w6 W eq_refl); destruct (Nat.eqb_spec i 6); [lia|easy]).
    assert (X7 : dot8 w w7 = 0) by (rewrite (O i 7%nat w w7 W eq_refl); destruct (Nat.eqb_spec i 7); [lia|easy]).
    unfold a, b. rewrite !(dot8_sym (blend _ _ _ _)), !dot8_blend, X6, X7. repeat split; ring. }
  assert (CASE : forall i w, nth_error [w0; w1; w2; w3; w4; w5; a; b] i = Some w -> (i < 6)%nat /\ nth_error v i = Some w \/ i = 6%nat /\ w = a \/ i = 7%nat /\ w = b).
  { intros i w W. unfold v. do 6 (destruct i as [|i]; [left; split; [lia|exact W]|]). destruct i as [|i]; [right; left; injection W as <-; easy|].
    destruct i as [|i]; [right; right; injection W as <-; easy|]. destruct i; discriminate W. }
  assert (G6 : gram m w6 w6 = 0) by now apply gram_kills. assert (G7 : gram m w7 w7 = 0) by now apply gram_kills.
  assert (ON : forall i j vi vj, nth_error [w0; w1; w2; w3; w4; w5; a; b] i = Some vi -> nth_error [w0; w1; w2; w3; w4; w5; a; b] j = Some vj ->
    dot8 vi vj = if Nat.eqb i j then 1 else 0).
  { intros i j vi vj Hi Hj. apply CASE in Hi as [[Li Hi] | [[-> ->] | [-> ->]]]; apply CASE in Hj as [[Lj Hj] | [[-> ->] | [-> ->]]].
    - now apply O.
    - destruct (Nat.eqb_spec i 6); [lia|]. now apply (Z i).
    - destruct (Nat.eqb_spec i 7); [lia|]. now apply (Z i).
    - destruct (Nat.eqb_spec 6 j); [lia|]. now apply (Z j).
    - exact DA.
    - exact DAB.
    - destruct (Nat.eqb_spec 7 j); [lia|]. now apply (Z j).
    - exact DBA.
    - exact DB. }
  constructor.
  - reflexivity.
  - exact (svd_count _ _ _ SP).
  - intros y. apply (complete8 _ y (ortho_of_nth _ ON)). reflexivity.
  - exact ON.
  - intros i j vi vj Hi Hj NE. apply CASE in Hi as [[Li Hi] | [[-> ->] | [-> ->]]]; [|now apply gram_kills|now apply gram_kills].
    apply CASE in Hj as [[Lj Hj] | [[-> ->] | [-> ->]]]; [exact (svd_orthogonal _ _ _ SP i j vi vj Hi Hj NE)|rewrite gsym; now apply gram_kills|rewrite gsym; now apply gram_kills].
  - intros i vi Hi. apply CASE in Hi as [[Li Hi] | [[-> ->] | [-> ->]]].
    + exact (svd_values _ _ _ SP i vi Hi).
    + rewrite <- (svd_values _ _ _ SP 6%nat w6 eq_refl), G6. now apply gram_kills.
    + rewrite <- (svd_values _ _ _ SP 7%nat w7 eq_refl), G7. now apply gram_kills.
  - exact (svd_nonneg _ _ _ SP).
  - exact (svd_sorted _ _ _ SP).
Qed.

(** ** Noise-free motions: lucky and unlucky decompositions *)
Lemma both_choices x l : unitdq x -> 0 < qs (dr x) -> Forall (consistent x) l -> two_axes l ->
  (exists s v v7, svd_spec (trows l) s v /\ nth_error v 6 = Some v7 /\ hdot (dr v7) (dd v7) <> 0) /\
  (exists s v v7, svd_spec (trows l) s v /\ nth_error v 6 = Some v7 /\ hdot (dr v7) (dd v7) = 0).
Proof.
  intros U W C TA. destruct (svd_exists (trows l)) as (s & v & SP).
  assert (K : kills (trows l) x /\ kills (trows l) (RD hzero (dr x))).
  { rewrite !kills_trows. rewrite Forall_forall in C. split; apply Forall_forall; intros p I; apply (kernel_forward _ _ _ U (C p I)). }
  destruct K as [K1 K2].
  destruct (svd_null _ _ _ _ _ SP K1 K2 (independent x U)) as (w6 & w7 & E6 & E7 & N6 & N7 & D66 & D77 & D67).
  destruct (kernel_converse x l U ltac:(lra) C TA _ N6) as (a1 & b1 & V6). destruct (kernel_converse x l U ltac:(lra) C TA _ N7) as (a2 & b2 & V7).
  pose proof (svd_rows _ _ _ SP) as L8. destruct v as [|u0 [|u1 [|u2 [|u3 [|u4 [|u5 [|u6 [|u7 [|? ?]]]]]]]]]; try discriminate L8.
  injection E6 as ->. injection E7 as ->.
  assert (DOT : forall c d, hdot (dr (blend c d w6 w7)) (dd (blend c d w6 w7)) = (c * a1 + d * a2) * (c * b1 + d * b2)).
  { intros c d. destruct U as [U1 U2]. unfold unitq in U1. rewrite V6, V7. clear - U1 U2.
    destruct x as [[[x1 x2 x3] x4] [[y1 y2 y3] y4]]. unfold blend, dqadd, dqscale, hadd, hscale, vadd, vscale, hzero, vzero, hnorm2, hdot, dot3 in *.
    cbn [dr dd qv qs Spec.v1 v2 v3] in *.
    match goal with |- ?g = _ => replace g with ((c * a1 + d * a2) * (c * a1 + d * a2) * (x1 * y1 + x2 * y2 + x3 * y3 + x4 * y4) + (c * a1 + d * a2) * (c * b1 + d * b2) * (x1 * x1 + x2 * x2 + x3 * x3 + x4 * x4)) by ring end.
    rewrite U1. replace (x1 * y1 + x2 * y2 + x3 * y3 + x4 * y4) with 0 by lra. ring. }
  assert (IND : a1 * b2 - a2 * b1 <> 0).
  { intros Z.
    assert (N2 : forall c d, dot8 (blend c d w6 w7) (blend c d w6 w7) = c * c + d * d).
    { intros c d. rewrite dot8_blend, !dot8_blend_l, D66, D77, D67, (dot8_sym w7 w6), D67. ring. }
    assert (ZB : forall c d, c * a1 + d * a2 = 0 -> c * b1 + d * b2 = 0 -> c * c + d * d = 0).
    { intros c d A B. rewrite <- N2. replace (blend c d w6 w7) with (RD hzero hzero); [apply dot8_zero|].
      rewrite V6, V7. destruct x as [[[x1 x2 x3] x4] [[y1 y2 y3] y4]]. unfold blend, dqadd, dqscale, hadd, hscale, vadd, vscale, hzero, vzero. cbn [dr dd qv qs Spec.v1 v2 v3].
      assert (X : forall e, c * (a1 * e + b1 * 0) + d * (a2 * e + b2 * 0) = 0) by (intros e; transitivity ((c * a1 + d * a2) * e); [ring|]; rewrite A; ring).
      assert (Y : forall e f, c * (a1 * e + b1 * f) + d * (a2 * e + b2 * f) = 0) by (intros e f; transitivity ((c * a1 + d * a2) * e + (c * b1 + d * b2) * f); [ring|]; rewrite A, B; ring).
      rewrite !X, !Y. reflexivity. }
    pose proof (ZB (- a2) a1 ltac:(ring) ltac:(lra)) as Q1. assert (A1 : a1 = 0) by nra. assert (A2 : a2 = 0) by nra.
    pose proof (ZB (- b2) b1 ltac:(rewrite A1, A2; ring) ltac:(ring)) as Q2. assert (B1 : b1 = 0) by nra. assert (B2 : b2 = 0) by nra.
    pose proof (ZB 1 0 ltac:(rewrite A1, A2; ring) ltac:(rewrite B1, B2; ring)). lra. }
  split.
  - assert (EX : exists c d, c * c + d * d = 1 /\ (c * a1 + d * a2) * (c * b1 + d * b2) <> 0).
    { destruct (Req_dec (a1 * b1) 0) as [Z1|]; [|exists 1, 0; split; [ring|]; now replace ((1 * a1 + 0 * a2) * (1 * b1 + 0 * b2)) with (a1 * b1) by ring].
      destruct (Req_dec (a2 * b2) 0) as [Z2|]; [|exists 0, 1; split; [ring|]; now replace ((0 * a1 + 1 * a2) * (0 * b1 + 1 * b2)) with (a2 * b2) by ring].
      exists (3/5), (4/5). split; [lra|]. intros Z3. apply IND.
      assert (Z4 : a1 * b2 + a2 * b1 = 0) by nra.
      assert (Z5 : (a1 * b2 - a2 * b1) * (a1 * b2 - a2 * b1) = 0).
      { replace ((a1 * b2 - a2 * b1) * (a1 * b2 - a2 * b1)) with ((a1 * b2 + a2 * b1) * (a1 * b2 + a2 * b1) - 4 * (a1 * b1) * (a2 * b2)) by ring. rewrite Z4, Z1. ring. }
      now apply Rmult_integral in Z5 as [|]. }
    destruct EX as (c & d & E & NZ). exists s, [u0; u1; u2; u3; u4; u5; blend c d w6 w7; blend (- d) c w6 w7], (blend c d w6 w7).
    split; [now apply svd_turn|]. split; [reflexivity|]. now rewrite DOT.
  - set (n := a1 * a1 + a2 * a2). assert (P : 0 < n).
    { destruct (Req_dec a1 0) as [->|]; [|unfold n; nra]. destruct (Req_dec a2 0) as [->|]; [exfalso; apply IND; ring|unfold n; nra]. }
    pose proof (sqrt_lt_R0 n P) as SP0. pose proof (sqrt_sqrt n ltac:(lra)) as SS.
    set (c := a2 / sqrt n). set (d := - a1 / sqrt n).
    assert (E : c * c + d * d = 1).
    { unfold c, d. replace (a2 / sqrt n * (a2 / sqrt n) + - a1 / sqrt n * (- a1 / sqrt n)) with (n / (sqrt n * sqrt n)) by (unfold n at 1; field; lra). rewrite SS. field. lra. }
    exists s, [u0; u1; u2; u3; u4; u5; blend c d w6 w7; blend (- d) c w6 w7], (blend c d w6 w7).
    split; [now apply svd_turn|]. split; [reflexivity|]. rewrite DOT. replace (c * a1 + d * a2) with 0; [ring|]. unfold c, d. field. lra.
Qed.

(** For all noise-free motions about two axes, one exact decomposition makes compute_hand_eye_calibration return the
    true transform, and another one makes it raise. *)
Theorem C105_calibration : forall (tol : R) (x : rdq) (l : list (rdq * rdq)) (e : list rdq),
  0 <= tol -> unitdq x -> 0 < qs (dr x) -> Forall (consistent x) l -> two_axes l ->
  Forall2 (fun p y => y = snd p \/ (y = dqneg (snd p) /\ qs (dr (snd p)) <> 0)) l e ->
  let exact svd := exists m s v, setup_t_matrix svd (inD dqone :: hands l) (inD dqone :: eyes l) = Ok (map inD m) /\
    svd (map inD m) = Ok (map Fin s, map inD v) /\ svd_spec m s v in
  (exists svd s bad, exact svd /\
     compute_hand_eye_calibration svd (Fin tol) (inD dqone :: hands l) (inD dqone :: map inD e) = (inD dqone :: eyes l, Ok (inD x, s, bad))) /\
  (exists svd, exact svd /\
     compute_hand_eye_calibration svd (Fin tol) (inD dqone :: hands l) (inD dqone :: map inD e) = (inD dqone :: eyes l, Err AssertionError)).
Proof.
  intros tol x l e T0 U W C TA FE exact.
  set (l1 := (dqone, dqone) :: l).
  assert (C1 : Forall (consistent x) l1).
  { apply Forall_cons; [|exact C]. unfold consistent; cbn [fst snd]. now rewrite dqmul_1_l, dqmul_1_r. }
  assert (TA1 : two_axes l1).
  { destruct TA as (p & q & Ip & Iq & H). exists p, q. split; [now right|]. split; [now right|]. exact H. }
  destruct (both_choices x l1 U W C1 TA1) as [(s & v & v7 & SP & N7 & NZ) (s' & v' & v7' & SP' & N7' & Z)].
  assert (ST : forall s v, let svd := fun _ : list (@dquat XR) => Ok (map Fin s, map inD v) in
     setup_t_matrix svd (inD dqone :: hands l) (inD dqone :: eyes l) = Ok (map inD (trows l1))).
  { intros s0 v0 svd. change (inD dqone :: hands l) with (hands l1). change (inD dqone :: eyes l) with (eyes l1). apply setup_t_in.
    - intros p _. now eexists.
    - rewrite Forall_forall in C1. intros p I. destruct (consistent_scalars x p U (C1 p I)). apply scalars_close_eq; [lra|congruence|congruence].
    - now eexists. }
  split.
  - exists (fun _ => Ok (map Fin s, map inD v)). do 2 eexists. split; [exists (trows l1), s, v; split; [apply ST|easy]|].
    destruct (C25_recovery (fun _ => Ok (map Fin s, map inD v)) tol x l e (trows l1) s v T0 U W C TA FE (ST s v) eq_refl SP) as (w & NW & E).
    rewrite N7 in NW. injection NW as <-. rewrite E. destruct (Req_EM_T _ _); [contradiction|]. reflexivity.
  - exists (fun _ => Ok (map Fin s', map inD v')). split; [exists (trows l1), s', v'; split; [apply ST|easy]|].
    destruct (C25_recovery (fun _ => Ok (map Fin s', map inD v')) tol x l e (trows l1) s' v' T0 U W C TA FE (ST s' v') eq_refl SP') as (w & NW & E).
    rewrite N7' in NW. injection NW as <-. rewrite E. destruct (Req_EM_T _ _); [reflexivity|contradiction].
Qed.

(** ** An oracle for finitely many matrices *)
Definition xr_dec (a b : xr) : {a = b} + {a <> b}.
Proof. decide equality. apply Req_EM_T. Defined.
Definition quat_dec (a b : @quat XR) : {a = b} + {a <> b}.
Proof. decide equality; apply xr_dec. Defined.
Definition dquat_dec (a b : @dquat XR) : {a = b} + {a <> b}.
Proof. decide equality; apply quat_dec. Defined.
Lemma oracle (ms : list (list rdq)) : (forall m, In m ms -> exists s v v7, svd_spec m s v /\ nth_error v 6 = Some v7 /\ hdot (dr v7) (dd v7) <> 0) ->
  exists svd, (forall m, exists r, svd m = Ok r) /\ forall m, In m ms -> regular svd m.
Proof.
  induction ms as [|m ms IH]; intros H; [exists (fun _ => Ok ([], [])); split; [now eexists|easy]|].
  destruct IH as (svd & TOT & REG); [intros; apply H; now right|].
  destruct (H m (or_introl eq_refl)) as (s & v & v7 & SP & N7 & NZ).
  exists (fun a => if list_eq_dec dquat_dec a (map inD m) then Ok (map Fin s, map inD v) else svd a). split.
  - intros a. destruct (list_eq_dec _ _ _); [now eexists|apply TOT].
  - intros m' I. destruct (list_eq_dec dquat_dec (map inD m') (map inD m)) as [E|NE] eqn:Q.
    + exists s, v, v7. rewrite Q. pose proof (inD_list_inj _ _ E) as E2. clear - E2 SP N7 NZ. subst. easy.
    + destruct I as [<- | I]; [contradiction|]. destruct (REG m' I) as (s' & v' & v7' & E & R). exists s', v', v7'. rewrite Q. easy.
Qed.
Lemma oracle_realign x l : unitdq x -> 0 < qs (dr x) -> perfect x l -> no_half_turn l -> rich l ->
  exists svd, (forall m, exists r, svd m = Ok r) /\ forall k p, nth_error l k = Some p -> regular svd (trows (realign k p l)).
Proof.
  intros U W P NH RI.
  destruct (oracle (map (fun kp => trows (realign (fst kp) (snd kp) l)) (combine (seq 0 (length l)) l))) as (svd & TOT & REG).
  - intros m I. apply in_map_iff in I as ([k p] & <- & I). cbn [fst snd].
    assert (N : nth_error l k = Some p).
    { apply In_nth_error in I as (i & I). pose proof (nth_error_Some (combine (seq 0 (length l)) l) i) as LT. rewrite I, combine_length, seq_length in LT.
      assert (i < length l)%nat by (apply proj1 in LT; specialize (LT ltac:(discriminate)); lia).
      assert (E : nth_error (combine (seq 0 (length l)) l) i = match nth_error (seq 0 (length l)) i, nth_error l i with Some a, Some b => Some (a, b) | _, _ => None end).
      { clear. generalize (seq 0 (length l)). intros r. revert l i. induction r as [|a r IH]; intros [|b l] [|i]; cbn; try easy; try (now destruct (nth_error r i)). }
      rewrite E, (nth_error_nth' (seq 0 (length l)) 0%nat) in I by (rewrite seq_length; lia). rewrite seq_nth in I by lia. cbn [Nat.add] in I.
      destruct (nth_error l i) eqn:Q; [|discriminate I]. injection I as <- <-. exact Q. }
    destruct (realign_perfect x l k p U P NH N) as [C _].
    pose proof (realign_axes x l k p U P RI N) as TA.
    exact (proj1 (both_choices x _ U W C TA)).
  - exists svd. split; [exact TOT|]. intros k p N. apply REG. apply in_map_iff. exists (k, p). split; [reflexivity|].
    assert (LK : (k < length l)%nat) by (apply nth_error_Some; congruence).
    apply (nth_error_In _ k). 
    assert (E : forall o, nth_error (combine (seq o (length l)) l) k = Some ((o + k)%nat, p)).
    { clear - N LK. revert k N LK. induction l as [|a l IH]; intros [|k] N LK o; try discriminate N; cbn [length seq combine nth_error] in *.
      - injection N as <-. now rewrite Nat.add_0_r.
      - rewrite (IH k N ltac:(lia)). now rewrite <- plus_n_Sm. }
    exact (E 0%nat).
Qed.

(** The search with the scalar-part criterion succeeds on all noise-free data, for some decompositions. *)
Theorem C105_search : forall draw (cfg : config XR) (x : rdq) (l lf : list (rdq * rdq)),
  unitdq x -> 0 < qs (dr x) -> perfect x l -> no_half_turn l -> rich l ->
  filtered cfg (hands l) (eyes l) = Ok (hands lf, eyes lf) -> usable cfg (length l) (length lf) ->
  valid_draws draw cfg (length lf) -> ransac_inlier_classification cfg = ScalarPartEquality ->
  exists svd r fuel0, (forall k p, nth_error l k = Some p -> regular svd (trows (realign k p l))) /\
    (forall fuel, (fuel0 <= fuel)%nat -> compute_RANSAC svd draw fuel cfg (hands l) (eyes l) = Done (Ok r)) /\
    success r = true /\ dq_H_E r = Some (inD x) /\ rmse r = Some (Fin 0, Fin 0).
Proof.
  intros draw cfg x l lf U W P NH RI FIL US VD SC.
  destruct (oracle_realign x l U W P NH RI) as (svd & TOT & REG).
  destruct (C65_succeeds svd draw cfg x l lf U W P NH RI FIL US VD TOT) as (r & fuel0 & H & S & D & R & _).
  - intros s _. split; [intros k p _ N; now apply REG|]. rewrite SC. discriminate.
  - exists svd, r, fuel0. easy.
Qed.

(** ** Cases that meet the hypotheses *)
Example C105_calibration_example :
  (exists svd s bad, compute_hand_eye_calibration svd (Fin (1/1000)) (inD dqone :: hands l0) (inD dqone :: eyes l0) = (inD dqone :: eyes l0, Ok (inD x0, s, bad))) /\
  (exists svd, compute_hand_eye_calibration svd (Fin (1/1000)) (inD dqone :: hands l0) (inD dqone :: eyes l0) = (inD dqone :: eyes l0, Err AssertionError)).
Proof.
  assert (E : eyes l0 = map inD (map snd l0)) by (unfold eyes; now rewrite map_map).
  destruct (C105_calibration (1/1000) x0 l0 (map snd l0)) as [(svd & s & bad & _ & G) (svd' & _ & B)].
  - lra.
  - apply x0_unit.
  - cbn; lra.
  - apply l0_consistent.
  - apply l0_axes.
  - clear. induction l0; constructor; auto.
  - rewrite <- E in G, B. split; [now exists svd, s, bad|now exists svd'].
Qed.
Example C105_search_example : exists svd r fuel0, (forall fuel, (fuel0 <= fuel)%nat ->
    compute_RANSAC svd (fun _ => [0%nat]) fuel cfg65 (hands l65) (eyes l65) = Done (Ok r)) /\ dq_H_E r = Some (inD x0).
Proof.
  destruct (C105_search (fun _ => [0%nat]) cfg65 x0 l65 l65) as (svd & r & f & _ & H & _ & D & _); [..|now exists svd, r, f].
  - apply x0_unit.
  - cbn; lra.
  - exists (dqinv x0). split; [apply unitdq_inv, x0_unit|]. apply Forall_forall. intros p I. split.
    + now apply l65_unit.
    + left. rewrite dqmul_assoc. assert (C : consistent x0 p).
      { destruct I as [<-|I]; [unfold consistent; cbn [fst snd]; now rewrite dqmul_1_l, dqmul_1_r|].
        pose proof l0_consistent as F. rewrite Forall_forall in F. now apply F. }
      rewrite C, <- dqmul_assoc, dqmul_inv_l, dqmul_1_l by apply unitdq_n2, x0_unit. easy.
  - intros p q P Q. unfold motion. rewrite unitdq_inv_conj by now apply l65_unit. unfold l65, l0 in P, Q. cbn [In] in P, Q.
    destruct P as [<-|[<-|[<-|[]]]]; destruct Q as [<-|[<-|[<-|[]]]]; unfold dqone; cbn [fst snd]; specu; lra.
  - exists (dqone, dqone), (nth 0 l0 (dqone, dqone)), (nth 1 l0 (dqone, dqone)). unfold l65, l0. cbn [nth].
    split; [now left|]. split; [right; now left|]. split; [right; right; now left|]. unfold motion. rewrite !unitdq_inv_conj by (apply (l65_unit (dqone, dqone)); now left). unfold dqone. cbn [fst snd]. intros E. specu. injection E as _ _ E. lra.
  - eauto.
  - constructor; try discriminate; try (cbn; lia).
    1-4: eexists; split; [apply lit_fin|cbn [Rlit]; lra].
    intros _ _. exists (99/100), (5/10). split; [reflexivity|]. split; [reflexivity|]. lra.
  - intros _ i. split; [easy|]. intros j [<-|[]]. cbn. lia.
  - reflexivity.
Qed.
