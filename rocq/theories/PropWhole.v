(** * Property C106: which recordings the complete script calibrates. *)

From Coq Require Import Reals ZArith Bool String Ascii List Lra Lia Psatz Permutation.
From Verif Require Import Num Py XReal XFacts Quat DualQuat HandEye Ransac TimeAlign CsvIo Experiments Extrinsic Cli Spec TimeSpec Embed
  QuatFacts QuatTrig QuatRot DualFacts ScrewFacts ListFacts HandEyeFacts KernelFacts CalibFacts RansacFacts TimeFacts ResampleFacts StabilityFacts
  PropTimeOffset PropResample PropAligned PropFilter PropOffsetPath PropCsv PropNoisySignal
  PropCalib PropEval PropPrefilter PropBaseline PropRansac PropSampling PropTermination PropDriver PropTwoSensors PropPerfect PropExtrinsic CalibExample
  PropComplete PropCli PropScript PropShort PropPipeline SvdFacts PropSvd PropAccuracy PropNoRaise.
Import ListNotations.
Local Open Scope R_scope.

(** ** Orientations of a recording *)
Lemma dr_dq_of q p : dr (dq_of q p) = q.
Proof. reflexivity. Qed.
Lemma quats_transform rows : quats_of rows = map (fun r => dr (transform r)) rows.
Proof. unfold quats_of. apply map_ext. reflexivity. Qed.
Lemma quats_unit rows : Forall readable rows -> Forall unitq (quats_of rows).
Proof. intros F. unfold quats_of. apply Forall_map. revert F. apply Forall_impl. intros r. apply unit_of_unit. Qed.
Lemma incl_removelast {A} (l : list A) : incl (removelast l) l.
Proof. intros r. induction l as [|y l IH]; [easy|]. destruct l as [|z l]; [intros []|]. intros [->|I]; [now left|]. right. now apply IH. Qed.
Lemma combine_removelast {A B} (l : list A) (l' : list B) : List.length l = List.length l' -> combine (removelast l) (removelast l') = removelast (combine l l').
Proof.
  revert l'. induction l as [|a l IH]; intros [|b l'] E; try discriminate; [easy|]. injection E as E.
  destruct l as [|a2 l]; destruct l' as [|b2 l']; try discriminate; [easy|].
  change ((a, b) :: combine (removelast (a2 :: l)) (removelast (b2 :: l')) = (a, b) :: removelast (combine (a2 :: l) (b2 :: l'))). now rewrite IH.
Qed.
Lemma perfect_incl x l l' : incl l' l -> perfect x l -> perfect x l'.
Proof. intros I (t & U & F). exists t. split; [easy|]. rewrite Forall_forall in *. intros p P. now apply F, I. Qed.
Lemma half_incl l l' : incl l' l -> PropPerfect.no_half_turn l -> PropPerfect.no_half_turn l'.
Proof. intros I H p q P Q. apply H; now apply I. Qed.

(** the two recordings of one rig are the orientations of two sensors on one body *)
Lemma rig_twins x rowsA rowsB : unitdq x -> List.length rowsA = List.length rowsB -> Forall readable rowsA ->
  perfect x (combine (map transform rowsA) (map transform rowsB)) -> PropPerfect.no_half_turn (combine (map transform rowsA) (map transform rowsB)) ->
  (exists w, unitq w /\ twins w (dr x) (quats_of rowsA) (quats_of rowsB)) /\ PropTwoSensors.no_half_turn (quats_of rowsA).
Proof.
  intros U L FR (t & UT & F) NH. split.
  - exists (dr t). split; [apply UT|]. rewrite (quats_transform rowsA), (quats_transform rowsB). clear NH FR. revert rowsB L F. induction rowsA as [|a rowsA IH]; intros [|b rowsB] L F; try discriminate; [constructor|].
    injection L as L. cbn [map combine] in F. inversion F as [|? ? H F']; subst. cbn [fst snd] in H. constructor; [|now apply IH].
    destruct H as [_ H]. cbv beta. destruct H as [H|H]; rewrite H; [left|right]; reflexivity.
  - rewrite quats_transform. intros i p q P Q.
    rewrite nth_error_map in P, Q. destruct (nth_error rowsA i) as [a|] eqn:NA; [|discriminate P]. destruct (nth_error rowsA (S i)) as [b|] eqn:NB; [|discriminate Q].
    injection P as <-. injection Q as <-.
    assert (G : forall j r, nth_error rowsA j = Some r -> exists e, In (transform r, e) (combine (map transform rowsA) (map transform rowsB))).
    { clear - L. revert rowsB L. induction rowsA as [|a rowsA IH]; intros [|b rowsB] L j r N; try discriminate; [now destruct j|].
      injection L as L. destruct j as [|j].
      - injection N as <-. exists (transform b). now left.
      - destruct (IH rowsB L j r N) as (e & I). exists e. now right. }
    destruct (G _ _ NA) as (e1 & I1). destruct (G _ _ NB) as (e2 & I2). specialize (NH _ _ I1 I2). unfold motion in NH. cbn [fst] in NH.
    rewrite Forall_forall in F. destruct (F _ I1) as [U1 _]. cbn [fst] in U1. rewrite unitdq_inv_conj in NH by easy.
    intros E. apply NH. clear - E. change (hdot (dr (transform a)) (dr (transform b)) = 0) in E. destruct (transform a) as [[[a1 a2 a3] a0] ?]. destruct (transform b) as [[[b1 b2 b3] b0] ?].
    revert E. specu. intros E. lra.
Qed.

(** ** Motions that survive the prefilter *)
(** the motions from the first pose turn noticeably or are none, and two of the axes are at least 37 degrees apart *)
Definition varied (ds : list rdq) : Prop :=
  Forall (fun d => d = dqone \/ turns d) (from_first ds) /\
  exists d1 d2, In d1 (from_first ds) /\ In d2 (from_first ds) /\ turns d1 /\ turns d2 /\
    Rabs (dot3 (qv (dr d1)) (qv (dr d2))) <= 4/5 * (len3 (qv (dr d1)) * len3 (qv (dr d2))).

Lemma count_one f i j : (count_true f <= 1)%nat -> nth_error f i = Some true -> nth_error f j = Some true -> i = j.
Proof.
  assert (P : forall f i, nth_error f i = Some true -> (1 <= count_true f)%nat).
  { clear. induction f as [|b f IH]; intros [|i] N; try discriminate; cbn in N.
    - injection N as ->. cbn. lia.
    - apply IH in N. destruct b; cbn; lia. }
  revert i j. induction f as [|b f IH]; intros [|i] [|j] C I J; try discriminate; try easy; cbn in I, J.
  - injection I as ->. apply P in J. cbn in C. lia.
  - injection J as ->. apply P in I. cbn in C. lia.
  - f_equal. apply IH; try easy. destruct b; cbn in C; lia.
Qed.
Lemma conj_dot x a b a' b' : unitq x -> hmul a x = hmul x a' -> hmul b x = hmul x b' ->
  dot3 (qv a') (qv b') = dot3 (qv a) (qv b) /\ qs a' = qs a.
Proof.
  intros U A B.
  assert (E : forall c c', hmul c x = hmul x c' -> c' = hmul (hconj x) (hmul c x)).
  { intros c c' C. rewrite C, <- hmul_assoc, hmul_conj_l. unfold unitq in U. rewrite U. destruct c' as [[] ?]. apply rq_eq; specu; ring. }
  rewrite (E a a' A), (E b b' B). unfold unitq in U. destruct x as [[x1 x2 x3] x4], a as [[a1 a2 a3] a4], b as [[b1 b2 b3] b4].
  revert U. specu. intros U. split.
  - transitivity ((x1 * x1 + x2 * x2 + x3 * x3 + x4 * x4) * (x1 * x1 + x2 * x2 + x3 * x3 + x4 * x4) * (a1 * b1 + a2 * b2 + a3 * b3)); [ring|].
    replace (x1 * x1 + x2 * x2 + x3 * x3 + x4 * x4) with 1 by lra. ring.
  - transitivity ((x1 * x1 + x2 * x2 + x3 * x3 + x4 * x4) * a4); [ring|]. replace (x1 * x1 + x2 * x2 + x3 * x3 + x4 * x4) with 1 by lra. ring.
Qed.
(** two unit vectors close to a third *)
Lemma close_third u v w : dot3 u u = 1 -> dot3 v v = 1 -> dot3 w w = 1 -> 95/100 < dot3 w u -> 95/100 < dot3 w v -> 4/5 < dot3 u v.
Proof.
  intros U V W A B. destruct u as [u1 u2 u3], v as [v1 v2 v3], w as [w1 w2 w3]. unfold dot3 in *. cbn [Spec.v1 Spec.v2 Spec.v3] in *.
  pose proof (Rle_0_sqr (u1 + v1 - 2 * w1)). pose proof (Rle_0_sqr (u2 + v2 - 2 * w2)). pose proof (Rle_0_sqr (u3 + v3 - 2 * w3)). unfold Rsqr in *. nra.
Qed.
Definition direction (d : rdq) : rv := vscale (/ len3 (qv (dr d))) (qv (dr d)).
Lemma direction_unit d : turns d -> dot3 (direction d) (direction d) = 1.
Proof.
  intros (A1 & A2 & A3). destruct (turn_hyp d A1 A2 A3) as [S _]. unfold direction.
  assert (E : len3 (qv (dr d)) * len3 (qv (dr d)) = dot3 (qv (dr d)) (qv (dr d))) by (unfold len3; apply sqrt_sqrt, dot3_pos).
  set (k := len3 (qv (dr d))) in *. destruct (qv (dr d)) as [a b c]. revert E. unfold dot3, vscale. cbn [Spec.v1 Spec.v2 Spec.v3]. intros E.
  transitivity (/ k * / k * (a * a + b * b + c * c)); [ring|]. rewrite <- E. field. lra.
Qed.
Lemma direction_dot a b : turns a -> turns b -> vdot (unit_axis (inD a)) (unit_axis (inD b)) = Fin (dot3 (direction a) (direction b)).
Proof.
  intros A B. rewrite dot_axes by easy. f_equal. destruct A as (A1 & A2 & A3), B as (B1 & B2 & B3).
  destruct (turn_hyp a A1 A2 A3) as [SA _]. destruct (turn_hyp b B1 B2 B3) as [SB _]. unfold direction.
  set (k := len3 (qv (dr a))) in *. set (k' := len3 (qv (dr b))) in *. destruct (qv (dr a)), (qv (dr b)). unfold dot3, vscale. cbn [Spec.v1 Spec.v2 Spec.v3]. field. lra.
Qed.

(** Noise-free motions from the first pose: at least two pairs are kept. *)
Lemma varied_filtered x l : unitdq x -> Forall (consistent x) l -> Forall (fun p => unitdq (fst p) /\ unitdq (snd p)) l ->
  Forall (fun p => fst p = dqone \/ turns (fst p)) l ->
  (exists p q, In p l /\ In q l /\ turns (fst p) /\ turns (fst q) /\
     Rabs (dot3 (qv (dr (fst p))) (qv (dr (fst q)))) <= 4/5 * (len3 (qv (dr (fst p))) * len3 (qv (dr (fst q))))) ->
  exists lf, filtered es_config (hands l) (eyes l) = Ok (hands lf, eyes lf).
Proof.
  intros UX C UU T (p & q & IP & IQ & TP & TQ & D). rewrite Forall_forall in C, T, UU.
  (* the eye turns as much, about an axis turned by x *)
  assert (EC : forall a b, In a l -> In b l -> dot3 (qv (dr (snd a))) (qv (dr (snd b))) = dot3 (qv (dr (fst a))) (qv (dr (fst b))) /\ qs (dr (snd a)) = qs (dr (fst a))).
  { intros a b A B. apply (conj_dot (dr x)); [apply UX| |].
    - exact (f_equal dr (C a A)).
    - exact (f_equal dr (C b B)). }
  assert (EL : forall a, In a l -> len3 (qv (dr (snd a))) = len3 (qv (dr (fst a)))) by (intros a A; unfold len3; now rewrite (proj1 (EC a a A A))).
  assert (ET : forall a, In a l -> turns (fst a) -> turns (snd a)).
  { intros a A (A1 & A2 & A3). destruct (EC a a A A) as [_ S]. unfold turns. rewrite S. split; [apply (UU a A)|]. easy. }
  assert (ED : forall a b, In a l -> In b l -> turns (fst a) -> turns (fst b) -> dot3 (direction (snd a)) (direction (snd b)) = dot3 (direction (fst a)) (direction (fst b))).
  { intros a b A B TA TB. assert (Q : Fin (dot3 (direction (snd a)) (direction (snd b))) = Fin (dot3 (direction (fst a)) (direction (fst b)))); [|now injection Q].
    rewrite <- !direction_dot by (try easy; now apply ET). rewrite !dot_axes by (try easy; now apply ET). rewrite (proj1 (EC a b A B)), !EL by easy. reflexivity. }
  unfold filtered. change (prefilter_poses_enabled es_config) with true. cbv iota. change (prefilter_dot_product_threshold es_config) with (Fin (95/100)).
  rewrite combine_hands_eyes. set (f := fun p : rdq * rdq => (inD (fst p), inD (snd p))).
  destruct (C29_prefilter XR (Fin (95/100)) (map f l)) as (keep & L & K & E). rewrite E. rewrite map_length in L.
  assert (NF : forall k r, nth_error l k = Some r -> nth_error (map f l) k = Some (f r)) by (intros k r N; now rewrite nth_error_map, N).
  assert (LT : forall z, ltb (Num:=XR) (Fin (95/100)) (Fin z) = false -> z <= 95/100).
  { intros z Z. cbn [ltb XR xltb] in Z. unfold Rltb in Z. destruct (Rlt_dec (95/100) z); [discriminate Z|lra]. }
  assert (GE : forall z, z <= 95/100 -> ltb (Num:=XR) (Fin (95/100)) (Fin z) = false) by (intros z Z; cbn [ltb XR xltb]; apply Rltb_f; lra).
  destruct (Nat.leb_spec 2 (count_true keep)) as [C2|C1].
  { exists (compress l keep). rewrite compress_map. cbn [bind]. rewrite split_maps. unfold hands, eyes. rewrite !map_map. reflexivity. }
  exfalso.
  assert (KT : forall k r, nth_error l k = Some r -> nth_error keep k = Some true -> turns (fst r)).
  { intros k r N X. apply (K k _ (NF k r N)) in X as (X & _). pose proof (nth_error_In _ _ N) as IR. destruct (T r IR) as [Z|Z]; [|easy].
    unfold f in X. cbn [fst] in X. rewrite Z, (C29_identity_dropped dqone) in X by now left. discriminate X. }
  (* a turning pair is kept or close to one that is kept *)
  assert (KC : forall k r, nth_error l k = Some r -> turns (fst r) ->
     exists i w, nth_error l i = Some w /\ nth_error keep i = Some true /\ 95/100 < dot3 (direction (fst w)) (direction (fst r))).
  { intros k r N TR. pose proof (nth_error_In _ _ N) as IR. destruct (nth_error keep k) as [[|]|] eqn:KK.
    - exists k, r. split; [easy|]. split; [easy|]. rewrite direction_unit by easy. lra.
    - destruct (Exists_dec (fun i => nth_error keep i = Some true) (seq 0 k)) as [X|X].
      { intros i. destruct (nth_error keep i) as [[|]|]; [left|right|right]; congruence. }
      + apply Exists_exists in X as (i & I & KI). apply in_seq in I.
        assert (LI : (i < List.length l)%nat) by (rewrite <- L; apply nth_error_Some; congruence).
        destruct (nth_error l i) as [w|] eqn:NI; [|apply nth_error_None in NI; lia]. exists i, w. split; [easy|]. split; [easy|].
        pose proof (nth_error_In _ _ NI) as IW. pose proof (KT i w NI KI) as TW.
        destruct (Rlt_dec (95/100) (dot3 (direction (fst w)) (direction (fst r)))) as [Z|Z]; [exact Z|exfalso].
        enough (G : nth_error keep k = Some true) by congruence. apply (K k _ (NF k r N)). split; [now apply axis_ok|]. split; [now apply axis_ok, ET|].
        intros i' q' I' Q' K'. assert (i' = i) as -> by (apply (count_one keep); try easy; lia). rewrite (NF i w NI) in Q'. injection Q' as <-. unfold f. cbn [fst snd].
        rewrite !direction_dot by (try easy; now apply ET). rewrite (ED w r) by easy. split; apply GE; lra.
      + exfalso. enough (G : nth_error keep k = Some true) by congruence. apply (K k _ (NF k r N)). split; [now apply axis_ok|]. split; [now apply axis_ok, ET|].
        intros i' q' I' Q' K'. exfalso. apply X. apply Exists_exists. exists i'. split; [apply in_seq; lia|easy].
    - exfalso. apply nth_error_None in KK. assert (k < List.length l)%nat by (apply nth_error_Some; congruence). lia. }
  apply In_nth_error in IP as (kp & NP). apply In_nth_error in IQ as (kq & NQ).
  destruct (KC kp p NP TP) as (i & w & NW & KW & DP). destruct (KC kq q NQ TQ) as (i' & w' & NW' & KW' & DQ).
  assert (i' = i) as -> by (apply (count_one keep); try easy; lia). rewrite NW in NW'. injection NW' as <-.
  pose proof (KT i w NW KW) as TW.
  pose proof (close_third _ _ _ (direction_unit _ TP) (direction_unit _ TQ) (direction_unit _ TW) DP DQ) as CL.
  assert (Q : Fin (dot3 (direction (fst p)) (direction (fst q))) = Fin (dot3 (qv (dr (fst p))) (qv (dr (fst q))) / (len3 (qv (dr (fst p))) * len3 (qv (dr (fst q)))))).
  { now rewrite <- direction_dot, dot_axes. }
  injection Q as Q. rewrite Q in CL. destruct TP as (A1 & A2 & A3), TQ as (B1 & B2 & B3).
  destruct (turn_hyp _ A1 A2 A3) as [SA _]. destruct (turn_hyp _ B1 B2 B3) as [SB _].
  set (z := len3 (qv (dr (fst p))) * len3 (qv (dr (fst q)))) in *. assert (Z : 0 < z) by now apply Rmult_lt_0_compat.
  apply (Rmult_lt_compat_r z) in CL; [|easy]. set (y := dot3 _ _) in *. replace (y / z * z) with y in CL by (field; lra).
  pose proof (Rle_abs y). lra.
Qed.

(** ** Recordings from which the time offset is found *)
(** Noise-free recordings of one rig: hand and eye are sampled at the same n equally spaced moments, the clock of the eye
    is ahead by o; x is the transform from the eye to the hand; the reference frames are arbitrary; there are no half turns
    and the motions (without the last pose, which the alignment drops) are varied. *)
Record rig (x : rdq) (rowsA rowsB : list line) (a step o : R) : Prop := {
  rig_hand : Forall readable rowsA;
  rig_eye : Forall readable rowsB;
  rig_long : (11 <= List.length rowsA)%nat;
  rig_step : 0 < step;
  rig_times_hand : times_of rowsA = ticks a step (List.length rowsA);
  rig_times_eye : times_of rowsB = ticks (a + o) step (List.length rowsA);
  rig_unit : unitdq x;
  rig_sign : 0 < qs (dr x);
  rig_perfect : perfect x (combine (map transform rowsA) (map transform rowsB));
  rig_half : PropPerfect.no_half_turn (combine (map transform rowsA) (map transform rowsB));
  rig_varied : varied (map transform (removelast rowsA));
}.
(** the pairs of poses that the calibration program searches *)
Definition searched (rowsA rowsB : list line) : list (rdq * rdq) :=
  combine (from_first (map transform (removelast rowsA))) (from_first (map transform (removelast rowsB))).
(** the script succeeds and writes exactly the transform x and the offset o, and this is what the estimator starts from *)
Definition writes svd estimator (A B : string) (fs : files (N:=XR)) (x : rdq) (o : R) : Prop :=
  exists fuel0, forall fuel, (fuel0 <= fuel)%nat -> exists fs' ok out,
    script svd estimator fuel A B fs = Done (Ok (fs', (None, None), ok)) /\
    fs' "calibration.json"%string = Some (Json (document o (trans_of x) (dr x))) /\
    (~ In A fixed_outputs -> ~ In B fixed_outputs -> A <> aligned_path B -> B <> aligned_path A ->
      estimator (fs A) (fs B) (Some (Json (document o (trans_of x) (dr x)))) = (out, ok)).

Lemma removelast_cons {A} (l : list A) : (2 <= List.length l)%nat -> exists y r, removelast l = y :: r.
Proof. destruct l as [|y [|z l]]; intros H; cbn in H; try lia. exists y. eexists. reflexivity. Qed.
Lemma rig_search x rowsA rowsB a step o : rig x rowsA rowsB a step o ->
  let l1 := searched rowsA rowsB in
  List.length rowsB = List.length rowsA /\
  rich (removelast (combine (map transform rowsA) (map transform rowsB))) /\
  perfect x l1 /\ PropPerfect.no_half_turn l1 /\ rich l1 /\
  exists lf, filtered es_config (hands l1) (eyes l1) = Ok (hands lf, eyes lf).
Proof.
  intros [RA RB N11 P TA TB U W PF NH (VT & d1 & d2 & I1 & I2 & T1 & T2 & D)] l1.
  assert (LB : List.length rowsB = List.length rowsA).
  { apply (f_equal (@List.length R)) in TB. rewrite ticks_length in TB. unfold times_of in TB. now rewrite map_length in TB. }
  split; [exact LB|].
  set (l := combine (map transform rowsA) (map transform rowsB)) in *.
  assert (EL : combine (map transform (removelast rowsA)) (map transform (removelast rowsB)) = removelast l).
  { rewrite <- !removelast_map. apply combine_removelast. now rewrite !map_length. }
  assert (LR : List.length (removelast rowsA) = List.length (removelast rowsB)).
  { assert (G : forall rows : list line, List.length (removelast rows) = pred (List.length rows)).
    { intros rows. induction rows as [|y rows IH]; [easy|]. destruct rows as [|z rows]; [easy|]. change (S (List.length (removelast (z :: rows))) = pred (S (S (List.length rows)))). rewrite IH. cbn. lia. }
    now rewrite !G, LB. }
  destruct (removelast_cons rowsA ltac:(lia)) as (ra & ras & EA). destruct (removelast_cons rowsB ltac:(lia)) as (rb & rbs & EB).
  unfold searched in l1. rewrite EA in I1, I2, VT. rewrite EA, EB in EL, LR. cbn [map] in EL, I1, I2, VT. subst l1. rewrite EA, EB. cbn [map].
  set (d0 := transform ra) in *. set (e0 := transform rb) in *. set (ds := map transform ras) in *. set (es := map transform rbs) in *.
  assert (LL : List.length ds = List.length es) by (unfold ds, es; rewrite !map_length; now injection LR).
  rewrite (from_first_pairs d0 e0 ds es LL). rewrite EL. set (lr := removelast l) in *.
  assert (H0 : nth_error lr 0 = Some (d0, e0)) by now rewrite <- EL.
  assert (PR : perfect x lr) by (apply (perfect_incl x l); [apply incl_removelast|easy]).
  assert (NR : PropPerfect.no_half_turn lr) by (apply (half_incl l); [apply incl_removelast|easy]).
  (* the motions from the first pose *)
  assert (FST : forall d, In d (from_first (d0 :: ds)) -> exists p, In p (realign 0 (d0, e0) lr) /\ fst p = d).
  { intros d I. rewrite <- EL, <- from_first_pairs by easy. assert (LF : List.length (from_first (d0 :: ds)) = List.length (from_first (e0 :: es))) by (unfold from_first; rewrite !map_length; cbn; now rewrite LL).
    revert I LF. generalize (from_first (d0 :: ds)), (from_first (e0 :: es)). intros l2. induction l2 as [|y l2 IH]; intros [|z l3] I LF; try discriminate; [easy|]. injection LF as LF.
    destruct I as [->|I]; [exists (d, z); split; [now left|easy]|]. destruct (IH l3 I LF) as (p & IP & E). exists p. split; [now right|easy]. }
  assert (FST' : forall p, In p (realign 0 (d0, e0) lr) -> In (fst p) (from_first (d0 :: ds))).
  { intros p I. rewrite <- EL, <- from_first_pairs in I by easy. destruct p as [u v]. now apply in_combine_l in I. }
  assert (MOT : forall p, In p (realign 0 (d0, e0) lr) -> exists q, In q lr /\ (fst p = motion (d0, e0) q \/ fst p = dqneg (motion (d0, e0) q))).
  { intros p I. apply realign_in in I as (q & IQ & ->). exists q. split; [easy|]. cbn [fst]. unfold rflip. destruct (Rlt_dec _ _); [now right|now left]. }
  assert (CR : forall u v : rdq, turns u -> turns v -> Rabs (dot3 (qv (dr u)) (qv (dr v))) <= 4/5 * (len3 (qv (dr u)) * len3 (qv (dr v))) -> cross3 (qv (dr u)) (qv (dr v)) <> vzero).
  { clear. intros u v (A1 & A2 & A3) (B1 & B2 & B3) D Z. destruct (turn_hyp u A1 A2 A3) as [SA _]. destruct (turn_hyp v B1 B2 B3) as [SB _].
    assert (EA : len3 (qv (dr u)) * len3 (qv (dr u)) = dot3 (qv (dr u)) (qv (dr u))) by (unfold len3; apply sqrt_sqrt, dot3_pos).
    assert (EB : len3 (qv (dr v)) * len3 (qv (dr v)) = dot3 (qv (dr v)) (qv (dr v))) by (unfold len3; apply sqrt_sqrt, dot3_pos).
    assert (LG : dot3 (qv (dr u)) (qv (dr v)) * dot3 (qv (dr u)) (qv (dr v)) + dot3 (cross3 (qv (dr u)) (qv (dr v))) (cross3 (qv (dr u)) (qv (dr v))) =
      dot3 (qv (dr u)) (qv (dr u)) * dot3 (qv (dr v)) (qv (dr v))) by (destruct (qv (dr u)), (qv (dr v)); specu; ring).
    rewrite Z in LG. replace (dot3 vzero vzero) with 0 in LG by (specu; ring). rewrite <- EA, <- EB in LG.
    set (y := dot3 (qv (dr u)) (qv (dr v))) in *. set (k := len3 (qv (dr u))) in *. set (k' := len3 (qv (dr v))) in *.
    assert (0 < k * k') by now apply Rmult_lt_0_compat. assert (Rabs y * Rabs y = y * y) by (rewrite <- Rabs_mult; apply Rabs_right; nra).
    pose proof (Rabs_pos y). nra. }
  destruct (FST d1 I1) as (p1 & IP1 & E1). destruct (FST d2 I2) as (p2 & IP2 & E2).
  assert (RL : rich lr).
  { destruct (MOT p1 IP1) as (q1 & Q1 & M1). destruct (MOT p2 IP2) as (q2 & Q2 & M2). exists (d0, e0), q1, q2.
    split; [now apply nth_error_In in H0|]. split; [easy|]. split; [easy|]. intros Z. apply (CR d1 d2 T1 T2 D). rewrite <- E1, <- E2.
    destruct (motion (d0, e0) q1) as [[[a1 a2 a3] a4] a5], (motion (d0, e0) q2) as [[[b1 b2 b3] b4] b5].
    destruct M1 as [-> | ->], M2 as [-> | ->]; revert Z; specu; intros Z; injection Z as Z1 Z2 Z3; f_equal; lra. }
  destruct (realign_experiment x lr 0 (d0, e0) U PR NR RL H0) as (P1 & NH1 & RI1).
  split; [exact RL|]. split; [exact P1|]. split; [exact NH1|]. split; [exact RI1|].
  destruct (realign_perfect x lr 0 (d0, e0) U PR NR H0) as [CO UU].
  apply (varied_filtered x); try easy.
  - revert UU. apply Forall_impl. tauto.
  - apply Forall_forall. intros p I. rewrite Forall_forall in VT. now apply VT, FST'.
  - exists p1, p2. rewrite E1, E2. easy.
Qed.

(** everything the calibration needs once the offset is right (C68_exact) *)
Lemma whole svd estimator A B fs x rowsA rowsB a step o :
  A <> B -> fs A = Some (table rowsA) -> fs B = Some (table rowsB) -> rig x rowsA rowsB a step o ->
  (forall m, exists r, svd m = Ok r) ->
  (forall k p, nth_error (searched rowsA rowsB) k = Some p -> regular svd (trows (realign k p (searched rowsA rowsB)))) ->
  calculate_time_offset (map Fin (ticks a step (List.length rowsA))) (inQs (quats_of rowsA))
    (map Fin (ticks (a + o) step (List.length rowsA))) (inQs (quats_of rowsB)) default_filtering = Ok (Fin o) ->
  writes svd estimator A B fs x o.
Proof.
  intros NAB FA FB RG TOT REG OFF. destruct (rig_search _ _ _ _ _ _ RG) as (LB & RI & _ & _ & _ & lf & FIL).
  destruct RG as [RA RB N11 P TA TB U W PF NH _].
  assert (EL : combine (map transform (removelast rowsA)) (map transform (removelast rowsB)) = removelast (combine (map transform rowsA) (map transform rowsB))).
  { rewrite <- !removelast_map. apply combine_removelast. now rewrite !map_length. }
  apply (C68_exact svd estimator A B fs x rowsA rowsB lf o); try assumption.
  - rewrite TA, TB. unfold ticks. rewrite map_map. apply map_ext. intros; lra.
  - rewrite TB. intros i j s t IJ E1 E2. now apply (ticks_strict (a + o) step (List.length rowsA) i j s t).
  - now rewrite TA, TB.
  - rewrite EL. apply (perfect_incl _ (combine (map transform rowsA) (map transform rowsB))); [apply incl_removelast|easy].
  - rewrite EL. apply (half_incl (combine (map transform rowsA) (map transform rowsB))); [apply incl_removelast|easy].
  - now rewrite EL.
  - intros k p _. apply REG.
Qed.
Lemma default_in : @default_filtering XR = mkFiltering (N:=XR) 25 (Fin (199/2)) 25 (Fin 99).
Proof. unfold default_filtering. rewrite !lit_fin. unfold Rlit. f_equal; f_equal. vm_compute Z.pow_pos. lra. Qed.

(** The time offset is found if the correlation of the smoothed rates with themselves falls off from its maximum by more
    than what the clipping (to the 99.5th percentile for the hand, to the 99th for the eye) can change. *)
Definition distinct_signal (rowsA rowsB : list line) (a step o : R) : Prop :=
  let n := List.length rowsA in
  let rA := rates (quats_of rowsA) (ticks a step n) in
  let rB := rates (quats_of rowsB) (ticks (a + o) step n) in
  exists eA eB, 0 <= eA /\ 0 <= eB /\
    (forall m, is_percentile (components rA) (199/2) m -> follows eA m rA rA) /\
    (forall m, is_percentile (components rB) 99 m -> follows eB m rB rB) /\
    let s := map (fun i => len3 (averaged 25 rA i)) (seq 0 (n - 1)) in
    forall d, d <> 0%Z -> (Z.abs d < Z.of_nat (n - 1))%Z ->
      2 * (strength s * (sqrt 3 * (eA + eB) * sqrt (INR (n - 1))) + 3 * eA * eB * INR (n - 1)) < xcorr s s 0 - xcorr s s d.
(** No component reaches past the percentiles, and the hand moves. *)
Definition unclipped_signal (rowsA rowsB : list line) (a step o : R) : Prop :=
  let n := List.length rowsA in
  let rA := rates (quats_of rowsA) (ticks a step n) in
  let rB := rates (quats_of rowsB) (ticks (a + o) step n) in
  (forall m, is_percentile (components rA) (199/2) m -> Forall (fun y => Rabs y <= m) (components rA)) /\
  (forall m, is_percentile (components rB) 99 m -> Forall (fun y => Rabs y <= m) (components rB)) /\
  exists i, (i < n - 1)%nat /\ len3 (averaged 25 rA i) <> 0.

Lemma rig_offset x rowsA rowsB a step o : rig x rowsA rowsB a step o -> distinct_signal rowsA rowsB a step o \/ unclipped_signal rowsA rowsB a step o ->
  calculate_time_offset (map Fin (ticks a step (List.length rowsA))) (inQs (quats_of rowsA))
    (map Fin (ticks (a + o) step (List.length rowsA))) (inQs (quats_of rowsB)) default_filtering = Ok (Fin o).
Proof.
  intros RG SG. destruct (rig_search _ _ _ _ _ _ RG) as (LB & _). destruct RG as [RA RB N11 P TA TB U W PF NH _].
  destruct (rig_twins x rowsA rowsB U (eq_sym LB) RA PF NH) as [(w & UW & TW) NHT].
  assert (LQ : List.length (quats_of rowsA) = List.length rowsA) by (unfold quats_of; now rewrite map_length).
  assert (LQB : List.length (quats_of rowsB) = List.length rowsA) by (unfold quats_of; now rewrite map_length).
  destruct SG as [(eA & eB & EA & EB & CA & CB & MARGIN)|(CA & CB & MOVES)].
  - assert (RBE : rates (quats_of rowsB) (ticks (a + o) step (List.length rowsA)) = map (hrot w) (rates (quats_of rowsA) (ticks a step (List.length rowsA)))).
    { rewrite ticks_shift, rates_shift by (rewrite ticks_length, LQB; lia). now apply (C89_rates w (dr x)); [|apply U|..]. }
    pose proof (C89_noisy (quats_of rowsA) (quats_of rowsB) (rates (quats_of rowsA) (ticks a step (List.length rowsA))) w a step o 25 (199/2) 99 eA eB) as OFF. cbv zeta in OFF. rewrite LQ in OFF.
    change (@T XR) with xr in *. rewrite default_in. apply OFF; clear OFF; try assumption; try lia; try lra.
    + now apply quats_unit.
    + now apply quats_unit.
    + now rewrite <- RBE.
  - pose proof (C89_unclipped (quats_of rowsA) (quats_of rowsB) w (dr x) a step o 25 (199/2) 99) as OFF. cbv zeta in OFF. rewrite LQ in OFF.
    change (@T XR) with xr in *. rewrite default_in. apply OFF; clear OFF; try assumption; try lia; try lra.
    + now apply quats_unit.
    + apply U.
Qed.

(** With every oracle for the singular value decompositions that returns exact ones, and a usable one for the matrices of the
    search (C105), calibration.json is exact. *)
Theorem C106_exact : forall svd estimator A B fs x rowsA rowsB a step o,
  A <> B -> fs A = Some (table rowsA) -> fs B = Some (table rowsB) -> rig x rowsA rowsB a step o ->
  distinct_signal rowsA rowsB a step o \/ unclipped_signal rowsA rowsB a step o ->
  (forall m, exists r, svd m = Ok r) ->
  (forall k p, nth_error (searched rowsA rowsB) k = Some p -> regular svd (trows (realign k p (searched rowsA rowsB)))) ->
  writes svd estimator A B fs x o.
Proof. intros. eapply whole; eauto. eapply rig_offset; eauto. Qed.
(** Such an oracle exists for each of these recordings. *)
Theorem C106_calibrates : forall rowsA rowsB x a step o,
  rig x rowsA rowsB a step o -> distinct_signal rowsA rowsB a step o \/ unclipped_signal rowsA rowsB a step o ->
  exists svd, (forall k p, nth_error (searched rowsA rowsB) k = Some p -> regular svd (trows (realign k p (searched rowsA rowsB)))) /\
    forall estimator A B fs, A <> B -> fs A = Some (table rowsA) -> fs B = Some (table rowsB) -> writes svd estimator A B fs x o.
Proof.
  intros rowsA rowsB x a step o RG SG. destruct (rig_search _ _ _ _ _ _ RG) as (_ & _ & P1 & NH1 & RI1 & _).
  destruct (oracle_realign x (searched rowsA rowsB)) as (svd & TOT & REG); try easy; [apply RG|apply RG|].
  exists svd. split; [exact REG|]. intros estimator A B fs NAB FA FB. now apply (C106_exact svd estimator A B fs x rowsA rowsB a step o).
Qed.

(** ** Recordings that cannot be calibrated *)
Lemma align_paths_length (b k : list (@dquat XR)) i : align_paths_at_index b i = Ok k -> List.length k = List.length b.
Proof.
  unfold align_paths_at_index. destruct (index b i) as [d|]; cbn [bind]; [|discriminate]. destruct (dinv d) as [d0|]; cbn [bind]; [|discriminate].
  destruct (index _ 0) as [d1|]; cbn [bind]; [|discriminate]. destruct (is_origin d1); [|discriminate]. intros E. injection E as <-.
  rewrite app_length, skipn_length, firstn_length, map_length. lia.
Qed.
Lemma success_ten svd draw fuel (b w : list (@dquat XR)) r : compute_RANSAC svd draw fuel es_config b w = Done (Ok r) -> success r = true -> (10 <= List.length b)%nat.
Proof.
  intros H SU. destruct (C34_success XR svd draw es_config fuel b w r XR_strict_order H SU) as (bf & wf & h & s & dq & rp & ro & n & sv & bad & F & HH & _ & I & _).
  apply In_nth_error in I as (i & I). destruct (HH _ _ _ I) as [_ EV]. apply C34_evaluated in EV as (_ & MIN & j & ab & aw & _ & AB & _ & ab' & flags & initial & EN & CL & _).
  change (ransac_inlier_classification es_config) with ScalarPartEquality in CL. cbv iota in CL. destruct CL as (-> & _). change (min_num_inliers es_config) with 10%nat in MIN.
  pose proof (PropNoRaise.compress_length_le ab flags) as LE. rewrite <- EN in LE. rewrite (align_paths_length _ _ _ AB) in LE. lia.
Qed.
Lemma load_length A B fs (b w : list (@dquat XR)) outA a : script_flags A B a -> fs (aligned_path A) = Some (Csv (map columns outA)) ->
  load a fs = Ok (b, w) -> List.length b = List.length outA.
Proof.
  intros (F1 & F2 & F3 & F4 & _) FA. unfold load. rewrite F1, F2, F3, F4. cbn [given xorb].
  destruct (negb _ || _); [|discriminate]. destruct (read_dual_quaternions fs (aligned_path A) false) as [bs|] eqn:RB; cbn [bind]; [|discriminate].
  destruct (read_dual_quaternions fs (aligned_path B) false) as [ws|]; cbn [bind]; [|discriminate].
  destruct (_ =? _)%nat; [|discriminate]. destruct (align_paths_at_index bs 0) as [b1|] eqn:E1; cbn [bind]; [|discriminate].
  destruct (align_paths_at_index ws 0) as [w1|]; cbn [bind]; [|discriminate].
  assert (LB : List.length bs = List.length outA).
  { unfold read_dual_quaternions, read_table in RB. rewrite FA in RB. rewrite <- (map_length columns outA). destruct (map columns outA) as [|row rows]; cbn [bind] in RB; [now injection RB as <-|].
    match type of RB with context [if ?c then _ else _] => destruct c end; cbn [bind] in RB; [|discriminate]. now apply mapM_length in RB. }
  pose proof (align_paths_length _ _ _ E1) as LA. intros E. destruct (parse_bool _); injection E as <- <-; rewrite ?map_length; lia.
Qed.

(** Fewer than ten aligned poses: if the script ends, its calibration step has failed and calibration.json is as before. *)
Theorem C106_few : forall svd estimator fuel A B fs fs' e1 e2 ok rowsA rowsB outA outB offset,
  A <> B -> read_stamped fs A = Ok rowsA -> read_stamped fs B = Ok rowsB ->
  compute_aligned_poses_main rowsA rowsB false = Ok (outA, outB, offset) -> (List.length outA < 10)%nat ->
  script svd estimator fuel A B fs = Done (Ok (fs', (e1, e2), ok)) ->
  e2 <> None /\ fs' "calibration.json"%string = fs "calibration.json"%string /\ fs' "time_offset.csv"%string = Some (Csv [[offset]]).
Proof.
  intros svd estimator fuel A B fs fs' e1 e2 ok rowsA rowsB outA outB offset NAB RA RB M L10 H.
  assert (E1 : e1 = None /\ fs' "time_offset.csv"%string = Some (Csv [[offset]])).
  { pose proof H as H0. apply script_steps in H0 as (fs1 & fs2 & Al & C & S).
    rewrite (estimate_other _ _ _ _ _ _ _ _ S) by discriminate. rewrite (calibrate_other _ _ _ _ _ _ _ _ _ C) by discriminate.
    unfold compute_aligned_poses_py in Al. cbn [script_aligned_args quaternion_format poses_B_H_csv_file poses_W_E_csv_file out_B_H_csv_file out_W_E_csv_file time_offset_output_csv_file String.eqb Ascii.eqb Bool.eqb] in Al.
    rewrite RA in Al. cbn [bind] in Al. pose proof M as M0. unfold compute_aligned_poses_main in M0.
    destruct (read_time_stamped_poses rowsA false) as [y|]; cbn [bind] in Al, M0; [|discriminate M0]. clear M0.
    rewrite RB in Al. cbn [bind] in Al. rewrite M in Al. injection Al as <- <-. split; [easy|]. now rewrite put_same. }
  destruct E1 as [-> OT].
  destruct e2 as [e2|].
  - split; [easy|]. split; [|exact OT]. now apply (C67_calibration_failed _ _ _ _ _ _ _ _ _ _ _ H).
  - exfalso. destruct (C67_success _ _ _ _ _ _ _ _ _ H NAB) as (rA & rB & oA & oB & off & RA' & RB' & M' & FA & FB & FO & a & r & d & js & c & FL & (b & w & L & RUN) & SU & _).
    rewrite RA in RA'. injection RA' as <-. rewrite RB in RB'. injection RB' as <-. rewrite M in M'. injection M' as <- <- <-.
    pose proof (load_length A B fs' b w outA a FL FA L) as LB. apply success_ten in RUN; [lia|easy].
Qed.

Lemma lost_script svd estimator fuel A B fs fs' e1 e2 ok rowsA rowsB a step o :
  let nA := List.length rowsA in let nB := List.length rowsB in
  A <> B -> fs A = Some (table rowsA) -> fs B = Some (table rowsB) -> Forall readable rowsA -> Forall readable rowsB -> (3 <= nA)%nat -> (2 <= nB)%nat ->
  0 < step -> times_of rowsA = ticks a step nA -> times_of rowsB = ticks (a + o) step nB ->
  calculate_time_offset (map Fin (ticks a step nA)) (inQs (quats_of rowsA)) (map Fin (ticks (a + o) step nB)) (inQs (quats_of rowsB)) default_filtering =
    Ok (Fin (o - INR (nA - 2) * step)) ->
  script svd estimator fuel A B fs = Done (Ok (fs', (e1, e2), ok)) ->
  e2 <> None /\ fs' "calibration.json"%string = fs "calibration.json"%string /\
  fs' "time_offset.csv"%string = Some (Csv [[Fin (o - INR (nA - 2) * step)]]).
Proof.
  intros nA nB NAB FA FB RA RB NA NB P TA TB OFF H.
  assert (UQ : forall rows, Forall readable rows -> Forall unitq (row_quats (map unit_row rows))).
  { intros rows F. pose proof (quats_unit rows F) as Q. unfold row_quats, quats_of in *. rewrite map_map. exact Q. }
  assert (UT : forall rows : list line, row_times (map unit_row rows) = times_of rows).
  { intros rows. unfold row_times, times_of. rewrite map_map. now apply map_ext. }
  destruct (C89_lost (map unit_row rowsA) (map unit_row rowsB) a step o nA nB NA NB P) as (outA & outB & AL & LL & L2).
  - now rewrite UT. - now rewrite UT. - now apply UQ. - now apply UQ.
  - assert (M : compute_aligned_poses_main (inS rowsA) (inS rowsB) false = Ok (inS outA, inS outB, Fin (o - INR (nA - 2) * step))).
    { unfold compute_aligned_poses_main. rewrite !read_rows by (try easy; intros E; subst rowsA || subst rowsB; cbn in *; lia). cbn [bind].
      rewrite TA, TB. change (@T XR) with xr in *. rewrite OFF. cbn [bind]. rewrite AL. reflexivity. }
    apply (C106_few svd estimator fuel A B fs fs' e1 e2 ok _ _ _ _ _ NAB (read_stamped_in _ _ _ FA) (read_stamped_in _ _ _ FB) M); [|easy].
    unfold inS. rewrite map_length. apply (Nat.le_lt_trans _ 2); [exact L2|lia].
Qed.

(** The hand turns by less than about half a degree from each sample to the next, as in a recording of slow motion at a
    high rate: whatever the eye records and however good the data are, the offset is off by the whole recording and
    nothing is calibrated. *)
Theorem C106_slow : forall svd estimator fuel A B fs fs' e1 e2 ok rowsA rowsB a step o,
  let nA := List.length rowsA in let nB := List.length rowsB in
  A <> B -> fs A = Some (table rowsA) -> fs B = Some (table rowsB) -> Forall readable rowsA -> Forall readable rowsB -> (3 <= nA)%nat -> (2 <= nB)%nat ->
  0 < step -> times_of rowsA = ticks a step nA -> times_of rowsB = ticks (a + o) step nB ->
  (forall i p q, nth_error (quats_of rowsA) i = Some p -> nth_error (quats_of rowsA) (S i) = Some q -> 1 - 1 / 100000 <= Rabs (hdot p q)) ->
  script svd estimator fuel A B fs = Done (Ok (fs', (e1, e2), ok)) ->
  e2 <> None /\ fs' "calibration.json"%string = fs "calibration.json"%string /\
  fs' "time_offset.csv"%string = Some (Csv [[Fin (o - INR (nA - 2) * step)]]).
Proof.
  intros svd estimator fuel A B fs fs' e1 e2 ok rowsA rowsB a step o nA nB NAB FA FB RA RB NA NB P TA TB SL H.
  assert (LQ : List.length (quats_of rowsA) = nA /\ List.length (quats_of rowsB) = nB) by (unfold quats_of; now rewrite !map_length).
  destruct LQ as [LQ LQB].
  pose proof (C89_slow (quats_of rowsA) (quats_of rowsB) a step o 25 (199/2) 25 99) as OFF. cbv zeta in OFF. rewrite LQ, LQB in OFF.
  apply (lost_script svd estimator fuel A B fs fs' e1 e2 ok rowsA rowsB a step o); try assumption.
  change (@T XR) with xr in *. rewrite default_in. apply OFF; try assumption; try lia; try lra; now apply quats_unit.
Qed.
(** The same happens on a turntable that never turns back. *)
Theorem C106_one_way : forall svd estimator fuel A B fs fs' e1 e2 ok rowsA rowsB a step o angles r,
  let nA := List.length rowsA in let nB := List.length rowsB in
  A <> B -> fs A = Some (table rowsA) -> fs B = Some (table rowsB) -> Forall readable rowsA -> Forall readable rowsB -> (3 <= nA)%nat -> (2 <= nB)%nat ->
  0 < step -> times_of rowsA = ticks a step nA -> times_of rowsB = ticks (a + o) step nB ->
  unitq r -> forwards angles -> quats_of rowsA = turntable r angles ->
  script svd estimator fuel A B fs = Done (Ok (fs', (e1, e2), ok)) ->
  e2 <> None /\ fs' "calibration.json"%string = fs "calibration.json"%string /\
  fs' "time_offset.csv"%string = Some (Csv [[Fin (o - INR (nA - 2) * step)]]).
Proof.
  intros svd estimator fuel A B fs fs' e1 e2 ok rowsA rowsB a step o angles r nA nB NAB FA FB RA RB NA NB P TA TB UR FW EQ H.
  assert (LQ : List.length (quats_of rowsA) = nA /\ List.length (quats_of rowsB) = nB) by (unfold quats_of; now rewrite !map_length).
  destruct LQ as [LQ LQB]. assert (LA : List.length angles = nA) by (rewrite EQ in LQ; unfold turntable in LQ; now rewrite map_length in LQ).
  pose proof (C89_one_way angles r (quats_of rowsB) a step o 25 (199/2) 25 99) as OFF. cbv zeta in OFF. rewrite LA, LQB in OFF.
  apply (lost_script svd estimator fuel A B fs fs' e1 e2 ok rowsA rowsB a step o); try assumption.
  change (@T XR) with xr in *. rewrite default_in, EQ. apply OFF; try assumption; try lia; try lra; now apply quats_unit.
Qed.

(** ** The script ends *)
Theorem C106_ends : forall (N : Num) svd estimator A B (fs : files (N:=N)), exists fuel0 fs' e ok,
  forall fuel, (fuel0 <= fuel)%nat -> script svd estimator fuel A B fs = Done (Ok (fs', e, ok)).
Proof.
  intros N svd estimator A B fs.
  destruct (compute_aligned_poses_py (script_aligned_args A B) fs) as [fs1 e1] eqn:Al.
  set (a := script_calibration_args A B).
  assert (H : exists fuel0 fs2 e2, forall fuel, (fuel0 <= fuel)%nat -> compute_hand_eye_calibration_py svd fuel a fs1 = Done (Ok (fs2, e2))).
  { unfold compute_hand_eye_calibration_py. destruct (load a fs1) as [[b w]|e]; [|now exists 0%nat, fs1, (Some e)].
    set (cfg := hand_config get_exhaustive_search_scalar_part_inliers_config). cbv zeta. change (use_baseline_approach cfg) with false. cbv iota.
    assert (R : exists fuel0 r, forall fuel, (fuel0 <= fuel)%nat -> compute_RANSAC svd (fun _ => []) fuel cfg b w = Done r).
    { set (f0 := match filtered cfg b w with Ok (_, wf) => S (binomial (List.length wf) (ransac_sample_size cfg)) | Err _ => 0%nat end).
      destruct (compute_RANSAC svd (fun _ => []) f0 cfg b w) as [r|] eqn:E.
      - exists f0, r. intros fuel LE. replace fuel with (f0 + (fuel - f0))%nat by lia. now apply C35_fuel_irrelevant.
      - exfalso. apply (C35_exhaustive_terminates svd (fun _ => []) cfg f0 b w) in E; [easy|reflexivity|].
        intros bf wf FE. unfold f0. rewrite FE. lia. }
    destruct R as (fuel0 & [r|e] & R).
    - destruct (write_extrinsics a (dq_H_E r) fs1) as [[fs3 dq] [e|]] eqn:WE.
      + exists fuel0, fs3, (Some e). intros fuel LE. now rewrite (R fuel LE), WE.
      + destruct (write_calibration a dq fs3) as [fs4 e4] eqn:WC. exists fuel0, fs4, e4. intros fuel LE. rewrite (R fuel LE), WE. now rewrite WC.
    - exists fuel0, fs1, (Some e). intros fuel LE. now rewrite (R fuel LE). }
  destruct H as (fuel0 & fs2 & e2 & H). destruct (script_estimate estimator A B fs2) as [fs' ok] eqn:S.
  exists fuel0, fs', (e1, e2), ok. intros fuel LE. apply script_steps. exists fs1, fs2. split; [easy|]. split; [now apply H|easy].
Qed.

(** ** Cases that meet the hypotheses *)
Lemma percentile_ge l p m i j x : is_percentile l p m -> INR (List.length l - 2) < p / 100 * INR (List.length l - 1) -> p <= 100 -> (2 <= List.length l)%nat ->
  i <> j -> nth_error l i = Some x -> nth_error l j = Some x -> x <= m.
Proof.
  intros (s & k & w & P & SO & W & K & ->) B P1 L2 IJ I J.
  pose proof (Permutation_length P) as LS. rewrite LS in *.
  assert (K1 : (List.length s - 2 <= k)%nat).
  { apply Nat.lt_succ_r. apply INR_lt. rewrite S_INR. lra. }
  assert (K2 : (k <= List.length s - 1)%nat).
  { apply INR_le. assert (0 <= INR (List.length s - 1)) by apply pos_INR. assert (p / 100 * INR (List.length s - 1) <= 1 * INR (List.length s - 1)) by (apply Rmult_le_compat_r; lra). lra. }
  assert (SND : forall n', (List.length s - 2 <= n' <= List.length s - 1)%nat -> x <= nth n' s 0).
  { intros n' N'. apply Permutation_sym, Permutation_nth_error in P as (_ & f & INJ & F). rewrite F in I, J.
    assert (f i < List.length s)%nat by (apply nth_error_Some; congruence). assert (f j < List.length s)%nat by (apply nth_error_Some; congruence).
    assert (NE : f i <> f j) by (intros C; now apply INJ in C).
    assert (Q : exists n, (n <= List.length s - 2)%nat /\ nth_error s n = Some x).
    { destruct (Nat.le_gt_cases (f i) (List.length s - 2)); [now exists (f i)|]. exists (f j). split; [lia|easy]. }
    destruct Q as (n & N & S). apply (SO n n'); [lia|easy|]. apply nth_error_nth'. lia. }
  assert (A1 := SND k ltac:(lia)). assert (A2 := SND (Nat.min (S k) (List.length s - 1)) ltac:(lia)). nra.
Qed.
(** one sample per second of a hand that turns to and fro about two axes, and of an eye mounted on it *)
Definition turnA : rdq := dq_of (RQ (RV (3/5) 0 0) (4/5)) (RV 1 0 0).
Definition turnB : rdq := dq_of (RQ (RV 0 (3/5) 0) (4/5)) (RV 0 2 0).
Definition mount : rdq := dq_of (RQ (RV 0 0 (3/5)) (4/5)) (RV 1 2 3).
Definition path106 : list rdq := [dqone; turnA; dqone; turnB; dqone; turnA; dqone; turnB; dqone; turnA; dqone; turnB].
Definition recorded (t : R) (ds : list rdq) : list line := combine (ticks t 1 (List.length ds)) (map (fun d => (trans_of d, dr d)) ds).

Lemma recorded_times t ds : times_of (recorded t ds) = ticks t 1 (List.length ds).
Proof. apply map_fst_combine. rewrite ticks_length, map_length. reflexivity. Qed.
Lemma recorded_length t ds : List.length (recorded t ds) = List.length ds.
Proof. etransitivity; [apply combine_length|]. rewrite ticks_length, map_length. apply Nat.min_id. Qed.
Lemma recorded_lines (f : rv * rq -> rdq) ts us : List.length ts = List.length us -> map (fun r : line => f (snd r)) (combine ts us) = map f us.
Proof. revert us. induction ts as [|t ts IH]; intros [|u us] L; try discriminate; [easy|]. injection L as L. cbn [combine map snd]. now rewrite IH. Qed.
Lemma recorded_transform t ds : Forall unitdq ds -> map transform (recorded t ds) = ds.
Proof.
  intros U. unfold recorded. transitivity (map (fun pq : rv * rq => dq_of (hscale (/ hnorm (snd pq)) (snd pq)) (fst pq)) (map (fun d => (trans_of d, dr d)) ds)).
  - apply (recorded_lines (fun pq : rv * rq => dq_of (hscale (/ hnorm (snd pq)) (snd pq)) (fst pq))). now rewrite ticks_length, map_length.
  - rewrite map_map. rewrite <- (map_id ds) at 2. apply map_ext_in. intros d I. rewrite Forall_forall in U. cbn [fst snd].
    pose proof (U d I) as UD. rewrite (proj1 (unit_hnorm (dr d)) (proj1 UD)), Rinv_1. replace (hscale 1 (dr d)) with (dr d) by (destruct (dr d) as [[] ?]; apply rq_eq; specu; ring).
    now apply dq_of_trans.
Qed.
Lemma recorded_readable t ds : Forall unitdq ds -> Forall readable (recorded t ds).
Proof.
  intros U. apply Forall_forall. intros [s [p q]] I. unfold recorded in I. apply in_combine_r in I. apply in_map_iff in I as (d & E & I). injection E as <- <-.
  rewrite Forall_forall in U. unfold readable. cbn [snd]. rewrite (proj1 (unit_hnorm (dr d)) (proj1 (U d I))). lra.
Qed.
Lemma recorded_removelast t ds : removelast (recorded t ds) = recorded t (removelast ds).
Proof.
  unfold recorded. rewrite <- removelast_map. etransitivity; [symmetry; apply (@combine_removelast R (rv * rq)); now rewrite ticks_length, map_length|].
  f_equal. assert (L : List.length (removelast ds) = pred (List.length ds)).
  { induction ds as [|y ds IH]; [easy|]. destruct ds as [|z ds]; [easy|]. change (S (List.length (removelast (z :: ds))) = pred (S (S (List.length ds)))). rewrite IH. cbn. lia. }
  rewrite L. unfold ticks. rewrite removelast_map. f_equal. destruct (List.length ds) as [|n]; [easy|]. rewrite seq_S. cbn [pred]. apply removelast_last.
Qed.
Lemma units106 : unitdq turnA /\ unitdq turnB /\ unitdq mount.
Proof. unfold turnA, turnB, mount. split; [|split]; apply dq_of_unit; unfold unitq; specu; lra. Qed.
Definition eyes106 : list rdq := map (fun d => dqmul d mount) path106.
Lemma in106 d : In d path106 -> d = dqone \/ d = turnA \/ d = turnB.
Proof. unfold path106. cbn [In]. intuition (subst; auto). Qed.
Lemma unit106 d : In d path106 -> unitdq d.
Proof. destruct units106 as (UA & UB & _). intros I. apply in106 in I as [->|[->| ->]]; try easy. unfold dqone. split; unfold unitq; specu; lra. Qed.
Lemma turns106 q t : unitq q -> qs q = 4/5 -> turns (dq_of q t).
Proof.
  intros U E. unfold turns. rewrite dr_dq_of, E. split; [easy|]. split; [|lra]. apply acos_turn; [lra|]. rewrite (sqrt_of _ (3/5)) by lra. lra.
Qed.
Lemma rig106 : rig mount (recorded 0 path106) (recorded (0 + 1/4) eyes106) 0 1 (1/4).
Proof.
  destruct units106 as (UA & UB & UM). assert (UP : Forall unitdq path106) by (apply Forall_forall; exact unit106).
  assert (UE : Forall unitdq eyes106) by (apply Forall_map, Forall_forall; intros d I; apply unitdq_mul; [now apply unit106|easy]).
  assert (EC : combine path106 eyes106 = map (fun d => (d, dqmul d mount)) path106) by reflexivity.
  constructor.
  - now apply recorded_readable.
  - now apply recorded_readable.
  - rewrite recorded_length. cbn. lia.
  - lra.
  - rewrite recorded_times, recorded_length. reflexivity.
  - rewrite recorded_times, recorded_length. reflexivity.
  - exact UM.
  - cbn. lra.
  - rewrite !recorded_transform, EC by easy. exists dqone. split; [unfold dqone; split; unfold unitq; specu; lra|].
    apply Forall_map, Forall_forall. intros d I. cbn [fst snd]. split; [now apply unit106|]. left. now rewrite dqmul_1_l.
  - rewrite !recorded_transform, EC by easy. intros p q IP IQ. apply in_map_iff in IP as (d & <- & ID), IQ as (d' & <- & ID').
    unfold motion. cbn [fst]. rewrite unitdq_inv_conj by now apply unit106.
    apply in106 in ID as [->|[->| ->]], ID' as [->|[->| ->]]; unfold turnA, turnB, dqone; specu; lra.
  - rewrite recorded_removelast, recorded_transform.
    2:{ apply Forall_forall. intros d I. apply unit106. now apply incl_removelast. }
    assert (EF : from_first (removelast path106) = removelast path106).
    { unfold path106. cbn [removelast]. unfold from_first. rewrite dqinv_one. cbn [map]. rewrite !dqmul_1_l. rewrite !rflip_id; [reflexivity|..]; unfold turnA, turnB, dqone; specu; lra. }
    unfold varied. rewrite EF.
    assert (TA : turns turnA) by (apply turns106; [unfold unitq; specu; lra|reflexivity]).
    assert (TB : turns turnB) by (apply turns106; [unfold unitq; specu; lra|reflexivity]).
    split.
    + apply Forall_forall. intros d I. apply incl_removelast, in106 in I as [->|[->| ->]]; auto.
    + exists turnA, turnB. split; [cbn; tauto|]. split; [cbn; tauto|]. split; [easy|]. split; [easy|].
      unfold turnA, turnB. rewrite !dr_dq_of. cbn [qv]. replace (dot3 _ _) with 0 by (unfold dot3; cbn; ring). rewrite Rabs_R0.
      apply Rmult_le_pos; [lra|]. apply Rmult_le_pos; apply sqrt_pos.
Qed.

Lemma rate_exact q1 q2 v : hmul q1 (hconj q2) = RQ v (4/5) -> rate q1 q2 1 = vscale (acos (4/5) / 1 / sqrt (1 - 4/5 * (4/5))) v.
Proof.
  intros E. unfold rate. rewrite E. unfold pos_w. cbn [Spec.qs qv]. destruct (Rlt_dec (4/5) 0); [lra|]. cbn [Spec.qs qv].
  destruct (Rle_dec _ _) as [K|_]; [|easy]. exfalso. rewrite Rabs_left in K by lra. lra.
Qed.
Lemma rates106 a : exists h, 0 < h /\ rates (map dr path106) (ticks a 1 12) =
  [RV (- h) 0 0; RV h 0 0; RV 0 (- h) 0; RV 0 h 0; RV (- h) 0 0; RV h 0 0; RV 0 (- h) 0; RV 0 h 0; RV (- h) 0 0; RV h 0 0; RV 0 (- h) 0].
Proof.
  set (c := acos (4/5) / 1 / sqrt (1 - 4/5 * (4/5))).
  assert (C : 0 < c).
  { assert (A : 0 < acos (4/5)) by (apply acos_bound_lt; lra). assert (S : 0 < sqrt (1 - 4/5 * (4/5))) by (apply sqrt_lt_R0; lra).
    apply Rdiv_lt_0_compat; [|easy]. apply Rdiv_lt_0_compat; lra. }
  exists (c * (3/5)). split; [nra|].
  set (I := hone). set (A := RQ (RV (3/5) 0 0) (4/5)). set (B := RQ (RV 0 (3/5) 0) (4/5)).
  change (map dr path106) with [I; A; I; B; I; A; I; B; I; A; I; B].
  assert (DT : forall i, a + INR (S i) * 1 - (a + INR i * 1) = 1) by (intros i; rewrite S_INR; lra).
  assert (R1 : rate I A 1 = RV (- (c * (3/5))) 0 0) by (rewrite (rate_exact I A (RV (- (3/5)) 0 0)); [apply rv_eq; unfold vscale; fold c; cbn; ring|unfold I, A, hone; apply rq_eq; specu; ring || lra]).
  assert (R2 : rate A I 1 = RV (c * (3/5)) 0 0) by (rewrite (rate_exact A I (RV (3/5) 0 0)); [apply rv_eq; unfold vscale; fold c; cbn; ring|unfold I, A, hone; apply rq_eq; specu; ring || lra]).
  assert (R3 : rate I B 1 = RV 0 (- (c * (3/5))) 0) by (rewrite (rate_exact I B (RV 0 (- (3/5)) 0)); [apply rv_eq; unfold vscale; fold c; cbn; ring|unfold I, B, hone; apply rq_eq; specu; ring || lra]).
  assert (R4 : rate B I 1 = RV 0 (c * (3/5)) 0) by (rewrite (rate_exact B I (RV 0 (3/5) 0)); [apply rv_eq; unfold vscale; fold c; cbn; ring|unfold I, B, hone; apply rq_eq; specu; ring || lra]).
  cbn [rates ticks seq map tl nth]. rewrite !DT, R1, R2, R3, R4. reflexivity.
Qed.
Lemma signal106 : unclipped_signal (recorded 0 path106) (recorded (0 + 1/4) eyes106) 0 1 (1/4).
Proof.
  pose proof rig106 as RG. destruct (rig_search _ _ _ _ _ _ RG) as (LB & _). destruct RG as [RA RB _ _ _ _ _ _ PF NH _].
  assert (UP : Forall unitdq path106) by (apply Forall_forall; exact unit106).
  assert (QA : quats_of (recorded 0 path106) = map dr path106) by (rewrite quats_transform, <- map_map, recorded_transform by easy; reflexivity).
  assert (UE : Forall unitdq eyes106) by (apply Forall_map, Forall_forall; intros d I; apply unitdq_mul; [now apply unit106|apply units106]).
  assert (QB : quats_of (recorded (0 + 1/4) eyes106) = map (fun d => hmul (dr d) (dr mount)) path106).
  { rewrite quats_transform, <- map_map, recorded_transform by easy. unfold eyes106. rewrite map_map. reflexivity. }
  unfold unclipped_signal. rewrite recorded_length. change (List.length path106) with 12%nat.
  destruct (rates106 0) as (h & H & R0). rewrite QA, QB.
  assert (R1 : rates (map (fun d => hmul (dr d) (dr mount)) path106) (ticks (0 + 1/4) 1 12) = rates (map dr path106) (ticks 0 1 12)).
  { rewrite ticks_shift, rates_shift by (rewrite ticks_length, map_length; cbn; lia).
    rewrite (C89_rates hone (dr mount) (map dr path106)).
    - rewrite R0. cbn [map]. assert (HO : forall v, hrot hone v = v) by (intros [u1 u2 u3]; unfold hone; apply rv_eq; specu; ring). now rewrite !HO.
    - unfold unitq, hone. specu. lra.
    - apply units106.
    - unfold twins. clear. induction path106; constructor; [|easy]. left. f_equal. destruct (dr a) as [[] ?]. unfold hone. apply rq_eq; specu; ring.
    - destruct (rig_twins mount _ _ (proj2 (proj2 units106)) (eq_sym LB) RA PF NH) as [_ NT]. now rewrite QA in NT. }
  rewrite R1, R0. set (r := components _).
  assert (CL : forall p m, 31 / 32 < p / 100 -> p <= 100 -> is_percentile r p m -> Forall (fun y => Rabs y <= m) r).
  { intros p m P1 P2 PM. assert (HM : h <= m).
    { apply (percentile_ge r p m 3 10 h PM); [|exact P2|cbn; lia|discriminate|reflexivity|reflexivity]. unfold r. cbn [components flat_map app List.length Nat.sub].
      replace (INR 31) with 31 by (cbn; lra). replace (INR 32) with 32 by (cbn; lra). lra. }
    unfold r. cbn [components flat_map app Spec.v1 Spec.v2 Spec.v3].
    assert (Z : Rabs 0 <= m) by (rewrite Rabs_R0; lra). assert (Z1 : Rabs h <= m) by (rewrite Rabs_right; lra). assert (Z2 : Rabs (- h) <= m) by (rewrite Rabs_Ropp; easy).
    repeat (apply Forall_cons; [assumption|]). apply Forall_nil. }
  split; [intros m; apply CL; lra|]. split; [intros m; apply CL; lra|].
  exists 0%nat. split; [lia|]. intros L.
  assert (Z : v2 (averaged 25 [RV (- h) 0 0; RV h 0 0; RV 0 (- h) 0; RV 0 h 0; RV (- h) 0 0; RV h 0 0; RV 0 (- h) 0; RV 0 h 0; RV (- h) 0 0; RV h 0 0; RV 0 (- h) 0] 0) = 0).
  { unfold len3 in L. apply sqrt_eq_0 in L; [|apply dot3_pos]. destruct (averaged _ _ _) as [u1 u2 u3]. unfold dot3 in L. cbn in *. nra. }
  unfold averaged in Z. cbn [v2] in Z. unfold moving_average in Z. cbn [map Spec.v2] in Z.
  assert (Z' : Rsum (map (fun j => sig_at [0; 0; - h; h; 0; 0; - h; h; 0; 0; - h] (Z.of_nat 0 - Z.of_nat (25 / 2) + Z.of_nat j)) (seq 0 25)) = 0).
  { apply (Rmult_eq_reg_r (/ INR 25)); [rewrite Rmult_0_l; exact Z|]. apply Rinv_neq_0_compat, not_0_INR. lia. }
  revert Z'. clear - H. cbn. unfold Pos.to_nat. cbn. intros Z'. lra.
Qed.
Example C106_example : exists svd, forall estimator A B fs, A <> B ->
  fs A = Some (table (recorded 0 path106)) -> fs B = Some (table (recorded (0 + 1/4) eyes106)) -> writes svd estimator A B fs mount (1/4).
Proof. destruct (C106_calibrates _ _ _ _ _ _ rig106 (or_intror signal106)) as (svd & _ & W). now exists svd. Qed.

(** a hand that stays where it is *)
Example C106_slow_example : forall svd estimator, exists fuel fs' e1 e2 ok,
  let fs : files (N:=XR) := fun p => if String.eqb p "hand.csv" then Some (table (recorded 0 [turnA; turnA; turnA; turnA; turnA]))
             else if String.eqb p "eye.csv" then Some (table (recorded (0 + 7) [dqone; turnA; turnB])) else None in
  script svd estimator fuel "hand.csv" "eye.csv" fs = Done (Ok (fs', (e1, e2), ok)) /\ e2 <> None /\ fs' "calibration.json"%string = None /\
  fs' "time_offset.csv"%string = Some (Csv [[Fin 4]]).
Proof.
  intros svd estimator. set (fs := fun p : string => _).
  destruct (C106_ends XR svd estimator "hand.csv" "eye.csv" fs) as (fuel & fs' & [e1 e2] & ok & H). specialize (H fuel (le_n _)).
  exists fuel, fs', e1, e2, ok. split; [exact H|]. destruct units106 as (UA & UB & _).
  assert (F1 : Forall unitdq [turnA; turnA; turnA; turnA; turnA]) by (repeat (apply Forall_cons; [exact UA|]); apply Forall_nil).
  assert (F2 : Forall unitdq [dqone; turnA; turnB]) by (repeat apply Forall_cons; try apply Forall_nil; try easy; unfold dqone; split; unfold unitq; specu; lra).
  pose proof (C106_slow svd estimator fuel "hand.csv" "eye.csv" fs fs' e1 e2 ok (recorded 0 [turnA; turnA; turnA; turnA; turnA]) (recorded (0 + 7) [dqone; turnA; turnB]) 0 1 7) as C.
  cbv zeta in C. rewrite !recorded_length, !recorded_times in C. cbn [List.length Nat.sub] in C. replace (7 - INR 3 * 1) with 4 in C by (cbn; lra).
  destruct C as (C1 & C2 & C3); [discriminate|reflexivity|reflexivity|now apply recorded_readable|now apply recorded_readable|lia|lia|lra|reflexivity|reflexivity| |exact H|now split].
  intros i p q P Q. rewrite quats_transform, <- map_map, recorded_transform in P, Q by easy.
  assert (G : forall i p, nth_error (map dr [turnA; turnA; turnA; turnA; turnA]) i = Some p -> p = dr turnA).
  { clear. intros i p N. apply nth_error_In in N. cbn [map In] in N. intuition congruence. }
  apply G in P. apply G in Q. subst. unfold turnA. rewrite dr_dq_of. unfold hdot, dot3. cbn. rewrite Rabs_right; lra.
Qed.
Example C106_one_way_example : forall svd estimator, exists fuel fs' e1 e2 ok,
  let disc := map (fun t => dq_of (about_z t) (RV 0 0 5)) [0; 1; 2; 3; 4] in
  let fs : files (N:=XR) := fun p => if String.eqb p "hand.csv" then Some (table (recorded 0 disc))
             else if String.eqb p "eye.csv" then Some (table (recorded (0 + 7) disc)) else None in
  script svd estimator fuel "hand.csv" "eye.csv" fs = Done (Ok (fs', (e1, e2), ok)) /\ e2 <> None /\ fs' "calibration.json"%string = None /\
  fs' "time_offset.csv"%string = Some (Csv [[Fin 4]]).
Proof.
  intros svd estimator. set (disc := map _ _). cbv zeta. set (fs := fun p : string => if String.eqb p "hand.csv" then _ else _).
  destruct (C106_ends XR svd estimator "hand.csv" "eye.csv" fs) as (fuel & fs' & [e1 e2] & ok & H). specialize (H fuel (le_n _)).
  exists fuel, fs', e1, e2, ok. cbv zeta. split; [exact H|].
  assert (F1 : Forall unitdq disc).
  { apply Forall_map, Forall_forall. intros t _. apply dq_of_unit. pose proof (sin2_cos2 (t / 2)) as Q. unfold Rsqr in Q. unfold about_z, unitq. specu. lra. }
  pose proof (C106_one_way svd estimator fuel "hand.csv" "eye.csv" fs fs' e1 e2 ok (recorded 0 disc) (recorded (0 + 7) disc) 0 1 7 [0; 1; 2; 3; 4] hone) as C.
  cbv zeta in C. rewrite !recorded_length, !recorded_times in C. change (List.length disc) with 5%nat in C. cbn [Nat.sub] in C. replace (7 - INR 3 * 1) with 4 in C by (cbn; lra).
  destruct C as (C1 & C2 & C3); [discriminate|reflexivity|reflexivity|now apply recorded_readable|now apply recorded_readable|lia|lia|lra|reflexivity|reflexivity| | | |exact H|now split].
  - unfold unitq, hone. specu. lra.
  - intros i a b A B. pose proof PI_RGT_0. pose proof PI2_1. do 5 (destruct i as [|i]; [cbn in A, B; try discriminate; injection A as <-; injection B as <-; lra|]).
    cbn in A. destruct i; discriminate.
  - rewrite quats_transform, <- map_map, recorded_transform by easy. unfold disc, turntable. rewrite map_map. apply map_ext. intros t. rewrite dr_dq_of.
    destruct (about_z t) as [[] ?]. unfold hone. apply rq_eq; specu; ring.
Qed.
