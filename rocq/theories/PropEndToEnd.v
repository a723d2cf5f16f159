(** * Property C94: the complete script on two noisy recordings. *)

From Coq Require Import Reals ZArith Bool String Ascii List Lra Lia Psatz Permutation.
From Verif Require Import Num Py XReal XFacts Quat DualQuat HandEye Ransac TimeAlign CsvIo Experiments Extrinsic Cli Spec TimeSpec Embed
  QuatFacts QuatTrig QuatRot PropQuat DualFacts ScrewFacts ListFacts HandEyeFacts KernelFacts CalibFacts RansacFacts TimeFacts ResampleFacts
  PropTimeOffset PropResample PropAligned PropFilter PropOffsetPath PropCsv PropCalib PropEval PropRansac PropDriver PropPerfect PropExtrinsic
  CalibExample PropComplete FloatQuat StabilityFacts PropStability PropNoRaise PropOutliers PropCli PropScript PropShort PropPipeline PropAccuracy PropInterp PropRecorded.
Import ListNotations.
Local Open Scope R_scope.

Lemma hrot_pos_w q v : hrot (pos_w q) v = hrot q v.
Proof. unfold pos_w. destruct (Rlt_dec _ _); [apply hrot_neg|easy]. Qed.
Lemma pos_w_nonneg q : 0 <= qs (pos_w q).
Proof. unfold pos_w. destruct (Rlt_dec _ _) as [H|H]; [|lra]. destruct q as [[] w]. cbn in *. lra. Qed.
Lemma pos_w_idem q : pos_w (pos_w q) = pos_w q.
Proof. pose proof (pos_w_nonneg q). unfold pos_w at 1. destruct (Rlt_dec _ _); [lra|easy]. Qed.
(** the document that is written for a calibration with a unit rotation *)
Lemma holds_document a x' js c o : extrinsics_output_csv_file a = None -> unitq (dr x') -> holds XR a (inD x') js ->
  from_json js false = Ok c -> time_offset c = Fin o -> js = document o (trans_of x') (pos_w (dr x')).
Proof.
  intros NE U (t & x & y & z & i & j & k & w & P & ->) FJ TO. rewrite NE in P.
  rewrite uq_to_pose in P by easy. cbn [snd] in P.
  assert (UP : unitq (pos_w (dr x'))) by now apply pos_unit.
  change (from_pose_vector (inP (trans_of x') (pos_w (dr x')))) with (from_pose (N:=XR) (inV (trans_of x')) (inQ (pos_w (dr x')))) in P.
  rewrite (from_pose_unit _ _ UP), uq_to_pose in P by exact UP. cbn [snd] in P. rewrite trans_dq_of in P by exact UP. cbn [dq_of dr] in P. rewrite pos_w_idem in P.
  unfold inP, inV, inQ in P. injection P as <- <- <- <- <- <- <-.
  cbn in FJ. injection FJ as <-. cbn [time_offset] in TO. subst t. reflexivity.
Qed.

(** The datasets [rowsA] and [rowsB] are recordings of two paths of sensors that are rigidly attached to each other by x, within
    (nA, mA) and (nB, mB) of the paths, with o0 the true offset between their clocks. If the script runs through (neither of its
    programs ends with an exception), the time offset that it found is off by e = o - o0, which makes the first recording less
    accurate, and calibration.json holds that time offset and a pose whose distance from x is bounded by the accuracies and the
    errors that the calibration reported, for any two of the aligned poses on which those were measured. *)
Theorem C94_script : forall svd estimator fuel A B fs fs' ok rowsA rowsB (x : rdq) (o o0 : R) (pathA pathB : R -> rv * rq)
    (VA WA VB WB nA mA nB mB gA gB DA DB : R),
  script svd estimator fuel A B fs = Done (Ok (fs', (None, None), ok)) -> A <> B ->
  fs A = Some (table rowsA) -> fs B = Some (table rowsB) -> Forall readable rowsA -> Forall readable rowsB -> rowsA <> [] -> rowsB <> [] ->
  sorted (times_of rowsA) -> sorted (times_of rowsB) ->
  steady VA WA pathA -> steady VB WB pathB -> 0 <= gA -> 0 <= gB -> steps gA (times_of rowsA) -> steps gB (times_of rowsB) ->
  Forall (recorded nA mA pathA) (shift_rows o0 (map unit_row rowsA)) -> Forall (recorded nB mB pathB) (map unit_row rowsB) ->
  rigid pathA -> rigid pathB -> within DA pathA -> within DB pathB -> unitdq x -> attached x pathA pathB -> real_vectors svd ->
  fs' "time_offset.csv"%string = Some (Csv [[Fin o]]) ->
  let off := Rabs (o - o0) in
  let dA := 3 * (mA + WA * off) + 2 * WA * gA + 1 / 10000000000000000 in
  let dB := 3 * mB + 2 * WB * gB + 1 / 10000000000000000 in
  let a := 2 * (nA + VA * off + VA * gA / 2) + 2 * dA * DA in let d := 2 * dA in
  let b := 2 * (nB + VB * gB / 2) + 2 * dB * DB in let e := 2 * dB in
  exists t' q', fs' "calibration.json"%string = Some (Json (document o t' q')) /\ unitq q' /\ 0 <= qs q' /\
  exists outA outB, fs' (aligned_path A) = Some (table outA) /\ fs' (aligned_path B) = Some (table outB) /\
    let l := combine (from_first (map transform outA)) (from_first (map transform outB)) in
  exists args r rp ro k, script_flags A B args /\ calibrated XR svd fuel args fs' r /\ rmse r = Some (Fin rp, Fin ro) /\ num_inliers r = Some k /\ (10 <= k)%nat /\
  exists p0, In p0 l /\
    (forall p q, In p l -> In q l ->
      let m := eye_motion p0 p in let n := eye_motion p0 q in
      let N := sqrt (INR (List.length l)) in
      let rho := d + e + (N * ro * (PI / 180) + 1 / 10000) / 2 in
      let P := a + b + 2 * e * len3 (trans_of x) + N * rp in
      let c := len3 (cross3 (qv (dr m)) (qv (dr n))) in
      rho < 2 * Rabs (qs (dr m)) -> rho < 2 * Rabs (qs (dr n)) ->
      (forall v, c * len3 (vsub (hrot (dr x) v) (hrot q' v)) <= 2 * rho * len3 v) /\
      c * (c * len3 (vsub (trans_of x) t'))
        <= c * (P + 2 * rho * len3 t') + rho * (len3 (trans_of m) + len3 (trans_of n))).
Proof.
  intros svd estimator fuel A B fs fs' ok rowsA rowsB x o o0 pathA pathB VA WA VB WB nA mA nB mB gA gB DA DB
    H NAB FA FB RA RB NA NB SA SB STA STB GA GB PA PB RCA RCB RIA RIB WIA WIB Ux AT RV TOF off dA dB a d b e.
  destruct (C67_success XR svd estimator fuel A B fs fs' ok H NAB)
    as (rA & rB & oA & oB & offset & E1 & E2 & M & F1 & F2 & F3 & args & r & dq & js & c & SF & CAL & SU & DQ & FJ & RJ & HO & TO).
  rewrite (read_stamped_in _ _ _ FA) in E1. rewrite (read_stamped_in _ _ _ FB) in E2. injection E1 as <-. injection E2 as <-.
  assert (EO : offset = Fin o) by (rewrite TOF in F3; injection F3 as F3; now symmetry). rewrite EO in TO, M.
  unfold compute_aligned_poses_main in M. rewrite !read_rows in M by easy. cbn [bind] in M.
  change (@T XR) with xr in *.
  destruct (calculate_time_offset _ _ _ _ _) as [o1|] in M; cbn [bind] in M; [|discriminate M].
  destruct (compute_aligned_poses _ _ o1) as [[a1 b1]|] eqn:CA in M; cbn [bind] in M; [|discriminate M].
  injection M as -> -> ->.
  assert (TU : forall rows, row_times (map unit_row rows) = times_of rows) by (intros; unfold row_times, times_of; now rewrite map_map).
  assert (QU : forall rows, Forall readable rows -> Forall unitq (row_quats (map unit_row rows))).
  { intros rows FR. unfold row_quats. rewrite map_map. apply Forall_forall. intros q I. apply in_map_iff in I as (r0 & <- & I). rewrite Forall_forall in FR. now apply unit_of_unit, FR. }
  assert (RCA' : Forall (recorded (nA + VA * off) (mA + WA * off) pathA) (shift_rows o (map unit_row rowsA))).
  { replace o with (o0 + (o - o0)) by ring. now apply C88_offset_error. }
  assert (C1 : exists rtol, ransac_sample_rejection_tolerance es_config = Fin rtol /\ 0 <= rtol) by (eexists; split; [reflexivity|cbn; lra]).
  assert (C2 : exists tp, ransac_position_error_threshold_m es_config = Fin tp) by (eexists; reflexivity).
  assert (C3 : exists to, ransac_orientation_error_threshold_deg es_config = Fin to) by (eexists; reflexivity).
  destruct C1 as (rtol & C1 & C1'). destruct C2 as (tp & C2). destruct C3 as (to & C3).
  destruct (C88_calibration svd es_config rtol tp to x (map unit_row rowsA) (map unit_row rowsB) o pathA pathB VA WA VB WB (nA + VA * off) (mA + WA * off) nB mB gA gB DA DB)
    as (outA & outB & CA' & ROA & ROB & LL & K); auto; rewrite ?TU; auto.
  { now destruct rowsA. } { now destruct rowsB. }
  rewrite CA in CA'. assert (EA : oA = inS outA) by congruence. assert (EB : oB = inS outB) by congruence. subst oA oB. clear CA CA'.
  assert (CT : forall out, Csv (map (columns (N:=XR)) (inS out)) = table out) by (intros out; rewrite <- (rows_columns (N:=XR)); apply table_in).
  assert (F1' : fs' (aligned_path A) = Some (table outA)) by (rewrite <- CT; exact F1).
  assert (F2' : fs' (aligned_path B) = Some (table outB)) by (rewrite <- CT; exact F2). clear F1 F2. rename F1' into F1, F2' into F2.
  cbv zeta in K. set (l := combine _ _) in K.
  assert (CAL' := CAL). destruct CAL as (bb & ww & LD & RUN).
  assert (NEO : outA <> []).
  { intros ->. symmetry in LL. apply length_zero_iff_nil in LL. subst outB. unfold load, read_dual_quaternions, read_table in LD.
    destruct SF as (S1 & S2 & S3 & S4 & S5 & S6 & S7). rewrite S1, S2, S3, S4, S7, S6 in LD. rewrite F1, F2 in LD. discriminate LD. }
  assert (SF' := SF). destruct SF' as (S1 & S2 & S3 & S4 & S5 & S6 & S7).
  rewrite (load_in args fs' (map transform outA) (map transform outB)) in LD.
  - injection LD as <- <-.
    assert (LF : List.length (from_first (map transform outA)) = List.length (from_first (map transform outB))).
    { unfold from_first. destruct outA, outB; try easy. cbn [map List.length] in *. now rewrite !map_length. }
    assert (EH : map inD (from_first (map transform outA)) = hands l /\ map inD (from_first (map transform outB)) = eyes l).
    { unfold l, hands, eyes. rewrite <- (map_map fst inD), <- (map_map snd inD). now rewrite !map_fst_combine, !map_snd_combine by easy. }
    destruct EH as [EH1 EH2]. rewrite EH1, EH2 in RUN.
    destruct (K _ fuel r RUN SU) as (x' & p0 & used & rp & ro & k & D & UX & RM & NI & I0 & IU & MI & LU & ALL & C).
    rewrite DQ in D. injection D as ->.
    exists (trans_of x'), (pos_w (dr x')). split; [|split; [now apply pos_unit|split; [apply pos_w_nonneg|]]].
    { rewrite FJ. f_equal. f_equal. eapply holds_document; eauto. }
    exists outA, outB. split; [easy|]. split; [easy|]. intros l'. exists args, r, rp, ro, k. split; [easy|].
    split; [exact CAL'|].
    split; [easy|]. split; [easy|]. split; [exact MI|]. exists p0. split; [exact I0|].
    intros p q Ip Iq. specialize (ALL eq_refl). specialize (C p q (ALL p Ip) (ALL q Iq)). change (ransac_evaluate_refined_model_on_inliers_only es_config) with false in LU. cbv iota in LU.
    rewrite LU in C. cbv zeta in C |- *. intros W1 W2. destruct (C W1 W2) as [CR CT']. split; [|exact CT']. intros v. rewrite hrot_pos_w. apply CR.
  - red. rewrite S1, S2. now apply (provides_direct fs' _ _ (aligned_path A)).
  - red. rewrite S3, S4. now apply (provides_direct fs' _ _ (aligned_path B)).
  - now destruct outA.
  - now rewrite !map_length.
  - rewrite S6. discriminate.
Qed.

(** ** The hypotheses are met: the run of C68_example *)
(** The hand rests, turns about x, rests, turns about y and rests again; the eye is attached by x0. *)
Definition ramp (t0 t : R) : R := Rmax 0 (Rmin 1 (t - t0)).
Lemma ramp_lo t0 t : t <= t0 -> ramp t0 t = 0.
Proof. intros H. unfold ramp, Rmax, Rmin. repeat destruct (Rle_dec _ _); lra. Qed.
Lemma ramp_hi t0 t : t0 + 1 <= t -> ramp t0 t = 1.
Proof. intros H. unfold ramp, Rmax, Rmin. repeat destruct (Rle_dec _ _); lra. Qed.
Lemma ramp_step t0 s t : Rabs (ramp t0 s - ramp t0 t) <= Rabs (s - t).
Proof. unfold ramp, Rmax, Rmin. repeat destruct (Rle_dec _ _); unfold Rabs; repeat destruct (Rcase_abs _); lra. Qed.
Definition turn_y (t : R) : rq := RQ (RV 0 (sin t) 0) (cos t).
Lemma turn_y_unit t : unitq (turn_y t). Proof. unfold unitq, turn_y. specu. pose proof (sin2_cos2 t). unfold Rsqr in *. lra. Qed.
Lemma turn_y_dist s t : dist (turn_y s) (turn_y t) <= Rabs (s - t).
Proof. unfold dist, hnorm. apply sqrt_below; [apply hnorm2_pos|]. unfold turn_y. specu. pose proof (chord_le s t). lra. Qed.
Definition alpha94 : R := asin (3 / 5).
Definition beta94 : R := asin (4 / 5).
Lemma angles94 : sin alpha94 = 3 / 5 /\ cos alpha94 = 4 / 5 /\ sin beta94 = 4 / 5 /\ cos beta94 = 3 / 5.
Proof.
  assert (S : forall y z, 0 <= z -> 1 - Rsqr y = z * z -> sqrt (1 - Rsqr y) = z) by (intros y z Z E; rewrite E; now apply sqrt_square).
  unfold alpha94, beta94. rewrite !sin_asin, !cos_asin by lra. split; [easy|]. split; [apply S; unfold Rsqr; lra|]. split; [easy|]. apply S; unfold Rsqr; lra.
Qed.
Definition turning94 (t : R) : rq := hmul (turn_y (beta94 * ramp (25 / 4) t)) (turn_x (alpha94 * (ramp (9 / 4) t - ramp (25 / 4) t))).
Definition hand94 (t : R) : rv * rq := (vzero, turning94 t).
Definition eye94 (t : R) : rv * rq := (vzero, hmul (hconj (dr x0)) (hmul (turning94 t) (dr x0))).
Definition W94 : R := Rabs beta94 + 2 * Rabs alpha94.
Lemma turning94_unit t : unitq (turning94 t).
Proof. unfold turning94, unitq. rewrite hnorm2_mul, turn_y_unit, turn_x_unit. ring. Qed.
Lemma turning94_dist s t : dist (turning94 s) (turning94 t) <= W94 * Rabs (s - t).
Proof.
  unfold turning94. set (a := ramp (25/4) s). set (a' := ramp (25/4) t). set (b := ramp (9/4) s). set (b' := ramp (9/4) t).
  pose proof (dist_triangle (hmul (turn_y (beta94 * a)) (turn_x (alpha94 * (b - a)))) (hmul (turn_y (beta94 * a')) (turn_x (alpha94 * (b - a)))) (hmul (turn_y (beta94 * a')) (turn_x (alpha94 * (b' - a'))))) as T.
  rewrite dist_mul_r, dist_mul_l in T. rewrite (proj1 (unit_hnorm _) (turn_x_unit _)), (proj1 (unit_hnorm _) (turn_y_unit _)) in T.
  pose proof (turn_y_dist (beta94 * a) (beta94 * a')) as A. pose proof (turn_x_dist (alpha94 * (b - a)) (alpha94 * (b' - a'))) as B.
  replace (beta94 * a - beta94 * a') with (beta94 * (a - a')) in A by ring.
  replace (alpha94 * (b - a) - alpha94 * (b' - a')) with (alpha94 * ((b - b') - (a - a'))) in B by ring. rewrite Rabs_mult in A, B.
  pose proof (ramp_step (25/4) s t) as SA. pose proof (ramp_step (9/4) s t) as SB. fold a a' in SA. fold b b' in SB.
  pose proof (Rabs_triang (b - b') (- (a - a'))) as TR. rewrite Rabs_Ropp in TR. fold (b - b' - (a - a')) in TR.
  pose proof (Rabs_pos beta94). pose proof (Rabs_pos alpha94). unfold W94. nra.
Qed.
Lemma vzero_diff : vsub vzero vzero = RV 0 0 0.
Proof. unfold vzero. apply rv_eq; specu; ring. Qed.
Lemma x0_q : hnorm (dr x0) = 1.
Proof. apply unit_hnorm. apply x0_unit. Qed.
Lemma steady94 : steady 0 W94 hand94 /\ steady 0 W94 eye94.
Proof.
  split; intros s t; unfold hand94, eye94; cbn [fst snd]; rewrite vzero_diff, len3_zero; (split; [lra|left]).
  - apply turning94_dist.
  - rewrite dist_mul_l, dist_mul_r, x0_q. replace (hnorm (hconj (dr x0))) with 1; [pose proof (turning94_dist s t); lra|].
    rewrite <- x0_q. unfold hnorm. f_equal. destruct (dr x0) as [[] ?]. specu. ring.
Qed.
Lemma rigid94 : rigid hand94 /\ rigid eye94.
Proof.
  split; intros t; unfold hand94, eye94; cbn [snd]; [apply turning94_unit|]. unfold unitq. rewrite !hnorm2_mul, turning94_unit.
  replace (hnorm2 (hconj (dr x0))) with (hnorm2 (dr x0)) by (destruct (dr x0) as [[] ?]; specu; ring). rewrite (proj1 x0_unit). ring.
Qed.
Lemma within94 : within 0 hand94 /\ within 0 eye94.
Proof. split; intros s t; unfold hand94, eye94; cbn [fst]; rewrite vzero_diff, len3_zero; lra. Qed.
Lemma eye94_pose t : pose_of (eye94 t) = dqmul (dqconj x0) (dqmul (pose_of (hand94 t)) x0).
Proof.
  unfold pose_of, eye94, hand94. cbn [fst snd]. unfold x0, dq_of, dqconj, dqmul, vzero. generalize (turning94 t). intros [[] ?]. cbn [dr dd]. generalize q0. intros [[] ?].
  apply rdq_eq; cbn [dr dd]; apply rq_eq; specu; unfold hzero, vzero; cbn; ring.
Qed.
Lemma attached94 : attached x0 hand94 eye94.
Proof.
  intros s t. left. unfold moved. rewrite !eye94_pose.
  assert (CM : forall u v, dqconj (dqmul u v) = dqmul (dqconj v) (dqconj u)).
  { intros [[[] ?] [[] ?]] [[[] ?] [[] ?]]. unfold dqconj, dqmul. apply rdq_eq; cbn [dr dd]; apply rq_eq; specu; ring. }
  assert (CC : forall u, dqconj (dqconj u) = u) by (intros [[[] ?] [[] ?]]; unfold dqconj; apply rdq_eq; cbn [dr dd]; apply rq_eq; specu; ring).
  assert (XX : dqmul x0 (dqconj x0) = dqone) by (rewrite <- unitdq_inv_conj by apply x0_unit; apply dqmul_inv_r, unitdq_n2, x0_unit).
  rewrite !CM, CC, !dqmul_assoc. rewrite <- (dqmul_assoc x0 (dqconj x0)), XX, dqmul_1_l. rewrite <- (dqmul_assoc x0 (dqconj x0)), XX, dqmul_1_l. reflexivity.
Qed.
Lemma pose94 t : (t <= 9 / 4 -> turning94 t = hone) /\ (13 / 4 <= t <= 25 / 4 -> turning94 t = RQ (RV (3/5) 0 0) (4/5)) /\ (29 / 4 <= t -> turning94 t = RQ (RV 0 (4/5) 0) (3/5)).
Proof.
  destruct angles94 as (S1 & C1 & S2 & C2). unfold turning94, turn_x, turn_y. split; [|split]; intros H.
  - rewrite !ramp_lo by lra. rewrite Rminus_0_r, !Rmult_0_r, sin_0, cos_0. apply rq_eq; specu; ring.
  - rewrite (ramp_lo (25/4)), (ramp_hi (9/4)) by lra. rewrite Rminus_0_r, !Rmult_0_r, sin_0, cos_0, Rmult_1_r, S1, C1. apply rq_eq; specu; ring.
  - rewrite (ramp_hi (25/4)), (ramp_hi (9/4)) by lra. rewrite Rminus_eq_0, !Rmult_0_r, sin_0, cos_0, Rmult_1_r, S2, C2. apply rq_eq; specu; ring.
Qed.
Lemma unit_rows94 t (u : list (rv * rq)) : Forall unitq (map snd u) -> map unit_row (combine t u) = combine t u.
Proof.
  revert t. induction u as [|[p q] u IH]; intros [|y t] F; try easy. cbn [combine map] in *. inversion F; subst. unfold unit_row at 1. cbn [fst snd].
  rewrite unit_of_self by easy. f_equal. now apply IH.
Qed.
Lemma recorded94 : Forall (recorded 0 0 hand94) (shift_rows (1/4) (map unit_row hand68)) /\ Forall (recorded 0 0 eye94) (map unit_row eye68).
Proof.
  destruct units68 as [U1 U2].
  assert (E1 : map unit_row hand68 = hand68) by (apply unit_rows94; rewrite map_map; exact U1).
  assert (E2 : map unit_row eye68 = eye68) by (apply unit_rows94; rewrite map_map; exact U2). rewrite E1, E2.
  assert (RI : forall path t p q, path t = (p, q) -> recorded 0 0 path (t, (p, q))).
  { intros path t p q E. unfold recorded. cbn [fst snd]. rewrite E. cbn [fst snd]. split; [|apply turned_refl; lra].
    replace (vsub p p) with (RV 0 0 0) by (destruct p; apply rv_eq; specu; ring). rewrite len3_zero. lra. }
  split.
  - unfold hand68, shift_rows, ticks, rows68, rows66, lineA, lineB, lineI. cbn [seq map combine app fst snd INR].
    repeat (apply Forall_cons; [apply RI; unfold hand94; f_equal; (apply pose94; lra)|]). apply Forall_nil.
  - unfold eye68, ticks, rows68, rows66, lineA, lineB, lineI. cbn [seq map combine app fst snd INR].
    repeat (apply Forall_cons; [apply RI; unfold eye94; f_equal; unfold x0; cbn [dr];
      first [rewrite (proj1 (pose94 _)) by lra | rewrite (proj1 (proj2 (pose94 _))) by lra | rewrite (proj2 (proj2 (pose94 _))) by lra];
      unfold q0, hone; apply rq_eq; specu; lra|]). apply Forall_nil.
Qed.
Lemma ticks_nth s n i a : nth_error (ticks s 1 n) i = Some a -> a = s + INR i * 1.
Proof.
  unfold ticks. rewrite nth_error_map. intros E. destruct (nth_error (seq 0 n) i) as [k|] eqn:K; [|discriminate E]. cbn in E. injection E as <-.
  assert (L : (i < n)%nat) by (rewrite <- (seq_length n 0); apply nth_error_Some; congruence).
  apply (nth_error_nth _ _ 0%nat) in K. rewrite seq_nth in K by easy. subst. reflexivity.
Qed.
(** The run of the script of C68_example: samples one second apart are not interpolated between, so gA = gB = 0 will do. *)
Example C94_example : forall estimator, exists fuel0, forall fuel, (fuel0 <= fuel)%nat -> exists fs' ok,
  script svd66 estimator fuel "data/tango.csv" "data/vicon.csv" (fs68 "data/tango.csv" "data/vicon.csv") = Done (Ok (fs', (None, None), ok)) /\
  fs68 "data/tango.csv" "data/vicon.csv" "data/tango.csv"%string = Some (table hand68) /\ fs68 "data/tango.csv" "data/vicon.csv" "data/vicon.csv"%string = Some (table eye68) /\
  Forall readable hand68 /\ Forall readable eye68 /\ hand68 <> [] /\ eye68 <> [] /\ sorted (times_of hand68) /\ sorted (times_of eye68) /\
  steady 0 W94 hand94 /\ steady 0 W94 eye94 /\ steps 0 (times_of hand68) /\ steps 0 (times_of eye68) /\
  Forall (recorded 0 0 hand94) (shift_rows (1/4) (map unit_row hand68)) /\ Forall (recorded 0 0 eye94) (map unit_row eye68) /\
  rigid hand94 /\ rigid eye94 /\ within 0 hand94 /\ within 0 eye94 /\ unitdq x0 /\ attached x0 hand94 eye94 /\ real_vectors svd66 /\
  fs' "time_offset.csv"%string = Some (Csv [[Fin (1/4)]]).
Proof.
  intros estimator. destruct (run68 estimator "data/tango.csv" "data/vicon.csv") as (fuel0 & H); [discriminate|]. exists fuel0. intros fuel FU.
  destruct (H fuel FU) as (fs' & ok & out & R & J & _). exists fs', ok. split; [exact R|]. split; [reflexivity|]. split; [reflexivity|].
  destruct readable68 as [R1 R2]. destruct times68 as [T1 T2]. destruct steady94, rigid94, within94, recorded94.
  assert (SO : forall s, sorted (ticks s 1 12)) by (intros s i j a b L A B; apply ticks_nth in A, B; subst; apply le_INR in L; lra).
  assert (ST : forall s, steps 0 (ticks s 1 12)) by (intros s i a b A B; apply ticks_nth in A, B; subst; rewrite S_INR; right; lra).
  split; [easy|]. split; [easy|]. split; [discriminate|]. split; [discriminate|]. rewrite T1, T2.
  split; [apply SO|]. split; [apply SO|]. split; [easy|]. split; [easy|]. split; [apply ST|]. split; [apply ST|]. split; [easy|]. split; [easy|].
  split; [easy|]. split; [easy|]. split; [easy|]. split; [easy|]. split; [apply x0_unit|]. split; [apply attached94|].
  split.
  - intros m w v E. unfold svd66 in E. injection E as _ <-. now exists (v0 (3/5) (4/5)).
  - destruct (C67_success XR _ _ _ _ _ _ _ _ R) as (rA & rB & oA & oB & offset & E1 & E2 & M & _ & _ & F3 & args & r & dq & js & c & SF & _ & _ & _ & FJ & RJ & HO & TO); [discriminate|].
    rewrite F3. rewrite J in FJ. injection FJ as <-. cbn in RJ. injection RJ as <-. cbn [time_offset] in TO. now rewrite <- TO.
Qed.
