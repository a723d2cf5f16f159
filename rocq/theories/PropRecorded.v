(** * Property C88, continued: from two noisy recordings of a moving rig to a calibration near the true one. *)

From Coq Require Import Reals ZArith Bool String List Lra Lia Psatz Permutation.
From Verif Require Import Num Py XReal XFacts Quat DualQuat HandEye Ransac TimeAlign CsvIo Experiments Extrinsic Cli Spec TimeSpec Embed
  QuatFacts QuatTrig QuatRot PropQuat DualFacts ScrewFacts ListFacts HandEyeFacts KernelFacts CalibFacts RansacFacts TimeFacts ResampleFacts
  PropTimeOffset PropResample PropAligned PropCalib PropEval PropRansac PropPerfect CalibExample PropComplete FloatQuat StabilityFacts PropStability
  PropNoRaise PropOutliers PropCli PropAccuracy PropInterp.
Import ListNotations.
Local Open Scope R_scope.

(** ** Specification *)
(** a pose as a rigid motion *)
Definition pose_of (p : rv * rq) : rdq := dq_of (snd p) (fst p).
(** from time s to time t *)
Definition moved (path : R -> rv * rq) (s t : R) : rdq := dqmul (dqconj (pose_of (path s))) (pose_of (path t)).
(** two sensors that are rigidly attached to each other, with x the pose of the second one in the frame of the first one *)
Definition attached (x : rdq) (pathA pathB : R -> rv * rq) : Prop :=
  forall s t, dqmul (moved pathA s t) x = dqmul x (moved pathB s t) \/ dqmul (moved pathA s t) x = dqneg (dqmul x (moved pathB s t)).
Definition rigid (path : R -> rv * rq) : Prop := forall t, unitq (snd (path t)).
(** the path stays within a distance D of itself *)
Definition within (D : R) (path : R -> rv * rq) : Prop := forall s t, len3 (vsub (fst (path s)) (fst (path t))) <= D.

(** ** A wrong time offset *)
Theorem C88_offset_error : forall (A : list row) (o e V W n m : R) (path : R -> rv * rq), steady V W path ->
  Forall (recorded n m path) (shift_rows o A) -> Forall (recorded (n + V * Rabs e) (m + W * Rabs e) path) (shift_rows (o + e) A).
Proof.
  intros A o e V W n m path ST F. unfold shift_rows in *. rewrite Forall_map in *. eapply Forall_impl; [|exact F]. intros [t [p q]] [R1 R2].
  unfold recorded in *. cbn [fst snd] in *. destruct (ST (t + o) (t + (o + e))) as [S1 S2].
  replace (t + o - (t + (o + e))) with (- e) in S1, S2 by ring. rewrite Rabs_Ropp in S1, S2. split.
  - pose proof (len3_triangle (vsub p (fst (path (t + o)))) (vsub (fst (path (t + o))) (fst (path (t + (o + e)))))) as T.
    replace (vadd (vsub p (fst (path (t + o)))) (vsub (fst (path (t + o))) (fst (path (t + (o + e)))))) with (vsub p (fst (path (t + (o + e))))) in T
      by (destruct p, (fst (path (t + o))), (fst (path (t + (o + e)))); apply rv_eq; specu; ring). lra.
  - exact (turned_triangle _ _ _ _ _ R2 S2).
Qed.

(** ** Norms of interpolated orientations *)
Lemma on_path_norm l s p q : Forall unitq (row_quats l) -> on_path l (s, (p, q)) -> Rabs (hnorm q - 1) <= 1 / 10000000000000000.
Proof.
  intros F (_ & _ & _ & RE). rewrite Forall_forall in F.
  assert (Z : forall q, unitq q -> Rabs (hnorm q - 1) <= 1 / 10000000000000000) by (intros q0 U; rewrite (proj1 (unit_hnorm q0) U), Rminus_eq_0, Rabs_R0; lra).
  assert (Y : forall q, Rabs (hnorm2 q - 1) <= 1 / 10000000000000000 -> Rabs (hnorm q - 1) <= 1 / 10000000000000000).
  { intros q0 H. rewrite <- hnorm_sqr in H. pose proof (hnorm_pos q0) as P. replace (hnorm q0 * hnorm q0 - 1) with ((hnorm q0 - 1) * (hnorm q0 + 1)) in H by ring.
    rewrite Rabs_mult, (Rabs_pos_eq (hnorm q0 + 1)) in H by lra. pose proof (Rabs_pos (hnorm q0 - 1)). nra. }
  destruct RE as [r t q0 _ Q _|k tl tr ql qr q0 _ _ LT QL QR _ E].
  - apply Z, F. eapply nth_error_In; exact Q.
  - apply nth_error_In in QL. apply nth_error_In in QR.
    destruct (C07_slerp_norm ql qr ((s - tl) / (tr - tl)) (F _ QL) (F _ QR)) as (r & E' & B).
    { split; [apply Rmult_le_pos; [lra|left; apply Rinv_0_lt_compat; lra]|].
      apply Rmult_le_reg_r with (tr - tl); [lra|]. unfold Rdiv. rewrite Rmult_assoc, Rinv_l by lra. lra. }
    rewrite E in E'. assert (q0 = r) as ->; [|now apply Y].
    destruct q0 as [[a b c] w], r as [[a' b' c'] w']. cbn in E'. injection E' as -> -> -> ->. reflexivity.
Qed.
Lemma normalised_dist q : 0 < hnorm q -> dist (hscale (/ hnorm q) q) q = Rabs (hnorm q - 1).
Proof.
  intros P. assert (E : hnorm2 (hsub (hscale (/ hnorm q) q) q) = (/ hnorm q - 1) * (/ hnorm q - 1) * hnorm2 q) by (destruct q as [[] ?]; specu; ring).
  unfold dist. unfold hnorm at 1. rewrite E, <- hnorm_sqr. replace ((/ hnorm q - 1) * (/ hnorm q - 1) * (hnorm q * hnorm q)) with ((hnorm q - 1)²) by (unfold Rsqr; field; lra).
  apply sqrt_Rsqr_abs.
Qed.
Lemma recorded_near n m path r : rigid path -> Rabs (hnorm (snd (snd r)) - 1) <= 1 / 10000000000000000 -> recorded n m path r ->
  readable r /\ near n (m + 1 / 10000000000000000) (transform r) (pose_of (path (fst r))).
Proof.
  destruct r as [t [p q]]. cbn [fst snd]. intros RI N [A B]. cbn [fst snd] in A, B.
  assert (H : 1 / 100000000 < hnorm q) by (unfold Rabs in N; destruct (Rcase_abs _) in N; lra).
  assert (U : unitq (hscale (/ hnorm q) q)) by (apply hnormalize_unit; lra).
  split; [exact H|]. unfold near, transform, pose_of. cbn [fst snd]. rewrite !trans_dq_of by (try apply RI; easy). split; [exact A|].
  cbn [dq_of dr]. change (turned (m + 1 / 10000000000000000) (hscale (/ hnorm q) q) (snd (path t))). rewrite Rplus_comm.
  apply turned_triangle with q; [|exact B]. left. rewrite normalised_dist by lra. exact N.
Qed.

(** ** The motions between nearby poses are nearby *)
Lemma motion_trans p0 p : unitdq p0 -> unitdq p -> trans_of (dqmul (dqconj p0) p) = hrot (hconj (dr p0)) (vsub (trans_of p) (trans_of p0)).
Proof.
  intros U0 U. rewrite trans_of_mul; [|apply unitdq_conj in U0; apply U0|apply U]. rewrite trans_conj by easy. cbn [dqconj dr].
  destruct (hconj (dr p0)) as [[] ?], (trans_of p), (trans_of p0). apply rv_eq; specu; ring.
Qed.
Lemma near_motion a d D p0 p P0 P : unitdq p0 -> unitdq p -> unitdq P0 -> unitdq P -> near a d p0 P0 -> near a d p P ->
  len3 (vsub (trans_of P) (trans_of P0)) <= D -> near (2 * a + 2 * d * D) (2 * d) (dqmul (dqconj p0) p) (dqmul (dqconj P0) P).
Proof.
  intros U0 U V0 V [A0 B0] [A B] L. split.
  - rewrite !motion_trans by easy. set (u := vsub (trans_of p) (trans_of p0)). set (w := vsub (trans_of P) (trans_of P0)) in *.
    assert (UC : unitq (hconj (dr p0))) by (unfold unitq; rewrite hnorm2_conj; apply U0).
    assert (VC : unitq (hconj (dr P0))) by (unfold unitq; rewrite hnorm2_conj; apply V0).
    assert (E1 : len3 (vsub u w) <= 2 * a).
    { pose proof (len3_triangle (vsub (trans_of p) (trans_of P)) (vsub (trans_of P0) (trans_of p0))) as T.
      replace (vadd (vsub (trans_of p) (trans_of P)) (vsub (trans_of P0) (trans_of p0))) with (vsub u w) in T
        by (unfold u, w; destruct (trans_of p), (trans_of P), (trans_of p0), (trans_of P0); apply rv_eq; specu; ring).
      rewrite (len3_sym (trans_of P0)) in T. lra. }
    assert (E2 : len3 (vsub (hrot (hconj (dr p0)) w) (hrot (hconj (dr P0)) w)) <= 2 * d * len3 w).
    { pose proof (len3_pos w) as W0. destruct B0 as [B0|B0].
      - pose proof (hrot_near (hconj (dr p0)) (hconj (dr P0)) w UC VC) as H. rewrite dist_conj in H. nra.
      - assert (VN : unitq (hneg (hconj (dr P0)))) by (unfold unitq; rewrite hnorm2_neg; exact VC).
        pose proof (hrot_near (hconj (dr p0)) (hneg (hconj (dr P0))) w UC VN) as H. rewrite hrot_neg in H.
        replace (hneg (hconj (dr P0))) with (hconj (hneg (dr P0))) in H by (destruct (dr P0) as [[] ?]; apply rq_eq; specu; ring).
        rewrite dist_conj in H. nra. }
    assert (D0 : 0 <= d) by (destruct B0; pose proof (dist_pos (dr p0) (dr P0)); pose proof (dist_pos (dr p0) (hneg (dr P0))); lra).
    assert (E3 : 2 * d * len3 w <= 2 * d * D) by (apply Rmult_le_compat_l; lra).
    pose proof (len3_triangle (hrot (hconj (dr p0)) (vsub u w)) (vsub (hrot (hconj (dr p0)) w) (hrot (hconj (dr P0)) w))) as T.
    rewrite hrot_len in T by easy.
    replace (vadd (hrot (hconj (dr p0)) (vsub u w)) (vsub (hrot (hconj (dr p0)) w) (hrot (hconj (dr P0)) w)))
      with (vsub (hrot (hconj (dr p0)) u) (hrot (hconj (dr P0)) w)) in T
      by (clear; destruct (hconj (dr p0)) as [[] ?], (hconj (dr P0)) as [[] ?], u, w; apply rv_eq; specu; ring). lra.
  - cbn [dqmul dqconj dr].
    assert (NP : hnorm (dr p) = 1) by (apply unit_hnorm, U). assert (NP0 : hnorm (hconj (dr P0)) = 1) by (rewrite hnorm_conj; apply unit_hnorm, V0).
    change (turned (2 * d) (hmul (hconj (dr p0)) (dr p)) (hmul (hconj (dr P0)) (dr P))). replace (2 * d) with (d + d) by ring.
    assert (NC : hconj (hneg (dr P0)) = hneg (hconj (dr P0))) by (destruct (dr P0) as [[] ?]; apply rq_eq; specu; ring).
    assert (NM1 : forall u v, hmul (hneg u) v = hneg (hmul u v)) by (intros [[] ?] [[] ?]; apply rq_eq; specu; ring).
    assert (NM2 : forall u v, hmul u (hneg v) = hneg (hmul u v)) by (intros [[] ?] [[] ?]; apply rq_eq; specu; ring).
    apply turned_triangle with (hmul (hconj (dr P0)) (dr p)).
    + destruct B0 as [B0|B0]; [left|right; rewrite <- NM1, <- NC]; rewrite dist_mul_r, dist_conj, NP; lra.
    + destruct B as [B|B]; [left|right; rewrite <- NM2]; rewrite dist_mul_l, NP0; lra.
Qed.

(** ** Seen from the first pose, the motions between the poses are the same up to sign *)
Lemma pm_conj u v : (u = v \/ u = dqneg v) -> dqconj u = dqconj v \/ dqconj u = dqneg (dqconj v).
Proof. intros [-> | ->]; [now left|right]. apply rdq_eq; apply rq_eq; destruct v as [[[] ?] [[] ?]]; specu; ring. Qed.
Lemma rebased d0 d e : unitdq d0 -> unitdq d -> unitdq e ->
  dqmul (dqconj (rflip (dqmul (dqinv d0) d))) (rflip (dqmul (dqinv d0) e)) = dqmul (dqconj d) e \/
  dqmul (dqconj (rflip (dqmul (dqinv d0) d))) (rflip (dqmul (dqinv d0) e)) = dqneg (dqmul (dqconj d) e).
Proof.
  intros U0 U V.
  assert (E : dqmul (dqconj (dqmul (dqinv d0) d)) (dqmul (dqinv d0) e) = dqmul (dqconj d) e).
  { assert (CM : forall u v, dqconj (dqmul u v) = dqmul (dqconj v) (dqconj u)).
    { intros [[[] ?] [[] ?]] [[[] ?] [[] ?]]. unfold dqconj, dqmul. apply rdq_eq; cbn [dr dd]; apply rq_eq; specu; ring. }
    assert (CC : dqconj (dqconj d0) = d0) by (destruct d0 as [[[] ?] [[] ?]]; unfold dqconj; apply rdq_eq; cbn [dr dd]; apply rq_eq; specu; ring).
    rewrite CM. rewrite (unitdq_inv_conj d0) by easy. rewrite CC, !dqmul_assoc. f_equal.
    rewrite <- dqmul_assoc, <- unitdq_inv_conj, dqmul_inv_r, dqmul_1_l by auto using unitdq_n2. easy. }
  rewrite <- E. apply pm_mul; [apply pm_conj|]; apply rflip_pm.
Qed.
Lemma in_from_first (ds es : list rdq) p : List.length ds = List.length es -> In p (combine (from_first ds) (from_first es)) ->
  exists d0 e0 d e, In (d0, e0) (combine ds es) /\ nth_error ds 0 = Some d0 /\ nth_error es 0 = Some e0 /\ In (d, e) (combine ds es) /\ p = (rflip (dqmul (dqinv d0) d), rflip (dqmul (dqinv e0) e)).
Proof.
  intros L I. destruct ds as [|d0 ds], es as [|e0 es]; try easy. exists d0, e0. unfold from_first in I.
  assert (G : forall l k, In p (combine (map (fun d => rflip (dqmul (dqinv d0) d)) l) (map (fun d => rflip (dqmul (dqinv e0) d)) k)) ->
    exists d e, In (d, e) (combine l k) /\ p = (rflip (dqmul (dqinv d0) d), rflip (dqmul (dqinv e0) e))).
  { induction l as [|a l IH]; intros [|b k] H; cbn in H; try easy. destruct H as [<-|H]; [exists a, b; split; [now left|easy]|].
    destruct (IH k H) as (d & e & A & B). exists d, e. split; [now right|easy]. }
  destruct (G _ _ I) as (d & e & A & B). exists d, e. split; [now left|]. split; [easy|]. split; [easy|]. split; easy.
Qed.

(** ** C88: the calibration found from two recordings *)
Theorem C88_calibration : forall svd (cfg : config XR) rtol tp to (x : rdq) (A B : list row) (o : R) (pathA pathB : R -> rv * rq)
    (VA WA VB WB nA mA nB mB gA gB DA DB : R),
  A <> [] -> B <> [] -> sorted (row_times A) -> sorted (row_times B) ->
  Forall unitq (row_quats A) -> Forall unitq (row_quats B) ->
  steady VA WA pathA -> steady VB WB pathB -> 0 <= gA -> 0 <= gB -> steps gA (row_times A) -> steps gB (row_times B) ->
  Forall (recorded nA mA pathA) (shift_rows o A) -> Forall (recorded nB mB pathB) B ->
  rigid pathA -> rigid pathB -> within DA pathA -> within DB pathB -> unitdq x -> attached x pathA pathB ->
  real_vectors svd -> ransac_sample_rejection_tolerance cfg = Fin rtol -> 0 <= rtol ->
  ransac_position_error_threshold_m cfg = Fin tp -> ransac_orientation_error_threshold_deg cfg = Fin to ->
  let dA := 3 * mA + 2 * WA * gA + 1 / 10000000000000000 in
  let dB := 3 * mB + 2 * WB * gB + 1 / 10000000000000000 in
  let a := 2 * (nA + VA * gA / 2) + 2 * dA * DA in let d := 2 * dA in
  let b := 2 * (nB + VB * gB / 2) + 2 * dB * DB in let e := 2 * dB in
  exists outA outB, compute_aligned_poses (inS A) (inS B) (Fin o) = Ok (inS outA, inS outB) /\
    Forall readable outA /\ Forall readable outB /\ List.length outA = List.length outB /\
    let l := combine (from_first (map transform outA)) (from_first (map transform outB)) in
    forall draw fuel r, compute_RANSAC svd draw fuel cfg (hands l) (eyes l) = Done (Ok r) -> success r = true ->
    exists x' p0 used rp ro k, dq_H_E r = Some (inD x') /\ unitq (dr x') /\ rmse r = Some (Fin rp, Fin ro) /\ num_inliers r = Some k /\
      In p0 l /\ incl used l /\ (min_num_inliers cfg <= k)%nat /\
      List.length used = (if ransac_evaluate_refined_model_on_inliers_only cfg then k else List.length l) /\
      (ransac_evaluate_refined_model_on_inliers_only cfg = false -> incl l used) /\
      (forall p q, In p used -> In q used ->
        let m := eye_motion p0 p in let n := eye_motion p0 q in
        let N := sqrt (INR (List.length used)) in
        let rho := d + e + (N * ro * (PI / 180) + 1 / 10000) / 2 in
        let P := a + b + 2 * e * len3 (trans_of x) + N * rp in
        let c := len3 (cross3 (qv (dr m)) (qv (dr n))) in
        rho < 2 * Rabs (qs (dr m)) -> rho < 2 * Rabs (qs (dr n)) ->
        (forall v, c * len3 (vsub (hrot (dr x) v) (hrot (dr x') v)) <= 2 * rho * len3 v) /\
        c * (c * len3 (vsub (trans_of x) (trans_of x')))
          <= c * (P + 2 * rho * len3 (trans_of x')) + rho * (len3 (trans_of m) + len3 (trans_of n))).
Proof.
  intros svd cfg rtol tp to x A B o pathA pathB VA WA VB WB nA mA nB mB gA gB DA DB NA NB SA SB UA UB STA STB GA GB PA PB RA RB RIA RIB WIA WIB Ux AT RV RT RT0 TP TO
    dA dB a d b e.
  destruct (C88_aligned A B o pathA pathB VA WA VB WB nA mA nB mB gA gB NA NB SA SB UA UB STA STB GA GB PA PB RA RB) as (outA & outB & E & TT & FA & FB & _).
  exists outA, outB. split; [exact E|].
  assert (ON : Forall (fun r => Rabs (hnorm (snd (snd r)) - 1) <= 1 / 10000000000000000) outA /\ Forall (fun r => Rabs (hnorm (snd (snd r)) - 1) <= 1 / 10000000000000000) outB).
  { destruct (C41_contract A B o NA NB SA SB UA UB) as (s & oA & oB & E' & _ & _ & OA & OB & _).
    assert (IJ : forall l l' : list row, inS l = inS l' -> l = l').
    { induction l as [|[t [p q]] l IH]; intros [|[t' [p' q']] l'] H; try discriminate H; [easy|].
      cbn [inS map fst snd] in H. injection H as H1 H2 H3 H4 H5 H6 H7 H8 H9. subst. f_equal; [|now apply IH].
      destruct p as [? ? ?], p' as [? ? ?], q as [[? ? ?] ?], q' as [[? ? ?] ?]. cbn in *. now subst. }
    rewrite E in E'. assert (EA : inS outA = inS oA) by congruence. assert (EB : inS outB = inS oB) by congruence.
    apply IJ in EA, EB. subst oA oB.
    assert (UA' : Forall unitq (row_quats (shift_rows o A))) by (unfold shift_rows, row_quats in *; rewrite map_map; exact UA).
    split; [eapply Forall_impl; [|exact OA]|eapply Forall_impl; [|exact OB]]; intros [t [p q]]; now apply on_path_norm. }
  destruct ON as [ONA ONB]. rewrite Forall_forall in ONA, ONB, FA, FB.
  assert (KA : forall r, In r outA -> readable r /\ near (nA + VA * gA / 2) dA (transform r) (pose_of (pathA (fst r)))).
  { intros r I. now apply recorded_near; auto. }
  assert (KB : forall r, In r outB -> readable r /\ near (nB + VB * gB / 2) dB (transform r) (pose_of (pathB (fst r)))).
  { intros r I. now apply recorded_near; auto. }
  split; [apply Forall_forall; intros r I; now apply KA|]. split; [apply Forall_forall; intros r I; now apply KB|].
  assert (LL : List.length outA = List.length outB) by (apply (f_equal (@List.length R)) in TT; unfold row_times in TT; now rewrite !map_length in TT).
  split; [exact LL|]. intros l draw fuel r H SU.
  (* pairs of poses at the same time *)
  assert (PAIRS : forall u w, In (u, w) (combine (map transform outA) (map transform outB)) -> unitdq u /\ unitdq w /\
    exists t, near (nA + VA * gA / 2) dA u (pose_of (pathA t)) /\ near (nB + VB * gB / 2) dB w (pose_of (pathB t))).
  { intros u w I. clear - I TT LL KA KB. revert outB TT LL KB I. induction outA as [|ra oA IH]; intros [|rb oB] TT LL KB I; cbn [map combine] in I; try easy.
    cbn [row_times map] in TT. injection TT as T1 T2. destruct I as [I|I].
    - injection I as <- <-. destruct (KA ra (or_introl eq_refl)) as [A1 A2]. destruct (KB rb (or_introl eq_refl)) as [B1 B2].
      split; [now apply transform_unit|]. split; [now apply transform_unit|]. exists (fst ra). split; [exact A2|]. now rewrite T1.
    - apply (IH (fun r' I' => KA r' (or_intror I')) oB); auto. intros r' I'. apply KB. now right. }
  assert (PU : forall path t, rigid path -> unitdq (pose_of (path t))) by (intros path t RI; apply dq_of_unit, RI).
  assert (PT : forall path t, rigid path -> trans_of (pose_of (path t)) = fst (path t)) by (intros path t RI; apply trans_dq_of, RI).
  assert (LM : List.length (map transform outA) = List.length (map transform outB)) by now rewrite !map_length.
  assert (UL : Forall (fun p => unitdq (fst p) /\ unitdq (snd p)) l).
  { apply Forall_forall. intros p I. destruct (in_from_first _ _ _ LM I) as (d0 & e0 & d1 & e1 & I0 & _ & _ & I1 & ->).
    destruct (PAIRS _ _ I0) as (U1 & U2 & _). destruct (PAIRS _ _ I1) as (U3 & U4 & _). cbn [fst snd].
    split; apply rflip_unit, unitdq_mul; auto using unitdq_inv. }
  apply (C86_ransac svd draw cfg l fuel r rtol tp to x a d b e); auto.
  intros p0 p I0 I. destruct (in_from_first _ _ _ LM I0) as (d0 & e0 & d1 & e1 & J0 & N1 & N2 & J1 & ->).
  destruct (in_from_first _ _ _ LM I) as (d0' & e0' & d2 & e2 & _ & N1' & N2' & J2 & ->).
  rewrite N1 in N1'. rewrite N2 in N2'. injection N1' as <-. injection N2' as <-.
  destruct (PAIRS _ _ J0) as (U1 & U2 & _). destruct (PAIRS _ _ J1) as (U3 & U4 & s & S1 & S2). destruct (PAIRS _ _ J2) as (U5 & U6 & t & T1 & T2).
  apply (measured_pm x a d b e (dqmul (dqconj d1) d2) (dqmul (dqconj e1) e2)).
  { unfold hand_motion. cbn [fst]. now apply rebased. }
  { unfold eye_motion. cbn [snd]. now apply rebased. }
  exists (moved pathA s t), (moved pathB s t).
  split; [apply unitdq_mul; auto using unitdq_conj|]. split; [apply unitdq_mul; auto using unitdq_conj|]. split; [apply AT|].
  split; apply near_motion; auto; rewrite !PT by easy; [apply WIA|apply WIB].
Qed.

(** ** The hypotheses are met: a rig that moves along a circle and turns about two axes *)
(** the path of a sensor attached at x *)
Definition follow (x : rdq) (path : R -> rv * rq) (t : R) : rv * rq :=
  (vadd (fst (path t)) (hrot (snd (path t)) (trans_of x)), hmul (snd (path t)) (dr x)).
Lemma follow_pose x path t : unitdq x -> unitq (snd (path t)) -> pose_of (follow x path t) = dqmul (pose_of (path t)) x.
Proof.
  intros U V. unfold pose_of, follow. cbn [fst snd].
  assert (UP : unitdq (dq_of (snd (path t)) (fst (path t)))) by now apply dq_of_unit.
  rewrite <- (dq_of_trans (dqmul (dq_of (snd (path t)) (fst (path t))) x)) by now apply unitdq_mul.
  rewrite trans_of_mul by (try apply U; exact V). rewrite trans_dq_of by easy. cbn [dqmul dq_of dr]. f_equal.
  destruct (fst (path t)), (hrot (snd (path t)) (trans_of x)). apply rv_eq; specu; ring.
Qed.
Lemma follow_rigid x path : unitdq x -> rigid path -> rigid (follow x path).
Proof. intros [U _] R t. unfold follow, unitq. cbn [snd]. rewrite hnorm2_mul. rewrite (R t), U. ring. Qed.
Lemma follow_attached x path : unitdq x -> rigid path -> attached x path (follow x path).
Proof.
  intros U R s t. left. unfold moved. rewrite !follow_pose by auto.
  assert (CM : forall u v, dqconj (dqmul u v) = dqmul (dqconj v) (dqconj u)).
  { intros [[[] ?] [[] ?]] [[[] ?] [[] ?]]. unfold dqconj, dqmul. apply rdq_eq; cbn [dr dd]; apply rq_eq; specu; ring. }
  rewrite CM. rewrite !dqmul_assoc. rewrite <- (dqmul_assoc x). rewrite <- (unitdq_inv_conj x) by easy. rewrite dqmul_inv_r by now apply unitdq_n2.
  now rewrite dqmul_1_l.
Qed.
Lemma turned_mul_r d p q r : hnorm r = 1 -> turned d p q -> turned d (hmul p r) (hmul q r).
Proof.
  intros N [H|H]; [left; rewrite dist_mul_r, N; lra|right].
  replace (hneg (hmul q r)) with (hmul (hneg q) r) by (destruct q as [[] ?], r as [[] ?]; apply rq_eq; specu; ring). rewrite dist_mul_r, N. lra.
Qed.
Lemma turned_rot d p q v : unitq p -> unitq q -> turned d p q -> len3 (vsub (hrot p v) (hrot q v)) <= 2 * d * len3 v.
Proof.
  intros U V [H|H]; pose proof (len3_pos v).
  - pose proof (hrot_near p q v U V). nra.
  - assert (VN : unitq (hneg q)) by (unfold unitq; now rewrite hnorm2_neg). pose proof (hrot_near p (hneg q) v U VN) as K. rewrite hrot_neg in K. nra.
Qed.
Lemma follow_diff x path s t : len3 (vsub (fst (follow x path s)) (fst (follow x path t))) <=
  len3 (vsub (fst (path s)) (fst (path t))) + len3 (vsub (hrot (snd (path s)) (trans_of x)) (hrot (snd (path t)) (trans_of x))).
Proof.
  unfold follow. cbn [fst]. set (a := fst (path s)). set (b := fst (path t)). set (c := hrot _ _). set (d := hrot _ _).
  replace (vsub (vadd a c) (vadd b d)) with (vadd (vsub a b) (vsub c d)) by (clear; destruct a, b, c, d; apply rv_eq; specu; ring). apply len3_triangle.
Qed.
Lemma follow_steady V W x path : unitdq x -> rigid path -> steady V W path -> steady (V + 2 * W * len3 (trans_of x)) W (follow x path).
Proof.
  intros U R S s t. destruct (S s t) as [A B]. split.
  - pose proof (follow_diff x path s t) as F. pose proof (turned_rot _ _ _ (trans_of x) (R s) (R t) B) as G.
    replace ((V + 2 * W * len3 (trans_of x)) * Rabs (s - t)) with (V * Rabs (s - t) + 2 * (W * Rabs (s - t)) * len3 (trans_of x)) by ring. lra.
  - unfold follow. cbn [snd]. apply turned_mul_r; [apply unit_hnorm, U|exact B].
Qed.
Lemma follow_within D x path : rigid path -> within D path -> within (D + 2 * len3 (trans_of x)) (follow x path).
Proof.
  intros R W s t. pose proof (follow_diff x path s t) as F. pose proof (W s t) as G.
  pose proof (len3_triangle (hrot (snd (path s)) (trans_of x)) (vscale (-1) (hrot (snd (path t)) (trans_of x)))) as T.
  set (c := hrot (snd (path s)) (trans_of x)) in *. set (d := hrot (snd (path t)) (trans_of x)) in *.
  replace (vadd c (vscale (-1) d)) with (vsub c d) in T by (clear; destruct c, d; apply rv_eq; specu; ring).
  assert (LN : len3 (vscale (-1) d) = len3 d) by (unfold len3; f_equal; clear; destruct d; specu; ring).
  assert (LC : len3 c = len3 (trans_of x)) by (apply hrot_len, R). assert (LD : len3 d = len3 (trans_of x)) by (apply hrot_len, R). lra.
Qed.

Lemma chord_le a b : (cos a - cos b) * (cos a - cos b) + (sin a - sin b) * (sin a - sin b) <= (a - b) * (a - b).
Proof.
  assert (E : (cos a - cos b) * (cos a - cos b) + (sin a - sin b) * (sin a - sin b) = 2 - 2 * cos (a - b)).
  { rewrite cos_minus. pose proof (sin2_cos2 a) as A. pose proof (sin2_cos2 b) as B. unfold Rsqr in *. lra. }
  rewrite E. set (h := (a - b) / 2). replace (a - b) with (2 * h) by (unfold h; field). rewrite cos_2a_sin.
  assert (G : sin h * sin h <= h * h); [|lra].
  assert (P : forall y, 0 < y -> - y <= sin y <= y).
  { intros y Y. split; [|now left; apply sin_lt_x]. destruct (Rle_dec y PI) as [L|L]; [pose proof (sin_ge_0 y); lra|].
    pose proof (SIN_bound y). pose proof PI2_1. lra. }
  destruct (Rtotal_order h 0) as [L|[L|L]].
  - destruct (P (- h)) as [P1 P2]; [lra|]. rewrite sin_neg in P1, P2. nra.
  - rewrite L, sin_0. lra.
  - destruct (P h L). nra.
Qed.
Definition turn_z (t : R) : rq := RQ (RV 0 0 (sin t)) (cos t).
Definition turn_x (t : R) : rq := RQ (RV (sin t) 0 0) (cos t).
Lemma turn_z_unit t : unitq (turn_z t). Proof. unfold unitq, turn_z. specu. pose proof (sin2_cos2 t). unfold Rsqr in *. lra. Qed.
Lemma turn_x_unit t : unitq (turn_x t). Proof. unfold unitq, turn_x. specu. pose proof (sin2_cos2 t). unfold Rsqr in *. lra. Qed.
Lemma sqrt_below u v : 0 <= u -> u <= v * v -> sqrt u <= Rabs v.
Proof. intros U H. rewrite <- sqrt_Rsqr_abs. apply sqrt_le_1_alt. exact H. Qed.
Lemma turn_z_dist s t : dist (turn_z s) (turn_z t) <= Rabs (s - t).
Proof. unfold dist, hnorm. apply sqrt_below; [apply hnorm2_pos|]. unfold turn_z. specu. pose proof (chord_le s t). lra. Qed.
Lemma turn_x_dist s t : dist (turn_x s) (turn_x t) <= Rabs (s - t).
Proof. unfold dist, hnorm. apply sqrt_below; [apply hnorm2_pos|]. unfold turn_x. specu. pose proof (chord_le s t). lra. Qed.
(** one metre per second along the unit circle, turning about two axes *)
Definition orbit (t : R) : rv * rq := (RV (cos t) (sin t) 0, hmul (turn_z (t / 2)) (turn_x (t / 2))).
Lemma orbit_rigid : rigid orbit.
Proof. intros t. unfold orbit, unitq. cbn [snd]. rewrite hnorm2_mul, turn_z_unit, turn_x_unit. ring. Qed.
Lemma orbit_steady : steady 1 1 orbit.
Proof.
  intros s t. unfold orbit. cbn [fst snd]. split.
  - rewrite Rmult_1_l. unfold len3. apply sqrt_below; specu; pose proof (chord_le s t); [|lra].
    pose proof (Rle_0_sqr (cos s - cos t)) as A. pose proof (Rle_0_sqr (sin s - sin t)) as B. unfold Rsqr in *. lra.
  - left. rewrite Rmult_1_l.
    pose proof (dist_triangle (hmul (turn_z (s / 2)) (turn_x (s / 2))) (hmul (turn_z (t / 2)) (turn_x (s / 2))) (hmul (turn_z (t / 2)) (turn_x (t / 2)))) as T.
    rewrite dist_mul_r, dist_mul_l in T. rewrite (proj1 (unit_hnorm _) (turn_x_unit _)), (proj1 (unit_hnorm _) (turn_z_unit _)) in T.
    pose proof (turn_z_dist (s / 2) (t / 2)) as A. pose proof (turn_x_dist (s / 2) (t / 2)) as B.
    replace (s / 2 - t / 2) with ((s - t) * / 2) in A, B by field. rewrite Rabs_mult, (Rabs_pos_eq (/ 2)) in A, B by lra. lra.
Qed.
Lemma orbit_within : within 2 orbit.
Proof.
  intros s t. unfold orbit. cbn [fst snd]. unfold len3. rewrite <- (sqrt_square 2) by lra. apply sqrt_le_1_alt. specu.
  pose proof (sin2_cos2 s) as A. pose proof (sin2_cos2 t) as B. unfold Rsqr in *.
  pose proof (Rle_0_sqr (cos s + cos t)) as C. pose proof (Rle_0_sqr (sin s + sin t)) as D. unfold Rsqr in *. nra.
Qed.
(** poses at the times t0, t0 + 1/10, ... *)
Definition sampled (path : R -> rv * rq) (t0 : R) (n : nat) : list row := map (fun k => (t0 + INR k / 10, path (t0 + INR k / 10))) (seq 0 n).
Lemma sampled_time path t0 n i a : nth_error (row_times (sampled path t0 n)) i = Some a -> a = t0 + INR i / 10.
Proof.
  unfold row_times, sampled. rewrite map_map. cbn [fst]. rewrite nth_error_map. intros E.
  destruct (nth_error (seq 0 n) i) as [k|] eqn:K; [|discriminate E]. cbn in E. injection E as <-.
  assert (L : (i < n)%nat) by (rewrite <- (seq_length n 0); apply nth_error_Some; congruence).
  apply (nth_error_nth _ _ 0%nat) in K. rewrite seq_nth in K by easy. subst. reflexivity.
Qed.
Lemma sampled_sorted path t0 n : sorted (row_times (sampled path t0 n)).
Proof. intros i j a b L A B. apply sampled_time in A, B. subst. apply le_INR in L. lra. Qed.
Lemma sampled_steps path t0 n : steps (1 / 10) (row_times (sampled path t0 n)).
Proof. intros i a b A B. apply sampled_time in A, B. subst. rewrite S_INR. left. lra. Qed.
Lemma sampled_recorded path t0 n : Forall (recorded 0 0 path) (sampled path t0 n).
Proof.
  apply Forall_forall. intros r I. unfold sampled in I. apply in_map_iff in I as (k & <- & _). unfold recorded. cbn [fst snd]. set (p := path _). split.
  - replace (vsub (fst p) (fst p)) with (RV 0 0 0) by (destruct (fst p); apply rv_eq; specu; ring). rewrite len3_zero. lra.
  - apply turned_refl. lra.
Qed.
Lemma sampled_units path t0 n : rigid path -> Forall unitq (row_quats (sampled path t0 n)).
Proof. intros R. unfold row_quats, sampled. rewrite map_map, Forall_map. apply Forall_forall. intros k _. apply R. Qed.

Example C88_example : forall (x : rdq) (n : nat), unitdq x -> (2 <= n)%nat ->
  let A := sampled orbit 0 n in let B := sampled (follow x orbit) (1 / 20) n in
  A <> [] /\ B <> [] /\ sorted (row_times A) /\ sorted (row_times B) /\ Forall unitq (row_quats A) /\ Forall unitq (row_quats B) /\
  steady 1 1 orbit /\ steady (1 + 2 * 1 * len3 (trans_of x)) 1 (follow x orbit) /\ steps (1 / 10) (row_times A) /\ steps (1 / 10) (row_times B) /\
  Forall (recorded 0 0 orbit) (shift_rows 0 A) /\ Forall (recorded 0 0 (follow x orbit)) B /\
  rigid orbit /\ rigid (follow x orbit) /\ within 2 orbit /\ within (2 + 2 * len3 (trans_of x)) (follow x orbit) /\ attached x orbit (follow x orbit).
Proof.
  intros x n U L A B. pose proof orbit_rigid as OR. pose proof (follow_rigid x orbit U OR) as FR.
  split; [unfold A; destruct n; [lia|discriminate]|]. split; [unfold B; destruct n; [lia|discriminate]|].
  split; [apply sampled_sorted|]. split; [apply sampled_sorted|]. split; [now apply sampled_units|]. split; [now apply sampled_units|].
  split; [apply orbit_steady|]. split; [apply follow_steady; auto using orbit_steady|]. split; [apply sampled_steps|]. split; [apply sampled_steps|].
  split. { replace (shift_rows 0 A) with A; [apply sampled_recorded|]. unfold shift_rows. rewrite <- (map_id A) at 1. apply map_ext. intros [t r]. cbn [fst snd]. f_equal. ring. }
  split; [apply sampled_recorded|]. split; [easy|]. split; [easy|]. split; [apply orbit_within|]. split; [now apply follow_within, orbit_within|].
  now apply follow_attached.
Qed.
