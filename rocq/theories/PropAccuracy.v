(** * Property C86: how near the calibration that is returned is to the true one when the poses are measured with noise. *)

From Coq Require Import Reals ZArith Bool List Lra Lia Psatz.
From Verif Require Import Num Py XReal XFacts Quat DualQuat HandEye Ransac Spec Embed QuatFacts QuatTrig
  QuatRot PropQuat DualFacts ScrewFacts PropDual ListFacts HandEyeFacts KernelFacts CalibFacts RansacFacts CalibExample
  PropCalib PropEval PropRansac PropPerfect PropComplete FloatQuat StabilityFacts PropStability PropNoRaise PropOutliers.
Import ListNotations.
Local Open Scope R_scope.

(** ** Specification *)
(** two rigid motions whose translations differ by at most a and whose rotations, as unit quaternions up to their signs,
    by at most d (for small d: an angle of 2d) *)
Definition near (a d : R) (g h : rdq) : Prop :=
  len3 (vsub (trans_of g) (trans_of h)) <= a /\ (dist (dr g) (dr h) <= d \/ dist (dr g) (hneg (dr h)) <= d).
(** the motions from the poses p0 to the poses p *)
Definition hand_motion (p0 p : rdq * rdq) : rdq := dqmul (dqconj (fst p0)) (fst p).
Definition eye_motion (p0 p : rdq * rdq) : rdq := dqmul (dqconj (snd p0)) (snd p).
(** hand h and eye e were measured within (a, d) and (b, e) of motions H and E that fit together through x *)
Definition measured (x : rdq) (a d b e : R) (h m : rdq) : Prop :=
  exists H E, unitdq H /\ unitdq E /\ (dqmul H x = dqmul x E \/ dqmul H x = dqneg (dqmul x E)) /\
    near a d h H /\ near b e m E.

(** ** Facts *)
Lemma near_neg_l a d g h : near a d g h -> near a d (dqneg g) h.
Proof.
  intros [A B]. split; [now rewrite trans_of_neg|]. cbn [dqneg dr]. rewrite dist_neg_r, dist_neg. destruct B; auto.
Qed.
Lemma near_pm a d g g' h : (g' = g \/ g' = dqneg g) -> near a d g h -> near a d g' h.
Proof. intros [-> | ->]; [easy|apply near_neg_l]. Qed.
Lemma near_neg_r a d g h : near a d g h -> near a d g (dqneg h).
Proof. intros [A B]. split; [now rewrite trans_of_neg|]. cbn [dqneg dr]. rewrite hneg_neg. tauto. Qed.
Lemma measured_pm x a d b e h m h' m' : (h' = h \/ h' = dqneg h) -> (m' = m \/ m' = dqneg m) -> measured x a d b e h m -> measured x a d b e h' m'.
Proof.
  intros PH PM (H & E & A & B & C & D & F). exists H, E. split; [easy|]. split; [easy|]. split; [easy|].
  split; eapply near_pm; eauto.
Qed.
Lemma hrot_neg q v : hrot (hneg q) v = hrot q v.
Proof. destruct q as [[] ?], v. apply rv_eq; specu; ring. Qed.
Lemma dist_seen x m n : unitdq x -> dist (dr (seen x m)) (dr (seen x n)) = dist (dr m) (dr n).
Proof.
  intros [U _]. unfold seen. cbn [dqmul dqconj dr]. rewrite dist_mul_r, dist_mul_l, hnorm_conj.
  unfold hnorm. rewrite U, sqrt_1. ring.
Qed.
Lemma fits_seen x H E : unitdq x -> (dqmul H x = dqmul x E \/ dqmul H x = dqneg (dqmul x E)) -> H = seen x E \/ H = dqneg (seen x E).
Proof.
  intros U C. assert (R : H = dqmul (dqmul H x) (dqconj x)).
  { rewrite dqmul_assoc, <- unitdq_inv_conj, dqmul_inv_r by auto using unitdq_n2. now rewrite dqmul_1_r. }
  destruct C as [C|C]; rewrite C in R; [left; exact R|right]. rewrite R. unfold seen. now rewrite dqmul_neg_l.
Qed.
Lemma dist_pm_sym p q r : (dist p q <= r \/ dist p (hneg q) <= r) -> dist q p <= r \/ dist q (hneg p) <= r.
Proof. rewrite (dist_sym p q), (dist_sym p (hneg q)), dist_neg_r. easy. Qed.
(** the true calibration explains what was measured up to the sum of the errors *)
Lemma residual x a d b e h m : unitdq x -> unitdq m -> measured x a d b e h m ->
  near (a + b + 2 * e * len3 (trans_of x)) (d + e) h (seen x m).
Proof.
  intros Ux Um (H & E & UH & UE & C & [A1 A2] & [B1 B2]). apply fits_seen in C; [|easy].
  assert (TH : trans_of H = trans_of (seen x E)) by (destruct C as [-> | ->]; rewrite ?trans_of_neg; easy).
  assert (DH : dist (dr h) (dr (seen x E)) <= d \/ dist (dr h) (hneg (dr (seen x E))) <= d).
  { destruct C as [-> | ->]; [exact A2|]. cbn [dqneg dr] in A2. rewrite hneg_neg in A2. tauto. }
  assert (DE : dist (dr (seen x m)) (dr (seen x E)) <= e \/ dist (dr (seen x m)) (hneg (dr (seen x E))) <= e).
  { rewrite dist_seen by easy. destruct B2 as [B2|B2]; [now left|right].
    replace (hneg (dr (seen x E))) with (dr (seen x (dqneg E))); [now rewrite dist_seen|].
    unfold seen. rewrite dqmul_neg_r, dqmul_neg_l. reflexivity. }
  split.
  - rewrite TH in A1. pose proof (seen_unit x m Ux Um) as [Us _]. pose proof (seen_unit x E Ux UE) as [Us' _].
    set (Q := dr (seen x m)) in *. set (Q' := dr (seen x E)) in *.
    assert (RT : len3 (vsub (hrot Q' (trans_of x)) (hrot Q (trans_of x))) <= 2 * e * len3 (trans_of x)).
    { pose proof (len3_pos (trans_of x)) as L0. rewrite len3_sym. destruct DE as [DE|DE].
      - pose proof (hrot_near Q Q' (trans_of x) Us Us'). nra.
      - rewrite <- (hrot_neg Q'). pose proof (hrot_near Q (hneg Q') (trans_of x) Us). 
        assert (unitq (hneg Q')) by (unfold unitq; now rewrite hnorm2_neg). specialize (H0 H1). nra. }
    assert (TE : len3 (vsub (hrot (dr x) (trans_of E)) (hrot (dr x) (trans_of m))) <= b).
    { replace (vsub (hrot (dr x) (trans_of E)) (hrot (dr x) (trans_of m))) with (hrot (dr x) (vsub (trans_of E) (trans_of m)))
        by (destruct (dr x) as [[] ?], (trans_of E), (trans_of m); apply rv_eq; specu; ring).
      rewrite hrot_len by apply Ux. now rewrite len3_sym. }
    replace (vsub (trans_of h) (trans_of (seen x m))) with
      (vadd (vadd (vsub (trans_of h) (trans_of (seen x E))) (vsub (hrot (dr x) (trans_of E)) (hrot (dr x) (trans_of m))))
            (vsub (hrot Q (trans_of x)) (hrot Q' (trans_of x)))).
    2: { rewrite !seen_trans by easy. fold Q Q'.
         destruct (trans_of h), (hrot (dr x) (trans_of E)), (hrot (dr x) (trans_of m)), (hrot Q (trans_of x)), (hrot Q' (trans_of x)), (trans_of x).
         apply rv_eq; specu; ring. }
    rewrite len3_sym in RT.
    match goal with |- len3 (vadd (vadd ?p ?q) ?r) <= _ => pose proof (len3_triangle (vadd p q) r); pose proof (len3_triangle p q) end. lra.
  - apply (near_both (dr h) (dr (seen x m)) (dr (seen x E)) d e); now apply dist_pm_sym.
Qed.

(** ** C86: the errors reported for the true calibration *)
Lemma rms_le l t : l <> [] -> Forall (fun x => 0 <= x <= t) l -> rms l <= t.
Proof.
  intros NE F. apply le_epsilon. intros eps P. left. apply rms_lt; [easy|]. eapply Forall_impl; [|exact F]. cbv beta. intros; lra.
Qed.
(** the angle of a rotation from the length of the chord *)
Lemma chord_angle p q d : unitq p -> unitq q -> 0 <= d <= 2 -> (dist p q <= d \/ dist p (hneg q) <= d) ->
  acos (Rabs (hdot p q)) <= 2 * asin (d / 2).
Proof.
  intros Up Uq [D0 D2] H. pose proof (unit_dot_bound p q Up Uq) as B.
  set (k := Rabs (hdot p q)). assert (K : 0 <= k <= 1) by (unfold k, Rabs; destruct (Rcase_abs _); lra).
  assert (G : 1 - d * d / 2 <= k).
  { assert (T : forall r, unitq r -> dist p r <= d -> 2 - 2 * hdot p r <= d * d).
    { intros r Ur L. assert (F : hnorm2 (hsub p r) = hnorm2 p + hnorm2 r - 2 * hdot p r) by (destruct p as [[] ?], r as [[] ?]; specu; ring).
      unfold unitq in *. rewrite Up, Ur in F. assert (N0 : 0 <= hnorm2 (hsub p r)) by (destruct (hsub p r) as [[] ?]; specu; nra).
      unfold dist, hnorm in L. pose proof (sqrt_pos (hnorm2 (hsub p r))). pose proof (sqrt_sqrt _ N0). nra. }
    unfold k. destruct H as [H|H].
    - specialize (T q Uq H). pose proof (Rle_abs (hdot p q)). lra.
    - assert (Un : unitq (hneg q)) by (unfold unitq; now rewrite hnorm2_neg). specialize (T _ Un H).
      assert (E : hdot p (hneg q) = - hdot p q) by (destruct p as [[] ?], q as [[] ?]; specu; ring). rewrite E in T.
      pose proof (Rle_abs (- hdot p q)) as L. rewrite Rabs_Ropp in L. lra. }
  pose proof (asin_bound (d / 2)) as AB. pose proof PI_RGT_0 as PP.
  assert (A0 : 0 <= asin (d / 2)).
  { destruct (Rle_dec 0 (asin (d / 2))) as [L|L]; [easy|]. exfalso.
    assert (S : sin (asin (d / 2)) < sin 0) by (apply sin_increasing_1; lra). rewrite sin_asin, sin_0 in S by lra. lra. }
  destruct (Rle_dec (acos k) (2 * asin (d / 2))) as [L|L]; [easy|]. exfalso. apply Rnot_le_lt in L. pose proof (acos_bound k) as AK.
  assert (S : cos (acos k) < cos (2 * asin (d / 2))) by (apply cos_decreasing_1; lra).
  rewrite cos_acos, cos_2a_sin, sin_asin in S by lra. nra.
Qed.

Theorem C86_true_errors : forall (cfg : config XR) (tp to : R) (x h0 e0 : rdq) (rest : list (rdq * rdq)) (a d b e : R),
  let l := (h0, e0) :: rest in
  ransac_position_error_threshold_m cfg = Fin tp -> ransac_orientation_error_threshold_deg cfg = Fin to ->
  unitdq x -> Forall (fun p => unitdq (fst p) /\ unitdq (snd p)) l ->
  Forall (fun p => measured x a d b e (fst p) (dqmul (dqconj e0) (snd p))) l ->
  exists rp ro, reported cfg l x rp ro /\
    0 <= rp <= a + b + 2 * e * len3 (trans_of x) /\ 0 <= ro /\ (d + e <= 2 -> ro <= 4 * asin ((d + e) / 2) * (180 / PI)).
Proof.
  intros cfg tp to x h0 e0 rest a d b e l Tp To Ux H ME.
  destruct (aligned_poses x l h0 e0 rest Ux H eq_refl) as (z & GA & Z).
  assert (US : forall p, In p l -> unitdq (dqmul (dqconj e0) (snd p))).
  { intros p I. rewrite Forall_forall in H. assert (J : In (h0, e0) l) by now left. apply unitdq_mul; [|apply (H p I)]. apply unitdq_conj, (H _ J). }
  assert (UZ : forall p, In p l -> unitq (dr (z p))).
  { intros p I. assert (Q : unitdq (z p)); [|apply Q]. apply (pm_unit _ (seen x (dqmul (dqconj e0) (snd p)))); [|now apply Z]. now apply seen_unit; auto. }
  assert (UF : forall p, In p l -> unitq (dr (fst p))) by (intros p I; rewrite Forall_forall in H; apply (H p I)).
  assert (GP : forall q, unitq q -> 1 / 100000000 < hnorm (pos_w q)).
  { intros q U. unfold hnorm. rewrite (pos_unit q U), sqrt_1. lra. }
  set (f := fun p : rdq * rdq => (trans_of (fst p), pos_w (dr (fst p)))) in *.
  set (k := fun p : rdq * rdq => (trans_of (z p), pos_w (dr (z p)))) in *.
  assert (G1 : Forall good_pose (map f l)) by (rewrite Forall_map, Forall_forall; intros p I; apply GP; auto).
  assert (G2 : Forall good_pose (map k l)) by (rewrite Forall_map, Forall_forall; intros p I; apply GP; auto).
  destruct (C31_evaluate cfg tp to (map f l) (map k l)) as (es & fl & F & EV & _ & PO & LE); auto; [now rewrite !map_length|discriminate|].
  exists (rms (map fst es)), (rms (map snd es)). split; [now exists (hands l), (poses (map f l)), (poses (map k l)), fl|].
  assert (NE : es <> []) by (intros ->; discriminate LE).
  assert (N1 : forall g : R * R -> R, map g es <> []) by (intros g E; apply map_eq_nil in E; easy).
  assert (EACH : Forall (fun r => fst r <= a + b + 2 * e * len3 (trans_of x) /\ (d + e <= 2 -> snd r <= 4 * asin ((d + e) / 2) * (180 / PI))) es).
  { clear EV PO LE NE N1. assert (SUB : incl l l) by easy. revert SUB F. generalize l at 1 3 4. intros l1. revert es.
    induction l1 as [|p l1 IH]; intros es SUB F; cbn [map combine] in F; inversion F as [|? r ? es' F1 F2]; subst; constructor.
    2: { apply IH; [intros y I; apply SUB; now right|easy]. }
    assert (I : In p l) by (apply SUB; now left). clear IH SUB F F2.
    unfold errors_of in F1. cbn [fst snd f k] in F1.
    destruct (C30_pose_error (trans_of (fst p)) (trans_of (z p)) (pos_w (dr (fst p))) (pos_w (dr (z p)))) as (dd & C & D & D1 & D2 & _); auto.
    rewrite C in F1. injection F1 as F1 F2. rewrite <- F1, <- F2.
    rewrite Forall_forall in ME. destruct (residual x a d b e _ _ Ux (US p I) (ME p I)) as [RT RR].
    set (s := seen x (dqmul (dqconj e0) (snd p))) in *.
    assert (TZ : trans_of (z p) = trans_of s) by (destruct (Z p I) as [-> | ->]; [easy|apply trans_of_neg]).
    rewrite TZ. split; [exact RT|]. intros DE.
    assert (UZs : unitq (dr s)) by (apply seen_unit; auto).
    assert (ES : Rabs (hdot (canon (pos_w (dr (fst p)))) (canon (pos_w (dr (z p))))) = Rabs (hdot (dr (fst p)) (dr s))).
    { apply hdot_neg_both; [apply canon_pos; auto|].
      destruct (canon_pos _ (UZ p I)) as [-> | ->]; destruct (Z p I) as [-> | ->]; cbn [dqneg dr]; rewrite ?hneg_neg; auto. }
    assert (DE0 : 0 <= d + e).
    { destruct RR as [RR|RR]; (eapply Rle_trans; [|exact RR]); apply sqrt_pos. }
    pose proof (chord_angle _ _ (d + e) (UF p I) UZs (conj DE0 DE) RR) as CA. pose proof PI_RGT_0 as PP.
    assert (KP : 0 < 180 / PI) by (apply Rdiv_lt_0_compat; lra).
    assert (GE : geodesic (pos_w (dr (fst p))) (pos_w (dr (z p))) <= 4 * asin ((d + e) / 2) * (180 / PI)).
    { unfold geodesic. rewrite ES. nra. }
    destruct (close_dec (canon (pos_w (dr (fst p)))) (canon (pos_w (dr (z p))))) as [CL|CL]; [|rewrite (D1 CL); exact GE].
    rewrite (D2 CL). pose proof (acos_bound (Rabs (hdot (dr (fst p)) (dr s)))). nra. }
  rewrite Forall_forall in EACH, PO.
  split; [split; [apply sqrt_pos|]|split; [apply sqrt_pos|]].
  - apply rms_le; auto. rewrite Forall_map, Forall_forall. intros r I. split; [apply PO|apply EACH]; easy.
  - intros DE. apply rms_le; auto. rewrite Forall_map, Forall_forall. intros r I. split; [apply PO|apply EACH]; easy.
Qed.

(** ** Only the rotation and the translation of a calibration matter *)
(** the rigid motion with the rotation and the translation of x: the part of the dual quaternion along its rotation is dropped *)
Definition proper (x : rdq) : rdq := RD (dr x) (hsub (dd x) (hscale (hdot (dr x) (dd x)) (dr x))).
Definition central (s : R) : rdq := RD hone (hscale s hone).
Lemma proper_central x : proper x = dqmul (central (- hdot (dr x) (dd x))) x.
Proof. destruct x as [[[] ?] [[] ?]]. unfold proper, central, dqmul. apply rdq_eq; cbn [dr dd]; apply rq_eq; specu; ring. Qed.
Lemma proper_dr x : dr (proper x) = dr x.
Proof. reflexivity. Qed.
Lemma proper_trans x : trans_of (proper x) = trans_of x.
Proof. destruct x as [[[] ?] [[] ?]]. unfold proper. apply rv_eq; specu; ring. Qed.
Lemma proper_unit x : unitq (dr x) -> unitdq (proper x).
Proof.
  intros U. split; [exact U|]. unfold proper; cbn [dr dd].
  replace (hdot (dr x) (hsub (dd x) (hscale (hdot (dr x) (dd x)) (dr x)))) with (hdot (dr x) (dd x) * (1 - hnorm2 (dr x)))
    by (destruct x as [[[] ?] [[] ?]]; specu; ring).
  rewrite U. ring.
Qed.
Lemma central_comm s a : dqmul (central s) a = dqmul a (central s).
Proof. destruct a as [[[] ?] [[] ?]]. unfold central, dqmul. apply rdq_eq; cbn [dr dd]; apply rq_eq; specu; ring. Qed.
Lemma central_dr s a : dr (dqmul (central s) a) = dr a.
Proof. destruct a as [[[] ?] [[] ?]]. unfold central, dqmul. cbn [dr]; apply rq_eq; specu; ring. Qed.
Lemma central_inv s a : dqmul (central (- s)) (dqmul (central s) a) = a.
Proof. destruct a as [[[] ?] [[] ?]]. unfold central, dqmul. apply rdq_eq; cbn [dr dd]; apply rq_eq; specu; ring. Qed.
Lemma central_dqinv s a : hnorm2 (dr a) <> 0 -> dqinv (dqmul (central s) a) = dqmul (central (- s)) (dqinv a).
Proof.
  intros N. set (b := dqmul (central s) a).
  assert (NB : hnorm2 (dr b) <> 0) by (unfold b; now rewrite central_dr).
  rewrite <- (dqmul_1_l (dqmul (central (- s)) (dqinv a))), <- (dqmul_inv_l b NB), dqmul_assoc.
  assert (E : dqmul b (dqmul (central (- s)) (dqinv a)) = dqone).
  { rewrite <- dqmul_assoc, <- central_comm. unfold b. rewrite central_inv. now apply dqmul_inv_r. }
  rewrite E. destruct (dqinv b) as [[[] ?] [[] ?]]. unfold dqone, dqmul. apply rdq_eq; cbn [dr dd]; apply rq_eq; specu; ring.
Qed.
Lemma central_cancel s a b : hnorm2 (dr a) <> 0 -> dqmul (dqinv (dqmul (central s) a)) (dqmul (central s) b) = dqmul (dqinv a) b.
Proof.
  intros N. rewrite central_dqinv by easy. rewrite dqmul_assoc.
  assert (E : dqmul (dqinv a) (dqmul (central s) b) = dqmul (central s) (dqmul (dqinv a) b)).
  { rewrite <- dqmul_assoc, <- (central_comm s (dqinv a)). apply dqmul_assoc. }
  rewrite E. apply central_inv.
Qed.

(** the poses compared, written out *)
Definition inv_pos (x : rdq) : rdq := if Rlt_dec (qs (dr (dqinv x))) 0 then dqneg (dqinv x) else dqinv x.
Definition seen_from (y : rdq) (p : rdq * rdq) : rdq :=
  let u := dqmul (snd p) y in if Rlt_dec (qs (dr u) * qs (dr (fst p))) 0 then dqneg u else u.
Lemma aligned_form x p0 rest (l := p0 :: rest) : unitq (dr x) -> Forall unit_pair l ->
  get_aligned_poses (hands l) (eyes l) (inD x) =
    Ok (hands l, map (fun p => inP (trans_of (fst p)) (pos_w (dr (fst p)))) l,
        map (fun p => let z := rflip (dqmul (dqinv (seen_from (inv_pos x) p0)) (seen_from (inv_pos x) p)) in inP (trans_of z) (pos_w (dr z))) l).
Proof.
  intros Ux H. set (y := inv_pos x).
  assert (Uy : unitq (dr y)) by (unfold y, inv_pos; destruct (Rlt_dec _ _); auto using uq_neg, uq_inv).
  assert (Ey : bind (dinv (inD x)) (fun d => enforce_positive_w (dnormalize d)) = Ok (inD y)).
  { rewrite dinv_big by now apply uq_tiny. cbn [bind]. rewrite uq_dnormalize by now apply uq_inv.
    rewrite enforce_in by (apply uq_tiny; now apply uq_inv). reflexivity. }
  clearbody y.
  set (g := seen_from y).
  assert (Ug : forall p, In p l -> unitq (dr (g p))).
  { intros p I. rewrite Forall_forall in H. destruct (H p I). unfold g, seen_from. cbv zeta. destruct (Rlt_dec _ _); auto using uq_neg, uq_mul. }
  assert (FP : for_pairs (fun b v => let w_h := dnormalize (dmul v (inD y)) in
                Ok (if opposite_signs w_h b then dneg w_h else w_h)) (hands l) (eyes l)
             = Ok (map (fun p => inD (g p)) l)).
  { rewrite (for_pairs_in _ (fun b v => inD (g (b, v))) l).
    - reflexivity.
    - intros p I. rewrite Forall_forall in H.
      destruct (H p I) as (U1 & U2). rewrite dmul_in, uq_dnormalize by auto using uq_mul.
      cbv zeta. f_equal. unfold g, seen_from. cbv zeta. cbn [fst snd].
      pose proof (opposite_in (dqmul (snd p) y) (fst p)) as O.
      destruct (opposite_signs _ _), (Rlt_dec _ _) as [R|R]; try easy.
      + apply dneg_in.
      + destruct R. now apply O.
      + apply O in R. discriminate R. }
  set (m := map g l).
  assert (M0 : nth_error m 0 = Some (g p0)) by reflexivity.
  assert (U0 : unitq (dr (g p0))) by (apply (Ug p0); now left).
  set (z := fun p : rdq * rdq => rflip (dqmul (dqinv (g p0)) (g p))).
  assert (Uz : forall p, In p l -> unitq (dr (z p))) by (intros p I; unfold z; auto using uq_flip, uq_mul, uq_inv).
  assert (AL : align_paths_at_index (map (fun p => inD (g p)) l) 0 = Ok (map (fun p => inD (z p)) l)).
  { replace (map (fun p => inD (g p)) l) with (map inD m) by (unfold m; now rewrite map_map).
    rewrite (align_in m 0 _ M0) by now apply uq_tiny. rewrite rotl_0. f_equal. unfold m, z.
    rewrite !map_map. reflexivity. }
  unfold get_aligned_poses. rewrite assert_true by (unfold hands, eyes; rewrite !map_length; apply Nat.eqb_refl).
  destruct (dinv (inD x)) as [d|]; [|discriminate Ey]. cbn [bind] in Ey. cbn [bind]. rewrite Ey. cbn [bind].
  cbv zeta in FP. rewrite FP. cbn [bind]. rewrite AL. cbn [bind]. unfold hands. rewrite !map_map. cbn [fst snd].
  assert (TP : forall p, In p l -> to_pose (inD (fst p)) = (inD (fst p), inP (trans_of (fst p)) (pos_w (dr (fst p))))).
  { intros p I. rewrite Forall_forall in H. apply uq_to_pose, (H p I). }
  assert (TZ : forall p, In p l -> to_pose (inD (z p)) = (inD (z p), inP (trans_of (z p)) (pos_w (dr (z p))))).
  { intros p I. now apply uq_to_pose, Uz. }
  f_equal. f_equal; [f_equal|]; apply map_ext_in; intros p I; rewrite ?TP, ?TZ by easy; reflexivity.
Qed.
Lemma seen_from_central s y p : seen_from (dqmul (central s) y) p = dqmul (central s) (seen_from y p).
Proof.
  unfold seen_from. cbv zeta.
  assert (E : dqmul (snd p) (dqmul (central s) y) = dqmul (central s) (dqmul (snd p) y)).
  { rewrite <- dqmul_assoc, <- (central_comm s (snd p)). apply dqmul_assoc. }
  rewrite E, central_dr. destruct (Rlt_dec _ _); [|easy]. now rewrite dqmul_neg_r.
Qed.
(** a calibration and the rigid motion with its rotation and translation give the same poses to compare *)
Lemma aligned_proper x l : l <> [] -> unitq (dr x) -> Forall unit_pair l ->
  get_aligned_poses (hands l) (eyes l) (inD x) = get_aligned_poses (hands l) (eyes l) (inD (proper x)).
Proof.
  intros NE U H. destruct l as [|p0 rest]; [easy|]. rewrite !aligned_form by easy. f_equal. f_equal. apply map_ext_in. intros p I.
  set (s := hdot (dr x) (dd x)).
  assert (EI : inv_pos (proper x) = dqmul (central s) (inv_pos x)).
  { unfold inv_pos. rewrite proper_central, central_dqinv, central_dr by now apply uq_n2. fold s. rewrite Ropp_involutive.
    destruct (Rlt_dec _ _); [|easy]. now rewrite dqmul_neg_r. }
  assert (Uy : unitq (dr (inv_pos x))) by (unfold inv_pos; destruct (Rlt_dec _ _); auto using uq_neg, uq_inv).
  assert (U0 : unitq (dr (seen_from (inv_pos x) p0))).
  { rewrite Forall_forall in H. destruct (H p0 (or_introl eq_refl)). unfold seen_from. cbv zeta. destruct (Rlt_dec _ _); auto using uq_neg, uq_mul. }
  rewrite EI, !seen_from_central, central_cancel by now apply uq_n2. reflexivity.
Qed.
Lemma reported_proper (cfg : config XR) l x rp ro : l <> [] -> unitq (dr x) -> Forall unit_pair l -> reported cfg l x rp ro -> reported cfg l (proper x) rp ro.
Proof. intros NE U H (b' & pb & pw & fl & G & E). exists b', pb, pw, fl. split; [|exact E]. now rewrite <- aligned_proper. Qed.

(** C80 for candidates whose rotation is a unit quaternion, whatever their dual part is (the form in which calibrations are
    returned, C26). *)
Theorem C80_returned : forall (cfg : config XR) (tp to : R) (x x' : rdq) (h0 e0 : rdq) (rest : list (rdq * rdq))
    (rp ro rp' ro' : R) (p q : rdq * rdq),
  let l := (h0, e0) :: rest in
  ransac_position_error_threshold_m cfg = Fin tp -> ransac_orientation_error_threshold_deg cfg = Fin to ->
  unitq (dr x) -> unitq (dr x') -> Forall (fun p => unitdq (fst p) /\ unitdq (snd p)) l ->
  reported cfg l x rp ro -> reported cfg l x' rp' ro' ->
  In p l -> In q l ->
  let m := dqmul (dqconj e0) (snd p) in let n := dqmul (dqconj e0) (snd q) in
  let N := sqrt (INR (length l)) in
  let rho := (N * (ro + ro') * (PI / 180) + 2 / 10000) / 2 in
  let P := N * (rp + rp') in
  let c := len3 (cross3 (qv (dr m)) (qv (dr n))) in
  rho < 2 * Rabs (qs (dr m)) -> rho < 2 * Rabs (qs (dr n)) ->
  (forall v, c * len3 (vsub (hrot (dr x) v) (hrot (dr x') v)) <= 2 * rho * len3 v) /\
  c * (c * len3 (vsub (trans_of x) (trans_of x')))
    <= c * (P + 2 * rho * len3 (trans_of x')) + rho * (len3 (trans_of m) + len3 (trans_of n)).
Proof.
  intros cfg tp to x x' h0 e0 rest rp ro rp' ro' p q l Tp To Ux Ux' H R R' Ip Iq m n N rho P c Wm Wn.
  assert (UP : Forall unit_pair l) by (eapply Forall_impl; [|exact H]; intros r [[V _] [W _]]; now split).
  pose proof (C80_determined cfg tp to (proper x) (proper x') h0 e0 rest rp ro rp' ro' p q Tp To (proper_unit x Ux) (proper_unit x' Ux') H
    (reported_proper cfg l x rp ro ltac:(discriminate) Ux UP R) (reported_proper cfg l x' rp' ro' ltac:(discriminate) Ux' UP R') Ip Iq Wm Wn) as D.
  rewrite !proper_trans, !proper_dr in D. exact D.
Qed.
(** such a candidate need not be rigid *)
Example C80_returned_example : let x := RD hone hone in unitq (dr x) /\ ~ unitdq x /\ unitdq (proper x).
Proof.
  intros x. split; [unfold unitq, x; specu; ring|]. split; [|apply proper_unit; unfold unitq, x; specu; ring].
  intros [_ D]. unfold x in D. specu. lra.
Qed.

Lemma accuracy_rigid : forall (cfg : config XR) (tp to : R) (x x' h0 e0 : rdq) (rest : list (rdq * rdq)) (a d b e rp ro : R) (p q : rdq * rdq),
  let l := (h0, e0) :: rest in
  ransac_position_error_threshold_m cfg = Fin tp -> ransac_orientation_error_threshold_deg cfg = Fin to ->
  unitdq x -> unitdq x' -> Forall (fun p => unitdq (fst p) /\ unitdq (snd p)) l ->
  Forall (fun p => measured x a d b e (fst p) (dqmul (dqconj e0) (snd p))) l ->
  reported cfg l x' rp ro -> In p l -> In q l ->
  let m := dqmul (dqconj e0) (snd p) in let n := dqmul (dqconj e0) (snd q) in
  let N := sqrt (INR (length l)) in
  let rho := d + e + (N * ro * (PI / 180) + 1 / 10000) / 2 in
  let P := a + b + 2 * e * len3 (trans_of x) + N * rp in
  let c := len3 (cross3 (qv (dr m)) (qv (dr n))) in
  rho < 2 * Rabs (qs (dr m)) -> rho < 2 * Rabs (qs (dr n)) ->
  (forall v, c * len3 (vsub (hrot (dr x) v) (hrot (dr x') v)) <= 2 * rho * len3 v) /\
  c * (c * len3 (vsub (trans_of x) (trans_of x')))
    <= c * (P + 2 * rho * len3 (trans_of x')) + rho * (len3 (trans_of m) + len3 (trans_of n)).
Proof.
  intros cfg tp to x x' h0 e0 rest a d b e rp ro p q l Tp To Ux Ux' H ME R' Ip Iq m n N rho P c Wm Wn.
  destruct (reported_each cfg tp to x' l h0 e0 rest rp ro Tp To Ux' H eq_refl R') as (_ & _ & B').
  assert (U0 : unitdq e0) by (rewrite Forall_forall in H; apply (H (h0, e0)); now left).
  assert (Um : forall r, In r l -> unitdq (dqmul (dqconj e0) (snd r))).
  { intros r I. apply unitdq_mul; [now apply unitdq_conj|]. rewrite Forall_forall in H. apply (H r I). }
  assert (EACH : forall r, In r l -> rho < 2 * Rabs (qs (dr (dqmul (dqconj e0) (snd r)))) ->
    dist (dr (seen x (dqmul (dqconj e0) (snd r)))) (dr (seen x' (dqmul (dqconj e0) (snd r)))) <= rho /\
    len3 (vsub (trans_of (seen x (dqmul (dqconj e0) (snd r)))) (trans_of (seen x' (dqmul (dqconj e0) (snd r))))) <= P).
  { intros r I W. rewrite Forall_forall in ME. destruct (residual x a d b e _ _ Ux (Um r I) (ME r I)) as [B1 B2].
    destruct (B' r I) as [B1' B2']. clear B'. fold N in B1', B2'. split.
    - apply not_opposite; [now rewrite !seen_scalar by easy|now rewrite seen_scalar by easy|].
      exact (near_both _ _ _ _ _ B2 B2').
    - set (s := trans_of (seen x _)) in *. set (s' := trans_of (seen x' _)) in *. set (t := trans_of (fst r)) in *.
      pose proof (len3_triangle (vsub s t) (vsub t s')) as T.
      replace (vadd (vsub s t) (vsub t s')) with (vsub s s') in T by (destruct s, s', t; apply rv_eq; specu; ring).
      rewrite (len3_sym s t) in T. unfold P. lra. }
  destruct (EACH p Ip Wm) as [D1 P1]. destruct (EACH q Iq Wn) as [D2 P2]. fold m in D1, P1. fold n in D2, P2.
  split.
  - intros v. apply (apart_rotation x x' Ux Ux' m n (Um p Ip) (Um q Iq) rho D1 D2).
  - apply (apart_translation x x' Ux Ux' m n (Um p Ip) (Um q Iq) rho D1 D2 P P1 P2).
Qed.

(** ** C86: any calibration with small reported errors is near the true one *)
(** x' is what the calibration returns: its rotation is a unit quaternion, nothing is asked of the rest *)
Theorem C86_accuracy : forall (cfg : config XR) (tp to : R) (x x' h0 e0 : rdq) (rest : list (rdq * rdq)) (a d b e rp ro : R) (p q : rdq * rdq),
  let l := (h0, e0) :: rest in
  ransac_position_error_threshold_m cfg = Fin tp -> ransac_orientation_error_threshold_deg cfg = Fin to ->
  unitdq x -> unitq (dr x') -> Forall (fun p => unitdq (fst p) /\ unitdq (snd p)) l ->
  Forall (fun p => measured x a d b e (fst p) (dqmul (dqconj e0) (snd p))) l ->
  reported cfg l x' rp ro -> In p l -> In q l ->
  let m := dqmul (dqconj e0) (snd p) in let n := dqmul (dqconj e0) (snd q) in
  let N := sqrt (INR (length l)) in
  let rho := d + e + (N * ro * (PI / 180) + 1 / 10000) / 2 in
  let P := a + b + 2 * e * len3 (trans_of x) + N * rp in
  let c := len3 (cross3 (qv (dr m)) (qv (dr n))) in
  rho < 2 * Rabs (qs (dr m)) -> rho < 2 * Rabs (qs (dr n)) ->
  (forall v, c * len3 (vsub (hrot (dr x) v) (hrot (dr x') v)) <= 2 * rho * len3 v) /\
  c * (c * len3 (vsub (trans_of x) (trans_of x')))
    <= c * (P + 2 * rho * len3 (trans_of x')) + rho * (len3 (trans_of m) + len3 (trans_of n)).
Proof.
  intros cfg tp to x x' h0 e0 rest a d b e rp ro p q l Tp To Ux Ux' H ME R' Ip Iq.
  assert (RE : reported cfg l (proper x') rp ro).
  { apply reported_proper; auto; [discriminate|]. eapply Forall_impl; [|exact H]. intros r [[V _] [W _]]. now split. }
  pose proof (accuracy_rigid cfg tp to x (proper x') h0 e0 rest a d b e rp ro p q Tp To Ux (proper_unit x' Ux') H ME RE Ip Iq) as AC.
  rewrite proper_trans in AC. exact AC.
Qed.

(** ** C86: the result of the RANSAC calibration *)
Definition signs (p q : rdq * rdq) : Prop := fst p = fst q /\ (snd p = snd q \/ snd p = dqneg (snd q)).
Lemma signs_refl l : Forall2 signs l l.
Proof. induction l; constructor; [split; auto|easy]. Qed.
Lemma signs_rmatch l : Forall2 signs (map rmatch l) l.
Proof.
  induction l as [|p l IH]; cbn [map]; constructor; [|easy]. split; [easy|]. unfold rmatch. cbn [snd]. destruct (Rlt_dec _ _); auto.
Qed.
Lemma signs_hands m l : Forall2 signs m l -> hands m = hands l.
Proof. unfold hands. induction 1 as [|p q m l [E _] _ IH]; [easy|]. cbn [map]. now rewrite E, IH. Qed.
Lemma scatter_signs l f m : Forall2 signs m (compress l f) -> exists m', scatter (eyes l) f (eyes m) = eyes m' /\ Forall2 signs m' l.
Proof.
  revert f m. induction l as [|p l IH]; intros f m H.
  - exists []. split; [now destruct f|constructor].
  - destruct f as [|[] f]; cbn [compress] in H.
    + inversion H; subst. exists (p :: l). split; [reflexivity|apply signs_refl].
    + inversion H as [|q ? m0 ? [S1 S2] S3]; subst. destruct (IH f m0 S3) as (m' & E & S). exists ((fst p, snd q) :: m').
      unfold eyes in *. cbn [map scatter]. rewrite E. split; [easy|]. constructor; [split|]; easy.
    + destruct (IH f m H) as (m' & E & S). exists (p :: m'). unfold eyes in *. cbn [map scatter]. rewrite E. split; [easy|].
      constructor; [split; auto|easy].
Qed.
Lemma calibrate_list svd (cfg : config XR) l w r : calibrate_normalized svd cfg (hands l) (eyes l) = (w, Ok r) -> w = eyes (map rmatch l).
Proof.
  unfold calibrate_normalized, compute_hand_eye_calibration. intros H.
  destruct (do b0 <- index (hands l) 0; _) as [u|]; [|discriminate H].
  rewrite match_signs_in in H. injection H as <- _. reflexivity.
Qed.
Lemma calibrate_real svd (cfg : config XR) l w d sv bad : real_vectors svd ->
  calibrate_normalized svd cfg (hands l) (eyes l) = (w, Ok (d, sv, bad)) -> exists x, d = inD x /\ unitq (dr x).
Proof.
  intros RVC H. unfold calibrate_normalized in H.
  pose proof (C26_wellformed svd (hand_eye_calibration_tolerance cfg) (hands l) (eyes l)) as W.
  destruct (compute_hand_eye_calibration svd _ (hands l) (eyes l)) as [w' [[[d0 s0] b0]|]]; [|discriminate H].
  cbn [bind] in H. injection H as <- <- <- <-.
  destruct (W _ _ _ _ RVC eq_refl) as (_ & _ & _ & _ & x & _ & _ & _ & _ & _ & _ & -> & U & _).
  exists x. split; [now apply uq_dnormalize|easy].
Qed.
Lemma aligned_hands l w d b' pb pw : Forall unit_pair l -> get_aligned_poses (hands l) w d = Ok (b', pb, pw) -> b' = hands l.
Proof.
  intros U H. unfold get_aligned_poses in H. destruct (assert_ _) as [[]|]; [|discriminate H]. cbn [bind] in H.
  apply bind_ok in H as (e & _ & H). apply bind_ok in H as (e' & _ & H). apply bind_ok in H as (wh & _ & H). apply bind_ok in H as (wh' & _ & H).
  apply (f_equal (fun r => match r with Ok (u, _, _) => u | Err _ => [] end)) in H. cbv beta iota in H. rewrite <- H. clear H.
  unfold hands. rewrite map_map. apply map_ext_in. intros p I. rewrite Forall_forall in U.
  rewrite uq_to_pose by apply (U p I). reflexivity.
Qed.

(** the poses on which the returned errors were measured: all of them, or the inliers, seen from one pose of the data *)
Lemma evaluated_on svd draw (cfg : config XR) (l : list (rdq * rdq)) fuel r rtol :
  real_vectors svd -> Forall unit_pair l -> ransac_sample_rejection_tolerance cfg = Fin rtol -> 0 <= rtol ->
  compute_RANSAC svd draw fuel cfg (hands l) (eyes l) = Done (Ok r) -> success r = true ->
  exists x' p0 used m rp ro k b' pb pw fl, dq_H_E r = Some (inD x') /\ unitq (dr x') /\ rmse r = Some (rp, ro) /\ num_inliers r = Some k /\
    In p0 l /\ incl used l /\ (min_num_inliers cfg <= k)%nat /\
    length used = (if ransac_evaluate_refined_model_on_inliers_only cfg then k else length l) /\
    (ransac_evaluate_refined_model_on_inliers_only cfg = false -> incl l used) /\
    Forall2 signs m (map (from_pair p0) used) /\ (exists rest, map (from_pair p0) used = (dqone, dqone) :: rest) /\
    get_aligned_poses (hands m) (eyes m) (inD x') = Ok (b', pb, pw) /\ evaluate_alignment cfg pb pw = Ok (rp, ro, fl).
Proof.
  intros RVC UL RT RT0 H SU.
  destruct (C34_success XR svd draw cfg fuel _ _ r XR_strict_order H SU) as (bf & wf & h & s & dq & rp & ro & n & sv & bad & F & HH & _ & I & E & _).
  apply In_nth_error in I as (i & I). destruct (HH i s _ I) as [_ EV]. clear I HH.
  destruct (C34_evaluated XR svd cfg _ _ _ _ s dq rp ro n sv bad EV) as (_ & MI & k & ab0 & aw & _ & AB & AW & ab & flags & initial & NI & CLS & inl & bev & wev & b' & pb & pw & fl & SRC & ON & GA & EA).
  clear EV. destruct (align_inv l k ab0 AB) as (p0 & N0).
  assert (I0 : In p0 l) by now apply nth_error_In in N0. assert (UL' := UL). rewrite Forall_forall in UL'. assert (U0 := UL' p0 I0).
  rewrite (align_hands l k p0 N0) in AB by now apply uq_tiny, U0. rewrite (align_eyes l k p0 N0) in AW by now apply uq_tiny, U0.
  injection AB as <-. injection AW as <-. pose proof (realign_unit k p0 l UL N0) as UA. destruct (realign_head k p0 l N0 U0) as (rest & EH).
  assert (EM : realign k p0 l = map (from_pair p0) (rotl k l)) by (rewrite realign_from; apply rotl_map).
  set (a := realign k p0 l) in *. clearbody a.
  assert (CL : ab = hands a /\ (exists f, flags = true :: f) /\ (forall d0 sv0 bad0, initial = Some (d0, sv0, bad0) -> exists x, d0 = inD x /\ unitq (dr x))).
  { destruct (ransac_inlier_classification cfg); [| |easy].
    - destruct CLS as (sb & sw & asb & asw & [[d0 sv0] bad0] & pb0 & pw0 & rp0 & ro0 & SB & SW & ASB & ASW & CN & -> & GA0 & EA0 & F0 & _).
      split; [exact (aligned_hands a _ _ _ _ _ UA GA0)|]. split; [destruct flags as [|[] f]; try discriminate F0; eauto|].
      intros d1 sv1 bad1 Q. injection Q as <- <- <-.
      destruct (filtered_pairs cfg l _ _ F) as (lf & -> & -> & IN).
      assert (SUB : exists sub, mapM (index lf) s = Ok sub /\ sb = hands sub /\ sw = eyes sub).
      { assert (IX : forall j, In j s -> (j < length lf)%nat).
        { clear - SB. revert sb SB. induction s as [|j s IH]; intros sb SB t [].
          - subst t. cbn [mapM] in SB. apply bind_ok in SB as (y & Y & _). unfold index, hands in Y. destruct (nth_error _ j) eqn:Q; [|discriminate Y].
            assert (nth_error (map (fun p : rdq * rdq => inD (fst p)) lf) j <> None) as Q' by congruence. apply nth_error_Some in Q'. now rewrite map_length in Q'.
          - cbn [mapM] in SB. apply bind_ok in SB as (y & _ & SB). apply bind_ok in SB as (ys & SB & _). eapply IH; eauto. }
        destruct (mapM_index_total lf s IX) as (sub & SUB & _). exists sub. split; [easy|].
        pose proof (mapM_index_map (fun p : rdq * rdq => inD (fst p)) _ _ _ SUB) as S1. pose proof (mapM_index_map (fun p : rdq * rdq => inD (snd p)) _ _ _ SUB) as S2.
        unfold hands, eyes in *. rewrite S1 in SB. rewrite S2 in SW. split; congruence. }
      destruct SUB as (sub & SUB & -> & ->).
      destruct sub as [|p1 sub]; [discriminate ASB|].
      assert (U1 : unit_pair p1).
      { destruct s as [|j s]; [discriminate SUB|]. cbn [mapM] in SUB. apply bind_ok in SUB as (y & Y & SUB). apply bind_ok in SUB as (ys & _ & SUB). injection SUB as <- _.
        unfold index in Y. destruct (nth_error lf j) eqn:Q; [|discriminate Y]. injection Y as ->. apply UL', IN. now apply nth_error_In in Q. }
      rewrite (align_hands (p1 :: sub) 0 p1 eq_refl) in ASB by now apply uq_tiny, U1. rewrite (align_eyes (p1 :: sub) 0 p1 eq_refl) in ASW by now apply uq_tiny, U1.
      injection ASB as <-. injection ASW as <-.
      apply (calibrate_real svd cfg (realign 0 p1 (p1 :: sub)) (fst (calibrate_normalized svd cfg (hands (realign 0 p1 (p1 :: sub))) (eyes (realign 0 p1 (p1 :: sub))))) d0 sv0 bad0 RVC).
      rewrite <- CN. apply surjective_pairing.
    - destruct CLS as (-> & -> & LF & FL). split; [easy|]. split; [|discriminate].
      rewrite EH in *. destruct (FL 0%nat (inD dqone) eq_refl) as (w & s1 & s2 & f & W & S1 & S2 & F0 & FE).
      cbn [eyes map nth_error] in W. injection W as <-. cbn [snd] in S2. rewrite S1 in S2. injection S2 as <-.
      destruct flags as [|f0 fs]; [discriminate F0|]. injection F0 as ->. exists fs. f_equal. rewrite FE, RT.
      pose proof (scalar_parts_closeb rtol dqone dqone RT0) as SP. unfold scalar_parts_close in SP. rewrite S1 in SP. cbn [bind] in SP.
      rewrite closeb_one in SP by easy. congruence. }
  destruct CL as (-> & (f & FE) & INI).
  assert (CC : compress (hands a) flags = hands (compress a flags)) by apply compress_map.
  assert (CE : compress (eyes a) flags = eyes (compress a flags)) by apply compress_map.
  rewrite CC, CE in *.
  assert (DQ : exists x', dq = inD x' /\ unitq (dr x')).
  { destruct SRC as [[_ CN]|(_ & -> & _)]; [exact (calibrate_real svd cfg _ _ _ _ _ RVC CN)|eauto]. }
  destruct DQ as (x' & -> & UX').
  assert (ML : exists m0, inl = eyes m0 /\ Forall2 signs m0 (compress a flags)).
  { destruct SRC as [[_ CN]|(_ & _ & ->)]; [|exists (compress a flags); split; [easy|apply signs_refl]].
    exists (map rmatch (compress a flags)). split; [exact (calibrate_list svd cfg _ _ _ CN)|apply signs_rmatch]. }
  destruct ML as (m0 & -> & S0).
  assert (CM : compress a flags = map (from_pair p0) (compress (rotl k l) flags)) by (rewrite EM; apply compress_map).
  assert (CI : incl (compress (rotl k l) flags) l).
  { intros p I. apply (in_rotl k). revert I. generalize (rotl k l). clear. intros l. revert flags. induction l as [|q l IH]; intros [|[] f]; cbn [compress]; try easy.
    - intros [->|I]; [now left|right; eauto].
    - intros I. right. eauto. }
  assert (LI : n = length (compress (rotl k l) flags)).
  { rewrite NI, CM. unfold hands. now rewrite !map_length. }
  rewrite E. cbn [dq_H_E rmse num_inliers]. rewrite uq_to_pose by easy. cbn [fst].
  destruct (ransac_evaluate_refined_model_on_inliers_only cfg).
  - destruct ON as [-> ->]. exists x', p0, (compress (rotl k l) flags), m0, rp, ro, n, b', pb, pw, fl.
    rewrite (signs_hands _ _ S0), <- CM.
    repeat (split; [easy|]). split; [|easy]. rewrite EH, FE. cbn [compress]. eauto.
  - destruct ON as [-> ->]. destruct (scatter_signs a flags m0 S0) as (m' & SC & SM). rewrite SC in GA.
    exists x', p0, (rotl k l), m', rp, ro, n, b', pb, pw, fl.
    rewrite (signs_hands _ _ SM), <- EM. repeat (split; [easy|]). split; [intros p I; now apply in_rotl in I|].
    split; [easy|]. split; [apply rotl_length|]. split; [intros _ p I; now apply in_rotl|]. split; [easy|]. split; [eauto|easy].
Qed.

Lemma rflip_pm q : rflip q = q \/ rflip q = dqneg q.
Proof. destruct (rflip_cases q); auto. Qed.
(** the certificate for errors measured on the motions of [used] from p0, up to signs *)
Lemma certificate (cfg : config XR) tp to x x' (p0 : rdq * rdq) used m (a d b e : R) rp ro b' pb pw fl :
  ransac_position_error_threshold_m cfg = Fin tp -> ransac_orientation_error_threshold_deg cfg = Fin to ->
  unitdq x -> unitq (dr x') -> unitdq (fst p0) -> unitdq (snd p0) ->
  (forall p, In p used -> unitdq (fst p) /\ unitdq (snd p) /\ measured x a d b e (hand_motion p0 p) (eye_motion p0 p)) ->
  Forall2 (fun q p => (fst q = hand_motion p0 p \/ fst q = dqneg (hand_motion p0 p)) /\ (snd q = eye_motion p0 p \/ snd q = dqneg (eye_motion p0 p))) m used ->
  (exists h0 e0 m1, m = (h0, e0) :: m1 /\ (e0 = dqone \/ e0 = dqneg dqone)) ->
  get_aligned_poses (hands m) (eyes m) (inD x') = Ok (b', pb, pw) -> evaluate_alignment cfg pb pw = Ok (rp, ro, fl) ->
  exists rp1 ro1, rp = Fin rp1 /\ ro = Fin ro1 /\
    (forall p q, In p used -> In q used ->
      let m := eye_motion p0 p in let n := eye_motion p0 q in
      let N := sqrt (INR (length used)) in
      let rho := d + e + (N * ro1 * (PI / 180) + 1 / 10000) / 2 in
      let P := a + b + 2 * e * len3 (trans_of x) + N * rp1 in
      let c := len3 (cross3 (qv (dr m)) (qv (dr n))) in
      rho < 2 * Rabs (qs (dr m)) -> rho < 2 * Rabs (qs (dr n)) ->
      (forall v, c * len3 (vsub (hrot (dr x) v) (hrot (dr x') v)) <= 2 * rho * len3 v) /\
      c * (c * len3 (vsub (trans_of x) (trans_of x')))
        <= c * (P + 2 * rho * len3 (trans_of x')) + rho * (len3 (trans_of m) + len3 (trans_of n))).
Proof.
  intros TP TO Ux UX U1 U2 UL SG (h0 & e0 & m1 & EM0 & E0) GA EV.
  assert (C0 : dqconj e0 = dqone \/ dqconj e0 = dqneg dqone).
  { assert (C1 : dqconj dqone = dqone) by (apply rdq_eq; apply rq_eq; unfold dqone; specu; ring).
    assert (C2 : dqconj (dqneg dqone) = dqneg dqone) by (apply rdq_eq; apply rq_eq; unfold dqone; specu; ring).
    destruct E0 as [-> | ->]; [left|right]; easy. }
  set (S := fun q p : rdq * rdq => (fst q = hand_motion p0 p \/ fst q = dqneg (hand_motion p0 p)) /\ (snd q = eye_motion p0 p \/ snd q = dqneg (eye_motion p0 p))) in *.
  (* a pair of m and the pair of the data it comes from *)
  assert (PAIR : forall q p, S q p -> dqmul (dqconj e0) (snd q) = eye_motion p0 p \/ dqmul (dqconj e0) (snd q) = dqneg (eye_motion p0 p)).
  { intros q p [_ Q]. rewrite <- (dqmul_1_l (eye_motion p0 p)). apply pm_mul; easy. }
  assert (FROM : forall q, In q m -> exists p, In p used /\ S q p).
  { intros q I. clear - SG I. revert used SG. induction m as [|q1 m IH]; intros [|p used] SG; inversion SG; subst; [easy|].
    destruct I as [-> |I]; [exists p; split; [now left|easy]|]. destruct (IH I used) as (p' & P1 & P2); [easy|]. exists p'. split; [now right|easy]. }
  assert (TOM : forall p, In p used -> exists q, In q m /\ S q p).
  { intros p I. clear - SG I. revert m SG. induction used as [|p1 used IH]; intros [|q m] SG; inversion SG; subst; [easy|].
    destruct I as [-> |I]; [exists q; split; [now left|easy]|]. destruct (IH I m) as (p' & P1 & P2); [easy|]. exists p'. split; [now right|easy]. }
  assert (UM : Forall (fun p => unitdq (fst p) /\ unitdq (snd p)) m).
  { rewrite Forall_forall. intros q I. destruct (FROM q I) as (p & Ip & [S1 S2]). destruct (UL p Ip) as (V1 & V2 & _).
    assert (HU : unitdq (hand_motion p0 p)) by (apply unitdq_mul; [now apply unitdq_conj|easy]).
    assert (EU : unitdq (eye_motion p0 p)) by (apply unitdq_mul; [now apply unitdq_conj|easy]).
    split; [apply (pm_unit _ _ HU S1)|apply (pm_unit _ _ EU S2)]. }
  assert (LM : length m = length used) by (now apply Forall2_len in SG).
  (* the errors are numbers *)
  assert (RP : exists rp1 ro1, rp = Fin rp1 /\ ro = Fin ro1).
  { destruct (aligned_any x' m UX) as (A & B & G & LA & LB & GA1 & GB1 & _).
    - eapply Forall_impl; [|exact UM]. intros p [[? _] [? _]]. now split.
    - rewrite EM0. discriminate.
    - rewrite G in GA. injection GA as <- <- <-.
      destruct (C31_meaning cfg tp to A B) as (es & rp1 & ro1 & fl1 & _ & EV1 & _); try easy; [congruence|intros ->; rewrite EM0 in LA; discriminate LA|].
      rewrite EV in EV1. injection EV1 as -> -> _. eauto. }
  destruct RP as (rp1 & ro1 & -> & ->). exists rp1, ro1. split; [easy|]. split; [easy|].
  intros p q Ip Iq. destruct (TOM p Ip) as (p' & Ip' & Sp). destruct (TOM q Iq) as (q' & Iq' & Sq).
  pose proof (PAIR p' p Sp) as Pp. pose proof (PAIR q' q Sq) as Pq.
  rewrite EM0 in Ip', Iq', UM, LM, GA.
  pose proof (C86_accuracy cfg tp to x x' h0 e0 m1 a d b e rp1 ro1 p' q' TP TO Ux UX UM) as AC. cbv zeta in AC.
  cbv zeta. rewrite <- LM.
  assert (MM : Forall (fun p => measured x a d b e (fst p) (dqmul (dqconj e0) (snd p))) ((h0, e0) :: m1)).
  { rewrite Forall_forall. intros t I. rewrite <- EM0 in I. destruct (FROM t I) as (p1 & I1 & S1).
    eapply measured_pm; [exact (proj1 S1)|exact (PAIR t p1 S1)|]. apply UL; auto. }
  specialize (AC MM). assert (RE : reported cfg ((h0, e0) :: m1) x' rp1 ro1) by (now exists b', pb, pw, fl).
  specialize (AC RE Ip' Iq').
  set (u := dqmul (dqconj e0) (snd p')) in *. set (w := dqmul (dqconj e0) (snd q')) in *.
  assert (TT : forall g g', (g = g' \/ g = dqneg g') -> Rabs (qs (dr g)) = Rabs (qs (dr g')) /\ trans_of g = trans_of g' /\ (qv (dr g) = qv (dr g') \/ qv (dr g) = vscale (-1) (qv (dr g')))).
  { intros g g' [-> | ->]; [tauto|]. rewrite trans_of_neg. split; [|split; [easy|right]].
    - cbn [dqneg dr hneg qs]. apply Rabs_Ropp.
    - cbn [dqneg dr]. destruct (dr g') as [[] ?]. apply rv_eq; specu; ring. }
  destruct (TT _ _ Pp) as (Q1 & T1 & V1). destruct (TT _ _ Pq) as (Q2 & T2 & V2).
  assert (CR : len3 (cross3 (qv (dr u)) (qv (dr w))) = len3 (cross3 (qv (dr (eye_motion p0 p))) (qv (dr (eye_motion p0 q))))).
  { unfold len3. f_equal. destruct V1 as [-> | ->], V2 as [-> | ->]; destruct (qv (dr (eye_motion p0 p))), (qv (dr (eye_motion p0 q))); specu; ring. }
  rewrite Q1, Q2, T1, T2, CR in AC. exact AC.
Qed.

(** End to end: any successful run on noisy data. [used] are the pairs on which the errors were measured, p0 is the pair from
    which the motions were taken, and the certificate holds for every two of the pairs used. *)
Theorem C86_ransac : forall svd draw (cfg : config XR) (l : list (rdq * rdq)) fuel r rtol tp to x (a d b e : R),
  real_vectors svd -> Forall (fun p => unitdq (fst p) /\ unitdq (snd p)) l -> unitdq x ->
  ransac_sample_rejection_tolerance cfg = Fin rtol -> 0 <= rtol ->
  ransac_position_error_threshold_m cfg = Fin tp -> ransac_orientation_error_threshold_deg cfg = Fin to ->
  (forall p0 p, In p0 l -> In p l -> measured x a d b e (hand_motion p0 p) (eye_motion p0 p)) ->
  compute_RANSAC svd draw fuel cfg (hands l) (eyes l) = Done (Ok r) -> success r = true ->
  exists x' p0 used rp ro k, dq_H_E r = Some (inD x') /\ unitq (dr x') /\ rmse r = Some (Fin rp, Fin ro) /\ num_inliers r = Some k /\
    In p0 l /\ incl used l /\ (min_num_inliers cfg <= k)%nat /\
    length used = (if ransac_evaluate_refined_model_on_inliers_only cfg then k else length l) /\
    (ransac_evaluate_refined_model_on_inliers_only cfg = false -> incl l used) /\
    (forall p q, In p used -> In q used ->
      let m := eye_motion p0 p in let n := eye_motion p0 q in
      let N := sqrt (INR (length used)) in
      let rho := d + e + (N * ro * (PI / 180) + 1 / 10000) / 2 in
      let P := a + b + 2 * e * len3 (trans_of x) + N * rp in
      let c := len3 (cross3 (qv (dr m)) (qv (dr n))) in
      rho < 2 * Rabs (qs (dr m)) -> rho < 2 * Rabs (qs (dr n)) ->
      (forall v, c * len3 (vsub (hrot (dr x) v) (hrot (dr x') v)) <= 2 * rho * len3 v) /\
      c * (c * len3 (vsub (trans_of x) (trans_of x')))
        <= c * (P + 2 * rho * len3 (trans_of x')) + rho * (len3 (trans_of m) + len3 (trans_of n))).
Proof.
  intros svd draw cfg l fuel r rtol tp to x a d b e RVC UL Ux RT RT0 TP TO ME H SU.
  assert (UP : Forall unit_pair l) by (eapply Forall_impl; [|exact UL]; intros p [[A _] [B _]]; now split).
  destruct (evaluated_on svd draw cfg l fuel r rtol RVC UP RT RT0 H SU)
    as (x' & p0 & used & m & rp & ro & k & b' & pb & pw & fl & D & UX & RM & NI & I0 & IU & MI & LU & ALL & SG & (rest & HD) & GA & EV).
  rewrite Forall_forall in UL. destruct (UL p0 I0) as [U1 U2].
  assert (HM : forall p, fst (from_pair p0 p) = hand_motion p0 p \/ fst (from_pair p0 p) = dqneg (hand_motion p0 p)).
  { intros p. unfold from_pair, hand_motion. cbn [fst]. rewrite unitdq_inv_conj by easy. apply rflip_pm. }
  assert (EM : forall p, snd (from_pair p0 p) = eye_motion p0 p \/ snd (from_pair p0 p) = dqneg (eye_motion p0 p)).
  { intros p. unfold from_pair, eye_motion. cbn [snd]. rewrite unitdq_inv_conj by easy. apply rflip_pm. }
  destruct (certificate cfg tp to x x' p0 used m a d b e rp ro b' pb pw fl) as (rp1 & ro1 & -> & -> & C); auto.
  - intros p I. destruct (UL p (IU p I)). auto.
  - clear - SG HM EM. revert used SG. induction m as [|q m IH]; intros [|p used] SG; cbn [map] in SG; inversion SG as [|? ? ? ? [S1 S2] S3]; subst; constructor; auto.
    split; [rewrite S1; apply HM|]. eapply pm_trans; [exact S2|apply EM].
  - rewrite HD in SG. inversion SG as [|q ? m1 ? [S1 S2] S3]; subst. destruct q as [q1 q2]. cbn [fst snd] in *. exists q1, q2, m1. auto.
  - exists x', p0, used, rp1, ro1, k. do 9 (split; [easy|]). exact C.
Qed.

(** ** The hypotheses are met *)
Lemma len3_zero : len3 (RV 0 0 0) = 0.
Proof. unfold len3. specu. replace (0 * 0 + 0 * 0 + 0 * 0) with 0 by ring. apply sqrt_0. Qed.
Lemma near_refl a d g : 0 <= a -> 0 <= d -> near a d g g.
Proof.
  intros A D. split.
  - replace (vsub (trans_of g) (trans_of g)) with (RV 0 0 0) by (destruct (trans_of g); apply rv_eq; specu; ring). now rewrite len3_zero.
  - left. unfold dist, hnorm. replace (hnorm2 (hsub (dr g) (dr g))) with 0 by (destruct (dr g) as [[] ?]; specu; ring). now rewrite sqrt_0.
Qed.
(** noise-free data are measured within every bound *)
Lemma perfect_measured x l a d b e p0 p : unitdq x -> perfect x l -> 0 <= a -> 0 <= d -> 0 <= b -> 0 <= e -> In p0 l -> In p l ->
  measured x a d b e (hand_motion p0 p) (eye_motion p0 p).
Proof.
  intros Ux (t & Ut & F) A D B E I0 I. rewrite Forall_forall in F. destruct (F p0 I0) as [U0 S0]. destruct (F p I) as [U1 S1].
  exists (hand_motion p0 p), (eye_motion p0 p). assert (HU : unitdq (hand_motion p0 p)) by (apply unitdq_mul; [now apply unitdq_conj|easy]).
  assert (V : forall q, unitdq q -> unitdq (dqmul (dqmul t q) x)) by (intros; now apply unitdq_mul; [apply unitdq_mul|]).
  assert (EU : unitdq (eye_motion p0 p)) by (apply unitdq_mul; [apply unitdq_conj; eapply (pm_unit _ _ (V _ U0)); exact S0|eapply (pm_unit _ _ (V _ U1)); exact S1]).
  split; [easy|]. split; [easy|]. split; [|split; now apply near_refl].
  assert (C : eye_motion p0 p = dqmul (dqconj x) (dqmul (hand_motion p0 p) x) \/ eye_motion p0 p = dqneg (dqmul (dqconj x) (dqmul (hand_motion p0 p) x))).
  { unfold eye_motion, hand_motion.
    assert (K : dqmul (dqconj (dqmul (dqmul t (fst p0)) x)) (dqmul (dqmul t (fst p)) x) = dqmul (dqconj x) (dqmul (dqmul (dqconj (fst p0)) (fst p)) x)).
    { rewrite <- !unitdq_inv_conj by auto. rewrite (unitdq_inv_conj (dqmul (dqmul t (fst p0)) x)) by auto.
      assert (CM : forall u v, dqconj (dqmul u v) = dqmul (dqconj v) (dqconj u)).
      { intros [[[] ?] [[] ?]] [[[] ?] [[] ?]]. unfold dqconj, dqmul. apply rdq_eq; cbn [dr dd]; apply rq_eq; specu; ring. }
      rewrite !CM, <- !unitdq_inv_conj by auto. rewrite !dqmul_assoc. do 2 f_equal.
      rewrite <- (dqmul_assoc t), <- (dqmul_assoc (dqinv t)), <- (dqmul_assoc (dqinv t) t), dqmul_inv_l by auto using unitdq_n2. now rewrite dqmul_1_l. }
    rewrite <- K. apply pm_mul; [|exact S1]. destruct S0 as [-> | ->]; [now left|right].
    destruct (dqmul (dqmul t (fst p0)) x) as [[[] ?] [[] ?]]. unfold dqconj, dqneg. apply rdq_eq; cbn [dr dd]; apply rq_eq; specu; ring. }
  assert (XX : dqmul x (dqmul (dqconj x) (dqmul (hand_motion p0 p) x)) = dqmul (hand_motion p0 p) x).
  { rewrite <- dqmul_assoc, <- unitdq_inv_conj, dqmul_inv_r, dqmul_1_l by auto using unitdq_n2. easy. }
  destruct C as [-> | ->]; [left|right]; rewrite ?dqmul_neg_r, ?dqneg_neg, XX; easy.
Qed.

(** The end-to-end theorem applies to a run that succeeds; the transform returned is a rigid motion. *)
Example C86_example : exists r fuel rtol tp to, compute_RANSAC (svd_const (v0 (3/5) (4/5))) (fun _ => [0%nat]) fuel cfg65 (hands l65) (eyes l65) = Done (Ok r) /\
  real_vectors (svd_const (v0 (3/5) (4/5))) /\ Forall (fun p => unitdq (fst p) /\ unitdq (snd p)) l65 /\ unitdq x0 /\
  ransac_sample_rejection_tolerance cfg65 = Fin rtol /\ 0 <= rtol /\
  ransac_position_error_threshold_m cfg65 = Fin tp /\ ransac_orientation_error_threshold_deg cfg65 = Fin to /\
  (forall p0 p, In p0 l65 -> In p l65 -> measured x0 (1/1000) (1/1000) (1/1000) (1/1000) (hand_motion p0 p) (eye_motion p0 p)) /\
  success r = true /\ dq_H_E r = Some (inD x0).
Proof.
  destruct C65_example as (r & fuel & RUN & D). specialize (RUN fuel ltac:(lia)).
  exists r, fuel, (1/100), (2/100), 1. split; [exact RUN|].
  assert (U : Forall (fun p => unitdq (fst p) /\ unitdq (snd p)) l65).
  { pose proof l84_unit as F. unfold l84 in F. apply Forall_app in F. tauto. }
  split; [intros m s v H; unfold svd_const in H; exists (v0 (3/5) (4/5)); congruence|].
  split; [exact U|]. split; [apply x0_unit|].
  split; [change (lit (Num:=XR) 1 (-2) = Fin (1/100)); rewrite lit_fin; f_equal; cbn [Rlit]; lra|]. split; [lra|].
  split; [change (lit (Num:=XR) 2 (-2) = Fin (2/100)); rewrite lit_fin; f_equal; cbn [Rlit]; lra|].
  split; [change (lit (Num:=XR) 1 0 = Fin 1); rewrite lit_fin; f_equal; cbn [Rlit]; lra|].
  split; [|split; [|exact D]].
  - intros p0 p I0 I. apply (perfect_measured x0 l65); try lra; try easy; [apply x0_unit|apply l65_perfect].
  - destruct (success r) eqn:SU; [easy|]. exfalso.
    destruct (C34_failure XR _ _ _ _ _ _ r XR_strict_order RUN SU) as (bf & wf & h & _ & _ & _ & E & _). rewrite E in D. discriminate D.
Qed.
(** Data with an error: the hand's second pose is measured 1 cm off. *)
Example C86_noisy_example : 
  let i := RD (RQ (RV (3/5) 0 0) (4/5)) hzero in let j := RD (RQ (RV 0 (3/5) 0) (4/5)) hzero in
  let i' := RD (RQ (RV (3/5) 0 0) (4/5)) (RQ (RV (4/1000) 0 0) (-3/1000)) in
  let l := [(dqone, dqone); (i', i); (j, j)] in
  Forall (fun p => unitdq (fst p) /\ unitdq (snd p)) l /\
  Forall (fun p => measured dqone (1/100) 0 0 0 (fst p) (dqmul (dqconj dqone) (snd p))) l /\
  ~ consistent_up_to_sign dqone (i', i) /\ 
  0 < len3 (cross3 (qv (dr (dqmul (dqconj dqone) i))) (qv (dr (dqmul (dqconj dqone) j)))).
Proof.
  intros i j i' l.
  assert (U : unitdq i /\ unitdq j /\ unitdq i') by (repeat split; unfold i, j, i'; specu; lra). destruct U as (Ui & Uj & Ui').
  replace (dqconj dqone) with dqone by (apply rdq_eq; apply rq_eq; specu; ring). rewrite !dqmul_1_l.
  split; [|split; [|split]].
  - repeat (apply Forall_cons; [split; cbn [fst snd]; auto using unitdq_one|]). apply Forall_nil.
  - assert (S : forall g, unitdq g -> measured dqone (1/100) 0 0 0 g g).
    { intros g Ug. exists g, g. split; [easy|]. split; [easy|]. split; [left; now rewrite dqmul_1_l, dqmul_1_r|]. split; apply near_refl; lra. }
    apply Forall_cons; [|apply Forall_cons; [|apply Forall_cons; [|apply Forall_nil]]]; cbn [fst snd]; rewrite dqmul_1_l; auto using unitdq_one.
    exists i, i. split; [easy|]. split; [easy|]. split; [left; now rewrite dqmul_1_l, dqmul_1_r|]. split; [|apply near_refl; lra].
    split.
    + replace (vsub (trans_of i') (trans_of i)) with (RV (1/100) 0 0) by (unfold i, i'; apply rv_eq; specu; lra).
      unfold len3. specu. replace (1/100 * (1/100) + 0 * 0 + 0 * 0) with (1/100 * (1/100)) by ring. rewrite sqrt_square; lra.
    + left. unfold i, i', dist, hnorm. cbn [dr]. match goal with |- sqrt ?y <= 0 => replace y with 0 by (specu; ring) end. rewrite sqrt_0. lra.
  - intros [E|E]; cbn [fst snd] in E; rewrite ?dqmul_1_l, dqmul_1_r in E; unfold i, i', dqneg in E.
    + apply (f_equal (fun g => Spec.v1 (qv (dd g)))) in E. cbn in E. lra.
    + apply (f_equal (fun g => qs (dr g))) in E. cbn in E. lra.
  - apply sqrt_lt_R0. unfold i, j. cbn [dr qv]. specu. lra.
Qed.
