(** * Property C80: how far the reported errors determine the calibration, for arbitrary (noisy) data. *)

From Coq Require Import Reals ZArith Bool List Lra Lia Psatz.
From Verif Require Import Num Py XReal XFacts Quat DualQuat HandEye Spec Embed QuatFacts QuatTrig
  QuatRot PropQuat DualFacts ScrewFacts PropDual ListFacts HandEyeFacts KernelFacts CalibFacts CalibExample
  PropEval FloatQuat StabilityFacts.
Import ListNotations.
Local Open Scope R_scope.

(** ** The poses that are compared *)
Lemma seen_pm x x1 m : (x1 = x \/ x1 = dqneg x) -> seen x1 m = seen x m.
Proof.
  intros [-> | ->]; [easy|]. unfold seen.
  assert (E : dqconj (dqneg x) = dqneg (dqconj x)) by (destruct x as [[[] ?] [[] ?]]; unfold dqconj, dqneg; specu; apply rdq_eq; cbn [dr dd]; reflexivity).
  now rewrite E, dqmul_neg_r, !dqmul_neg_l, dqneg_neg.
Qed.
Lemma dqconj_conj x : dqconj (dqconj x) = x.
Proof. destruct x as [[[] ?] [[] ?]]. unfold dqconj. specu. apply rdq_eq; cbn [dr dd]; f_equal; f_equal; ring. Qed.
Lemma aligned_poses (x : rdq) (l : list (rdq * rdq)) (h0 e0 : rdq) (rest : list (rdq * rdq)) :
  unitdq x -> Forall (fun p => unitdq (fst p) /\ unitdq (snd p)) l -> l = (h0, e0) :: rest ->
  exists z : rdq * rdq -> rdq,
    get_aligned_poses (hands l) (eyes l) (inD x) =
      Ok (hands l, poses (map (fun p => (trans_of (fst p), pos_w (dr (fst p)))) l), poses (map (fun p => (trans_of (z p), pos_w (dr (z p)))) l)) /\
    forall p, In p l -> z p = seen x (dqmul (dqconj e0) (snd p)) \/ z p = dqneg (seen x (dqmul (dqconj e0) (snd p))).
Proof.
  intros Ux H El.
  set (y := if Rlt_dec (qs (dr (dqinv x))) 0 then dqneg (dqinv x) else dqinv x).
  assert (Ui : unitdq (dqinv x)) by now apply unitdq_inv.
  assert (Yx : y = dqinv x \/ y = dqneg (dqinv x)) by (unfold y; destruct (Rlt_dec _ _); auto).
  assert (Uy : unitdq y) by now apply (pm_unit _ (dqinv x)).
  assert (Ey : bind (dinv (inD x)) (fun d => enforce_positive_w (dnormalize d)) = Ok (inD y)).
  { rewrite dinv_big by now apply unitdq_tiny. cbn [bind]. rewrite dnormalize_unit by easy.
    rewrite enforce_in by now apply unitdq_tiny. reflexivity. }
  clearbody y.
  set (g := fun b v : rdq => let u := dqmul v y in if Rlt_dec (qs (dr u) * qs (dr b)) 0 then dqneg u else u).
  assert (G : forall b v, g b v = dqmul v (dqinv x) \/ g b v = dqneg (dqmul v (dqinv x))).
  { intros b v. assert (D : dqmul v y = dqmul v (dqinv x) \/ dqmul v y = dqneg (dqmul v (dqinv x))) by (apply pm_mul; [now left|exact Yx]).
    unfold g. cbv zeta. destruct (Rlt_dec _ _); [now apply pm_neg|exact D]. }
  assert (FP : for_pairs (fun b v => let w_h := dnormalize (dmul v (inD y)) in
                Ok (if opposite_signs w_h b then dneg w_h else w_h)) (hands l) (eyes l)
             = Ok (map (fun p => inD (g (fst p) (snd p))) l)).
  { apply (for_pairs_in _ (fun b v => inD (g b v))). intros p I. rewrite Forall_forall in H.
    destruct (H p I) as (U1 & U2). rewrite dmul_in, dnormalize_unit by auto using unitdq_mul.
    cbv zeta. f_equal. unfold g. cbv zeta.
    pose proof (opposite_in (dqmul (snd p) y) (fst p)) as O.
    destruct (opposite_signs _ _), (Rlt_dec _ _) as [R|R]; try easy.
    - apply dneg_in.
    - destruct R. now apply O.
    - apply O in R. discriminate R. }
  assert (U0 : unitdq e0) by (rewrite El in H; inversion H as [|? ? [_ Q] _]; exact Q).
  set (m := map (fun p => g (fst p) (snd p)) l).
  assert (M0 : nth_error m 0 = Some (g h0 e0)) by (unfold m; now rewrite El).
  assert (Ug : unitdq (g h0 e0)) by (apply (pm_unit _ (dqmul e0 (dqinv x))); [now apply unitdq_mul|apply G]).
  set (z := fun p : rdq * rdq => rflip (dqmul (dqinv (g h0 e0)) (g (fst p) (snd p)))).
  assert (Z : forall p, z p = seen x (dqmul (dqconj e0) (snd p)) \/ z p = dqneg (seen x (dqmul (dqconj e0) (snd p)))).
  { intros p. assert (Q : dqmul (dqinv (g h0 e0)) (g (fst p) (snd p)) = seen x (dqmul (dqconj e0) (snd p)) \/
                          dqmul (dqinv (g h0 e0)) (g (fst p) (snd p)) = dqneg (seen x (dqmul (dqconj e0) (snd p)))).
    { assert (EX : dqinv (dqmul e0 (dqinv x)) = dqmul x (dqconj e0)).
      { rewrite unitdq_inv_conj by now apply unitdq_mul. rewrite (unitdq_inv_conj x) by easy.
        destruct x as [[[] ?] [[] ?]], e0 as [[[] ?] [[] ?]]. unfold dqconj, dqmul. specu.
        apply rdq_eq; cbn [dr dd]; apply rq_eq; specu; ring. }
      replace (seen x (dqmul (dqconj e0) (snd p))) with (dqmul (dqmul x (dqconj e0)) (dqmul (snd p) (dqinv x)))
        by (unfold seen; rewrite (unitdq_inv_conj x) by easy; now rewrite !dqmul_assoc).
      rewrite <- EX. apply pm_mul; [|apply G]. apply pm_inv; [now apply unitdq_mul|apply G]. }
    unfold z. destruct (rflip_cases (dqmul (dqinv (g h0 e0)) (g (fst p) (snd p)))) as [-> | ->]; [easy|now apply pm_neg]. }
  assert (AL : align_paths_at_index (map (fun p => inD (g (fst p) (snd p))) l) 0 = Ok (map (fun p => inD (z p)) l)).
  { replace (map (fun p => inD (g (fst p) (snd p))) l) with (map inD m) by (unfold m; now rewrite map_map).
    rewrite (align_in m 0 _ M0) by now apply unitdq_tiny. rewrite rotl_0. f_equal. unfold m, z.
    rewrite !map_map. reflexivity. }
  exists z. split; [|intros p _; apply Z].
  unfold get_aligned_poses. rewrite assert_true by (unfold hands, eyes; rewrite !map_length; apply Nat.eqb_refl).
  destruct (dinv (inD x)) as [d|]; [|discriminate Ey]. cbn [bind] in Ey. cbn [bind]. rewrite Ey. cbn [bind].
  cbv zeta in FP. rewrite FP. cbn [bind]. rewrite AL. cbn [bind]. unfold hands, poses. rewrite !map_map. cbn [fst snd].
  assert (TP : forall p, In p l -> to_pose (inD (fst p)) = (inD (fst p), inP (trans_of (fst p)) (pos_w (dr (fst p))))).
  { intros p I. rewrite Forall_forall in H. apply to_pose_unit, (H p I). }
  assert (TZ : forall p, In p l -> to_pose (inD (z p)) = (inD (z p), inP (trans_of (z p)) (pos_w (dr (z p))))).
  { intros p I. apply to_pose_unit. rewrite Forall_forall in H. destruct (H p I) as [_ U2].
    apply (pm_unit _ (seen x (dqmul (dqconj e0) (snd p)))); [|apply Z].
    apply seen_unit; [easy|]. apply unitdq_mul; [now apply unitdq_conj|easy]. }
  f_equal. f_equal; [f_equal|]; apply map_ext_in; intros p I; rewrite ?TP, ?TZ by easy; reflexivity.
Qed.

(** ** What the reported errors say about each pose *)
(** the errors reported for the calibration x of the pairs l *)
Definition reported (cfg : config XR) (l : list (rdq * rdq)) (x : rdq) (rp ro : R) : Prop :=
  exists h ph pe flags, get_aligned_poses (hands l) (eyes l) (inD x) = Ok (h, ph, pe) /\
    evaluate_alignment cfg ph pe = Ok (Fin rp, Fin ro, flags).

Lemma canon_pos q : unitq q -> canon (pos_w q) = q \/ canon (pos_w q) = hneg q.
Proof.
  intros U. assert (N : forall r, unitq r -> canon r = r \/ canon r = hneg r).
  { intros r Ur. assert (E : hscale (/ hnorm r) r = r).
    { unfold hnorm. rewrite Ur, sqrt_1, Rinv_1. destruct r as [[] ?]. apply rq_eq; specu; ring. }
    unfold canon. rewrite E. cbv zeta. destruct (Rlt_dec _ _); auto. }
  unfold pos_w. destruct (Rlt_dec _ _); [|now apply N].
  destruct (N (hneg q)) as [-> | ->]; [unfold unitq; now rewrite hnorm2_neg|now right|left; apply hneg_neg].
Qed.
Lemma pos_unit q : unitq q -> unitq (pos_w q).
Proof. intros U. unfold pos_w. destruct (Rlt_dec _ _); [unfold unitq; now rewrite hnorm2_neg|easy]. Qed.
Lemma hdot_neg_both p q a b : (a = p \/ a = hneg p) -> (b = q \/ b = hneg q) -> Rabs (hdot a b) = Rabs (hdot p q).
Proof.
  assert (L : forall p q, hdot (hneg p) q = - hdot p q) by (intros [[] ?] [[] ?]; specu; ring).
  assert (R : forall p q, hdot p (hneg q) = - hdot p q) by (intros [[] ?] [[] ?]; specu; ring).
  intros [-> | ->] [-> | ->]; rewrite ?L, ?R, ?Rabs_Ropp; reflexivity.
Qed.

Lemma in_combine_map {A B C} (f : A -> B) (g : A -> C) p l : In p l -> In (f p, g p) (combine (map f l) (map g l)).
Proof. induction l as [|a l IH]; intros []; cbn [map combine]; [subst; now left|right; auto]. Qed.
Lemma Forall2_in_l {A B} (P : A -> B -> Prop) l k a : Forall2 P l k -> In a l -> exists b, In b k /\ P a b.
Proof. induction 1 as [|x y l k H _ IH]; intros []; [subst; exists y; split; [now left|easy]|]. destruct IH as (b & I & Q); [easy|]. exists b; split; [now right|easy]. Qed.

Lemma reported_each cfg tp to x l h0 e0 rest rp ro :
  ransac_position_error_threshold_m cfg = Fin tp -> ransac_orientation_error_threshold_deg cfg = Fin to ->
  unitdq x -> Forall (fun p => unitdq (fst p) /\ unitdq (snd p)) l -> l = (h0, e0) :: rest ->
  reported cfg l x rp ro -> 0 <= rp /\ 0 <= ro /\
  forall p, In p l -> let s := seen x (dqmul (dqconj e0) (snd p)) in
    len3 (vsub (trans_of (fst p)) (trans_of s)) <= sqrt (INR (length l)) * rp /\
    (let r := (sqrt (INR (length l)) * ro * (PI / 180) + 1 / 10000) / 2 in
     dist (dr (fst p)) (dr s) <= r \/ dist (dr (fst p)) (hneg (dr s)) <= r).
Proof.
  intros Tp To Ux H El (h & ph & pe & fl & GA & EV).
  destruct (aligned_poses x l h0 e0 rest Ux H El) as (z & GA' & Z). rewrite GA in GA'. injection GA' as _ Eph Epe. subst ph pe.
  set (f := fun p : rdq * rdq => (trans_of (fst p), pos_w (dr (fst p)))) in *.
  set (k := fun p : rdq * rdq => (trans_of (z p), pos_w (dr (z p)))) in *.
  assert (US : forall p, In p l -> unitdq (seen x (dqmul (dqconj e0) (snd p)))).
  { intros p I. rewrite Forall_forall in H. apply seen_unit; [easy|]. apply unitdq_mul; [|apply (H p I)].
    apply unitdq_conj. assert (J : In (h0, e0) l) by (rewrite El; now left). apply (H _ J). }
  assert (UZ : forall p, In p l -> unitq (dr (z p))).
  { intros p I. assert (Q : unitdq (z p)) by (apply (pm_unit _ (seen x (dqmul (dqconj e0) (snd p)))); auto). apply Q. }
  assert (UF : forall p, In p l -> unitq (dr (fst p))) by (intros p I; rewrite Forall_forall in H; apply (H p I)).
  assert (GP : forall q, unitq q -> 1 / 100000000 < hnorm (pos_w q)).
  { intros q U. unfold hnorm. rewrite (pos_unit q U), sqrt_1. lra. }
  assert (G1 : Forall good_pose (map f l)) by (rewrite Forall_map, Forall_forall; intros p I; apply GP; auto).
  assert (G2 : Forall good_pose (map k l)) by (rewrite Forall_map, Forall_forall; intros p I; apply GP; auto).
  destruct (C31_meaning cfg tp to (map f l) (map k l)) as (es & rp1 & ro1 & fl1 & F & EV' & P1 & P2 & _ & _ & _ & B); auto.
  { now rewrite !map_length. }
  { rewrite El. discriminate. }
  rewrite EV in EV'. injection EV' as <- <- _. split; [easy|]. split; [easy|]. rewrite map_length in B.
  intros p I. cbv zeta. destruct (Forall2_in_l _ _ _ (f p, k p) F) as (e & Ie & Q); [now apply in_combine_map|].
  destruct (B e Ie) as [B1 B2]. unfold errors_of in Q. cbn [fst snd f k] in Q.
  destruct (C30_pose_error (trans_of (fst p)) (trans_of (z p)) (pos_w (dr (fst p))) (pos_w (dr (z p)))) as (d & C & D & _ & _ & N); auto.
  rewrite C in Q. injection Q as Q1 Q2.
  assert (TZ : trans_of (z p) = trans_of (seen x (dqmul (dqconj e0) (snd p)))) by (destruct (Z p I) as [-> | ->]; [easy|apply trans_of_neg]).
  rewrite TZ in Q1. split; [lra|]. rewrite <- Q2 in B2.
  set (s := seen x (dqmul (dqconj e0) (snd p))) in *.
  assert (UZs : unitq (dr s)) by (apply (US p I)).
  assert (ES : Rabs (hdot (canon (pos_w (dr (fst p)))) (canon (pos_w (dr (z p))))) = Rabs (hdot (dr (fst p)) (dr s))).
  { apply hdot_neg_both; [apply canon_pos; auto|].
    destruct (canon_pos _ (UZ p I)) as [-> | ->]; destruct (Z p I) as [-> | ->]; cbn [dqneg dr]; rewrite ?hneg_neg; auto. }
  unfold geodesic in N. rewrite ES in N. pose proof (chord _ _ (UF p I) UZs) as CH.
  set (a := acos (Rabs (hdot (dr (fst p)) (dr s)))) in *.
  assert (A : a <= (sqrt (INR (length l)) * ro * (PI / 180) + 1 / 10000) / 2).
  { clear CH Q1 TZ B1. set (b := sqrt (INR (length l)) * ro) in *. pose proof PI_RGT_0 as PP.
    apply Rabs_def2 in N. destruct N as [_ N].
    assert (E1 : 2 * a * (180 / PI) < b + 1 / 10000 * (180 / PI)) by lra.
    assert (E2 : 2 * a = 2 * a * (180 / PI) * (PI / 180)) by (field; lra).
    assert (E3 : (b + 1 / 10000 * (180 / PI)) * (PI / 180) = b * (PI / 180) + 1 / 10000) by (field; lra).
    assert (K : 0 < PI / 180) by lra. nra. }
  destruct CH as [CH|CH]; [left|right]; lra.
Qed.

(** ** C80 *)
(** Errors are reported for every calibration and every data with a first pose. *)
Theorem C80_reported : forall (cfg : config XR) (tp to : R) (x : rdq) (l : list (rdq * rdq)),
  ransac_position_error_threshold_m cfg = Fin tp -> ransac_orientation_error_threshold_deg cfg = Fin to ->
  unitdq x -> Forall (fun p => unitdq (fst p) /\ unitdq (snd p)) l -> l <> [] ->
  exists rp ro, reported cfg l x rp ro /\ 0 <= rp /\ 0 <= ro.
Proof.
  intros cfg tp to x l Tp To Ux H NE. destruct l as [|[h0 e0] rest]; [easy|]. set (l := (h0, e0) :: rest) in *.
  destruct (aligned_poses x l h0 e0 rest Ux H eq_refl) as (z & GA & Z).
  assert (UZ : forall p, In p l -> unitq (dr (z p))).
  { intros p I. rewrite Forall_forall in H. assert (J : In (h0, e0) l) by now left.
    assert (Q : unitdq (z p)); [|apply Q]. apply (pm_unit _ (seen x (dqmul (dqconj e0) (snd p)))); auto.
    apply seen_unit; [easy|]. apply unitdq_mul; [|apply (H p I)]. apply unitdq_conj, (H _ J). }
  assert (GP : forall q, unitq q -> 1 / 100000000 < hnorm (pos_w q)).
  { intros q U. unfold hnorm. rewrite (pos_unit q U), sqrt_1. lra. }
  match type of GA with _ = Ok (_, poses ?A, poses ?B) => destruct (C31_meaning cfg tp to A B) as (es & rp & ro & fl & F & EV & P1 & P2 & _); auto end.
  { now rewrite !map_length. }
  { discriminate. }
  { rewrite Forall_map, Forall_forall. intros p I. apply GP. rewrite Forall_forall in H. apply (H p I). }
  { rewrite Forall_map, Forall_forall. intros p I. apply GP. auto. }
  exists rp, ro. split; [|easy]. eexists _, _, _, _. split; [exact GA|exact EV].
Qed.

(** Two calibrations with small reported errors are near each other: rho is the uncertainty of the
    orientations (half the sum of the angles the errors allow, with the 1e-4 rad the element-wise
    comparison hides), c measures how far two of the eye's motions rotate about different axes. *)
Theorem C80_determined : forall (cfg : config XR) (tp to : R) (x x' : rdq) (h0 e0 : rdq) (rest : list (rdq * rdq))
    (rp ro rp' ro' : R) (p q : rdq * rdq),
  let l := (h0, e0) :: rest in
  ransac_position_error_threshold_m cfg = Fin tp -> ransac_orientation_error_threshold_deg cfg = Fin to ->
  unitdq x -> unitdq x' -> Forall (fun p => unitdq (fst p) /\ unitdq (snd p)) l ->
  reported cfg l x rp ro -> reported cfg l x' rp' ro' ->
  In p l -> In q l ->
  let m := dqmul (dqconj e0) (snd p) in let n := dqmul (dqconj e0) (snd q) in
  let N := sqrt (INR (length l)) in
  let rho := (N * (ro + ro') * (PI / 180) + 2 / 10000) / 2 in
  let P := N * (rp + rp') in
  let c := len3 (cross3 (qv (dr m)) (qv (dr n))) in
  rho < 2 * Rabs (qs (dr m)) -> rho < 2 * Rabs (qs (dr n)) ->
  (forall v, c * len3 (vsub (hrot (dr x) v) (hrot (dr x') v)) <= 2 * rho * len3 v) /\
  c * (c * len3 (vsub (trans_of x) (trans_of x')))
    <= c * (P + 2 * rho * len3 (trans_of x')) + rho * (len3 (trans_of m) + len3 (trans_of n)).
Proof.
  intros cfg tp to x x' h0 e0 rest rp ro rp' ro' p q l Tp To Ux Ux' H R R' Ip Iq m n N rho P c Wm Wn.
  destruct (reported_each cfg tp to x l h0 e0 rest rp ro Tp To Ux H eq_refl R) as (_ & _ & B).
  destruct (reported_each cfg tp to x' l h0 e0 rest rp' ro' Tp To Ux' H eq_refl R') as (_ & _ & B').
  assert (U0 : unitdq e0) by (rewrite Forall_forall in H; apply (H (h0, e0)); now left).
  assert (EACH : forall r, In r l -> rho < 2 * Rabs (qs (dr (dqmul (dqconj e0) (snd r)))) ->
    dist (dr (seen x (dqmul (dqconj e0) (snd r)))) (dr (seen x' (dqmul (dqconj e0) (snd r)))) <= rho /\
    len3 (vsub (trans_of (seen x (dqmul (dqconj e0) (snd r)))) (trans_of (seen x' (dqmul (dqconj e0) (snd r))))) <= P).
  { intros r I W. destruct (B r I) as [B1 B2]. destruct (B' r I) as [B1' B2']. clear B B'. split.
    - apply not_opposite; [now rewrite !seen_scalar by easy|now rewrite seen_scalar by easy|].
      pose proof (near_both _ _ _ _ _ B2 B2') as NB. fold N in NB.
      replace rho with ((N * ro * (PI / 180) + 1 / 10000) / 2 + (N * ro' * (PI / 180) + 1 / 10000) / 2) by (unfold rho; field).
      exact NB.
    - fold N in B1, B1'. set (a := trans_of (seen x _)) in *. set (b := trans_of (seen x' _)) in *. set (t := trans_of (fst r)) in *.
      pose proof (len3_triangle (vsub a t) (vsub t b)) as T.
      replace (vadd (vsub a t) (vsub t b)) with (vsub a b) in T by (destruct a, b, t; apply rv_eq; specu; ring).
      rewrite (len3_sym a t) in T. unfold P. lra. }
  assert (Um : forall r, In r l -> unitdq (dqmul (dqconj e0) (snd r))).
  { intros r I. apply unitdq_mul; [now apply unitdq_conj|]. rewrite Forall_forall in H. apply (H r I). }
  destruct (EACH p Ip Wm) as [D1 P1]. destruct (EACH q Iq Wn) as [D2 P2]. fold m in D1, P1. fold n in D2, P2.
  split.
  - intros v. apply (apart_rotation x x' Ux Ux' m n (Um p Ip) (Um q Iq) rho D1 D2).
  - apply (apart_translation x x' Ux Ux' m n (Um p Ip) (Um q Iq) rho D1 D2 P P1 P2).
Qed.

(** Half turns must be excluded: with half turns only, about axes in one plane, the errors of two
    calibrations half a turn apart are both exactly 0. *)
Theorem C80_half_turns_refuted : forall (cfg : config XR) (tp to : R),
  ransac_position_error_threshold_m cfg = Fin tp -> ransac_orientation_error_threshold_deg cfg = Fin to ->
  exists (l : list (rdq * rdq)) (x x' : rdq) (v : rv),
    unitdq x /\ unitdq x' /\ Forall (fun p => unitdq (fst p) /\ unitdq (snd p)) l /\ two_axes l /\
    reported cfg l x 0 0 /\ reported cfg l x' 0 0 /\ hrot (dr x') v = vscale (-1) (hrot (dr x) v) /\ len3 v = 1.
Proof.
  intros cfg tp to Tp To.
  set (i := RD (RQ (RV 1 0 0) 0) hzero). set (j := RD (RQ (RV 0 1 0) 0) hzero). set (k := RD (RQ (RV 0 0 1) 0) hzero).
  exists [(dqone, dqone); (i, i); (j, j)], dqone, k, (RV 1 0 0).
  assert (U : unitdq i /\ unitdq j /\ unitdq k) by (repeat split; unfold i, j, k; specu; lra). destruct U as (Ui & Uj & Uk).
  split; [apply unitdq_one|]. split; [exact Uk|].
  assert (UL : Forall (fun p => unitdq (fst p) /\ unitdq (snd p)) [(dqone, dqone); (i, i); (j, j)]).
  { repeat (apply Forall_cons; [split; cbn [fst snd]; auto using unitdq_one|]). apply Forall_nil. }
  split; [exact UL|]. split.
  { exists (i, i), (j, j). split; [right; now left|]. split; [right; right; now left|]. unfold i, j. cbn [fst snd dr qv].
    specu. intros E. apply (f_equal v3) in E. cbn [v3] in E. lra. }
  assert (REP : forall x, unitdq x -> (forall p, In p [i; j] -> consistent_up_to_sign x (p, p)) ->
     reported cfg [(dqone, dqone); (i, i); (j, j)] x 0 0).
  { intros x Ux C. destruct (C32_zero_error cfg tp to x [(dqone, dqone); (i, i); (j, j)] Ux) as (h & ph & pe & fl & GA & EV & _); auto.
    - apply Forall_cons; [|apply Forall_cons; [|apply Forall_cons; [|apply Forall_nil]]]; cbn [fst snd].
      + split; [apply unitdq_one|]. split; [apply unitdq_one|]. left. cbn [fst snd]. now rewrite dqmul_1_l, dqmul_1_r.
      + split; [exact Ui|]. split; [exact Ui|]. apply C. now left.
      + split; [exact Uj|]. split; [exact Uj|]. apply C. right; now left.
    - now exists dqone, [(i, i); (j, j)].
    - now exists h, ph, pe, fl. }
  split; [|split; [|split]].
  - apply REP; [apply unitdq_one|]. intros p _. left. cbn [fst snd]. now rewrite dqmul_1_l, dqmul_1_r.
  - apply REP; [exact Uk|]. intros p [<- | [<- | []]]; right; cbn [fst snd]; unfold i, j, k;
      apply rdq_eq; apply rq_eq; specu; ring.
  - unfold k. cbn [dr dqone]. apply rv_eq; specu; ring.
  - unfold len3. specu. replace (1 * 1 + 0 * 0 + 0 * 0) with 1 by ring. apply sqrt_1.
Qed.

(** The hypotheses are met: the exact calibration of the example data, compared with itself. *)
Example C80_example : forall (cfg : config XR) (tp to : R),
  ransac_position_error_threshold_m cfg = Fin tp -> ransac_orientation_error_threshold_deg cfg = Fin to ->
  let i := RD (RQ (RV (3/5) 0 0) (4/5)) hzero in let j := RD (RQ (RV 0 (3/5) 0) (4/5)) hzero in
  let l := [(dqone, dqone); (i, i); (j, j)] in
  Forall (fun p => unitdq (fst p) /\ unitdq (snd p)) l /\ reported cfg l dqone 0 0 /\
  (2 / 10000) / 2 < 2 * Rabs (qs (dr (dqmul (dqconj dqone) i))) /\
  0 < len3 (cross3 (qv (dr (dqmul (dqconj dqone) i))) (qv (dr (dqmul (dqconj dqone) j)))).
Proof.
  intros cfg tp to Tp To i j l.
  assert (U : unitdq i /\ unitdq j) by (repeat split; unfold i, j; specu; lra). destruct U as (Ui & Uj).
  assert (UL : Forall (fun p => unitdq (fst p) /\ unitdq (snd p)) l).
  { repeat (apply Forall_cons; [split; cbn [fst snd]; auto using unitdq_one|]). apply Forall_nil. }
  split; [exact UL|]. split.
  - destruct (C32_zero_error cfg tp to dqone l unitdq_one) as (h & ph & pe & fl & GA & EV & _); auto.
    + rewrite Forall_forall in *. intros p I. destruct (UL p I). repeat split; try apply H; try apply H0.
      left. unfold l in I. cbn [In] in I. destruct I as [<- | [<- | [<- | []]]]; cbn [fst snd]; now rewrite ?dqmul_1_l, ?dqmul_1_r.
    + now exists dqone, [(i, i); (j, j)].
    + now exists h, ph, pe, fl.
  - replace (dqconj dqone) with dqone by (apply rdq_eq; apply rq_eq; specu; ring). rewrite !dqmul_1_l. unfold i, j. cbn [dr qs qv]. split.
    + rewrite Rabs_pos_eq by lra. lra.
    + apply sqrt_lt_R0. specu. lra.
Qed.
