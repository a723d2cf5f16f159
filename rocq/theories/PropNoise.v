(** * Property C95: what noise in the recordings does to the calibration computed from them. *)

From Coq Require Import Reals ZArith Bool List Lra Lia Psatz.
From Flocq Require Import Core.
From Verif Require Import Num Py XReal XFacts Quat DualQuat HandEye Spec Embed QuatFacts QuatTrig
  QuatRot PropQuat DualFacts ScrewFacts PropDual ListFacts HandEyeFacts KernelFacts CalibFacts CalibExample
  PropCalib PropEval FloatQuat StabilityFacts PropStability PropAccuracy NoiseFacts.
Import ListNotations.
Local Open Scope R_scope.

(** ** Specification *)
(** hand and eye motion were measured within (a, d) and (b, e) of motions that fit together through x; neither is longer than
    T nor a half turn *)
Definition noisy (x : rdq) (a d b e T : R) (p : rdq * rdq) : Prop :=
  unitdq (fst p) /\ unitdq (snd p) /\ measured x a d b e (fst p) (snd p) /\
  d + e < Rabs (qs (dr (fst p))) /\ len3 (trans_of (fst p)) <= T /\ len3 (trans_of (snd p)) <= T.
(** the noise of one pair, as it enters the equations: angles (half, in radians) plus lengths (half, in metres) *)
Definition misfit (x : rdq) (a d b e T : R) : R := (d + e) + (a + b + (d + e) * (T + len3 (trans_of x))) / 2.

(** ** Facts *)
Lemma gram_app m n x y : gram (m ++ n) x y = gram m x y + gram n x y.
Proof.
  induction m as [|r m IH]; cbn [app gram fold_right]; [fold (gram n x y); ring|].
  fold (gram (m ++ n) x y). fold (gram m x y). rewrite IH. ring.
Qed.
Lemma gram_srows a b y :
  let p := up_vec (qv (dr a)) (qv (dr b)) (dr y) in
  let q := vadd (up_vec (qv (dd a)) (qv (dd b)) (dr y)) (up_vec (qv (dr a)) (qv (dr b)) (dd y)) in
  gram (srows a b) y y = dot3 p p + dot3 q q.
Proof.
  intros p q.
  assert (E : map (fun r => dot8 r y) (srows a b) = [Spec.v1 p; Spec.v2 p; Spec.v3 p; Spec.v1 q; Spec.v2 q; Spec.v3 q]).
  { unfold p, q. clear p q. destruct a as [[[] ?] [[] ?]], b as [[[] ?] [[] ?]], y as [[[] ?] [[] ?]].
    unfold srows, rhalf, up_vec. cbn [map combine app fst snd].
    do 6 (apply (f_equal2 cons); [cbn [fst snd]; specu; ring|]). reflexivity. }
  clearbody p q. rewrite image_gram.
  replace (map (fun r => dot8 r y * dot8 r y) (srows a b)) with (map (fun z => z * z) (map (fun r => dot8 r y) (srows a b))) by apply map_map.
  rewrite E. cbn [map fold_right]. destruct p, q. specu. ring.
Qed.
Lemma up_vec_le a b u : len3 (up_vec a b u) <= (len3 a + len3 b) * hnorm u.
Proof.
  replace (up_vec a b u) with (qv (hsub (hmul (RQ a 0) u) (hmul u (RQ b 0)))) by (symmetry; apply (up_vec_commutator (RQ a 0) (RQ b 0)); reflexivity).
  eapply Rle_trans; [apply len3_qv|].
  replace (hsub (hmul (RQ a 0) u) (hmul u (RQ b 0))) with (hadd (hmul (RQ a 0) u) (hneg (hmul u (RQ b 0)))) by qr.
  eapply Rle_trans; [apply hnorm_triangle|]. rewrite hnorm_neg, !hnorm_mul, <- !len3_pure. lra.
Qed.
Lemma up_vec_sub a b a' b' u : up_vec a b u = vadd (up_vec (vsub a a') (vsub b b') u) (up_vec a' b' u).
Proof. unfold up_vec. destruct a, b, a', b', u as [[] ?]. apply rv_eq; specu; ring. Qed.
Lemma vadd_0_r v : vadd v vzero = v.
Proof. destruct v. apply rv_eq; specu; ring. Qed.
Lemma dual_near h H a d T : unitdq h -> unitdq H -> dist (dr h) (dr H) <= d ->
  len3 (vsub (trans_of h) (trans_of H)) <= a -> len3 (trans_of h) <= T -> hnorm (hsub (dd h) (dd H)) <= (a + T * d) / 2.
Proof.
  intros Uh UH D A B.
  assert (Eh : dd h = hscale (1 / 2) (hmul (RQ (trans_of h) 0) (dr h))) by (rewrite <- (dq_of_trans h Uh) at 1; reflexivity).
  assert (EH : dd H = hscale (1 / 2) (hmul (RQ (trans_of H) 0) (dr H))) by (rewrite <- (dq_of_trans H UH) at 1; reflexivity).
  rewrite Eh, EH.
  replace (hsub (hscale (1 / 2) (hmul (RQ (trans_of h) 0) (dr h))) (hscale (1 / 2) (hmul (RQ (trans_of H) 0) (dr H))))
    with (hscale (1 / 2) (hadd (hmul (RQ (trans_of h) 0) (hsub (dr h) (dr H))) (hmul (RQ (vsub (trans_of h) (trans_of H)) 0) (dr H)))).
  2:{ destruct (trans_of h), (trans_of H), (dr h) as [[] ?], (dr H) as [[] ?]. apply rq_eq; specu; field. }
  rewrite hnorm_scale by lra. pose proof (hnorm_triangle (hmul (RQ (trans_of h) 0) (hsub (dr h) (dr H))) (hmul (RQ (vsub (trans_of h) (trans_of H)) 0) (dr H))) as X.
  rewrite !hnorm_mul, <- !len3_pure in X. fold (dist (dr h) (dr H)) in X. destruct UH as [UH _]. apply unit_hnorm in UH. rewrite UH in X.
  assert (len3 (trans_of h) * dist (dr h) (dr H) <= T * d) by (apply Rmult_le_compat; try assumption; [apply len3_pos|apply dist_pos]). lra.
Qed.
Lemma trans_len z : unitdq z -> len3 (trans_of z) = 2 * hnorm (dd z).
Proof.
  intros [z1 z2]. apply unit_hnorm in z1. replace (hnorm (dd z)) with (hnorm (hmul (dd z) (hconj (dr z)))) by (rewrite hnorm_mul, hnorm_conj, z1; ring).
  rewrite <- hnorm_scale by lra. rewrite len3_pure. f_equal.
  unfold trans_of. apply rq_eq; [reflexivity|reflexivity|reflexivity|].
  transitivity (2 * hdot (dr z) (dd z)); [rewrite z2; cbn; ring|]. destruct (dr z) as [[] ?], (dd z) as [[] ?]. specu. ring.
Qed.
Lemma vec_near p q d : dist p q <= d -> len3 (vsub (qv p) (qv q)) <= d.
Proof. intros H. eapply Rle_trans; [|exact H]. apply (len3_qv (hsub p q)). Qed.
Lemma square_le v c : len3 v <= c -> dot3 v v <= c * c.
Proof. intros H. rewrite <- len3_sqr. pose proof (len3_pos v). apply Rmult_le_compat; lra. Qed.

Lemma scalar_near p q d : dist p q <= d -> Rabs (qs p - qs q) <= d.
Proof.
  intros H. eapply Rle_trans; [|exact H]. unfold dist, hnorm.
  replace (Rabs (qs p - qs q)) with (sqrt ((qs p - qs q) * (qs p - qs q))) by (rewrite <- sqrt_Rsqr_abs; reflexivity).
  apply sqrt_le_1_alt. destruct p as [[] ?], q as [[] ?]. specu.
  repeat match goal with |- context [(?u - ?v) * (?u - ?v)] => lazymatch goal with K : 0 <= (u - v) * (u - v) |- _ => fail | _ => pose proof (Rle_0_sqr (u - v) : 0 <= (u - v) * (u - v)) end end. nra.
Qed.
Lemma pair_bound x h m H E a d b e T : unitdq x -> unitdq h -> unitdq m -> unitdq H -> unitdq E -> dqmul H x = dqmul x E ->
  dist (dr h) (dr H) <= d -> dist (dr m) (dr E) <= e ->
  len3 (vsub (trans_of h) (trans_of H)) <= a -> len3 (vsub (trans_of m) (trans_of E)) <= b ->
  len3 (trans_of h) <= T -> len3 (trans_of m) <= T ->
  let c := misfit x a d b e T in
  0 <= c /\ gram (srows h m) x x <= c * c /\ gram (srows h m) (shift x) (shift x) <= c * c /\
  Rabs (qs (dr h) - qs (dr m)) <= c /\ Rabs (qs (dd h) - qs (dd m)) <= c.
Proof.
  intros Ux Uh Um UH UE C Dh Dm Ah Am Th Tm c.
  destruct (consistent_scalars x (H, E) Ux C) as [SC1 SC2]. cbn [fst snd] in SC1, SC2.
  pose proof (scalar_near _ _ _ Dh) as N1. pose proof (scalar_near _ _ _ Dm) as N2.
  destruct (kernel_forward H E x Ux C) as [K1 K2].
  apply kills_srows in K1 as [K11 K12]. apply kills_srows in K2 as [_ K22]. cbn [dr dd] in K22.
  pose proof (dual_near h H a d T Uh UH Dh Ah Th) as Bh. pose proof (dual_near m E b e T Um UE Dm Am Tm) as Bm.
  pose proof (scalar_near (dd h) (dd H) _ Bh) as N3. pose proof (scalar_near (dd m) (dd E) _ Bm) as N4.
  apply (vec_near (dd h) (dd H)) in Bh. apply (vec_near (dd m) (dd E)) in Bm.
  pose proof (vec_near _ _ _ Dh) as Vh. pose proof (vec_near _ _ _ Dm) as Vm.
  pose proof (dist_pos (dr h) (dr H)) as P1. pose proof (dist_pos (dr m) (dr E)) as P2.
  assert (UN : hnorm (dr x) = 1) by (apply unit_hnorm, Ux).
  pose proof (trans_len x Ux) as TX. pose proof (hnorm_pos (dd x)) as L0. set (L := hnorm (dd x)) in *.
  pose proof (len3_pos (trans_of h)) as T0. pose proof (len3_pos (vsub (trans_of h) (trans_of H))) as a0. pose proof (len3_pos (vsub (trans_of m) (trans_of E))) as b0.
  assert (B1 : forall u, len3 (up_vec (vsub (qv (dr h)) (qv (dr H))) (vsub (qv (dr m)) (qv (dr E))) u) <= (d + e) * hnorm u).
  { intros u. eapply Rle_trans; [apply up_vec_le|]. apply Rmult_le_compat_r; [apply hnorm_pos|lra]. }
  assert (B2 : len3 (up_vec (vsub (qv (dd h)) (qv (dd H))) (vsub (qv (dd m)) (qv (dd E))) (dr x)) <= (a + b + (d + e) * T) / 2).
  { eapply Rle_trans; [apply up_vec_le|]. rewrite UN. lra. }
  assert (rt : 0 <= (d + e) * T) by (apply Rmult_le_pos; lra).
  assert (rL : 0 <= (d + e) * L) by (apply Rmult_le_pos; lra).
  assert (EC : c = (d + e) + ((a + b + (d + e) * T) / 2 + (d + e) * L)) by (unfold c, misfit; rewrite TX; fold L; field).
  assert (U1 : dot3 (up_vec (qv (dr h)) (qv (dr m)) (dr x)) (up_vec (qv (dr h)) (qv (dr m)) (dr x)) <= (d + e) * (d + e)).
  { apply square_le. rewrite (up_vec_sub _ _ (qv (dr H)) (qv (dr E))), K11, vadd_0_r. specialize (B1 (dr x)). rewrite UN in B1. lra. }
  assert (E0 : 0 <= c) by lra. split; [exact E0|]. split; [|split; [|split]].
  - pose proof (gram_srows h m x) as G. cbv zeta in G. rewrite G. clear G.
    set (t := (a + b + (d + e) * T) / 2 + (d + e) * L) in *.
    assert (U2 : len3 (vadd (up_vec (qv (dd h)) (qv (dd m)) (dr x)) (up_vec (qv (dr h)) (qv (dr m)) (dd x))) <= t).
    { rewrite (up_vec_sub (qv (dd h)) (qv (dd m)) (qv (dd H)) (qv (dd E))), (up_vec_sub (qv (dr h)) (qv (dr m)) (qv (dr H)) (qv (dr E)) (dd x)).
      match goal with |- len3 (vadd (vadd ?p ?q) (vadd ?r ?s)) <= _ => replace (vadd (vadd p q) (vadd r s)) with (vadd (vadd p r) (vadd q s)) by (destruct p, q, r, s; apply rv_eq; specu; ring) end.
      rewrite K12, vadd_0_r. eapply Rle_trans; [apply len3_triangle|]. specialize (B1 (dd x)). fold L in B1. unfold t. lra. }
    apply square_le in U2. assert (0 <= t) by (unfold t; lra). rewrite EC. assert (0 <= (d + e) * t) by (apply Rmult_le_pos; lra). lra.
  - pose proof (gram_srows h m (shift x)) as G. cbv zeta in G. rewrite G. clear G. cbn [shift dr dd].
    assert (Z : forall p q, up_vec p q hzero = vzero) by (intros p q; unfold up_vec; destruct p, q; apply rv_eq; specu; ring).
    rewrite !Z. replace (vadd vzero (up_vec (qv (dr h)) (qv (dr m)) (dr x))) with (up_vec (qv (dr h)) (qv (dr m)) (dr x))
      by (destruct (up_vec (qv (dr h)) (qv (dr m)) (dr x)); apply rv_eq; specu; ring).
    replace (dot3 vzero vzero) with 0 by (specu; ring).
    assert ((d + e) * (d + e) <= c * c) by (apply Rmult_le_compat; lra). lra.
  - apply Rabs_le_inv in N1, N2. apply Rabs_le. lra.
  - apply Rabs_le_inv in N3, N4. apply Rabs_le. lra.
Qed.

Lemma neg_fits x H E : dqmul H x = dqmul x E -> dqmul (dqneg H) x = dqmul x (dqneg E).
Proof. intros C. now rewrite dqmul_neg_l, dqmul_neg_r, C. Qed.
Lemma fits_scalar x H E : unitdq x -> dqmul H x = dqmul x E -> qs (dr H) = qs (dr E).
Proof. intros U C. destruct (consistent_scalars x (H, E) U C) as [S _]. exact S. Qed.
Lemma unit_neg z : unitdq z -> unitdq (dqneg z).
Proof. intros [A B]. split; [unfold unitq; cbn [dqneg dr]; now rewrite hnorm2_neg|]. destruct z as [[[] ?] [[] ?]]. specu. lra. Qed.
Lemma turned_unit z : unitdq z -> forall p, (p = z \/ p = dqneg z) -> unitdq p.
Proof. intros U p [-> | ->]; [easy|now apply unit_neg]. Qed.

(** the signs of the two motions are matched before the equations are set up *)
Lemma matched_bound x a d b e T p : unitdq x -> noisy x a d b e T p ->
  let c := misfit x a d b e T in let q := rmatch p in
  0 <= c /\ gram (srows (fst q) (snd q)) x x <= c * c /\ gram (srows (fst q) (snd q)) (shift x) (shift x) <= c * c /\
  Rabs (qs (dr (fst q)) - qs (dr (snd q))) <= c /\ Rabs (qs (dd (fst q)) - qs (dd (snd q))) <= c.
Proof.
  destruct p as [h m]. intros Ux (Uh & Um & (H & E & UH & UE & C & [A1 A2] & [B1 B2]) & W & Th & Tm) c q. cbn [fst snd] in Uh, Um, A1, A2, B1, B2, W, Th, Tm.
  (* the motion H with the sign of h, and E to go with it *)
  assert (X : exists H' E', unitdq H' /\ unitdq E' /\ dqmul H' x = dqmul x E' /\ dist (dr h) (dr H') <= d /\
            trans_of H' = trans_of H /\ trans_of E' = trans_of E /\ (dr E' = dr E \/ dr E' = hneg (dr E))).
  { assert (Y : exists E1, unitdq E1 /\ dqmul H x = dqmul x E1 /\ trans_of E1 = trans_of E /\ (dr E1 = dr E \/ dr E1 = hneg (dr E))).
    { destruct C as [C|C]; [exists E; auto|]. exists (dqneg E). split; [now apply unit_neg|]. split; [now rewrite dqmul_neg_r|]. split; [apply trans_of_neg|]. now right. }
    destruct Y as (E1 & U1 & F1 & T1 & S1). destruct A2 as [A2|A2].
    - exists H, E1. auto 10.
    - exists (dqneg H), (dqneg E1). split; [now apply unit_neg|]. split; [now apply unit_neg|]. split; [now apply neg_fits|]. split; [exact A2|].
      split; [apply trans_of_neg|]. split; [now rewrite trans_of_neg|]. cbn [dqneg dr]. destruct S1 as [-> | ->]; [now right|left; apply hneg_neg]. }
  destruct X as (H' & E' & UH' & UE' & F & Dh & TH & TE & SE).
  set (m' := snd q). assert (PM : m' = m \/ m' = dqneg m) by (unfold m', q, rmatch; cbn [fst snd]; destruct (Rlt_dec _ _); auto).
  assert (SG : 0 <= qs (dr m') * qs (dr h)).
  { unfold m', q, rmatch. cbn [fst snd]. destruct (Rlt_dec _ _) as [G|G]; [|lra]. destruct m as [[[] ?] [[] ?]]. specu. lra. }
  assert (De : dist (dr m') (dr E') <= e \/ dist (dr m') (hneg (dr E')) <= e).
  { assert (Y : dist (dr m') (dr E) <= e \/ dist (dr m') (hneg (dr E)) <= e).
    { destruct PM as [-> | ->]; [exact B2|]. cbn [dqneg dr]. rewrite dist_neg, dist_neg_r. tauto. }
    destruct SE as [-> | ->]; [exact Y|]. rewrite hneg_neg. tauto. }
  pose proof (fits_scalar x H' E' Ux F) as SC.
  assert (De' : dist (dr m') (dr E') <= e).
  { destruct De as [De|De]; [exact De|exfalso]. pose proof (scalar_near _ _ _ De) as N1. pose proof (scalar_near _ _ _ Dh) as N2.
    apply Rabs_le_inv in N1. apply Rabs_le_inv in N2. cbn [hneg qs] in N1. rewrite <- SC in N1.
    unfold Rabs in W. destruct (Rcase_abs (qs (dr h))) as [G|G].
    - assert (0 < qs (dr m')) by lra. nra.
    - assert (qs (dr m') < 0) by lra. nra. }
  assert (Um' : unitdq m') by (apply (turned_unit m); assumption).
  assert (TM : trans_of m' = trans_of m) by (destruct PM as [-> | ->]; [easy|apply trans_of_neg]).
  change (fst q) with h. fold m'. apply (pair_bound x h m' H' E' a d b e T); try assumption.
  - now rewrite TH. - now rewrite TM, TE. - now rewrite TM.
Qed.
Lemma total_bound x a d b e T l : unitdq x -> Forall (noisy x a d b e T) l ->
  let c := misfit x a d b e T in let m := trows ((dqone, dqone) :: map rmatch l) in
  gram m x x <= INR (length l) * (c * c) /\ gram m (shift x) (shift x) <= INR (length l) * (c * c).
Proof.
  intros Ux F c m. unfold m, trows. cbn [flat_map fst snd]. rewrite !gram_app.
  assert (Z : forall y, gram (srows dqone dqone) y y = 0) by (intros y; apply gram_zero; exact (kills1 y)).
  rewrite !Z. induction F as [|p l N F IH]; cbn [map flat_map].
  - cbn. lra.
  - rewrite !gram_app. destruct (matched_bound x a d b e T p Ux N) as (_ & G1 & G2 & _). fold c in G1, G2. cbn [length]. rewrite S_INR. lra.
Qed.

(** ** C95 *)
(** what [result] must be: near the true calibration, or with a translation of absurd length *)
Definition near_or_far (x : rdq) (dl : R) (x' : rdq) : Prop :=
  near (14 * (1 + len3 (trans_of x) / 2) * dl) (3 * dl) x' x \/ 1 <= 5 * dl * len3 (trans_of x').

Lemma combo_comb p q : exists A B, combo p q = comb A B p q.
Proof.
  unfold combo. destruct (rflip_cases (dqscale (/ sqrt (val p q (root p q))) (dqadd (dqscale (root p q) p) q))) as [-> | ->].
  - exists (/ sqrt (val p q (root p q)) * root p q), (/ sqrt (val p q (root p q))). unfold comb.
    destruct p as [[[] ?] [[] ?]], q as [[[] ?] [[] ?]]. apply rdq_eq; apply rq_eq; specu; ring.
  - exists (- / sqrt (val p q (root p q)) * root p q), (- / sqrt (val p q (root p q))). unfold comb.
    destruct p as [[[] ?] [[] ?]], q as [[[] ?] [[] ?]]. apply rdq_eq; apply rq_eq; specu; ring.
Qed.

(** The sixth singular value that is reported says how reliable the result is. *)
Theorem C95_noise : forall svd (tol : xr) (x : rdq) (l : list (rdq * rdq)) (a d b e T : R) w r
    (m : list rdq) (s : list R) (v : list rdq) bad (sg : R),
  unitdq x -> Forall (noisy x a d b e T) l ->
  compute_hand_eye_calibration svd tol (inD dqone :: hands l) (inD dqone :: eyes l) = (w, Ok (r, map Fin s, bad)) ->
  setup_t_matrix svd (inD dqone :: hands l) w = Ok (map inD m) ->
  svd (map inD m) = Ok (map Fin s, map inD v) -> svd_spec m s v ->
  0 < sg -> sg <= nth 5 s 0 ->
  let dl := sqrt (INR (length l)) * misfit x a d b e T / sg in
  dl * (1 + len3 (trans_of x) / 2) <= 1 / 100 ->
  exists x', r = inD x' /\ unitdq x' /\ near_or_far x dl x'.
Proof.
  intros svd tol x l a d b e T w r m s v bad sg Ux NO H ST SE SP S0 S5 dl SM.
  rewrite compute_in in H. apply pair_equal_spec in H as [EW H]. subst w.
  change (inD dqone :: hands l) with (hands ((dqone, dqone) :: l)) in ST.
  replace (hands ((dqone, dqone) :: l)) with (hands ((dqone, dqone) :: map rmatch l)) in ST by (cbn [hands map fst]; f_equal; apply hands_rmatch).
  change (inD dqone :: eyes (map rmatch l)) with (eyes ((dqone, dqone) :: map rmatch l)) in ST.
  pose proof (inD_list_inj _ _ (setup_t_inv svd _ _ ST)) as EM.
  unfold calibrate in H. rewrite ST in H.
  destruct (scalar_gate _ _ _); [|easy]. cbn [bind] in H. rewrite SE in H. cbn [bind] in H.
  rewrite !index_map in H. unfold index in H.
  destruct (nth_error v 6) as [p|] eqn:E7; [|easy]. cbn [bind] in H.
  destruct (nth_error v 7) as [q|] eqn:E8; [|easy]. cbn [bind] in H.
  rewrite solve_in in H.
  destruct (Req_EM_T (qa p q) 0) as [|A]; [easy|].
  destruct (Rlt_dec (disc p q) (-1 / 100)) as [|D]; [easy|].
  destruct (Rlt_dec 0 (val p q (root p q))) as [V|]; [|easy]. cbn [bind] in H.
  assert (R : r = inD (combo p q)) by congruence. clear H. exists (combo p q). split; [exact R|].
  (* the true calibration and its screw displacement nearly solve the equations *)
  destruct (total_bound x a d b e T l Ux NO) as [G1 G2]. rewrite <- EM in G1, G2.
  set (c := misfit x a d b e T) in *. set (n := INR (length l)) in *.
  assert (N0 : 0 <= n) by (unfold n; apply pos_INR).
  assert (D0 : 0 <= dl).
  { unfold dl. destruct l as [|p0 l']; [unfold n; cbn [length INR]; rewrite sqrt_0; unfold Rdiv; lra|].
    apply Forall_inv in NO. destruct (matched_bound x a d b e T p0 Ux NO) as (C0 & _). fold c in C0.
    apply Rmult_le_pos; [apply Rmult_le_pos; [apply sqrt_pos|easy]|left; now apply Rinv_0_lt_compat]. }
  assert (DL : sg * sg * (dl * dl) = n * (c * c)).
  { unfold dl. transitivity (sqrt n * sqrt n * (c * c)); [field; lra|]. now rewrite sqrt_sqrt. }
  destruct (svd_gap m s v sg x p q SP ltac:(lra) S5 E7 E8) as (r1 & P1 & R1).
  destruct (svd_gap m s v sg (shift x) p q SP ltac:(lra) S5 E7 E8) as (r2 & P2 & R2).
  assert (SS : 0 < sg * sg) by now apply Rmult_lt_0_compat.
  assert (B1 : dot8 r1 r1 <= dl * dl) by (apply (Rmult_le_reg_l (sg * sg)); [easy|lra]).
  assert (B2 : dot8 r2 r2 <= dl * dl) by (apply (Rmult_le_reg_l (sg * sg)); [easy|lra]).
  pose proof (trans_len x Ux) as TX. assert (L2 : len3 (trans_of x) / 2 = hnorm (dd x)) by lra. rewrite L2 in SM.
  fold (comb (dot8 x p) (dot8 x q) p q) in P1. fold (comb (dot8 (shift x) p) (dot8 (shift x) q) p q) in P2.
  assert (UC : unitdq (combo p q)).
  { split; [now apply combo_unit|]. rewrite combo_dual by easy.
    destruct (real_root x p q r1 r2 _ _ _ _ dl Ux D0 SM P1 P2 B1 B2 A) as [t T0]. cbv zeta in T0. rewrite quad_at in T0.
    assert (SQ : 4 * qa p q * (qa p q * t * t + qb p q * t + qc p q)
                = (2 * qa p q * t + qb p q) * (2 * qa p q * t + qb p q) - disc p q) by (unfold disc; ring).
    rewrite T0 in SQ. pose proof (Rle_0_sqr (2 * qa p q * t + qb p q)) as Q. unfold Rsqr in Q.
    rewrite root_solves by lra. unfold Rdiv. ring. }
  split; [exact UC|]. destruct (combo_comb p q) as (AA & BB & EC). rewrite EC in *.
  unfold near_or_far, near. rewrite L2.
  destruct (perturbed x p q r1 r2 _ _ _ _ dl Ux D0 SM P1 P2 B1 B2 AA BB UC) as [F|F]; [left|right]; exact F.
Qed.

Lemma bad_from_false s : forall i j, (i + j < 6)%nat -> (j < length s)%nat -> bad_from (N:=XR) i (map Fin s) = false -> 1 / 2 <= nth j s 0.
Proof.
  induction s as [|y s IH]; intros i j IJ LJ H; [cbn in LJ; lia|]. cbn [map bad_from] in H. apply orb_false_iff in H as [H1 H2].
  destruct j as [|j].
  - rewrite (proj2 (Nat.ltb_lt i 6)) in H1 by lia. cbn [XR ltb xltb lit] in H1. cbn [nth].
    unfold Rltb in H1. destruct (Rlt_dec y (Rlit 5 (-1))) as [|G]; [easy|]. unfold Rlit in G. cbn in G. lra.
  - cbn [nth]. apply (IH (S i) j); [lia|cbn in LJ; lia|exact H2].
Qed.

(** A result without the warning about bad singular values. *)
Theorem C95_unflagged : forall svd (tol : xr) (x : rdq) (l : list (rdq * rdq)) (a d b e T : R) w r
    (m : list rdq) (s : list R) (v : list rdq),
  unitdq x -> Forall (noisy x a d b e T) l ->
  compute_hand_eye_calibration svd tol (inD dqone :: hands l) (inD dqone :: eyes l) = (w, Ok (r, map Fin s, false)) ->
  setup_t_matrix svd (inD dqone :: hands l) w = Ok (map inD m) ->
  svd (map inD m) = Ok (map Fin s, map inD v) -> svd_spec m s v ->
  let dl := 2 * sqrt (INR (length l)) * misfit x a d b e T in
  dl * (1 + len3 (trans_of x) / 2) <= 1 / 100 ->
  exists x', r = inD x' /\ unitdq x' /\ near_or_far x dl x'.
Proof.
  intros svd tol x l a d b e T w r m s v Ux NO H ST SE SP dl SM.
  assert (FLAG : bad_singular_values (N:=XR) (map Fin s) = false).
  { unfold compute_hand_eye_calibration in H.
    destruct (do b0 <- _; _) as [u|]; [|easy]. destruct (match_signs _ _) as [w' short]. destruct short; [easy|].
    apply pair_equal_spec in H as [_ H]. unfold calibrate in H.
    destruct (scalar_gate _ _ _); [|easy]. cbn [bind] in H. destruct (setup_t_matrix _ _ _); [|easy]. cbn [bind] in H.
    destruct (svd _) as [[s' v']|]; [|easy]. cbn [bind] in H. destruct (index v' 6); [|easy]. cbn [bind] in H.
    destruct (index v' 7); [|easy]. cbn [bind] in H. destruct (solve_quadratic _ _); [|easy]. cbn [bind] in H. congruence. }
  assert (LEN : (6 <= length m)%nat).
  { assert (EM : m = trows ((dqone, dqone) :: map rmatch l)).
    { pose proof H as H'. rewrite compute_in in H'. apply pair_equal_spec in H' as [EW _]. subst w.
      change (inD dqone :: hands l) with (hands ((dqone, dqone) :: l)) in ST.
      replace (hands ((dqone, dqone) :: l)) with (hands ((dqone, dqone) :: map rmatch l)) in ST by (cbn [hands map fst]; f_equal; apply hands_rmatch).
      change (inD dqone :: eyes (map rmatch l)) with (eyes ((dqone, dqone) :: map rmatch l)) in ST.
      exact (inD_list_inj _ _ (setup_t_inv svd _ _ ST)). }
    rewrite EM. cbn [trows flat_map]. rewrite app_length. cbn. lia. }
  assert (S5 : 1 / 2 <= nth 5 s 0).
  { apply (bad_from_false s 0 5); [lia| |exact FLAG]. rewrite (svd_count _ _ _ SP). lia. }
  assert (ED : dl = sqrt (INR (length l)) * misfit x a d b e T / (1 / 2)) by (unfold dl; field).
  rewrite ED in *. exact (C95_noise svd tol x l a d b e T w r m s v false (1 / 2) Ux NO H ST SE SP ltac:(lra) S5 SM).
Qed.

(** *** when the computation returns a result *)
Lemma disc_pos x v7 v8 r1 r2 a1 b1 a2 b2 d : unitdq x -> 0 <= d -> d * (1 + hnorm (dd x)) <= 1 / 100 ->
  x = dqadd (comb a1 b1 v7 v8) r1 -> shift x = dqadd (comb a2 b2 v7 v8) r2 ->
  dot8 r1 r1 <= d * d -> dot8 r2 r2 <= d * d -> 0 < disc v7 v8.
Proof.
  intros U D0 S P1 P2 R1 R2. destruct (both_signs x v7 v8 r1 r2 a1 b1 a2 b2 d U D0 S P1 P2 R1 R2) as [H1 H2]. cbv zeta in *.
  destruct (Rlt_le_dec 0 (disc v7 v8)) as [|N]; [easy|exfalso].
  assert (Q : forall a b, hdot (dr (comb a b v7 v8)) (dd (comb a b v7 v8)) = a * a * qa v7 v8 + a * b * qb v7 v8 + b * b * qc v7 v8).
  { intros. unfold comb, qa, qb, qc. destruct v7 as [[[] ?] [[] ?]], v8 as [[[] ?] [[] ?]]. specu; ring. }
  rewrite Q in H1, H2. unfold disc in N. set (ka := qa v7 v8) in *. set (kb := qb v7 v8) in *. set (kc := qc v7 v8) in *.
  clearbody ka kb kc. clear - H1 H2 N. set (A := a1 + a2) in *. set (B := b1 + b2) in *. set (A' := a1 - a2) in *. set (B' := b1 - b2) in *. clearbody A B A' B'.
  (* a form with negative or zero discriminant does not change its sign *)
  assert (K : 0 <= ka * kc) by (pose proof (Rle_0_sqr kb); unfold Rsqr in *; lra).
  assert (F : forall a b, 0 <= ka * (a * a * ka + a * b * kb + b * b * kc) /\ 0 <= kc * (a * a * ka + a * b * kb + b * b * kc)).
  { intros a b. split.
    - replace (ka * (a * a * ka + a * b * kb + b * b * kc)) with ((2 * ka * a + kb * b) * (2 * ka * a + kb * b) / 4 + (4 * ka * kc - kb * kb) * (b * b) / 4) by field.
      pose proof (Rle_0_sqr (2 * ka * a + kb * b)). pose proof (Rle_0_sqr b). unfold Rsqr in *. assert (0 <= (4 * ka * kc - kb * kb) * (b * b)) by (apply Rmult_le_pos; lra). lra.
    - replace (kc * (a * a * ka + a * b * kb + b * b * kc)) with ((2 * kc * b + kb * a) * (2 * kc * b + kb * a) / 4 + (4 * ka * kc - kb * kb) * (a * a) / 4) by field.
      pose proof (Rle_0_sqr (2 * kc * b + kb * a)). pose proof (Rle_0_sqr a). unfold Rsqr in *. assert (0 <= (4 * ka * kc - kb * kb) * (a * a)) by (apply Rmult_le_pos; lra). lra. }
  destruct (F A B) as [X1 X2]. destruct (F A' B') as [Y1 Y2].
  set (f := A * A * ka + A * B * kb + B * B * kc) in *. set (g := A' * A' * ka + A' * B' * kb + B' * B' * kc) in *.
  assert (Za : ka = 0) by nra. assert (Zc : kc = 0) by nra. unfold f, g in *. clear f g. subst ka kc.
  assert (kb = 0) by nra. subst kb. lra.
Qed.
(** only dot (u1, v1) = 0 can make the quadratic fail then *)
Lemma solve_near p q : 0 < disc p q -> qa p q <> 0 -> solve_quadratic (inD p) (inD q) = Ok (inD (combo p q)).
Proof.
  intros D A. rewrite solve_in. destruct (Req_EM_T (qa p q) 0); [easy|]. destruct (Rlt_dec (disc p q) (-1 / 100)); [lra|].
  destruct (Rlt_dec 0 (val p q (root p q))) as [|N]; [easy|exfalso].
  assert (P : forall s, 0 <= val p q s) by (intros s; rewrite val_norm; apply hnorm2_pos).
  assert (Z : val p q (root1 p q) = 0 /\ val p q (root2 p q) = 0).
  { pose proof (P (root1 p q)). pose proof (P (root2 p q)). unfold root in N. destruct (Rlt_dec _ _); lra. }
  destruct Z as [Z1 Z2]. rewrite val_norm in Z1, Z2. apply hnorm2_zero in Z1, Z2.
  assert (NE : root1 p q - root2 p q <> 0).
  { unfold root1, root2, clipped. destruct (Rlt_dec (disc p q) 0); [lra|]. pose proof (sqrt_lt_R0 _ D).
    replace ((- qb p q + sqrt (disc p q)) / (2 * qa p q) - (- qb p q - sqrt (disc p q)) / (2 * qa p q)) with (sqrt (disc p q) / qa p q) by (field; easy).
    intros E. apply Rmult_integral in E as [E|E]; [lra|]. now apply (Rinv_neq_0_compat _ A). }
  apply A. assert (E : hscale (root1 p q - root2 p q) (dr p) = hzero).
  { transitivity (hsub (hadd (hscale (root1 p q) (dr p)) (dr q)) (hadd (hscale (root2 p q) (dr p)) (dr q))); [destruct (dr p) as [[] ?], (dr q) as [[] ?]; apply rq_eq; specu; ring|].
    rewrite Z1, Z2. apply rq_eq; specu; ring. }
  unfold qa. apply (Rmult_eq_reg_l (root1 p q - root2 p q)); [|exact NE].
  transitivity (hdot (hscale (root1 p q - root2 p q) (dr p)) (dd p)); [destruct (dr p) as [[] ?], (dd p) as [[] ?]; specu; ring|].
  rewrite E. destruct (dd p) as [[] ?]; specu; ring.
Qed.
Lemma within_close tol c u v : 0 <= tol -> Rabs (u - v) <= c -> c <= tol -> Spec.close_to tol u v.
Proof. intros T H C. unfold Spec.close_to. pose proof (Rabs_pos v). lra. Qed.

(** Recordings with little noise and enough motion are calibrated unless the dot product of the halves of the seventh vector
    is exactly 0. *)
Theorem C95_answers : forall svd (tol : R) (x : rdq) (l : list (rdq * rdq)) (a d b e T : R),
  (forall m, exists r, svd m = Ok r) ->
  unitdq x -> Forall (noisy x a d b e T) l -> misfit x a d b e T <= tol -> misfit x a d b e T <= 1 / 20 -> 0 <= tol ->
  let run := compute_hand_eye_calibration svd (Fin tol) (inD dqone :: hands l) (inD dqone :: eyes l) in
  exists m : list rdq, setup_t_matrix svd (inD dqone :: hands l) (fst run) = Ok (map inD m) /\
    forall (s : list R) (v : list rdq) p (sg : R),
    svd (map inD m) = Ok (map Fin s, map inD v) -> svd_spec m s v -> nth_error v 6 = Some p ->
    0 < sg -> sg <= nth 5 s 0 ->
    let dl := sqrt (INR (length l)) * misfit x a d b e T / sg in
    dl * (1 + len3 (trans_of x) / 2) <= 1 / 100 ->
    hdot (dr p) (dd p) <> 0 ->
    exists x' bad, snd run = Ok (inD x', map Fin s, bad) /\ unitdq x' /\ near_or_far x dl x'.
Proof.
  intros svd tol x l a d b e T TOT Ux NO M1 M2 T0 run. set (c := misfit x a d b e T) in *.
  set (l1 := (dqone, dqone) :: map rmatch l).
  assert (SC : forall p, In p l1 -> Rabs (qs (dr (fst p)) - qs (dr (snd p))) <= c /\ Rabs (qs (dd (fst p)) - qs (dd (snd p))) <= c \/ p = (dqone, dqone)).
  { intros p [<-|I]; [now right|left]. apply in_map_iff in I as (q & <- & I). rewrite Forall_forall in NO.
    destruct (matched_bound x a d b e T q Ux (NO q I)) as (_ & _ & _ & S1 & S2). auto. }
  assert (ONE : forall t, 0 <= t -> scalars_close t dqone dqone).
  { intros t Ht. split; apply (within_close t 0); try lra; rewrite Rminus_diag_eq, Rabs_R0 by reflexivity; lra. }
  assert (G1 : forall p, In p l1 -> scalars_close tol (snd p) (fst p)).
  { intros p I. destruct (SC p I) as [[S1 S2]| ->]; [|now apply ONE]. split; apply (within_close tol c); try assumption; now rewrite Rabs_minus_sym. }
  assert (G2 : forall p, In p l1 -> scalars_close (5 / 100) (fst p) (snd p)).
  { intros p I. destruct (SC p I) as [[S1 S2]| ->]; [|apply ONE; lra]. split; apply (within_close (5 / 100) c); try assumption; lra. }
  assert (ST : setup_t_matrix svd (hands l1) (eyes l1) = Ok (map inD (trows l1))).
  { apply setup_t_in; [intros p I; apply TOT|exact G2|apply TOT]. }
  assert (HL : hands l1 = inD dqone :: hands l) by (unfold l1; cbn [hands map fst]; f_equal; apply hands_rmatch).
  assert (FST : fst run = inD dqone :: eyes (map rmatch l)) by (unfold run; rewrite compute_in; reflexivity).
  exists (trows l1). rewrite FST, <- HL. split; [exact ST|].
  intros s v p sg SE SP E7 S0 S5 dl SM A.
  destruct (nth_error v 7) as [q|] eqn:E8; [|exfalso; apply nth_error_None in E8; rewrite (svd_rows _ _ _ SP) in E8; lia].
  assert (DS : 0 < disc p q).
  { destruct (total_bound x a d b e T l Ux NO) as [B1 B2]. fold c l1 in B1, B2. set (n := INR (length l)) in *.
    assert (N0 : 0 <= n) by (unfold n; apply pos_INR).
    assert (D0 : 0 <= dl).
    { unfold dl. destruct l as [|p0 l']; [unfold n; cbn [length INR]; rewrite sqrt_0; unfold Rdiv; lra|].
      apply Forall_inv in NO. destruct (matched_bound x a d b e T p0 Ux NO) as (C0 & _). fold c in C0.
      apply Rmult_le_pos; [apply Rmult_le_pos; [apply sqrt_pos|easy]|left; now apply Rinv_0_lt_compat]. }
    assert (DL : sg * sg * (dl * dl) = n * (c * c)).
    { unfold dl. transitivity (sqrt n * sqrt n * (c * c)); [field; lra|]. now rewrite sqrt_sqrt. }
    destruct (svd_gap _ s v sg x p q SP ltac:(lra) S5 E7 E8) as (r1 & P1 & R1).
    destruct (svd_gap _ s v sg (shift x) p q SP ltac:(lra) S5 E7 E8) as (r2 & P2 & R2).
    assert (SS : 0 < sg * sg) by now apply Rmult_lt_0_compat.
    pose proof (trans_len x Ux) as TX. assert (L2 : len3 (trans_of x) / 2 = hnorm (dd x)) by lra. rewrite L2 in SM.
    apply (disc_pos x p q r1 r2 _ _ _ _ dl Ux D0 SM P1 P2); apply (Rmult_le_reg_l (sg * sg)); try easy; lra. }
  assert (RUN : compute_hand_eye_calibration svd (Fin tol) (inD dqone :: hands l) (inD dqone :: eyes l)
    = (inD dqone :: eyes (map rmatch l), Ok (inD (combo p q), map Fin s, bad_singular_values (N:=XR) (map Fin s)))).
  { rewrite compute_in. fold l1. f_equal. unfold calibrate. rewrite scalar_gate_in by (try exact T0; exact G1). cbn [bind].
    rewrite ST. cbn [bind]. rewrite SE. cbn [bind]. rewrite !index_map. unfold index. rewrite E7, E8. cbn [bind].
    rewrite solve_near by assumption. reflexivity. }
  assert (ST' : setup_t_matrix svd (inD dqone :: hands l) (inD dqone :: eyes (map rmatch l)) = Ok (map inD (trows l1))) by (rewrite <- HL; exact ST).
  destruct (C95_noise svd (Fin tol) x l a d b e T _ _ _ s v _ sg Ux NO RUN ST' SE SP S0 S5 SM) as (x' & EX' & UX' & NF).
  exists x', (bad_singular_values (N:=XR) (map Fin s)). rewrite <- EX'. split; [unfold run; now rewrite RUN|]. split; assumption.
Qed.
