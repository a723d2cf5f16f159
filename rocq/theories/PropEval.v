(** * Properties C30-C32: pose errors, alignment evaluation, perfect calibrations. *)

From Coq Require Import Reals ZArith Bool List Lra Lia Psatz.
From Verif Require Import Num Py XReal XFacts Quat DualQuat HandEye Spec Embed QuatFacts QuatTrig
  QuatRot PropQuat DualFacts ScrewFacts PropDual ListFacts HandEyeFacts KernelFacts CalibFacts CalibExample.
Import ListNotations.
Local Open Scope R_scope.

(** ** C30 *)
Lemma vnorm_in v : vnorm (inV v) = Fin (len3 v).
Proof.
  unfold vnorm, inV. cbn [vx vy vz mul add sqrtn XR xmul xadd].
  rewrite xsqrt_fin; [reflexivity|]. apply dot3_pos.
Qed.
Lemma positive_w_in q : positive_w (inQ q) = inQ (if Rlt_dec (qs q) 0 then hneg q else q).
Proof.
  unfold positive_w, n0. cbn [ltb XR lit xltb inQ qw Rlit]. unfold Rltb.
  destruct (Rlt_dec (qs q) 0); [apply qneg_in|easy].
Qed.
Lemma canon_in q : 1 / 100000000 < hnorm q -> positive_w (qnormalize (inQ q)) = inQ (canon q).
Proof. intros H. rewrite qnormalize_big by easy. now rewrite positive_w_in. Qed.
Lemma canon_unit q : 0 < hnorm q -> unitq (canon q).
Proof.
  intros H. unfold canon. pose proof (hnormalize_unit q H) as U. destruct (Rlt_dec _ _); [|easy].
  unfold unitq in *. now rewrite hnorm2_neg.
Qed.

Lemma acos_abs x : -1 <= x <= 1 ->
  (if Rlt_dec 180 (2 * acos x * (180 / PI)) then Rabs (360 - 2 * acos x * (180 / PI))
   else 2 * acos x * (180 / PI)) = 2 * acos (Rabs x) * (180 / PI) /\
  0 <= 2 * acos (Rabs x) * (180 / PI) <= 180.
Proof.
  intros H. pose proof PI_RGT_0 as P.
  assert (KP : 0 < 180 / PI) by (apply Rdiv_lt_0_compat; lra).
  assert (K1 : PI * (180 / PI) = 180) by (field; lra).
  set (k := 180 / PI) in *. clearbody k.
  assert (BD : forall y, 0 <= y <= 1 -> 0 <= acos y <= PI / 2).
  { intros y Hy. split; [apply acos_bound|]. now apply acos_le_PI2. }
  assert (R0 : 0 <= Rabs x <= 1) by (split; [apply Rabs_pos|apply Rabs_le; lra]).
  pose proof (BD _ R0) as B. split; [|nra].
  destruct (Rle_dec 0 x) as [X|X].
  - rewrite (Rabs_pos_eq x) in * by lra. destruct (Rlt_dec _ _); [nra|easy].
  - assert (E : acos (Rabs x) = PI - acos x).
    { rewrite Rabs_left by lra. apply acos_opp. }
    assert (G : PI / 2 < acos x).
    { apply Rnot_le_lt. intros L. pose proof (acos_bound x). pose proof (cos_acos x H).
      pose proof (cos_ge_0 (acos x) ltac:(lra) L). lra. }
    rewrite E in *. destruct (Rlt_dec _ _) as [L|L].
    + rewrite Rabs_pos_eq; nra.
    + exfalso. apply L. nra.
Qed.
Lemma vsub3_in a b : vsub3 (inV a) (inV b) = inV (vsub a b).
Proof. reflexivity. Qed.

Lemma pose_error_far tA tB qA qB :
  1 / 100000000 < hnorm qA -> 1 / 100000000 < hnorm qB -> ~ elementwise_close (canon qA) (canon qB) ->
  compute_pose_error (inP tA qA) (inP tB qB) = Ok (Fin (len3 (vsub tA tB)), Fin (geodesic qA qB)).
Proof.
  intros HA HB NC. unfold compute_pose_error, inP; cbn [pos ori].
  rewrite !canon_in by easy. rewrite vsub3_in, vnorm_in.
  pose proof (canon_unit qA ltac:(lra)) as UA. pose proof (canon_unit qB ltac:(lra)) as UB.
  rewrite elementwise_close_iff in NC. rewrite angle_between_far by easy.
  unfold degrees. cbn [lit XR npi div mul]. rewrite xdiv_fin by (pose proof PI_RGT_0; lra).
  cbn [xmul ltb xltb sub xsub absv xabs]. change (Rlit 180 0) with 180. change (Rlit 360 0) with 360.
  pose proof (unit_dot_bound _ _ UA UB) as B.
  destruct (acos_abs (hdot (canon qA) (canon qB)) B) as [E _].
  do 2 f_equal. unfold Rltb. unfold geodesic. rewrite <- E. destruct (Rlt_dec _ _) as [L|L].
  - cbn [ltb XR xltb]. rewrite Rltb_t by exact L. easy.
  - cbn [ltb XR xltb]. rewrite Rltb_f by exact (Rnot_lt_le _ _ L). easy.
Qed.
Lemma pose_error_close tA tB qA qB :
  1 / 100000000 < hnorm qA -> 1 / 100000000 < hnorm qB -> elementwise_close (canon qA) (canon qB) ->
  compute_pose_error (inP tA qA) (inP tB qB) = Ok (Fin (len3 (vsub tA tB)), Fin 0).
Proof.
  intros HA HB C. unfold compute_pose_error, inP; cbn [pos ori].
  rewrite !canon_in by easy. rewrite vsub3_in, vnorm_in.
  rewrite elementwise_close_iff in C. rewrite angle_between_close by easy.
  unfold degrees. cbn [lit XR npi div mul]. rewrite xdiv_fin by (pose proof PI_RGT_0; lra).
  cbn [xmul]. rewrite Rmult_0_l. change (Rlit 180 0) with 180. cbn [ltb XR xltb]. rewrite Rltb_f by lra. easy.
Qed.
Lemma close_dec p q : elementwise_close p q \/ ~ elementwise_close p q.
Proof.
  rewrite elementwise_close_iff.
  destruct (allclose (N:=XR) (Fin (1 / 1000000000000)) (q_list (inQ p)) (q_list (inQ q))) eqn:E.
  - left. now apply allclose_close4.
  - right. intros C. apply allclose_close4 in C. congruence.
Qed.

(** Position error: Euclidean distance.  Orientation error: an angle in [0,180] degrees, the geodesic
    angle unless the canonical quaternions are element-wise close, in which case it is reported as 0
    although it can be up to 1e-4 rad. *)
Theorem C30_pose_error : forall (tA tB : rv) (qA qB : rq),
  1 / 100000000 < hnorm qA -> 1 / 100000000 < hnorm qB ->
  exists d, compute_pose_error (inP tA qA) (inP tB qB) = Ok (Fin (len3 (vsub tA tB)), Fin d) /\
    0 <= d <= 180 /\
    (~ elementwise_close (canon qA) (canon qB) -> d = geodesic qA qB) /\
    (elementwise_close (canon qA) (canon qB) -> d = 0) /\
    Rabs (d - geodesic qA qB) < 1 / 10000 * (180 / PI).
Proof.
  intros tA tB qA qB HA HB.
  pose proof (canon_unit qA ltac:(lra)) as UA. pose proof (canon_unit qB ltac:(lra)) as UB.
  pose proof PI_RGT_0 as P. assert (KP : 0 < 180 / PI) by (apply Rdiv_lt_0_compat; lra).
  pose proof (unit_dot_bound _ _ UA UB) as B.
  destruct (acos_abs (hdot (canon qA) (canon qB)) B) as [_ G]. fold (geodesic qA qB) in G.
  destruct (close_dec (canon qA) (canon qB)) as [C|C].
  - exists 0. split; [now apply pose_error_close|]. split; [lra|]. split; [easy|]. split; [easy|].
    destruct (C09_shortcut _ _ UA UB C) as [_ S].
    rewrite Rabs_left1 by lra. unfold geodesic.
    assert (HP : 0 <= hdot (canon qA) (canon qB)).
    { rewrite elementwise_close_iff in C. pose proof (close4_dot _ _ UA UB C). lra. }
    rewrite (Rabs_pos_eq _ HP). nra.
  - exists (geodesic qA qB). split; [now apply pose_error_far|]. split; [exact G|].
    split; [easy|]. split; [easy|]. replace (geodesic qA qB - geodesic qA qB) with 0 by ring.
    rewrite Rabs_R0. nra.
Qed.
Lemma geodesic_sym p q : geodesic p q = geodesic q p.
Proof. unfold geodesic. now rewrite hdot_sym. Qed.
Theorem C30_symmetric : forall (tA tB : rv) (qA qB : rq),
  1 / 100000000 < hnorm qA -> 1 / 100000000 < hnorm qB ->
  ~ elementwise_close (canon qA) (canon qB) -> ~ elementwise_close (canon qB) (canon qA) ->
  compute_pose_error (inP tA qA) (inP tB qB) = compute_pose_error (inP tB qB) (inP tA qA).
Proof.
  intros. rewrite !pose_error_far by easy. rewrite (geodesic_sym qA qB). do 2 f_equal. unfold len3. do 2 f_equal.
  destruct tA, tB; specu; ring.
Qed.
Lemma hnorm_scale_abs k q : hnorm (hscale k q) = Rabs k * hnorm q.
Proof.
  unfold hnorm. rewrite hnorm2_scale. rewrite sqrt_mult_alt by (pose proof (Rle_0_sqr k); unfold Rsqr in *; lra).
  f_equal. apply sqrt_Rsqr_abs.
Qed.
Lemma hscale_hscale a b q : hscale a (hscale b q) = hscale (a * b) q.
Proof. qring. Qed.
(** scaling by a positive factor, or changing the sign when the scalar part is not 0, does not
    change the canonical quaternion *)
Lemma canon_scale k q : 0 < hnorm q -> k <> 0 -> (0 < k \/ qs q <> 0) -> canon (hscale k q) = canon q.
Proof.
  intros H K S. unfold canon. rewrite hnorm_scale_abs, hscale_hscale.
  destruct (Rlt_dec 0 k) as [KP|KN].
  - rewrite (Rabs_pos_eq k) by lra. replace (/ (k * hnorm q) * k) with (/ hnorm q) by (field; lra). easy.
  - rewrite (Rabs_left k) by lra. replace (/ (- k * hnorm q) * k) with (- / hnorm q) by (field; lra).
    destruct S as [|S]; [lra|]. assert (I : 0 < / hnorm q) by now apply Rinv_0_lt_compat.
    cbn [hscale qs]. assert (N : hscale (- / hnorm q) q = hneg (hscale (/ hnorm q) q)) by qring.
    destruct (Rlt_dec (- / hnorm q * qs q) 0), (Rlt_dec (/ hnorm q * qs q) 0); try nra.
    + rewrite N. qring.
    + exact N.
Qed.
Theorem C30_sign_scale : forall (tA tB : rv) (qA qB : rq) (a b : R),
  1 / 100000000 < hnorm qA -> 1 / 100000000 < hnorm (hscale a qA) -> (0 < a \/ qs qA <> 0) ->
  1 / 100000000 < hnorm qB -> 1 / 100000000 < hnorm (hscale b qB) -> (0 < b \/ qs qB <> 0) ->
  compute_pose_error (inP tA (hscale a qA)) (inP tB (hscale b qB)) = compute_pose_error (inP tA qA) (inP tB qB).
Proof.
  intros tA tB qA qB a b HA HA' SA HB HB' SB.
  assert (A0 : a <> 0) by (intros ->; rewrite hnorm_scale_abs, Rabs_R0 in HA'; lra).
  assert (B0 : b <> 0) by (intros ->; rewrite hnorm_scale_abs, Rabs_R0 in HB'; lra).
  pose proof (canon_scale a qA ltac:(lra) A0 SA) as EA. pose proof (canon_scale b qB ltac:(lra) B0 SB) as EB.
  destruct (close_dec (canon qA) (canon qB)) as [C|C].
  - rewrite !pose_error_close; try easy. now rewrite EA, EB.
  - rewrite !pose_error_far; try easy; [|now rewrite EA, EB]. unfold geodesic. now rewrite EA, EB.
Qed.
(** the same pose, with any non-zero multiple of the quaternion (including half turns) *)
Theorem C30_zero : forall (t : rv) (q : rq) (k : R),
  1 / 100000000 < hnorm q -> 1 / 100000000 < hnorm (hscale k q) ->
  compute_pose_error (inP t q) (inP t (hscale k q)) = Ok (Fin 0, Fin 0).
Proof.
  intros t q k H H'.
  assert (K0 : k <> 0) by (intros ->; rewrite hnorm_scale_abs, Rabs_R0 in H'; lra).
  assert (L : len3 (vsub t t) = 0).
  { unfold len3. replace (dot3 (vsub t t) (vsub t t)) with 0 by (destruct t; specu; ring). apply sqrt_0. }
  pose proof (canon_unit q ltac:(lra)) as U.
  assert (CC : canon (hscale k q) = canon q \/ canon (hscale k q) = hneg (canon q)).
  { destruct (Rlt_dec 0 k) as [KP|KN]; [left; apply canon_scale; lra|].
    destruct (Req_dec (qs q) 0) as [Z|Z]; [|left; apply canon_scale; auto; lra].
    right. unfold canon. rewrite hnorm_scale_abs, hscale_hscale, (Rabs_left k) by lra.
    replace (/ (- k * hnorm q) * k) with (- / hnorm q) by (field; lra). cbn [hscale qs]. rewrite Z, !Rmult_0_r.
    destruct (Rlt_dec 0 0); [lra|]. qring. }
  destruct (close_dec (canon q) (canon (hscale k q))) as [C|C].
  - rewrite pose_error_close by easy. now rewrite L.
  - rewrite pose_error_far by easy. rewrite L. do 3 f_equal. unfold geodesic.
    assert (D : Rabs (hdot (canon q) (canon (hscale k q))) = 1).
    { unfold unitq, hnorm2 in U. destruct CC as [-> | ->].
      - rewrite U. apply Rabs_R1.
      - replace (hdot (canon q) (hneg (canon q))) with (- hdot (canon q) (canon q))
          by (destruct (canon q) as [[] ?]; specu; ring). rewrite U, Rabs_Ropp. apply Rabs_R1. }
    rewrite D, acos_1. ring.
Qed.
Example C30_example :
  let p := RQ (RV (3/5) 0 0) (4/5) in let q := RQ (RV 0 2 0) 0 in
  1 / 100000000 < hnorm p /\ 1 / 100000000 < hnorm q /\ ~ elementwise_close (canon p) (canon q).
Proof.
  intros p q.
  assert (P : hnorm p = 1).
  { unfold hnorm, p. specu. replace (3/5*(3/5) + 0*0 + 0*0 + 4/5*(4/5)) with 1 by field. apply sqrt_1. }
  assert (Q : hnorm q = 2).
  { unfold hnorm, q. specu. replace (0*0 + 2*2 + 0*0 + 0*0) with (2*2) by ring. apply sqrt_square. lra. }
  rewrite P, Q. split; [lra|]. split; [lra|]. unfold canon. rewrite P, Q.
  intros H. specialize (H qs ltac:(simpl; auto)). revert H. unfold p, q; cbn [hscale qs].
  destruct (Rlt_dec _ _); [lra|]. destruct (Rlt_dec _ _); [lra|]. cbn [qs hscale].
  rewrite Rmult_0_r, Rabs_R0, Rabs_pos_eq by lra. lra.
Qed.

(** ** C31 *)
(** for every scalar type *)
Theorem C31_length : forall {N : Num} (cfg : config N) (A B : list pose),
  length A <> length B -> evaluate_alignment cfg A B = Err AssertionError.
Proof.
  intros N cfg A B H. unfold evaluate_alignment. apply Nat.eqb_neq in H. now rewrite H.
Qed.
Theorem C31_flags : forall {N : Num} (cfg : config N) (A B : list pose) p o flags,
  evaluate_alignment cfg A B = Ok (p, o, flags) ->
  length flags = length A /\ length B = length A /\
  forall i a b, nth_error A i = Some a -> nth_error B i = Some b ->
    exists e d, compute_pose_error a b = Ok (e, d) /\
      nth_error flags i = Some (ltb d (ransac_orientation_error_threshold_deg cfg)
                                && ltb e (ransac_position_error_threshold_m cfg)).
Proof.
  intros N cfg A B p o flags H. unfold evaluate_alignment in H.
  apply assert_ok in H as [L H]. apply Nat.eqb_eq in L. apply bind_ok in H as (errs & E & H).
  apply bind_ok in H as (r1 & _ & H). apply bind_ok in H as (r2 & _ & H).
  apply (f_equal (fun o => match o with Ok x => snd x | Err _ => [] end)) in H. cbn [snd] in H. subst flags.
  destruct (for_pairs_length _ _ _ _ E) as [LE _]. rewrite map_length. split; [easy|]. split; [easy|].
  intros i a b Ha Hb. destruct (for_pairs_short _ _ _ _ E i a Ha) as (b' & (e & d) & Hb' & C & Hc).
  rewrite Hb in Hb'. injection Hb' as <-. exists e, d. split; [easy|].
  now rewrite nth_error_map, Hc.
Qed.

Lemma sumn_fold l a : fold_left (add (Num:=XR)) (map Fin l) (Fin a) = Fin (a + fold_right Rplus 0 l).
Proof.
  revert a; induction l as [|x l IH]; intros a; cbn [fold_left map fold_right].
  - now rewrite Rplus_0_r.
  - cbn [add XR xadd]. rewrite IH. f_equal. lra.
Qed.
Lemma sumn_in l : sumn (N:=XR) (map Fin l) = Fin (fold_right Rplus 0 l).
Proof. unfold sumn, n0. cbn [lit XR]. change (Rlit 0 0) with 0. rewrite sumn_fold. f_equal. lra. Qed.
Lemma sum_squares_pos l : 0 <= sum_squares l.
Proof. induction l as [|x l IH]; cbn [sum_squares fold_right]; [lra|]. fold (sum_squares l). nra. Qed.
Lemma of_nat_in n : of_nat (N:=XR) n = Fin (INR n).
Proof. unfold of_nat. cbn [lit XR]. f_equal. unfold Rlit. simpl. now rewrite <- INR_IZR_INZ. Qed.
Lemma rms_in (f : R * R -> R) es : (0 < length es)%nat ->
  math_sqrt (N:=XR) (sumn (N:=XR) (map (fun e => mul (Fin (f e)) (Fin (f e))) es) / of_nat (N:=XR) (length es))%num
  = Ok (Fin (rms (map f es))).
Proof.
  intros L. assert (P : 0 < INR (length es)) by (apply lt_0_INR; lia).
  replace (map (fun e => mul (Num:=XR) (Fin (f e)) (Fin (f e))) es) with (map Fin (map (fun e => f e * f e) es))
    by (rewrite map_map; reflexivity).
  rewrite sumn_in, of_nat_in. cbn [div XR]. rewrite xdiv_fin by lra.
  assert (E : fold_right Rplus 0 (map (fun e => f e * f e) es) = sum_squares (map f es)).
  { induction es as [|e es IH]; [easy|]. cbn [map fold_right sum_squares]. fold (sum_squares (map f es)).
    f_equal. destruct es; [reflexivity|]. apply IH; [simpl; lia|apply lt_0_INR; simpl; lia]. }
  rewrite E. pose proof (sum_squares_pos (map f es)) as Q.
  assert (D : 0 <= sum_squares (map f es) / INR (length es)) by (apply Rmult_le_pos; [easy|left; now apply Rinv_0_lt_compat]).
  unfold math_sqrt, n0. cbn [lit XR ltb xltb]. change (Rlit 0 0) with 0. rewrite Rltb_f by easy.
  cbn [sqrtn]. rewrite xsqrt_fin by easy. unfold rms. now rewrite map_length.
Qed.

Definition good_pose (p : rv * rq) : Prop := 1 / 100000000 < hnorm (snd p).
(** the errors of one pair of poses, as computed by compute_pose_error (C30) *)
Definition errors_of (ab : (rv * rq) * (rv * rq)) (e : R * R) : Prop :=
  compute_pose_error (inP (fst (fst ab)) (snd (fst ab))) (inP (fst (snd ab)) (snd (snd ab)))
  = Ok (Fin (fst e), Fin (snd e)).
Lemma errors_exist A B : length A = length B -> Forall good_pose A -> Forall good_pose B ->
  exists es, Forall2 errors_of (combine A B) es /\
    for_pairs compute_pose_error (poses A) (poses B) = Ok (map (fun e => (Fin (fst e), Fin (snd e))) es) /\
    Forall (fun e => 0 <= fst e /\ 0 <= snd e) es.
Proof.
  revert B; induction A as [|a A IH]; intros [|b B] L GA GB; try discriminate L.
  - exists []. split; [constructor|]. now split.
  - inversion GA as [|? ? Ga GA']; subst. inversion GB as [|? ? Gb GB']; subst.
    destruct (IH B) as (es & F & E & P); auto.
    destruct (C30_pose_error (fst a) (fst b) (snd a) (snd b) Ga Gb) as (d & C & D & _).
    exists ((len3 (vsub (fst a) (fst b)), d) :: es). split; [|split].
    + cbn [combine]. constructor; [exact C|exact F].
    + cbn [poses map for_pairs]. rewrite C. cbn [bind]. fold (poses A) (poses B). now rewrite E.
    + constructor; [|easy]. cbn [fst snd]. split; [apply sqrt_pos|lra].
Qed.

Theorem C31_evaluate : forall (cfg : config XR) (tp to : R) (A B : list (rv * rq)),
  length A = length B -> A <> [] -> Forall good_pose A -> Forall good_pose B ->
  ransac_position_error_threshold_m cfg = Fin tp -> ransac_orientation_error_threshold_deg cfg = Fin to ->
  exists es flags, Forall2 errors_of (combine A B) es /\
    evaluate_alignment cfg (poses A) (poses B) = Ok (Fin (rms (map fst es)), Fin (rms (map snd es)), flags) /\
    Forall2 (fun e f => f = true <-> fst e < tp /\ snd e < to) es flags /\
    Forall (fun e => 0 <= fst e /\ 0 <= snd e) es /\ length es = length A.
Proof.
  intros cfg tp to A B L NE GA GB Tp To.
  destruct (errors_exist A B L GA GB) as (es & F & E & P).
  assert (LE : length es = length A).
  { apply Forall2_len in F. rewrite combine_length in F. lia. }
  assert (L0 : (0 < length es)%nat) by (destruct A; [easy|simpl in LE; lia]).
  exists es, (map (fun e => Rltb (snd e) to && Rltb (fst e) tp) es). split; [easy|].
  unfold evaluate_alignment. unfold poses at 1 2. rewrite !map_length, assert_true by now apply Nat.eqb_eq.
  fold (poses A) (poses B). rewrite E. cbn [bind]. rewrite !map_map. cbn [fst snd].
  unfold poses at 1 2. rewrite map_length, <- LE.
  rewrite (rms_in fst es L0). cbn [bind]. rewrite (rms_in snd es L0). cbn [bind]. rewrite Tp, To.
  split; [reflexivity|]. split; [|easy].
  clear. induction es as [|e es IH]; cbn [map]; constructor; [|easy].
  rewrite andb_true_iff, !Rltb_iff. tauto.
Qed.

Lemma rms_zero l : l <> [] -> (rms l = 0 <-> Forall (fun x => x = 0) l).
Proof.
  intros NE. unfold rms. assert (P : 0 < INR (length l)) by (apply lt_0_INR; destruct l; [easy|simpl; lia]).
  pose proof (Rinv_0_lt_compat _ P) as PI. pose proof (sum_squares_pos l) as Q.
  assert (S : sum_squares l = 0 <-> Forall (fun x => x = 0) l).
  { clear. induction l as [|x l IH]; cbn [sum_squares fold_right]; [split; constructor|].
    fold (sum_squares l). pose proof (sum_squares_pos l). split.
    - intros H'. assert (x = 0) by nra. subst. constructor; [easy|]. apply IH. lra.
    - inversion 1; subst. assert (sum_squares l = 0) by now apply IH. nra. }
  rewrite <- S. split.
  - intros H. apply sqrt_eq_0 in H; [|apply Rmult_le_pos; lra]. unfold Rdiv in H. nra.
  - intros ->. unfold Rdiv. rewrite Rmult_0_l. apply sqrt_0.
Qed.
Lemma rms_lt l t : l <> [] -> Forall (fun x => 0 <= x < t) l -> rms l < t.
Proof.
  intros NE F. unfold rms. assert (P : 0 < INR (length l)) by (apply lt_0_INR; destruct l; [easy|simpl; lia]).
  assert (T : 0 < t) by (destruct l as [|x l]; [easy|]; inversion F; subst; lra).
  rewrite <- (sqrt_square t) by lra. apply sqrt_lt_1_alt. split.
  - apply Rmult_le_pos; [apply sum_squares_pos|left; now apply Rinv_0_lt_compat].
  - apply (Rmult_lt_reg_r (INR (length l))); [easy|]. unfold Rdiv. rewrite Rmult_assoc, Rinv_l, Rmult_1_r by lra.
    clear P T. destruct l as [|x0 l]; [easy|]. clear NE. revert x0 F.
    induction l as [|y l IH]; intros x0 F; inversion F as [|? ? H0 F']; subst.
    + simpl. nra.
    + specialize (IH y F'). cbn [sum_squares fold_right] in *. fold (sum_squares l) in *.
      change (length (x0 :: y :: l)) with (S (length (y :: l))). rewrite S_INR. nra.
Qed.
Lemma rms_each l x : In x l -> 0 <= x -> x <= sqrt (INR (length l)) * rms l.
Proof.
  intros I X. unfold rms. assert (P : 0 < INR (length l)) by (apply lt_0_INR; destruct l; [easy|simpl; lia]).
  pose proof (sum_squares_pos l) as Q.
  rewrite <- sqrt_mult_alt by lra. replace (INR (length l) * (sum_squares l / INR (length l))) with (sum_squares l) by (field; lra).
  rewrite <- (sqrt_square x) by easy. apply sqrt_le_1_alt. clear P Q.
  induction l as [|y l IH]; [easy|]. cbn [sum_squares fold_right]. fold (sum_squares l).
  pose proof (sum_squares_pos l). destruct I as [->|I]; [lra|]. specialize (IH I). nra.
Qed.

(** What the two numbers mean. *)
Theorem C31_meaning : forall (cfg : config XR) (tp to : R) (A B : list (rv * rq)),
  length A = length B -> A <> [] -> Forall good_pose A -> Forall good_pose B ->
  ransac_position_error_threshold_m cfg = Fin tp -> ransac_orientation_error_threshold_deg cfg = Fin to ->
  exists es rp ro flags, Forall2 errors_of (combine A B) es /\
    evaluate_alignment cfg (poses A) (poses B) = Ok (Fin rp, Fin ro, flags) /\
    0 <= rp /\ 0 <= ro /\
    (rp = 0 <-> Forall (fun e => fst e = 0) es) /\ (ro = 0 <-> Forall (fun e => snd e = 0) es) /\
    (Forall (fun f => f = true) flags -> rp < tp /\ ro < to) /\
    (forall e, In e es -> fst e <= sqrt (INR (length A)) * rp /\ snd e <= sqrt (INR (length A)) * ro).
Proof.
  intros cfg tp to A B L NE GA GB Tp To.
  destruct (C31_evaluate cfg tp to A B L NE GA GB Tp To) as (es & fl & F & E & FF & P & LE).
  assert (N0 : es <> []) by (intros ->; destruct A; [easy|discriminate LE]).
  assert (N1 : forall f : R * R -> R, map f es <> []) by (intros f H; apply map_eq_nil in H; easy).
  exists es, (rms (map fst es)), (rms (map snd es)), fl.
  split; [easy|]. split; [easy|]. split; [apply sqrt_pos|]. split; [apply sqrt_pos|].
  split; [rewrite rms_zero, Forall_map by auto; reflexivity|].
  split; [rewrite rms_zero, Forall_map by auto; reflexivity|]. split.
  - intros T. assert (G : Forall (fun e => (0 <= fst e < tp) /\ (0 <= snd e < to)) es).
    { revert P T. clear - FF. induction FF as [|e f es fl H _ IH]; intros P T; constructor;
        inversion P; inversion T; subst; auto. assert (true = true) as Q by easy. apply H in Q. lra. }
    split; apply rms_lt; auto; rewrite Forall_map; revert G; apply Forall_impl; tauto.
  - intros e I. rewrite <- LE. rewrite Forall_forall in P. pose proof (P e I) as [P1 P2].
    split; [rewrite <- (map_length fst es)|rewrite <- (map_length snd es)]; apply rms_each; auto; now apply in_map.
Qed.
(** No poses at all: NaN, no exception. *)
Theorem C31_empty : forall cfg : config XR, evaluate_alignment cfg [] [] = Ok (NaN, NaN, []).
Proof.
  intros cfg. unfold evaluate_alignment. cbn [length Nat.eqb assert_ bind for_pairs map].
  change (sumn (N:=XR) []) with (Fin (Rlit 0 0)). unfold of_nat. cbn [lit XR Z.of_nat].
  change (Rlit 0 0) with 0. assert (E : (div (Num:=XR) (Fin 0) (Fin 0)) = NaN).
  { cbn [div XR xdiv]. destruct (Req_EM_T 0 0); [|easy]. unfold inf_signed. destruct (Rlt_dec 0 0); [lra|easy]. }
  rewrite E. reflexivity.
Qed.
Example C31_example :
  let A := [(RV 0 0 0, hone); (RV 1 0 0, RQ (RV 0 0 1) 0)] in
  let B := [(RV 0 0 0, hone); (RV 1 1 0, RQ (RV 0 1 0) 0)] in
  length A = length B /\ A <> [] /\ Forall good_pose A /\ Forall good_pose B.
Proof.
  intros A B. split; [easy|]. split; [easy|].
  assert (H : forall q, hnorm2 q = 1 -> good_pose (RV 0 0 0, q)).
  { intros q H. unfold good_pose; cbn [snd]. unfold hnorm. rewrite H, sqrt_1. lra. }
  split; repeat (apply Forall_cons || apply Forall_nil); apply H; specu; ring.
Qed.

(** ** C32 *)
(** noise-free data: hand and eye motions agree through x, up to the sign of the dual quaternion *)
Definition consistent_up_to_sign (x : rdq) (p : rdq * rdq) : Prop :=
  dqmul (fst p) x = dqmul x (snd p) \/ dqmul (fst p) x = dqneg (dqmul x (snd p)).
Lemma pm_neg a b : (a = b \/ a = dqneg b) -> dqneg a = b \/ dqneg a = dqneg b.
Proof. intros [-> | ->]; [right|left; rewrite dqneg_neg]; easy. Qed.
Lemma pm_trans a b c : (a = b \/ a = dqneg b) -> (b = c \/ b = dqneg c) -> a = c \/ a = dqneg c.
Proof. intros [-> | ->]; [easy|]. apply pm_neg. Qed.
Lemma pm_sym a b : (a = b \/ a = dqneg b) -> b = a \/ b = dqneg a.
Proof. intros [-> | ->]; [now left|right; now rewrite dqneg_neg]. Qed.
Lemma pm_mul a a' b b' : (a = a' \/ a = dqneg a') -> (b = b' \/ b = dqneg b') ->
  dqmul a b = dqmul a' b' \/ dqmul a b = dqneg (dqmul a' b').
Proof.
  intros [-> | ->] [-> | ->]; rewrite ?dqmul_neg_l, ?dqmul_neg_r, ?dqneg_neg; auto.
Qed.
Lemma pm_unit a b : unitdq b -> (a = b \/ a = dqneg b) -> unitdq a.
Proof. intros U [-> | ->]; auto using unitdq_neg. Qed.
Lemma pm_inv a b : unitdq b -> (a = b \/ a = dqneg b) -> dqinv a = dqinv b \/ dqinv a = dqneg (dqinv b).
Proof.
  intros U [-> | ->]; [now left|right]. rewrite !unitdq_inv_conj by auto using unitdq_neg.
  destruct b as [[[] ?] [[] ?]]. unfold dqconj, dqneg. specu. apply rdq_eq; cbn [dr dd]; reflexivity.
Qed.
Lemma pm_pose a b : (a = b \/ a = dqneg b) -> trans_of a = trans_of b /\
  (pos_w (dr a) = pos_w (dr b) \/ pos_w (dr a) = hneg (pos_w (dr b))).
Proof.
  intros [-> | ->]; [tauto|]. split; [apply trans_of_neg|]. unfold pos_w. cbn [dqneg dr].
  destruct (Rlt_dec _ _), (Rlt_dec _ _); rewrite ?hneg_neg; auto.
Qed.

(** The hand path starts at the identity (as align_paths_at_index leaves it, C23). *)
Theorem C32_equal_poses : forall (x : rdq) (l : list (rdq * rdq)),
  unitdq x -> Forall (fun p => unitdq (fst p) /\ unitdq (snd p) /\ consistent_up_to_sign x p) l ->
  (exists w rest, l = (dqone, w) :: rest) ->
  exists ph pe, get_aligned_poses (hands l) (eyes l) (inD x) = Ok (hands l, poses ph, poses pe) /\
    Forall2 (fun p h => fst h = trans_of (fst p) /\ snd h = pos_w (dr (fst p))) l ph /\
    Forall2 (fun h e => fst e = fst h /\ unitq (snd h) /\ unitq (snd e) /\
                        (snd e = snd h \/ qs (snd h) = 0 /\ snd e = hneg (snd h))) ph pe.
Proof.
  intros x l Ux H (w & rest & El).
  set (y := if Rlt_dec (qs (dr (dqinv x))) 0 then dqneg (dqinv x) else dqinv x).
  assert (Ui : unitdq (dqinv x)) by now apply unitdq_inv.
  assert (Yx : y = dqinv x \/ y = dqneg (dqinv x)) by (unfold y; destruct (Rlt_dec _ _); auto).
  assert (Uy : unitdq y) by now apply (pm_unit _ (dqinv x)).
  assert (Ey : bind (dinv (inD x)) (fun d => enforce_positive_w (dnormalize d)) = Ok (inD y)).
  { rewrite dinv_big by now apply unitdq_tiny. cbn [bind]. rewrite dnormalize_unit by easy.
    rewrite enforce_in by now apply unitdq_tiny. reflexivity. }
  clearbody y.
  set (g := fun b v : rdq => let u := dqmul v y in if Rlt_dec (qs (dr u) * qs (dr b)) 0 then dqneg u else u).
  assert (G : forall p, In p l -> g (fst p) (snd p) = dqmul (dqinv x) (fst p) \/
                                  g (fst p) (snd p) = dqneg (dqmul (dqinv x) (fst p))).
  { intros p I. rewrite Forall_forall in H. destruct (H p I) as (U1 & U2 & C).
    assert (D : dqmul (snd p) y = dqmul (dqinv x) (fst p) \/ dqmul (snd p) y = dqneg (dqmul (dqinv x) (fst p))).
    { apply pm_sym. assert (E : dqmul (dqinv x) (fst p) = dqmul (dqinv x) (dqmul (dqmul (fst p) x) (dqinv x))).
      { rewrite (dqmul_assoc (fst p)), dqmul_inv_r by now apply unitdq_n2. now rewrite dqmul_1_r. }
      rewrite E. apply (pm_trans _ (dqmul (dqinv x) (dqmul (dqmul x (snd p)) (dqinv x)))).
      - apply pm_mul; [now left|]. apply pm_mul; [exact C|now left].
      - rewrite (dqmul_assoc x), <- (dqmul_assoc (dqinv x)), dqmul_inv_l by now apply unitdq_n2.
        rewrite dqmul_1_l. apply pm_mul; [now left|]. now apply pm_sym. }
    unfold g. destruct (Rlt_dec _ _); [now apply pm_neg|exact D]. }
  assert (FP : for_pairs (fun b v => let w_h := dnormalize (dmul v (inD y)) in
                Ok (if opposite_signs w_h b then dneg w_h else w_h)) (hands l) (eyes l)
             = Ok (map (fun p => inD (g (fst p) (snd p))) l)).
  { apply (for_pairs_in _ (fun b v => inD (g b v))). intros p I. rewrite Forall_forall in H.
    destruct (H p I) as (U1 & U2 & C). rewrite dmul_in, dnormalize_unit by auto using unitdq_mul.
    cbv zeta. f_equal. unfold g. cbv zeta.
    pose proof (opposite_in (dqmul (snd p) y) (fst p)) as O.
    destruct (opposite_signs _ _), (Rlt_dec _ _) as [R|R]; try easy.
    - apply dneg_in.
    - destruct R. now apply O.
    - apply O in R. discriminate R. }
  set (m := map (fun p => g (fst p) (snd p)) l).
  assert (M0 : nth_error m 0 = Some (g dqone w)) by (unfold m; now rewrite El).
  assert (G0 : g dqone w = dqinv x \/ g dqone w = dqneg (dqinv x)).
  { assert (I : In (dqone, w) l) by (rewrite El; now left). pose proof (G _ I) as Q. cbn [fst snd] in Q.
    now rewrite dqmul_1_r in Q. }
  assert (Ug : unitdq (g dqone w)) by now apply (pm_unit _ (dqinv x)).
  set (z := fun p : rdq * rdq => rflip (dqmul (dqinv (g dqone w)) (g (fst p) (snd p)))).
  assert (Z : forall p, In p l -> z p = fst p \/ z p = dqneg (fst p)).
  { intros p I. assert (Q : dqmul (dqinv (g dqone w)) (g (fst p) (snd p)) = fst p \/
                            dqmul (dqinv (g dqone w)) (g (fst p) (snd p)) = dqneg (fst p)).
    { apply (pm_trans _ (dqmul x (dqmul (dqinv x) (fst p)))).
      - apply pm_mul; [|now apply G].
        assert (EX : dqinv (dqinv x) = x).
        { rewrite (unitdq_inv_conj (dqinv x)) by easy. rewrite unitdq_inv_conj by easy.
          destruct x as [[[] ?] [[] ?]]. unfold dqconj. specu. apply rdq_eq; cbn [dr dd]; f_equal; f_equal; ring. }
        destruct (pm_inv _ _ Ui G0) as [-> | ->]; rewrite EX; auto.
      - left. now rewrite <- dqmul_assoc, dqmul_inv_r, dqmul_1_l by now apply unitdq_n2. }
    unfold z. destruct (rflip_cases (dqmul (dqinv (g dqone w)) (g (fst p) (snd p)))) as [-> | ->]; [easy|now apply pm_neg]. }
  assert (AL : align_paths_at_index (map (fun p => inD (g (fst p) (snd p))) l) 0 = Ok (map (fun p => inD (z p)) l)).
  { replace (map (fun p => inD (g (fst p) (snd p))) l) with (map inD m) by (unfold m; now rewrite map_map).
    rewrite (align_in m 0 _ M0) by now apply unitdq_tiny. rewrite rotl_0. f_equal. unfold m, z.
    rewrite !map_map. reflexivity. }
  exists (map (fun p => (trans_of (fst p), pos_w (dr (fst p)))) l), (map (fun p => (trans_of (z p), pos_w (dr (z p)))) l).
  split; [|split].
  - unfold get_aligned_poses. rewrite assert_true by (unfold hands, eyes; rewrite !map_length; apply Nat.eqb_refl).
    destruct (dinv (inD x)) as [d|]; [|discriminate Ey]. cbn [bind] in Ey. cbn [bind]. rewrite Ey. cbn [bind].
    cbv zeta in FP. rewrite FP. cbn [bind]. rewrite AL. cbn [bind]. unfold hands, poses. rewrite !map_map. cbn [fst snd].
    assert (TP : forall p, In p l -> to_pose (inD (fst p)) = (inD (fst p), inP (trans_of (fst p)) (pos_w (dr (fst p))))).
    { intros p I. rewrite Forall_forall in H. apply to_pose_unit, (H p I). }
    assert (TZ : forall p, In p l -> to_pose (inD (z p)) = (inD (z p), inP (trans_of (z p)) (pos_w (dr (z p))))).
    { intros p I. apply to_pose_unit. rewrite Forall_forall in H. apply (pm_unit _ (fst p)); [apply (H p I)|now apply Z]. }
    f_equal. f_equal; [f_equal|]; apply map_ext_in; intros p I; rewrite ?TP, ?TZ by easy; reflexivity.
  - clear. induction l; cbn [map]; constructor; auto.
  - assert (GEN : forall k, incl k l -> Forall2 (fun h e => fst e = fst h /\ unitq (snd h) /\ unitq (snd e) /\
                        (snd e = snd h \/ qs (snd h) = 0 /\ snd e = hneg (snd h)))
       (map (fun p => (trans_of (fst p), pos_w (dr (fst p)))) k) (map (fun p => (trans_of (z p), pos_w (dr (z p)))) k)).
    { induction k as [|p k IH]; intros IN; cbn [map]; constructor; [|apply IH; intros q Q; apply IN; now right].
      assert (I : In p l) by (apply IN; now left). cbn [fst snd].
      assert (U : unitq (dr (fst p))) by (rewrite Forall_forall in H; apply (H p I)).
      assert (UP : forall q, unitq q -> unitq (pos_w q)).
      { intros q Q. unfold pos_w. destruct (Rlt_dec _ _); [unfold unitq; now rewrite hnorm2_neg|easy]. }
      destruct (pm_pose _ _ (Z p I)) as [T1 T2]. split; [easy|]. split; [now apply UP|]. split.
      - apply UP. destruct (Z p I) as [-> | ->]; [easy|]. unfold unitq. cbn [dqneg dr]. now rewrite hnorm2_neg.
      - destruct T2 as [T2|T2]; [now left|]. right. split; [|easy].
        assert (P1 : 0 <= qs (pos_w (dr (fst p)))) by (unfold pos_w; destruct (Rlt_dec _ _); simpl; lra).
        assert (P2 : 0 <= qs (pos_w (dr (z p)))) by (unfold pos_w; destruct (Rlt_dec _ _); simpl; lra).
        rewrite T2 in P2. cbn [hneg qs] in P2. lra. }
    apply GEN. apply incl_refl.
Qed.

Theorem C32_zero_error : forall (cfg : config XR) (tp to : R) (x : rdq) (l : list (rdq * rdq)),
  unitdq x -> Forall (fun p => unitdq (fst p) /\ unitdq (snd p) /\ consistent_up_to_sign x p) l ->
  (exists w rest, l = (dqone, w) :: rest) ->
  ransac_position_error_threshold_m cfg = Fin tp -> ransac_orientation_error_threshold_deg cfg = Fin to ->
  exists h ph pe flags, get_aligned_poses (hands l) (eyes l) (inD x) = Ok (h, ph, pe) /\
    evaluate_alignment cfg ph pe = Ok (Fin 0, Fin 0, flags) /\ length flags = length l /\
    (0 < tp -> 0 < to -> Forall (fun f => f = true) flags).
Proof.
  intros cfg tp to x l Ux H HD Tp To.
  destruct (C32_equal_poses x l Ux H HD) as (ph & pe & E & F1 & F2).
  assert (N0 : ph <> []) by (destruct HD as (w & r & ->); inversion F1; subst; easy).
  assert (LL : length ph = length pe) by now apply Forall2_len in F2.
  assert (G1 : Forall good_pose ph /\ Forall good_pose pe).
  { revert F2. clear. induction 1 as [|h e ph pe (A & U1 & U2 & _) _ [I1 I2]]; [now split|].
    split; constructor; auto; unfold good_pose; unfold hnorm; [rewrite U1|rewrite U2]; rewrite sqrt_1; lra. }
  destruct G1 as [G1 G2].
  destruct (C31_evaluate cfg tp to ph pe LL N0 G1 G2 Tp To) as (es & fl & FE & EV & FF & _ & LE).
  assert (Z : Forall (fun e => e = (0, 0)) es).
  { clear - F2 FE G1 LE. revert es LE pe F2 FE G1.
    induction ph as [|h ph IH]; intros es LE pe F2 FE G1.
    - destruct es; [constructor|discriminate LE].
    - inversion F2 as [|? e ? pe' (A & U1 & U2 & S) F2']; subst. cbn [combine] in FE.
      inversion FE as [|? r ? es' Q FE']; subst. constructor.
      + unfold errors_of in Q; cbn [fst snd] in Q. rewrite A in Q.
        assert (K : exists k, snd e = hscale k (snd h) /\ Rabs k = 1).
        { destruct S as [-> | [_ ->]]; [exists 1|exists (-1)]; (split; [qring|]).
          - apply Rabs_R1.
          - rewrite Rabs_left; lra. }
        destruct K as (k & EK & K). rewrite EK in Q. inversion G1 as [|? ? GH _]; subst. unfold good_pose in GH.
        rewrite C30_zero in Q; [|easy|rewrite hnorm_scale_abs, K; lra].
        injection Q as Q1 Q2. destruct r; cbn [fst snd] in *; congruence.
      + inversion G1; subst. apply (IH es') with pe'; auto. }
  exists (hands l), (poses ph), (poses pe), fl. split; [exact E|]. split.
  - rewrite EV. assert (R0 : forall f : R * R -> R, f (0, 0) = 0 -> rms (map f es) = 0).
    { intros f Hf. apply rms_zero; [intros M; apply map_eq_nil in M; subst; destruct ph; [easy|discriminate LE]|].
      rewrite Forall_map. revert Z. apply Forall_impl. now intros ? ->. }
    now rewrite !R0.
  - split.
    + apply Forall2_len in FF. apply Forall2_len in F1. congruence.
    + intros P1 P2. clear FE EV LE. revert Z. induction FF as [|e f es fl Q _ IH]; intros Z; constructor; inversion Z; subst.
      * apply Q. cbn [fst snd]. easy.
      * now apply IH.
Qed.
(** Without any pose there is no first pose. *)
Theorem C32_empty : forall x : rdq, unitdq x -> get_aligned_poses (N:=XR) [] [] (inD x) = Err IndexError.
Proof.
  intros x U. unfold get_aligned_poses. cbn [length Nat.eqb]. rewrite assert_true by easy.
  rewrite dinv_big by now apply unitdq_tiny. cbn [bind]. rewrite dnormalize_unit by now apply unitdq_inv.
  rewrite enforce_in by now apply unitdq_tiny, unitdq_inv. reflexivity.
Qed.
Example C32_example : unitdq x0 /\
  Forall (fun p => unitdq (fst p) /\ unitdq (snd p) /\ consistent_up_to_sign x0 p) ((dqone, dqone) :: l0).
Proof.
  split; [apply x0_unit|]. constructor.
  - cbn [fst snd]. split; [apply unitdq_one|]. split; [apply unitdq_one|]. left. cbn [fst snd].
    now rewrite dqmul_1_l, dqmul_1_r.
  - assert (U : Forall (fun p => unitdq (fst p) /\ unitdq (snd p)) l0).
    { unfold l0. repeat (apply Forall_cons; [cbn [fst snd]; unfold unitdq, unitq; specu; lra|]). apply Forall_nil. }
    pose proof l0_consistent as C. rewrite Forall_forall in *. intros p I.
    split; [now apply U|]. split; [now apply U|]. left. now apply C.
Qed.
