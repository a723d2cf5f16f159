(** * Property C89: the time offset between two different sensors on one rig, and where it breaks down. *)

From Coq Require Import Reals ZArith Bool List Lra Lia Psatz Permutation.
From Verif Require Import Num Py XReal XFacts Quat DualQuat TimeAlign Spec TimeSpec Embed QuatFacts QuatTrig DualFacts
  ListFacts TimeFacts ResampleFacts StabilityFacts PropTimeOffset PropResample PropAligned PropFilter PropOffsetPath PropNoisySignal.
Import ListNotations.
Local Open Scope R_scope.

(** ** Specification *)
(** the orientations of two sensors mounted on one body: the second is turned by r against the first and
    reports its orientation in a frame turned by w; a quaternion and its negative are the same orientation *)
Definition twins (w r : rq) (qsA qsB : list rq) : Prop :=
  Forall2 (fun a b => b = hmul (hmul w a) r \/ b = hneg (hmul (hmul w a) r)) qsA qsB.
(** no two consecutive orientations are exactly a half turn apart *)
Definition no_half_turn (qs : list rq) : Prop :=
  forall i p q, nth_error qs i = Some p -> nth_error qs (S i) = Some q -> hdot p q <> 0.
(** the body turns about the z axis only, by less than a half turn from one sample to the next and never
    backwards (the angles are in radians); the sensor is mounted on it in any orientation r *)
Definition about_z (angle : R) : rq := RQ (RV 0 0 (sin (angle / 2))) (cos (angle / 2)).
Definition forwards (angles : list R) : Prop :=
  forall i a b, nth_error angles i = Some a -> nth_error angles (S i) = Some b -> a <= b < a + PI.
Definition turntable (r : rq) (angles : list R) : list rq := map (fun t => hmul (about_z t) r) angles.
(** the mean rate over a window of k samples, without clipping *)
Definition averaged (k : nat) (v : list rv) (i : nat) : rv :=
  RV (moving_average (map v1 v) k i) (moving_average (map v2 v) k i) (moving_average (map v3 v) k i).
(** the clipped rates are within e of v, component by component *)
Definition follows (e m : R) (rates v : list rv) : Prop :=
  Forall2 (fun x y => Rabs (clamp m (v1 x) - v1 y) <= e /\ Rabs (clamp m (v2 x) - v2 y) <= e /\ Rabs (clamp m (v3 x) - v3 y) <= e) rates v.

(** ** The offset in terms of the two signals *)
Lemma offset_norms qA qB a c step kA pA kB pB :
  (3 <= length qA)%nat -> (2 <= length qB)%nat -> 0 < step -> Forall unitq qA -> Forall unitq qB -> (1 <= kA)%nat -> (1 <= kB)%nat ->
  0 <= pA <= 100 -> 0 <= pB <= 100 ->
  exists mA mB a' b',
    is_percentile (components (rates qA (ticks a step (length qA)))) pA mA /\
    is_percentile (components (rates qB (ticks (a + c) step (length qB)))) pB mB /\
    a' = map (fun i => len3 (smoothed mA kA (rates qA (ticks a step (length qA))) i)) (seq 0 (length qA - 1)) /\
    b' = map (fun i => len3 (smoothed mB kB (rates qB (ticks (a + c) step (length qB))) i)) (seq 0 (length qB - 1)) /\
    calculate_time_offset (map Fin (ticks a step (length qA))) (inQs qA) (map Fin (ticks (a + c) step (length qB))) (inQs qB)
        (mkFiltering (N:=XR) kA (Fin pA) kB (Fin pB)) =
    calculate_time_offset_from_signals (map Fin (ticks a step (length qA - 1))) (map Fin a')
        (map Fin (ticks (a + c) step (length qB - 1))) (map Fin b').
Proof.
  intros NA NB P UA UB KA KB PA PB.
  destruct (C43_norms qA (ticks a step (length qA)) kA pA UA) as (mA & a' & PMA & EA & LA & ATA & _); try easy.
  { rewrite ticks_length. lia. } { now apply ticks_increasing. }
  destruct (C43_norms qB (ticks (a + c) step (length qB)) kB pB UB) as (mB & b' & PMB & EB & LB & ATB & _); try easy.
  { rewrite ticks_length. lia. } { now apply ticks_increasing. }
  exists mA, mB, a', b'. split; [easy|]. split; [easy|].
  assert (L : forall (l : list R) f n, length l = n -> (forall i, (i < n)%nat -> nth_error l i = Some (f i)) -> l = map f (seq 0 n)).
  { clear. intros l f n L H. apply nth_ext with (d := f 0%nat) (d' := f 0%nat); [now rewrite map_length, seq_length|].
    intros i Hi. rewrite map_nth, seq_nth by lia. apply nth_error_nth. apply H. lia. }
  split; [now apply L|]. split; [now apply L|].
  unfold calculate_time_offset. rewrite !mean_step_in by (rewrite ticks_length; lia).
  rewrite !ticks_mean by lia. cbn [leb XR xleb]. rewrite Rleb_t by lra.
  pose proof (resample_ticks qA a step ltac:(lia) P UA) as R1. pose proof (resample_ticks qB (a + c) step ltac:(lia) P UB) as R2.
  change (@T XR) with xr in *. rewrite R1. cbn [bind]. rewrite R2. cbn [bind].
  cbn [smoothing_kernel_size_A clipping_percentile_A smoothing_kernel_size_B clipping_percentile_B].
  rewrite EA. cbn [bind]. rewrite EB. cbn [bind].
  rewrite !map_length, !firstn_map, LA, LB. rewrite !ticks_firstn by lia.
  rewrite map_length, !ticks_length. rewrite assert_true by apply Nat.eqb_refl. reflexivity.
Qed.

(** ** The rates of the two sensors *)
Lemma hmul_neg_l p q : hmul (hneg p) q = hneg (hmul p q).
Proof. destruct p as [[? ? ?] ?], q as [[? ? ?] ?]. specu. f_equal; try ring. f_equal; ring. Qed.
Lemma hmul_neg_r p q : hmul p (hneg q) = hneg (hmul p q).
Proof. destruct p as [[? ? ?] ?], q as [[? ? ?] ?]. specu. f_equal; try ring. f_equal; ring. Qed.
Lemma hconj_neg q : hconj (hneg q) = hneg (hconj q).
Proof. destruct q as [[? ? ?] ?]. specu. f_equal; try ring. Qed.
Lemma hneg_neg q : hneg (hneg q) = q.
Proof. destruct q as [[? ? ?] ?]. specu. f_equal; try ring. f_equal; ring. Qed.
Lemma unitq_mul p q : unitq p -> unitq q -> unitq (hmul p q).
Proof. unfold unitq. intros U V. rewrite hnorm2_mul, U, V. lra. Qed.
Lemma unitq_neg q : unitq q -> unitq (hneg q).
Proof. destruct q as [[a b c] d]. unfold unitq, hnorm2, hdot, dot3, hneg, vscale. cbn [qv qs Spec.v1 Spec.v2 Spec.v3]. lra. Qed.
Lemma pos_w_neg d : qs d <> 0 -> pos_w (hneg d) = pos_w d.
Proof.
  intros NZ. unfold pos_w. replace (qs (hneg d)) with (- qs d) by reflexivity.
  destruct (Rlt_dec (- qs d) 0), (Rlt_dec (qs d) 0); try lra; [now rewrite hneg_neg|easy].
Qed.
Lemma rate_twin w r p q p' q' dt : unitq w -> unitq r -> hdot p q <> 0 ->
  (p' = hmul (hmul w p) r \/ p' = hneg (hmul (hmul w p) r)) -> (q' = hmul (hmul w q) r \/ q' = hneg (hmul (hmul w q) r)) ->
  rate p' q' dt = hrot w (rate p q dt).
Proof.
  intros UW UR NZ HP HQ.
  set (d := hmul p (hconj q)). set (e := hmul (hmul w d) (hconj w)).
  assert (DE : hmul (hmul (hmul w p) r) (hconj (hmul (hmul w q) r)) = e).
  { unfold e, d. unfold unitq, hnorm2, hdot, dot3 in UR.
    destruct w as [[w1 w2 w3] w0], r as [[r1 r2 r3] r0], p as [[p1 p2 p3] p0], q as [[q1 q2 q3] q0]. cbn [qv qs Spec.v1 Spec.v2 Spec.v3] in *.
    transitivity (hscale (r1 * r1 + r2 * r2 + r3 * r3 + r0 * r0) (hmul (hmul (RQ (RV w1 w2 w3) w0) (hmul (RQ (RV p1 p2 p3) p0) (hconj (RQ (RV q1 q2 q3) q0)))) (hconj (RQ (RV w1 w2 w3) w0)))).
    { clear. specu. f_equal; try ring. f_equal; ring. }
    replace (r1 * r1 + r2 * r2 + r3 * r3 + r0 * r0) with 1 by lra. clear. specu. f_equal; try ring. f_equal; ring. }
  assert (SD : qs d = hdot p q) by (unfold d; destruct p as [[? ? ?] ?], q as [[? ? ?] ?]; specu; ring).
  assert (SE : qs e = qs d).
  { unfold e. unfold unitq, hnorm2, hdot, dot3 in UW. destruct w as [[w1 w2 w3] w0], d as [[d1 d2 d3] d0]. cbn [qv qs Spec.v1 Spec.v2 Spec.v3] in *.
    transitivity ((w1 * w1 + w2 * w2 + w3 * w3 + w0 * w0) * d0); [clear; specu; ring|]. replace (w1 * w1 + w2 * w2 + w3 * w3 + w0 * w0) with 1 by lra. specu; ring. }
  assert (VE : qv e = hrot w (qv d)).
  { unfold e, hrot. destruct w as [[w1 w2 w3] w0], d as [[d1 d2 d3] d0]. clear. specu. f_equal; ring. }
  assert (PE : pos_w (hmul p' (hconj q')) = pos_w e).
  { destruct HP as [-> | ->], HQ as [-> | ->]; rewrite ?hconj_neg, ?hmul_neg_l, ?hmul_neg_r, ?hneg_neg, DE; try easy; apply pos_w_neg; rewrite SE, SD; exact NZ. }
  unfold rate. rewrite PE. fold d.
  assert (S2 : qs (pos_w e) = qs (pos_w d)) by (unfold pos_w; rewrite SE; destruct (Rlt_dec (qs d) 0); cbn [hneg qs]; lra).
  assert (V2 : qv (pos_w e) = hrot w (qv (pos_w d))).
  { unfold pos_w; rewrite SE; destruct (Rlt_dec (qs d) 0); [|easy]. cbn [hneg qv]. rewrite VE. unfold hrot.
    destruct w as [[w1 w2 w3] w0], d as [[d1 d2 d3] d0]. clear. specu. f_equal; ring. }
  rewrite S2, V2. destruct (Rle_dec _ _).
  - destruct w as [[w1 w2 w3] w0]. clear. specu. f_equal; ring.
  - generalize (acos (qs (pos_w d)) / dt / sqrt (1 - qs (pos_w d) * qs (pos_w d))) (qv (pos_w d)). intros z [x1 x2 x3].
    destruct w as [[w1 w2 w3] w0]. clear. specu. f_equal; ring.
Qed.
(** The rotation rates of the second sensor are those of the first, turned by w; the mounting r does not matter. *)
Theorem C89_rates : forall w r qsA qsB samples, unitq w -> unitq r -> twins w r qsA qsB -> no_half_turn qsA ->
  rates qsB samples = map (hrot w) (rates qsA samples).
Proof.
  intros w r qsA qsB samples UW UR TW. revert samples. induction TW as [|p p' qsA qsB HP TW IH]; intros s NH; [easy|].
  destruct TW as [|q q' qsA qsB HQ TW]; [easy|].
  change (rate p' q' (nth 1 s 0 - nth 0 s 0) :: rates (q' :: qsB) (tl s) = hrot w (rate p q (nth 1 s 0 - nth 0 s 0)) :: map (hrot w) (rates (q :: qsA) (tl s))).
  f_equal; [|apply IH; intros i x y X Y; apply (NH (S i)); easy].
  apply (rate_twin w r); try easy. now apply (NH 0%nat).
Qed.

(** ** Averages *)
Lemma sig_map {A} (f : A -> R) d (l : list A) i : f d = 0 -> sig_at (map f l) i = if (i <? 0)%Z then 0 else f (nth (Z.to_nat i) l d).
Proof. intros F. unfold sig_at. destruct (i <? 0)%Z; [easy|]. now rewrite <- F, map_nth. Qed.
Lemma hrot_lin w : exists f1 f2 f3, forall a b c, hrot w (RV a b c) = RV (dot3 f1 (RV a b c)) (dot3 f2 (RV a b c)) (dot3 f3 (RV a b c)).
Proof.
  destruct w as [[x y z] s].
  exists (RV (s * s + x * x - y * y - z * z) (2 * (x * y - s * z)) (2 * (x * z + s * y))),
         (RV (2 * (x * y + s * z)) (s * s - x * x + y * y - z * z) (2 * (y * z - s * x))),
         (RV (2 * (x * z - s * y)) (2 * (y * z + s * x)) (s * s - x * x - y * y + z * z)).
  intros a b c. unfold hrot. specu. f_equal; ring.
Qed.
Lemma average_dot f v k i : moving_average (map (fun r => dot3 f r) v) k i = dot3 f (averaged k v i).
Proof.
  unfold averaged, moving_average, dot3. cbn [v1 v2 v3]. 
  set (o := (Z.of_nat i - Z.of_nat (k / 2))%Z).
  enough (E : forall l, Rsum (map (fun j => sig_at (map (fun r => v1 f * v1 r + v2 f * v2 r + v3 f * v3 r) v) (o + Z.of_nat j)) l) =
     v1 f * Rsum (map (fun j => sig_at (map v1 v) (o + Z.of_nat j)) l) + v2 f * Rsum (map (fun j => sig_at (map v2 v) (o + Z.of_nat j)) l)
     + v3 f * Rsum (map (fun j => sig_at (map v3 v) (o + Z.of_nat j)) l)) by (rewrite E; unfold Rdiv; ring).
  induction l as [|j l IH]; [cbn; ring|]. cbn [map Rsum fold_right]. unfold Rsum in IH. rewrite IH.
  rewrite !(sig_map _ vzero) by (unfold vzero; cbn [v1 v2 v3]; ring). destruct (_ <? 0)%Z; ring.
Qed.
Lemma averaged_rot w k v i : averaged k (map (hrot w) v) i = hrot w (averaged k v i).
Proof.
  destruct (hrot_lin w) as (f1 & f2 & f3 & H).
  assert (H' : forall r, hrot w r = RV (dot3 f1 r) (dot3 f2 r) (dot3 f3 r)) by (intros [a b c]; apply H).
  rewrite (H' (averaged k v i)). unfold averaged at 1. rewrite !map_map.
  f_equal; (rewrite <- average_dot; f_equal; apply map_ext; intros r; now rewrite H').
Qed.
Lemma average_near e (c d : list R) k i : (1 <= k)%nat -> 0 <= e -> Forall2 (fun x y => Rabs (x - y) <= e) c d ->
  Rabs (moving_average c k i - moving_average d k i) <= e.
Proof.
  intros K E0 F. assert (KP : 0 < INR k) by (apply lt_0_INR; lia).
  assert (S : forall z, Rabs (sig_at c z - sig_at d z) <= e).
  { intros z. unfold sig_at. destruct (z <? 0)%Z; [rewrite Rminus_0_r, Rabs_R0; easy|]. generalize (Z.to_nat z). clear - F E0.
    induction F as [|x y c d H F IH]; intros [|n]; cbn [nth]; try easy; rewrite ?Rminus_0_r, ?Rabs_R0; easy. }
  unfold moving_average. set (o := (Z.of_nat i - Z.of_nat (k / 2))%Z).
  assert (B : forall l, Rabs (Rsum (map (fun j => sig_at c (o + Z.of_nat j)) l) - Rsum (map (fun j => sig_at d (o + Z.of_nat j)) l)) <= INR (length l) * e).
  { induction l as [|j l IH]; [cbn; rewrite Rminus_0_r, Rabs_R0; lra|]. cbn [map Rsum fold_right]. change (length (j :: l)) with (Datatypes.S (length l)). rewrite S_INR.
    unfold Rsum in IH. specialize (S (o + Z.of_nat j)%Z). apply Rabs_both in IH, S. apply Rabs_le. lra. }
  specialize (B (seq 0 k)). rewrite seq_length in B. unfold Rdiv. rewrite <- Rmult_minus_distr_r, Rabs_mult, (Rabs_pos_eq (/ INR k)) by (apply Rlt_le, Rinv_0_lt_compat; easy).
  apply (Rmult_le_reg_r (INR k)); [easy|]. rewrite Rmult_assoc, Rinv_l by lra. lra.
Qed.
Lemma smoothed_near e m k x v i : (1 <= k)%nat -> 0 <= e -> follows e m x v ->
  Rabs (len3 (smoothed m k x i) - len3 (averaged k v i)) <= sqrt 3 * e.
Proof.
  intros K E0 F. set (s := smoothed m k x i). set (t := averaged k v i).
  assert (D : len3 (vsub s t) <= sqrt 3 * e).
  { assert (C : forall g, (g = v1 \/ g = v2 \/ g = v3) -> Rabs (moving_average (map (fun r => clamp m (g r)) x) k i - moving_average (map g v) k i) <= e).
    { intros g G. apply average_near; [easy|easy|]. clear - F G. induction F as [|a b x v (H1 & H2 & H3) F IH]; cbn [map]; constructor; try easy.
      destruct G as [-> |[-> | ->]]; easy. }
    pose proof (C v1 ltac:(tauto)) as C1. pose proof (C v2 ltac:(tauto)) as C2. pose proof (C v3 ltac:(tauto)) as C3.
    unfold len3, s, t, smoothed, averaged, vsub, dot3. cbn [v1 v2 v3].
    rewrite <- (sqrt_square e) by easy. rewrite <- sqrt_mult_alt by lra. apply sqrt_le_1_alt.
    assert (SQ : forall y, Rabs y <= e -> y * y <= e * e).
    { intros y Y. apply Rabs_both in Y. nra. }
    pose proof (SQ _ C1). pose proof (SQ _ C2). pose proof (SQ _ C3). lra. }
  pose proof (len3_triangle (vsub s t) t) as T1. pose proof (len3_triangle (vsub t s) s) as T2.
  assert (A1 : vadd (vsub s t) t = s) by (destruct s, t; specu; f_equal; ring).
  assert (A2 : vadd (vsub t s) s = t) by (destruct s, t; specu; f_equal; ring).
  rewrite A1 in T1. rewrite A2 in T2. rewrite (len3_sym t s) in T2. apply Rabs_le. lra.
Qed.

(** ** C89 *)
Lemma percentile_ext l l' p m : l = l' -> is_percentile l p m -> is_percentile l' p m.
Proof. now intros ->. Qed.
Lemma sig_map_seq f n i : sig_at (map f (seq 0 n)) i = if (i <? 0)%Z then 0 else if (i <? Z.of_nat n)%Z then f (Z.to_nat i) else 0.
Proof.
  destruct (Z.ltb_spec i 0); [apply sig_out; lia|]. destruct (Z.ltb_spec i (Z.of_nat n)).
  - unfold sig_at. destruct (Z.ltb_spec i 0); [lia|]. rewrite (nth_indep _ 0 (f 0%nat)) by (rewrite map_length, seq_length; lia).
    rewrite map_nth, seq_nth by lia. f_equal.
  - apply sig_out. rewrite map_length, seq_length. lia.
Qed.

(** Two sensors whose clipped rates follow the same true rates v, up to a fixed rotation w between their
    reference frames and errors of at most eA and eB per component (measurement noise, clipping, ...): the
    offset is exact if the correlation of the true signal with itself falls off quickly enough. *)
Theorem C89_noisy : forall qsA qsB v w a step c k pA pB eA eB,
  let n := length qsA in
  (3 <= n)%nat -> length qsB = n -> 0 < step -> Forall unitq qsA -> Forall unitq qsB -> (1 <= k)%nat ->
  0 <= pA <= 100 -> 0 <= pB <= 100 -> unitq w -> 0 <= eA -> 0 <= eB ->
  let rA := rates qsA (ticks a step n) in
  let rB := rates qsB (ticks (a + c) step n) in
  (forall m, is_percentile (components rA) pA m -> follows eA m rA v) ->
  (forall m, is_percentile (components rB) pB m -> follows eB m rB (map (hrot w) v)) ->
  let s := map (fun i => len3 (averaged k v i)) (seq 0 (n - 1)) in
  (forall d, d <> 0%Z -> (Z.abs d < Z.of_nat (n - 1))%Z ->
     2 * (strength s * (sqrt 3 * (eA + eB) * sqrt (INR (n - 1))) + 3 * eA * eB * INR (n - 1)) < xcorr s s 0 - xcorr s s d) ->
  calculate_time_offset (map Fin (ticks a step n)) (inQs qsA) (map Fin (ticks (a + c) step n)) (inQs qsB)
    (mkFiltering (N:=XR) k (Fin pA) k (Fin pB)) = Ok (Fin c).
Proof.
  intros qsA qsB v w a step c k pA pB eA eB n N LB P UA UB K PA PB UW EA EB rA rB FA FB s MARGIN.
  destruct (offset_norms qsA qsB a c step k pA k pB) as (mA & mB & a' & b' & PMA & PMB & SA & SB & E); try easy; [lia|].
  rewrite LB in *. fold n in E, SA, SB, PMA, PMB. fold rA in SA, PMA. fold rB in SB, PMB. change (@T XR) with xr in *. rewrite E. clear E.
  specialize (FA mA PMA). specialize (FB mB PMB).
  assert (T1 : (2 <= length (ticks a step (n - 1)))%nat) by (rewrite ticks_length; lia).
  assert (T2 : ticks (a + c) step (n - 1) <> []).
  { intros Q. apply (f_equal (@length R)) in Q. rewrite ticks_length in Q. cbn in Q. lia. }
  assert (LA' : length a' = (n - 1)%nat) by (rewrite SA, map_length, seq_length; easy).
  assert (LB' : length b' = (n - 1)%nat) by (rewrite SB, map_length, seq_length; easy).
  set (nA := map (fun i => len3 (smoothed mA k rA i) - len3 (averaged k v i)) (seq 0 (n - 1))).
  set (nB := map (fun i => len3 (smoothed mB k rB i) - len3 (averaged k v i)) (seq 0 (n - 1))).
  assert (BA : Forall (fun x => Rabs x <= sqrt 3 * eA) nA).
  { apply Forall_forall. intros x I. apply in_map_iff in I as (i & <- & _). now apply smoothed_near. }
  assert (BB : Forall (fun x => Rabs x <= sqrt 3 * eB) nB).
  { apply Forall_forall. intros x I. apply in_map_iff in I as (i & <- & _).
    rewrite <- (hrot_len w (averaged k v i) UW), <- averaged_rot. now apply smoothed_near. }
  assert (S3 : 0 <= sqrt 3) by apply sqrt_pos. assert (S33 : sqrt 3 * sqrt 3 = 3) by (apply sqrt_def; lra).
  assert (NI : 0 <= INR (n - 1)) by apply pos_INR. assert (SN : sqrt (INR (n - 1)) * sqrt (INR (n - 1)) = INR (n - 1)) by now apply sqrt_def.
  pose proof (sqrt_pos (INR (n - 1))) as SP.
  pose proof (strength_samples nA _ BA ltac:(nra)) as STA. pose proof (strength_samples nB _ BB ltac:(nra)) as STB.
  unfold nA at 2 in STA. unfold nB at 2 in STB. rewrite map_length, seq_length in STA, STB.
  pose proof (strength_pos nA). pose proof (strength_pos nB). pose proof (strength_pos s) as SS.
  rewrite (C87_exact (ticks a step (n - 1)) (ticks (a + c) step (n - 1)) s nA a' s nB b' 0 1); try easy.
  - rewrite !ticks_hd by lia. do 2 f_equal. rewrite Rmult_0_r. lra.
  - intros Q. rewrite Q in LA'. cbn in LA'. lia.
  - intros Q. rewrite Q in LB'. cbn in LB'. lia.
  - intros i. rewrite SA. unfold s, nA. rewrite !sig_map_seq. destruct (i <? 0)%Z; [lra|]. destruct (i <? _)%Z; lra.
  - intros i. rewrite SB. unfold s, nB. rewrite !sig_map_seq. destruct (i <? 0)%Z; [lra|]. destruct (i <? _)%Z; lra.
  - intros i. rewrite Z.add_0_r. lra.
  - unfold lag_range. rewrite LA', LB'. lia.
  - intros d D R. unfold lag_range in R. rewrite LA', LB' in R. specialize (MARGIN d D ltac:(lia)). rewrite Rmult_1_l.
    eapply Rle_lt_trans; [|exact MARGIN]. unfold disturbance.
    assert (P1 : strength s * strength nB <= strength s * (sqrt 3 * eB * sqrt (INR (n - 1)))) by now apply Rmult_le_compat_l.
    assert (P2 : strength nA * strength s <= sqrt 3 * eA * sqrt (INR (n - 1)) * strength s) by now apply Rmult_le_compat_r.
    assert (P3 : strength nA * strength nB <= (sqrt 3 * eA * sqrt (INR (n - 1))) * (sqrt 3 * eB * sqrt (INR (n - 1)))) by now apply Rmult_le_compat.
    assert (P4 : (sqrt 3 * eA * sqrt (INR (n - 1))) * (sqrt 3 * eB * sqrt (INR (n - 1))) = 3 * eA * eB * INR (n - 1)).
    { rewrite <- S33 at 3. rewrite <- SN at 3. ring. }
    nra.
Qed.

(** Two rigidly attached sensors, however mounted and whatever their reference frames, with no rate beyond
    the clipping limits: the offset is exactly the difference c of their clocks. *)
Theorem C89_unclipped : forall qsA qsB w r a step c k pA pB,
  let n := length qsA in
  (3 <= n)%nat -> 0 < step -> Forall unitq qsA -> unitq w -> unitq r -> twins w r qsA qsB -> no_half_turn qsA -> (1 <= k)%nat ->
  0 <= pA <= 100 -> 0 <= pB <= 100 ->
  let rA := rates qsA (ticks a step n) in
  let rB := rates qsB (ticks (a + c) step n) in
  (forall m, is_percentile (components rA) pA m -> Forall (fun x => Rabs x <= m) (components rA)) ->
  (forall m, is_percentile (components rB) pB m -> Forall (fun x => Rabs x <= m) (components rB)) ->
  (exists i, (i < n - 1)%nat /\ len3 (averaged k rA i) <> 0) ->
  calculate_time_offset (map Fin (ticks a step n)) (inQs qsA) (map Fin (ticks (a + c) step n)) (inQs qsB)
    (mkFiltering (N:=XR) k (Fin pA) k (Fin pB)) = Ok (Fin c).
Proof.
  intros qsA qsB w r a step c k pA pB n N P UA UW UR TW NH K PA PB rA rB CA CB (j & J & NZ).
  assert (LB : length qsB = n) by (symmetry; apply (Forall2_len _ _ _ TW)).
  assert (RB : rB = map (hrot w) rA).
  { unfold rB. rewrite ticks_shift, rates_shift by (rewrite ticks_length; lia). now apply (C89_rates w r). }
  assert (UB : Forall unitq qsB).
  { clear - UA UW UR TW. induction TW as [|x y A B H TW IH]; [constructor|]. inversion UA; subst. constructor; [|now apply IH].
    assert (U : unitq (hmul (hmul w x) r)) by (apply unitq_mul; [apply unitq_mul|]; easy). destruct H as [-> | ->]; [easy|]. now apply unitq_neg. }
  assert (MU : forall e m x, (forall m, is_percentile (components x) e m -> Forall (fun x => Rabs x <= m) (components x)) ->
     is_percentile (components x) e m -> follows 0 m x x).
  { clear. intros e m x H PM. specialize (H m PM). clear PM. unfold follows.
    induction x as [|y x IH]; [constructor|]. cbn [components flat_map app] in H. inversion H as [|? ? H1 H']; subst. inversion H' as [|? ? H2 H'']; subst.
    inversion H'' as [|? ? H3 H4]; subst. constructor; [|now apply IH].
    assert (CL : forall z, Rabs z <= m -> Rabs (clamp m z - z) <= 0).
    { intros z Z. apply Rabs_both in Z. unfold clamp. rewrite Rmax_left by lra. rewrite Rmin_left by lra. rewrite Rminus_eq_0, Rabs_R0. lra. }
    repeat split; now apply CL. }
  apply (C89_noisy qsA qsB rA w a step c k pA pB 0 0); try easy; try lra.
  - intros m PM. now apply (MU pA).
  - intros m PM. fold n in PM. fold rB in PM. fold n. fold rB. rewrite <- RB. now apply (MU pB).
  - intros d D _. fold n. set (s := map _ _). replace (2 * _) with 0 by ring.
    pose proof (autocorr_strict s d D) as AC. enough (exists i, sig_at s i <> 0) by (specialize (AC H); lra).
    exists (Z.of_nat j). unfold s. rewrite sig_map_seq. destruct (Z.ltb_spec (Z.of_nat j) 0); [lia|]. destruct (Z.ltb_spec (Z.of_nat j) (Z.of_nat (n - 1))); [|lia].
    now rewrite Nat2Z.id.
Qed.

(** Reference frames with parallel axes: exact with any clipping, however the sensors are mounted. *)
Theorem C89_parallel : forall qsA qsB r a step c k p,
  let n := length qsA in
  (3 <= n)%nat -> 0 < step -> Forall unitq qsA -> unitq r -> twins hone r qsA qsB -> no_half_turn qsA -> (1 <= k)%nat -> 0 <= p <= 100 ->
  exists norms, compute_angular_velocity_norms (inQs qsA) (map Fin (ticks a step n)) k (Fin p) = Ok (map Fin norms) /\
    (Exists (fun x => x <> 0) norms ->
     calculate_time_offset (map Fin (ticks a step n)) (inQs qsA) (map Fin (ticks (a + c) step n)) (inQs qsB)
       (mkFiltering (N:=XR) k (Fin p) k (Fin p)) = Ok (Fin c)).
Proof.
  intros qsA qsB r a step c k p n N P UA UR TW NH K PP.
  assert (LB : length qsB = n) by (symmetry; apply (Forall2_len _ _ _ TW)).
  assert (UB : Forall unitq qsB).
  { clear - UA UR TW. induction TW as [|x y A B H TW IH]; [constructor|]. inversion UA; subst. constructor; [|now apply IH].
    assert (U : unitq (hmul (hmul hone x) r)) by (apply unitq_mul; [apply unitq_mul|]; try easy; unfold unitq, hnorm2, hdot, dot3, hone, vzero; cbn [qv qs v1 v2 v3]; lra).
    destruct H as [-> | ->]; [easy|]. now apply unitq_neg. }
  assert (RB : rates qsB (ticks (a + c) step n) = rates qsA (ticks a step n)).
  { rewrite ticks_shift, rates_shift by (rewrite ticks_length; lia). rewrite (C89_rates hone r qsA qsB); try easy.
    2:{ unfold unitq, hnorm2, hdot, dot3, hone, vzero; cbn [qv qs v1 v2 v3]; lra. }
    rewrite <- (map_id (rates qsA (ticks a step n))) at 2. apply map_ext. intros [x y z]. unfold hone, vzero. specu. f_equal; ring. }
  assert (NN : compute_angular_velocity_norms (N:=XR) (inQs qsB) (map Fin (ticks (a + c) step n)) k (Fin p)
             = compute_angular_velocity_norms (N:=XR) (inQs qsA) (map Fin (ticks a step n)) k (Fin p)).
  { unfold compute_angular_velocity_norms. unfold inQs at 1 5. destruct qsA as [|q qsA']; [cbn in n; lia|]. destruct qsB as [|q' qsB']; [cbn in LB; lia|]. cbn [map].
    change (@T XR) with xr. rewrite !velocities_in; rewrite ?ticks_length; try easy; try lia; try now apply ticks_increasing.
    rewrite RB. unfold inQs. rewrite !map_length. change (q' :: qsB') with ([q'] ++ qsB') in LB. fold n. 
    replace (length (q' :: qsB')) with n by (cbn [app] in LB; lia). reflexivity. }
  destruct (C43_norms qsA (ticks a step n) k p UA) as (m & norms & PM & E & LN & AT & B); try easy.
  { rewrite ticks_length. fold n. lia. } { now apply ticks_increasing. }
  exists norms. split; [exact E|]. intros NZ.
  assert (CO : calculate_time_offset (map Fin (ticks a step n)) (inQs qsA) (map Fin (ticks (a + c) step n)) (inQs qsB) (mkFiltering (N:=XR) k (Fin p) k (Fin p)) =
    calculate_time_offset_from_signals (N:=XR) (map Fin (ticks a step (n - 1))) (map Fin norms)
      (map Fin (ticks (a + c) step (n - 1))) (map Fin norms)).
  { unfold calculate_time_offset. rewrite !mean_step_in by (rewrite ticks_length; lia).
    rewrite !ticks_mean by lia. cbn [leb XR xleb]. rewrite Rleb_t by lra.
    pose proof (resample_ticks qsA a step ltac:(fold n; lia) P UA) as R1. pose proof (resample_ticks qsB (a + c) step ltac:(lia) P UB) as R2.
    rewrite LB in R2. fold n in R1. change (@T XR) with xr in *. rewrite R1. cbn [bind]. rewrite R2. cbn [bind].
    cbn [smoothing_kernel_size_A clipping_percentile_A smoothing_kernel_size_B clipping_percentile_B].
    rewrite NN, E. cbn [bind].
    rewrite !map_length, !firstn_map, LN. fold n. rewrite !ticks_firstn by lia.
    rewrite map_length, !ticks_length. rewrite assert_true by apply Nat.eqb_refl. reflexivity. }
  change (@T XR) with xr in *. rewrite CO.
  rewrite (C39_delayed_copy _ _ _ _ 0 1).
  - rewrite !ticks_hd by lia. do 2 f_equal. rewrite Rmult_0_r. lra.
  - rewrite ticks_length. lia.
  - intros Q. apply (f_equal (@length R)) in Q. rewrite ticks_length in Q. cbn in Q. lia.
  - lra.
  - apply Exists_exists in NZ as (x & I & NZ). apply In_nth with (d := 0) in I as (i & _ & <-). exists (Z.of_nat i). now rewrite sig_nat.
  - intros i. rewrite Z.add_0_r. lra.
Qed.

(** ** One-way rotation *)
Lemma filter_perm {A} (f : A -> bool) l l' : Permutation l l' -> length (filter f l) = length (filter f l').
Proof.
  induction 1 as [|x l l' H IH|x y l|l l' l'' H1 IH1 H2 IH2]; [easy| | |congruence]; cbn [filter].
  - destruct (f x); cbn [length]; congruence.
  - destruct (f x), (f y); easy.
Qed.
Lemma filter_first {A} (f : A -> bool) d : forall l j, (forall i, (i <= j)%nat -> f (nth i l d) = true) -> (j < length l)%nat -> (S j <= length (filter f l))%nat.
Proof.
  induction l as [|x l IH]; intros j H L; [cbn in L; lia|]. cbn [filter]. pose proof (H 0%nat ltac:(lia)) as H0. cbn [nth] in H0. rewrite H0. cbn [length]. 
  destruct j as [|j]; [lia|]. cbn [length] in L. specialize (IH j ltac:(intros i I; apply (H (S i)); lia) ltac:(lia)). lia.
Qed.
(** with more than half of the values zero and none positive, the percentile is zero *)
Lemma percentile_zero l p m n : l <> [] -> Forall (fun x => x <= 0) l -> (length (filter (fun x => if Rlt_dec x 0 then true else false) l) <= n)%nat ->
  (2 * n < length l)%nat -> 50 <= p <= 100 -> is_percentile l p m -> m = 0.
Proof.
  intros NE NP CN LN P (s & k & w & PS & SO & W & K & ->).
  assert (LS : length s = length l) by (symmetry; now apply Permutation_length).
  rewrite (filter_perm _ _ _ PS) in CN.
  assert (Z : forall j, (n <= j < length s)%nat -> nth j s 0 = 0).
  { intros j [J1 J2]. assert (NPJ : nth j s 0 <= 0).
    { rewrite Forall_forall in NP. apply NP. apply Permutation_sym in PS. apply (Permutation_in _ PS). now apply nth_In. }
    destruct (Rlt_dec (nth j s 0) 0) as [LT|]; [exfalso|lra].
    assert (Q : (S j <= length (filter (fun x => if Rlt_dec x 0 then true else false) s))%nat); [|lia].
    apply (filter_first _ 0); [|easy]. intros i I. destruct (Rlt_dec _ 0) as [|NL]; [easy|exfalso; apply NL].
    assert (IL : (i < length s)%nat) by lia.
    pose proof (SO i j _ _ I (nth_error_nth' s 0 IL) (nth_error_nth' s 0 J2)). lra. }
  assert (KN : (n <= k)%nat).
  { apply Nat.lt_succ_r, INR_lt. rewrite S_INR.
    assert (INR n <= p / 100 * INR (length s - 1)); [|lra].
    assert (2 * INR n <= INR (length s - 1)). { replace 2 with (INR 2) by reflexivity. rewrite <- mult_INR. apply le_INR. lia. }
    pose proof (pos_INR (length s - 1)). nra. }
  assert (KL : (k <= length s - 1)%nat).
  { apply INR_le. assert (p / 100 * INR (length s - 1) <= INR (length s - 1)); [|lra]. pose proof (pos_INR (length s - 1)). nra. }
  rewrite !Z by lia. lra.
Qed.
Lemma turntable_rate r x y dt : unitq r -> 0 < dt -> x <= y < x + PI ->
  exists s, 0 <= s /\ rate (hmul (about_z x) r) (hmul (about_z y) r) dt = RV 0 0 (- s).
Proof.
  intros UR D H.
  assert (DE : hmul (hmul (about_z x) r) (hconj (hmul (about_z y) r)) = RQ (RV 0 0 (sin ((x - y) / 2))) (cos ((x - y) / 2))).
  { replace ((x - y) / 2) with (x / 2 - y / 2) by field. rewrite sin_minus, cos_minus. unfold about_z.
    generalize (sin (x / 2)) (cos (x / 2)) (sin (y / 2)) (cos (y / 2)). intros sx cx sy cy.
    unfold unitq, hnorm2, hdot, dot3 in UR. destruct r as [[r1 r2 r3] r0]. cbn [qv qs Spec.v1 Spec.v2 Spec.v3] in *.
    assert (R0 : r1 * r1 + r2 * r2 + r3 * r3 + r0 * r0 = 1) by lra. clear UR.
    transitivity (hscale (r1 * r1 + r2 * r2 + r3 * r3 + r0 * r0) (RQ (RV 0 0 (sx * cy - cx * sy)) (cx * cy + sx * sy))).
    { clear. specu. f_equal; try ring. f_equal; ring. }
    rewrite R0. clear. specu. f_equal; try ring. f_equal; ring. }
  unfold rate. rewrite DE. pose proof PI_RGT_0.
  assert (C : 0 < cos ((x - y) / 2)) by (apply cos_gt_0; lra).
  assert (S : sin ((x - y) / 2) <= 0) by (replace ((x - y) / 2) with (- ((y - x) / 2)) by field; rewrite sin_neg; pose proof (sin_ge_0 ((y - x) / 2)); lra).
  unfold pos_w. cbn [qs]. destruct (Rlt_dec (cos ((x - y) / 2)) 0); [lra|]. cbn [qs qv].
  destruct (Rle_dec _ _).
  - exists 0. split; [lra|]. unfold vzero. f_equal. lra.
  - set (z := acos _ / dt / sqrt _). exists (- (z * sin ((x - y) / 2))).
    assert (0 <= z).
    { assert (I : forall t, 0 <= t -> 0 <= / t) by (intros t [T| <-]; [now apply Rlt_le, Rinv_0_lt_compat|rewrite Rinv_0; lra]).
      unfold z. pose proof (acos_bound (cos ((x - y) / 2))). unfold Rdiv.
      apply Rmult_le_pos; [apply Rmult_le_pos; [easy|apply I; lra]|apply I, sqrt_pos]. }
    split; [nra|]. unfold vscale. cbn [v1 v2 v3]. f_equal; ring.
Qed.
Lemma turntable_rates r step a : unitq r -> 0 < step -> forall angles b, forwards angles -> b = length angles ->
  exists l, Forall (fun s => 0 <= s) l /\ rates (turntable r angles) (ticks a step b) = map (fun s => RV 0 0 (- s)) l.
Proof.
  intros UR ST angles. revert a. induction angles as [|x angles IH]; intros a b F ->; [exists []; easy|].
  destruct angles as [|y angles]; [exists []; easy|].
  destruct (IH (a + step) _ ltac:(intros i p q A B; apply (F (S i)); easy) eq_refl) as (l & FL & EL).
  assert (TK : ticks a step (length (x :: y :: angles)) = a :: ticks (a + step) step (length (y :: angles))).
  { unfold ticks. cbn [length seq map]. f_equal; [cbn; lra|]. f_equal; [cbn; lra|]. rewrite <- (seq_shift _ 1), map_map. apply map_ext. intros i. rewrite !S_INR. lra. }
  assert (HXY : x <= y < x + PI) by now apply (F 0%nat).
  destruct (turntable_rate r x y step UR ST HXY) as (s & S0 & RS).
  exists (s :: l). split; [now constructor|]. rewrite TK. 
  change (rates (turntable r (x :: y :: angles)) (a :: ticks (a + step) step (length (y :: angles)))) with
    (rate (hmul (about_z x) r) (hmul (about_z y) r) (nth 0 (ticks (a + step) step (length (y :: angles))) 0 - a) ::
     rates (turntable r (y :: angles)) (ticks (a + step) step (length (y :: angles)))).
  cbn [map]. f_equal; [|exact EL]. replace (nth 0 _ 0 - a) with step; [exact RS|]. cbn. lra.
Qed.
(** a signal that is zero throughout: the smallest lag is reported *)
Lemma silent_offset a' b' a c step nA nB : (3 <= nA)%nat -> (2 <= nB)%nat -> 0 < step ->
  length a' = (nA - 1)%nat -> length b' = (nB - 1)%nat -> (forall i, sig_at a' i = 0) ->
  calculate_time_offset_from_signals (map Fin (ticks a step (nA - 1))) (map Fin a') (map Fin (ticks (a + c) step (nB - 1))) (map Fin b') =
    Ok (Fin (c - INR (nA - 2) * step)).
Proof.
  intros NA NB P LA' LB' Z.
  destruct (C39_maximal_lag (ticks a step (nA - 1)) a' (ticks (a + c) step (nB - 1)) b') as (d & LR & MX & EQ).
  { rewrite ticks_length. lia. }
  { intros Q. apply (f_equal (@length R)) in Q. rewrite ticks_length in Q. cbn in Q. lia. }
  { intros Q. rewrite Q in LA'. cbn in LA'. lia. } { intros Q. rewrite Q in LB'. cbn in LB'. lia. }
  change (@T XR) with xr in *. rewrite EQ. rewrite !ticks_hd, ticks_mean by lia.
  assert (X0 : forall j, xcorr a' b' j = 0).
  { intros j. unfold xcorr. rewrite (Rsum_seq (fun i => sig_at a' i * sig_at b' (i + j))). apply zsum_zero. intros i _. rewrite Z. ring. }
  unfold lag_range in *. rewrite LA', LB' in *.
  assert (d = (1 - Z.of_nat (nA - 1)))%Z.
  { destruct (Z.eq_dec d (1 - Z.of_nat (nA - 1))) as [|NE]; [easy|exfalso].
    destruct (MX (1 - Z.of_nat (nA - 1))%Z ltac:(lia)) as [_ M]. specialize (M ltac:(lia)). rewrite !X0 in M. lra. }
  subst d. do 2 f_equal. assert (IE : IZR (1 - Z.of_nat (nA - 1)) = - INR (nA - 2)).
  { rewrite INR_IZR_INZ, <- opp_IZR. f_equal. lia. }
  rewrite IE. lra.
Qed.
Lemma smoothed_zero m k v i : (1 <= k)%nat -> (forall x, In x (components v) -> clamp m x = 0) -> len3 (smoothed m k v i) = 0.
Proof.
  intros K Z.
  assert (C0 : forall (g : rv -> R), (g = v1 \/ g = v2 \/ g = v3) -> Forall (fun x => Rabs x <= 0) (map (fun x => clamp m (g x)) v)).
  { intros g G. apply Forall_forall. intros y I. apply in_map_iff in I as (x & <- & I). rewrite Z; [rewrite Rabs_R0; lra|].
    unfold components. apply in_flat_map. exists x. split; [easy|]. cbn. destruct G as [-> |[-> | ->]]; tauto. }
  assert (AZ : forall c j, Forall (fun x => Rabs x <= 0) c -> moving_average c k j = 0).
  { intros c0 j FC. pose proof (avg_bound c0 k j 0 K ltac:(lra) FC) as Q. apply Rabs_both in Q. lra. }
  unfold smoothed, len3, dot3. cbn [v1 v2 v3]. rewrite !AZ by (apply C0; tauto).
  replace (0 * 0 + 0 * 0 + 0 * 0) with 0 by ring. apply sqrt_0.
Qed.
(** A sensor that only ever turns forwards about the z axis of its reference frame, with the clipping
    percentile at 50 or more: all its rates are clipped to zero, and the offset found is nA - 2 samples
    short of the true c, whatever the other sensor recorded. *)
Theorem C89_one_way : forall angles r qsB a step c kA pA kB pB,
  let nA := length angles in let nB := length qsB in
  (3 <= nA)%nat -> (2 <= nB)%nat -> 0 < step -> forwards angles -> unitq r -> Forall unitq qsB ->
  (1 <= kA)%nat -> (1 <= kB)%nat -> 50 <= pA <= 100 -> 0 <= pB <= 100 ->
  calculate_time_offset (map Fin (ticks a step nA)) (inQs (turntable r angles)) (map Fin (ticks (a + c) step nB)) (inQs qsB)
    (mkFiltering (N:=XR) kA (Fin pA) kB (Fin pB)) = Ok (Fin (c - INR (nA - 2) * step)).
Proof.
  intros angles r qsB a step c kA pA kB pB nA nB NA NB P F UR UB KA KB PA PB.
  assert (LT : length (turntable r angles) = nA) by (unfold turntable; now rewrite map_length).
  assert (UA : Forall unitq (turntable r angles)).
  { apply Forall_forall. intros q I. apply in_map_iff in I as (t & <- & _). apply unitq_mul; [|easy].
    unfold about_z, unitq, hnorm2, hdot, dot3. cbn [qv qs v1 v2 v3]. pose proof (sin2_cos2 (t / 2)) as Q. unfold Rsqr in Q. lra. }
  destruct (offset_norms (turntable r angles) qsB a c step kA pA kB pB) as (mA & mB & a' & b' & PMA & PMB & SA & SB & E); try easy; try lia; try lra.
  rewrite LT in *. fold nB in E, SB. change (@T XR) with xr in *. rewrite E. clear E.
  destruct (turntable_rates r step a UR P angles nA F eq_refl) as (l & FL & RA). rewrite RA in *.
  assert (LL : length l = (nA - 1)%nat).
  { apply (f_equal (@length rv)) in RA. rewrite rates_length, map_length, LT in RA. easy. }
  assert (M0 : mA = 0).
  { apply (percentile_zero (components (map (fun s => RV 0 0 (- s)) l)) pA mA (length l)); try easy.
    - destruct l; [cbn in LL; lia|easy].
    - clear - FL. induction FL as [|x l H FL IH]; [constructor|]. cbn [map components flat_map app v1 v2 v3]. do 3 (apply Forall_cons; [lra|]). exact IH.
    - clear. induction l as [|x l IH]; [easy|]. cbn [map components flat_map app v1 v2 v3 filter]. fold (components (map (fun s => RV 0 0 (- s)) l)).
      destruct (Rlt_dec 0 0); [lra|]. destruct (Rlt_dec (- x) 0); cbn [length]; lia.
    - clear - LL NA. assert (Q : length (components (map (fun s => RV 0 0 (- s)) l)) = (3 * length l)%nat).
      { clear. induction l as [|x l IH]; [easy|]. cbn [map components flat_map app length]. fold (components (map (fun s => RV 0 0 (- s)) l)). rewrite IH. lia. }
      rewrite Q. lia. }
  apply silent_offset; try easy; try (rewrite ?SA, ?SB, map_length, seq_length; easy).
  intros i. rewrite SA, sig_map_seq. destruct (i <? 0)%Z; [easy|]. destruct (i <? _)%Z; [|easy]. rewrite M0. apply smoothed_zero; [easy|].
  intros x _. pose proof (clamp_bound 0 x) as Q. rewrite Rabs_R0 in Q. apply Rabs_both in Q. lra.
Qed.
(** A sensor that turns by less than about half a degree (8.9e-3 rad) from one sample to the next, for example at 100
    samples per second and less than 50 degrees per second: the same. *)
Theorem C89_slow : forall qsA qsB a step c kA pA kB pB,
  let nA := length qsA in let nB := length qsB in
  (3 <= nA)%nat -> (2 <= nB)%nat -> 0 < step -> Forall unitq qsA -> Forall unitq qsB ->
  (forall i p q, nth_error qsA i = Some p -> nth_error qsA (S i) = Some q -> 1 - 1 / 100000 <= Rabs (hdot p q)) ->
  (1 <= kA)%nat -> (1 <= kB)%nat -> 0 <= pA <= 100 -> 0 <= pB <= 100 ->
  calculate_time_offset (map Fin (ticks a step nA)) (inQs qsA) (map Fin (ticks (a + c) step nB)) (inQs qsB)
    (mkFiltering (N:=XR) kA (Fin pA) kB (Fin pB)) = Ok (Fin (c - INR (nA - 2) * step)).
Proof.
  intros qsA qsB a step c kA pA kB pB nA nB NA NB P UA UB SL KA KB PA PB.
  destruct (offset_norms qsA qsB a c step kA pA kB pB) as (mA & mB & a' & b' & PMA & PMB & SA & SB & E); try easy.
  fold nA in E, SA, PMA. fold nB in E, SB, PMB. change (@T XR) with xr in *. rewrite E. clear E.
  assert (RZ : forall l s, Forall unitq l -> (forall i p q, nth_error l i = Some p -> nth_error l (S i) = Some q -> 1 - 1 / 100000 <= Rabs (hdot p q)) ->
    Forall (fun r => r = vzero) (rates l s)).
  { clear. intros l. induction l as [|p l IH]; intros s U H; [constructor|]. destruct l as [|q l]; [constructor|].
    change (rates (p :: q :: l) s) with (rate p q (nth 1 s 0 - nth 0 s 0) :: rates (q :: l) (tl s)).
    inversion U as [|? ? U1 U']; subst. constructor; [|apply IH; [easy|intros i x y X Y; apply (H (S i)); easy]].
    specialize (H 0%nat p q eq_refl eq_refl). unfold rate.
    assert (QD : Rabs (hdot p q) <= qs (pos_w (hmul p (hconj q)))).
    { assert (SD : qs (hmul p (hconj q)) = hdot p q) by (destruct p as [[? ? ?] ?], q as [[? ? ?] ?]; specu; ring).
      unfold pos_w. rewrite SD. destruct (Rlt_dec (hdot p q) 0); cbn [hneg qs]; rewrite ?SD; [rewrite Rabs_left by lra; lra|rewrite Rabs_pos_eq by lra; lra]. }
    inversion U' as [|? ? U2 _]; subst.
    assert (QU : qs (pos_w (hmul p (hconj q))) <= 1).
    { assert (UD : unitq (pos_w (hmul p (hconj q)))).
      { assert (V : unitq (hmul p (hconj q))) by (apply unitq_mul; [easy|]; clear - U2; destruct q as [[x y z] w]; unfold unitq in *; specu; lra).
        unfold pos_w. destruct (Rlt_dec _ 0); [now apply unitq_neg|easy]. }
      destruct (pos_w (hmul p (hconj q))) as [[x y z] w]. unfold unitq, hnorm2, hdot, dot3 in UD. cbn [qv qs v1 v2 v3] in *. nra. }
    destruct (Rle_dec _ _) as [_|NL]; [easy|exfalso; apply NL]. apply Rabs_le. lra. }
  specialize (RZ qsA (ticks a step nA) UA SL).
  assert (CZ : forall x, In x (components (rates qsA (ticks a step nA))) -> x = 0).
  { intros x I. unfold components in I. apply in_flat_map in I as (v & I & J). rewrite Forall_forall in RZ. rewrite (RZ v I) in J. cbn in J. intuition. }
  apply silent_offset; try easy; try (rewrite ?SA, ?SB, map_length, seq_length; easy).
  intros i. rewrite SA, sig_map_seq. destruct (i <? 0)%Z; [easy|]. destruct (i <? _)%Z; [|easy]. apply smoothed_zero; [easy|].
  assert (M0 : mA = 0).
  { destruct PMA as (s & k0 & w & PS & _ & W & _ & ->).
    assert (Z : forall j, nth j s 0 = 0).
    { intros j. destruct (Nat.lt_ge_cases j (length s)); [|now apply nth_overflow]. apply CZ. apply Permutation_sym in PS. apply (Permutation_in _ PS). now apply nth_In. }
    rewrite !Z. lra. }
  intros x I. rewrite M0. pose proof (clamp_bound 0 x) as Q. rewrite Rabs_R0 in Q. apply Rabs_both in Q. lra.
Qed.
(** a turntable that turns by one radian per sample: the clocks differ by 7 s, and 5 s is reported, whatever
    the other sensor recorded *)
Example C89_one_way_example : forall qB0 qB1 qB2, unitq qB0 -> unitq qB1 -> unitq qB2 ->
  calculate_time_offset (map Fin (ticks 0 1 4)) (inQs (turntable hone [0; 1; 2; 3])) (map Fin (ticks (0 + 7) 1 3)) (inQs [qB0; qB1; qB2])
    (mkFiltering (N:=XR) 25 (Fin (995 / 10)) 25 (Fin 99)) = Ok (Fin 5).
Proof.
  intros q0 q1 q2 U0 U1 U2. pose proof (C89_one_way [0; 1; 2; 3] hone [q0; q1; q2] 0 1 7 25 (995 / 10) 25 99) as H. cbv zeta in H. cbn [length] in H.
  rewrite H; try lra; try lia.
  - do 2 f_equal. replace (INR (4 - 2)) with 2 by (cbn; lra). lra.
  - intros i a b A B. pose proof PI_RGT_0. pose proof PI2_1. do 4 (destruct i as [|i]; [cbn in A, B; try discriminate; injection A as <-; injection B as <-; lra|]). 
    cbn in A. destruct i; discriminate.
  - unfold unitq, hnorm2, hdot, dot3, hone, vzero; cbn [qv qs v1 v2 v3]; lra.
  - repeat constructor; easy.
Qed.
(** the swing about z of C39_same_path_example, seen by a second sensor in a frame turned by a right angle
    about x, so that its rates are along y, mounted upside down, with a sign change *)
Example C89_unclipped_example :
  let w := RQ (RV (sqrt 2 / 2) 0 0) (sqrt 2 / 2) in let r := RQ (RV 1 0 0) 0 in
  let qsB := [hmul (hmul w hone) r; hneg (hmul (hmul w (RQ (RV 0 0 (sin (PI / 4))) (cos (PI / 4)))) r); hmul (hmul w hone) r] in
  calculate_time_offset (map Fin (ticks 0 1 3)) (inQs swing) (map Fin (ticks (0 + 7) 1 3)) (inQs qsB)
    (mkFiltering (N:=XR) 1 (Fin 100) 1 (Fin 100)) = Ok (Fin 7).
Proof.
  intros w r qsB.
  assert (S2 : sqrt 2 * sqrt 2 = 2) by (apply sqrt_def; lra).
  assert (UW : unitq w) by (unfold w, unitq, hnorm2, hdot, dot3; cbn [qv qs v1 v2 v3]; nra).
  assert (UR : unitq r) by (unfold r, unitq, hnorm2, hdot, dot3; cbn [qv qs v1 v2 v3]; lra).
  assert (TW : twins w r swing qsB) by (unfold swing, qsB; repeat constructor; tauto).
  set (h := PI / 4) in *.
  assert (HP : 0 < h) by (unfold h; pose proof PI_RGT_0; lra).
  assert (CP : 0 < cos h) by (apply cos_gt_0; unfold h; pose proof PI_RGT_0; lra).
  assert (NH : no_half_turn swing).
  { intros i p q A B. unfold swing in A, B. destruct i as [|[|[|i]]]; cbn in A, B; try discriminate; try (destruct i; discriminate);
      injection A as <-; injection B as <-; unfold hdot, dot3, hone, vzero; cbn [qv qs v1 v2 v3]; fold h; lra. }
  assert (C0 : cos h < 9 / 10).
  { assert (C2 : 2 * (cos h * cos h) - 1 = 0).
    { replace (2 * (cos h * cos h) - 1) with (cos (2 * h)) by (rewrite cos_2a_cos; ring). replace (2 * h) with (PI / 2) by (unfold h; field). apply cos_PI2. }
    nra. }
  assert (S0 : 0 < sin h) by (apply sin_gt_0; unfold h; pose proof PI_RGT_0; lra).
  assert (RT : forall sg d, d = RQ (RV 0 0 (sg * sin h)) (cos h) ->
    (if Rle_dec (Rabs (qs (pos_w d) - 1)) (1 / 1000000000000 + 1 / 100000) then vzero
     else vscale (acos (qs (pos_w d)) / 1 / sqrt (1 - qs (pos_w d) * qs (pos_w d))) (qv (pos_w d))) = RV 0 0 (sg * h)).
  { intros sg d ->. unfold pos_w. cbn [qs qv]. destruct (Rlt_dec (cos h) 0); [lra|]. cbn [qs qv].
    destruct (Rle_dec _ _) as [L|_]; [rewrite Rabs_left in L by lra; lra|].
    rewrite acos_cos by (unfold h; pose proof PI_RGT_0; lra). rewrite sqrt_1_cos2 by lra.
    unfold vscale. cbn [v1 v2 v3]. f_equal; field; lra. }
  assert (RA : rates swing (ticks 0 1 3) = [RV 0 0 (- 1 * h); RV 0 0 (1 * h)]).
  { unfold swing. fold h. cbn [rates ticks seq map tl nth]. unfold rate.
    replace (0 + INR 1 * 1 - (0 + INR 0 * 1)) with 1 by (cbn; lra). replace (0 + INR 2 * 1 - (0 + INR 1 * 1)) with 1 by (cbn; lra).
    f_equal; [|f_equal]; apply RT; unfold hone; clear; specu; f_equal; try ring; f_equal; ring. }
  assert (RB : rates qsB (ticks (0 + 7) 1 3) = [RV 0 h 0; RV 0 (- h) 0]).
  { rewrite ticks_shift, rates_shift by (rewrite ticks_length; cbn; lia). rewrite (C89_rates w r swing qsB) by easy. rewrite RA. cbn [map].
    assert (HR : forall z, hrot w (RV 0 0 z) = RV 0 (- z) 0).
    { intros z. unfold w, hrot. clear - S2. specu. f_equal; [ring|transitivity (- (sqrt 2 * sqrt 2 / 2) * z); [field|rewrite S2; field]|field]. }
    rewrite !HR. repeat f_equal; lra. }
  pose proof (C89_unclipped swing qsB w r 0 1 7 1 100 100) as H. cbv zeta in H. change (length swing) with 3%nat in H.
  rewrite RA, RB in H. apply H; try easy; try lra; try lia.
  - apply swing_unit.
  - intros m PM. assert (h <= m) by (apply (percentile_100 _ _ _ PM); cbn; right; right; right; right; right; left; lra).
    cbn [components flat_map app v1 v2 v3]. do 6 (apply Forall_cons; [apply Rabs_le; lra|]). constructor.
  - intros m PM. assert (h <= m) by (apply (percentile_100 _ _ _ PM); cbn; right; left; lra).
    cbn [components flat_map app v1 v2 v3]. do 6 (apply Forall_cons; [apply Rabs_le; lra|]). constructor.
  - exists 0%nat. split; [cbn; lia|]. intros L0. unfold averaged, len3 in L0. apply sqrt_eq_0 in L0; [|unfold dot3; cbn [v1 v2 v3]; nra].
    unfold dot3, moving_average, sig_at in L0. cbn [v1 v2 v3 map seq Rsum fold_right] in L0. simpl in L0.
    match type of L0 with ?a * ?a + ?b * ?b + ?c * ?c = 0 => assert (Q : c * c <= 0) by nra; replace c with (- h) in Q by field end.
    nra.
Qed.

(** a third of a degree per sample about y, seen by an arbitrary second sensor *)
Example C89_slow_example : forall qB0 qB1, unitq qB0 -> unitq qB1 ->
  let q k := RQ (RV 0 (sin (INR k / 400)) 0) (cos (INR k / 400)) in
  calculate_time_offset (map Fin (ticks 0 (1 / 100) 5)) (inQs (map q (seq 0 5))) (map Fin (ticks (0 + 7) (1 / 100) 2)) (inQs [qB0; qB1])
    (mkFiltering (N:=XR) 25 (Fin (995 / 10)) 25 (Fin 99)) = Ok (Fin (697 / 100)).
Proof.
  intros q0 q1 U0 U1 q. pose proof (C89_slow (map q (seq 0 5)) [q0; q1] 0 (1 / 100) 7 25 (995 / 10) 25 99) as H. cbv zeta in H.
  rewrite map_length, seq_length in H. cbn [length] in H. rewrite H; try lra; try lia.
  - do 2 f_equal. replace (INR (5 - 2)) with 3 by (cbn; lra). lra.
  - apply Forall_forall. intros x I. apply in_map_iff in I as (k & <- & _). unfold q, unitq, hnorm2, hdot, dot3. cbn [qv qs v1 v2 v3].
    pose proof (sin2_cos2 (INR k / 400)) as Q. unfold Rsqr in Q. lra.
  - repeat constructor; easy.
  - intros i x y X Y. rewrite nth_error_map in X, Y.
    destruct (nth_error (seq 0 5) i) as [k|] eqn:K; [|discriminate]. destruct (nth_error (seq 0 5) (S i)) as [k'|] eqn:K'; [|discriminate].
    assert (L : (S i < 5)%nat) by (rewrite <- (seq_length 5 0); apply nth_error_Some; congruence).
    apply (nth_error_nth _ _ 0%nat) in K, K'. rewrite seq_nth in K, K' by lia. cbn [Nat.add] in K, K'. subst k k'. cbn [option_map] in X, Y.
    injection X as <-. injection Y as <-. unfold q, hdot, dot3. cbn [qv qs v1 v2 v3].
    replace (0 * 0 + sin (INR i / 400) * sin (INR (S i) / 400) + 0 * 0 + cos (INR i / 400) * cos (INR (S i) / 400)) with (cos (INR i / 400 - INR (S i) / 400)) by (rewrite cos_minus; ring).
    rewrite S_INR. replace (INR i / 400 - (INR i + 1) / 400) with (- (1 / 400)) by field. rewrite cos_neg.
    pose proof (cos_bound (1 / 400) 0 ltac:(pose proof PI2_1; lra) ltac:(pose proof PI2_1; lra)) as [B _]. unfold cos_approx, cos_term in B. simpl in B.
    eapply Rle_trans; [|apply Rle_abs]. eapply Rle_trans; [|exact B]. lra.
Qed.

(** ** What is left of such recordings *)
Lemma filtered_length {A} (P : A -> Prop) l out : filtered_by P l out -> (length out <= length l)%nat.
Proof. induction 1; cbn [length]; lia. Qed.
Lemma filtered_skip {A} (P : A -> Prop) l1 l2 out : Forall (fun x => ~ P x) l1 -> filtered_by P (l1 ++ l2) out -> filtered_by P l2 out.
Proof. intros F. revert out. induction F as [|x l1 H F IH]; intros out G; [easy|]. inversion G; subst; [contradiction|]. now apply IH. Qed.
Lemma filtered_none {A} (P : A -> Prop) l out : Forall (fun x => ~ P x) l -> filtered_by P l out -> out = [].
Proof. intros F G. induction G; [easy| |]; inversion F; subst; [contradiction|auto]. Qed.
Lemma ticks_app a step m n : ticks a step (m + n) = ticks a step m ++ ticks (a + INR m * step) step n.
Proof.
  unfold ticks. rewrite seq_app, map_app. f_equal. cbn [Nat.add]. rewrite <- (Nat.add_0_r m) at 1. generalize 0%nat as o. induction n as [|n IH]; intros o; [easy|].
  cbn [seq map]. f_equal; [rewrite plus_INR; lra|]. replace (S (m + o)) with (m + S o)%nat by lia. apply IH.
Qed.
Lemma ticks_in a step n t : In t (ticks a step n) -> exists i, (i < n)%nat /\ t = a + INR i * step.
Proof. intros I. apply in_map_iff in I as (i & <- & I). apply in_seq in I. exists i. split; [lia|easy]. Qed.
(** Recordings with equal frame rates, the offset nA - 2 samples short of the truth: whatever the poses, at most two of them are left
    after the alignment. *)
Theorem C89_lost : forall (A B : list row) a step c nA nB,
  (3 <= nA)%nat -> (2 <= nB)%nat -> 0 < step -> row_times A = ticks a step nA -> row_times B = ticks (a + c) step nB ->
  Forall unitq (row_quats A) -> Forall unitq (row_quats B) ->
  exists outA outB, compute_aligned_poses (inS A) (inS B) (Fin (c - INR (nA - 2) * step)) = Ok (inS outA, inS outB) /\
    length outA = length outB /\ (length outA <= 2)%nat.
Proof.
  intros A B a step c nA nB NA NB P TA TB UA UB.
  assert (LA : length A = nA) by (apply (f_equal (@length R)) in TA; rewrite ticks_length in TA; unfold row_times in TA; now rewrite map_length in TA).
  assert (LB : length B = nB) by (apply (f_equal (@length R)) in TB; rewrite ticks_length in TB; unfold row_times in TB; now rewrite map_length in TB).
  destruct (C41_contract A B (c - INR (nA - 2) * step)) as (s & oA & oB & E & T1 & T2 & _ & _ & F1 & F2); try easy.
  { intros ->. cbn in LA. lia. } { intros ->. cbn in LB. lia. }
  { rewrite TA. now apply ticks_sorted. } { rewrite TB. now apply ticks_sorted. }
  exists oA, oB. split; [exact E|].
  assert (LO : length oA = length s /\ length oB = length s) by (rewrite <- T1 at 1; rewrite <- T2; unfold row_times; now rewrite !map_length).
  destruct LO as [LO1 LO2]. split; [lia|]. rewrite LO1.
  set (A' := shift_rows _ A) in *. set (d := a + c - INR (nA - 2) * step).
  assert (TA' : row_times A' = ticks d step nA).
  { unfold A', shift_rows, row_times. rewrite map_map. cbn [fst]. rewrite <- (map_map fst (fun t => t + (c - INR (nA - 2) * step))). unfold row_times in TA. rewrite TA.
    unfold ticks. rewrite map_map. apply map_ext. intros i. unfold d. lra. }
  rewrite TA', TB in F1, F2. rewrite !ticks_hd in F1, F2 by lia.
  assert (I0 : 0 <= INR (nA - 2)) by apply pos_INR.
  rewrite Rmax_right in F1, F2 by (unfold d; nra).
  assert (SP : ticks d step nA = ticks d step (nA - 2) ++ ticks (a + c) step 2).
  { replace nA with (nA - 2 + 2)%nat at 1 by lia. rewrite ticks_app. do 2 f_equal. unfold d. lra. }
  destruct (le_dec (length s) 2) as [|GT]; [easy|exfalso].
  assert (NL : ~ low_is_A (ticks d step nA) (ticks (a + c) step nB)).
  { intros L. specialize (F1 ltac:(lia) ltac:(lia) L). rewrite SP in F1 at 1. apply filtered_skip in F1.
    - apply filtered_length in F1. rewrite ticks_length in F1. lia.
    - apply Forall_forall. intros t I [H _]. apply ticks_in in I as (i & Hi & ->). apply lt_INR in Hi. unfold d in H. nra. }
  specialize (F2 (or_introl NL)). 
  assert (SB : ticks (a + c) step nB = (a + c + INR 0 * step) :: ticks (a + c + INR 1 * step) step (nB - 1)).
  { replace nB with (1 + (nB - 1))%nat at 1 by lia. rewrite ticks_app. reflexivity. }
  rewrite SB in F2. clear SB.
  assert (NM : Forall (fun t => ~ (a + c <= t /\ matched (ticks d step nA) t)) (ticks (a + c + INR 1 * step) step (nB - 1))).
  { apply Forall_forall. intros t I [_ (j & b & (F3 & F4 & _) & LJ & _)]. apply ticks_in in I as (i & _ & ->). rewrite ticks_length in LJ.
    rewrite ticks_nth in F3 by lia. injection F3 as <-. assert (INR j <= INR (nA - 2)) by (apply le_INR; lia).
    pose proof (pos_INR i). replace (INR 1) with 1 in F4 by reflexivity. unfold d in F4. nra. }
  inversion F2 as [|? ? out _ F3|? ? out _ F3]; subst.
  - apply (filtered_none _ _ _ NM) in F3. subst out. apply GT. match goal with Q : _ :: [] = _ |- _ => rewrite <- Q end. cbn. lia.
  - apply (filtered_none _ _ _ NM) in F3. rewrite F3 in GT. cbn in GT. lia.
Qed.
