(** * Property C96: the time offset of recordings with noise in the orientations. *)

From Coq Require Import Reals ZArith Bool List Lra Lia Psatz Permutation.
From Flocq Require Import Core.
From Verif Require Import Num Py XReal XFacts Quat DualQuat TimeAlign Spec TimeSpec Embed QuatFacts QuatTrig DualFacts
  ListFacts TimeFacts ResampleFacts FloatQuat StabilityFacts PropEval PropTimeOffset PropResample PropAligned PropFilter PropOffsetPath
  PropNoisySignal PropTwoSensors RateFacts.
Import ListNotations.
Local Open Scope R_scope.

(** ** Specification *)
(** the orientations ps were measured as qs, each within dl (the length of the difference of the unit quaternions, a quaternion
    and its negative being the same orientation) *)
Definition measured_as (dl : R) (ps qs : list rq) : Prop :=
  Forall2 (fun p q => unitq q /\ (dist q p <= dl \/ dist q (hneg p) <= dl)) ps qs.
(** half of the rotation that turns p' into p, per second: its direction is the axis and its length half the angle *)
Definition true_rate (p p' : rq) (step : R) : rv := vscale (/ step) (half_turn_vector (pos_w (hmul p (hconj p')))).
Fixpoint true_rates (ps : list rq) (step : R) : list rv :=
  match ps with
  | p :: (p' :: _) as ps' => true_rate p p' step :: true_rates ps' step
  | _ => []
  end.
(** consecutive orientations are further than the noise from being a half turn apart *)
Definition no_fast_turn (dl : R) (ps : list rq) : Prop :=
  forall i p q, nth_error ps i = Some p -> nth_error ps (S i) = Some q -> 2 * dl < Rabs (hdot p q).
(** the orientations of a sensor mounted with the rotation r on the body and measured in a frame turned by w *)
Definition mounted (w r : rq) (ps : list rq) : list rq := map (fun p => hmul (hmul w p) r) ps.
(** clipping at the percentile p of the components changes no component by more than z *)
Definition clipped_by (z p : R) (rates : list rv) : Prop :=
  forall m, is_percentile (components rates) p m -> Forall (fun x => Rabs (clamp m x - x) <= z) (components rates).
(** the error of one rate: noise of two orientations, plus steps of less than about half a degree that count as none *)
Definition rate_error (dl step : R) : R := (PI * dl + 9 / 2000) / step.

(** ** One rate *)
Lemma dist_hneg p q : dist p (hneg q) = dist (hneg p) q.
Proof. rewrite dist_neg_r. reflexivity. Qed.
Lemma unitq_rel p q : unitq p -> unitq q -> unitq (hmul p (hconj q)).
Proof. intros U V. apply unitq_mul; [easy|]. unfold unitq in *. destruct q as [[x y z] w]; specu; lra. Qed.
Lemma pos_w_unit d : unitq d -> unitq (pos_w d) /\ 0 <= qs (pos_w d).
Proof.
  intros U. unfold pos_w. destruct (Rlt_dec (qs d) 0); [|split; [easy|lra]]. split; [now apply unitq_neg|]. cbn [hneg qs]. lra.
Qed.
Lemma rel_dist p q p' q' dl : unitq p -> unitq q' -> dist q p <= dl -> dist q' p' <= dl ->
  dist (hmul q (hconj q')) (hmul p (hconj p')) <= 2 * dl.
Proof.
  intros U V A B. eapply Rle_trans; [apply (dist_triangle _ (hmul p (hconj q')))|].
  rewrite dist_mul_r, dist_mul_l, hnorm_conj, dist_conj. apply unit_hnorm in U. apply unit_hnorm in V. rewrite U, V. lra.
Qed.
Lemma rel_near p q p' q' dl : unitq p -> unitq p' -> unitq q -> unitq q' ->
  (dist q p <= dl \/ dist q (hneg p) <= dl) -> (dist q' p' <= dl \/ dist q' (hneg p') <= dl) -> 2 * dl < Rabs (hdot p p') ->
  dist (pos_w (hmul q (hconj q'))) (pos_w (hmul p (hconj p'))) <= 2 * dl.
Proof.
  intros Up Up' Uq Uq' A B F. set (D := hmul q (hconj q')). set (P := hmul p (hconj p')).
  assert (SP : qs P = hdot p p') by (unfold P; destruct p as [[? ? ?] ?], p' as [[? ? ?] ?]; specu; ring).
  assert (N : dist D P <= 2 * dl \/ dist D (hneg P) <= 2 * dl).
  { assert (X1 : hmul (hneg p) (hconj p') = hneg P) by (unfold P; apply hmul_neg_l).
    assert (X2 : hmul p (hconj (hneg p')) = hneg P) by (unfold P; now rewrite hconj_neg, hmul_neg_r).
    assert (X3 : hmul (hneg p) (hconj (hneg p')) = P) by (unfold P; now rewrite hconj_neg, hmul_neg_r, hmul_neg_l, PropTwoSensors.hneg_neg).
    destruct A as [A|A], B as [B|B].
    - left. now apply rel_dist.
    - right. rewrite <- X2. now apply rel_dist.
    - right. rewrite <- X1. apply rel_dist; try easy. now apply unitq_neg.
    - left. rewrite <- X3. apply rel_dist; try easy. now apply unitq_neg. }
  assert (G : forall E, dist D E <= 2 * dl -> 2 * dl < Rabs (qs E) -> dist (pos_w D) (pos_w E) <= 2 * dl).
  { intros E H K. pose proof (scalar_dist D E) as S. assert (S' : Rabs (qs D - qs E) <= 2 * dl) by lra. apply Rabs_le_inv in S'.
    unfold pos_w. destruct (Rlt_dec (qs D) 0), (Rlt_dec (qs E) 0).
    - now rewrite dist_neg.
    - rewrite Rabs_pos_eq in K by lra. lra.
    - rewrite Rabs_left in K by lra. lra.
    - exact H. }
  destruct N as [N|N].
  - apply G; [exact N|now rewrite SP].
  - rewrite <- (pos_w_neg P). 2:{ rewrite SP. intros Z. rewrite Z, Rabs_R0 in F. pose proof (dist_pos D (hneg P)). lra. }
    apply G; [exact N|]. cbn [hneg qs]. now rewrite Rabs_Ropp, SP.
Qed.
Lemma rate_vector q q' dt : 0 < dt -> let d := pos_w (hmul q (hconj q')) in
  rate q q' dt = if Rle_dec (Rabs (qs d - 1)) (1 / 1000000000000 + 1 / 100000) then vzero else vscale (/ dt) (half_turn_vector d).
Proof.
  intros T d. unfold rate. fold d. destruct (Rle_dec _ _); [easy|]. unfold half_turn_vector, Rdiv.
  destruct (qv d) as [a b c]. unfold vscale. cbn [v1 v2 v3]. f_equal; ring.
Qed.
Lemma len3_vscale k v : 0 <= k -> len3 (vscale k v) = k * len3 v.
Proof.
  intros K. unfold len3. assert (E : dot3 (vscale k v) (vscale k v) = k * k * dot3 v v) by (destruct v as [x y z]; unfold dot3, vscale; cbn [v1 v2 v3]; ring). rewrite E.
  rewrite sqrt_mult_alt by (apply Rle_0_sqr). now rewrite sqrt_square.
Qed.

(** Noise of dl in both orientations changes the rotation rate by at most (pi dl + 0.0045) per step. *)
Theorem C96_rate : forall p p' q q' dl dt, unitq p -> unitq p' -> unitq q -> unitq q' -> 0 < dt ->
  (dist q p <= dl \/ dist q (hneg p) <= dl) -> (dist q' p' <= dl \/ dist q' (hneg p') <= dl) -> 2 * dl < Rabs (hdot p p') ->
  len3 (vsub (rate q q' dt) (true_rate p p' dt)) <= rate_error dl dt.
Proof.
  intros p p' q q' dl dt Up Up' Uq Uq' T A B F. pose proof (rel_near p q p' q' dl Up Up' Uq Uq' A B F) as N.
  destruct (pos_w_unit _ (unitq_rel q q' Uq Uq')) as [U1 W1]. destruct (pos_w_unit _ (unitq_rel p p' Up Up')) as [U2 W2].
  unfold true_rate. rewrite (rate_vector q q' dt T). cbv zeta.
  set (d := pos_w (hmul q (hconj q'))) in *. set (e := pos_w (hmul p (hconj p'))) in *.
  pose proof (half_vector_near d e U1 U2 W1 W2) as H. pose proof PI_RGT_0 as PP.
  assert (H' : len3 (vsub (half_turn_vector d) (half_turn_vector e)) <= PI * dl).
  { eapply Rle_trans; [exact H|]. assert (PI / 2 * dist d e <= PI / 2 * (2 * dl)) by (apply Rmult_le_compat_l; lra). lra. }
  assert (TI : 0 < / dt) by now apply Rinv_0_lt_compat. unfold rate_error, Rdiv.
  assert (Q1 : qs d <= 1). { clear - U1 W1. unfold unitq in U1. destruct d as [[x y z] w]. specu. cbn in *. nra. }
  destruct (Rle_dec _ _) as [DZ|NZ].
  - pose proof (dead_small _ Q1 DZ) as SM. rewrite <- (half_vector_len d U1 W1) in SM.
    replace (vsub vzero (vscale (/ dt) (half_turn_vector e))) with (vscale (/ dt) (vsub vzero (half_turn_vector e)))
      by (destruct (half_turn_vector e); apply rv_eq; specu; ring).
    rewrite len3_vscale by lra. rewrite Rmult_comm. apply Rmult_le_compat_r; [lra|].
    replace (vsub vzero (half_turn_vector e)) with (vadd (vsub (half_turn_vector d) (half_turn_vector e)) (vscale (-1) (half_turn_vector d)))
      by (destruct (half_turn_vector d), (half_turn_vector e); apply rv_eq; specu; ring).
    eapply Rle_trans; [apply len3_triangle|].
    assert (LN : len3 (vscale (-1) (half_turn_vector d)) = len3 (half_turn_vector d)) by (unfold len3; f_equal; destruct (half_turn_vector d); specu; ring). lra.
  - replace (vsub (vscale (/ dt) (half_turn_vector d)) (vscale (/ dt) (half_turn_vector e))) with (vscale (/ dt) (vsub (half_turn_vector d) (half_turn_vector e)))
      by (destruct (half_turn_vector d), (half_turn_vector e); apply rv_eq; specu; ring).
    rewrite len3_vscale by lra. rewrite Rmult_comm. apply Rmult_le_compat_r; [lra|]. lra.
Qed.

(** ** The whole signal *)
Lemma true_rate_mounted w r p q dt : unitq w -> unitq r ->
  true_rate (hmul (hmul w p) r) (hmul (hmul w q) r) dt = hrot w (true_rate p q dt).
Proof.
  intros UW UR. set (d := hmul p (hconj q)). set (e := hmul (hmul w d) (hconj w)).
  assert (DE : hmul (hmul (hmul w p) r) (hconj (hmul (hmul w q) r)) = e).
  { unfold e, d. unfold unitq, hnorm2, hdot, dot3 in UR.
    destruct w as [[w1 w2 w3] w0], r as [[r1 r2 r3] r0], p as [[p1 p2 p3] p0], q as [[q1 q2 q3] q0]. cbn [qv qs Spec.v1 Spec.v2 Spec.v3] in *.
    transitivity (hscale (r1 * r1 + r2 * r2 + r3 * r3 + r0 * r0) (hmul (hmul (RQ (RV w1 w2 w3) w0) (hmul (RQ (RV p1 p2 p3) p0) (hconj (RQ (RV q1 q2 q3) q0)))) (hconj (RQ (RV w1 w2 w3) w0)))).
    { clear. specu. f_equal; try ring. f_equal; ring. }
    replace (r1 * r1 + r2 * r2 + r3 * r3 + r0 * r0) with 1 by lra. clear. specu. f_equal; try ring. f_equal; ring. }
  assert (SE : qs e = qs d).
  { unfold e. unfold unitq, hnorm2, hdot, dot3 in UW. destruct w as [[w1 w2 w3] w0], d as [[d1 d2 d3] d0]. cbn [qv qs Spec.v1 Spec.v2 Spec.v3] in *.
    transitivity ((w1 * w1 + w2 * w2 + w3 * w3 + w0 * w0) * d0); [clear; specu; ring|]. replace (w1 * w1 + w2 * w2 + w3 * w3 + w0 * w0) with 1 by lra. specu; ring. }
  assert (VE : qv e = hrot w (qv d)).
  { unfold e, hrot. destruct w as [[w1 w2 w3] w0], d as [[d1 d2 d3] d0]. clear. specu. f_equal; ring. }
  unfold true_rate. rewrite DE. fold d. unfold half_turn_vector.
  assert (S2 : qs (pos_w e) = qs (pos_w d)) by (unfold pos_w; rewrite SE; destruct (Rlt_dec (qs d) 0); cbn [hneg qs]; lra).
  assert (V2 : qv (pos_w e) = hrot w (qv (pos_w d))).
  { unfold pos_w; rewrite SE; destruct (Rlt_dec (qs d) 0); [|easy]. cbn [hneg qv]. rewrite VE. unfold hrot.
    destruct w as [[w1 w2 w3] w0], d as [[d1 d2 d3] d0]. clear. specu. f_equal; ring. }
  rewrite S2, V2. generalize (acos (qs (pos_w d)) / sqrt (1 - qs (pos_w d) * qs (pos_w d))) (qv (pos_w d)) (/ dt). intros z [x1 x2 x3] y.
  destruct w as [[w1 w2 w3] w0]. clear. specu. f_equal; ring.
Qed.
Lemma true_rates_mounted w r ps step : unitq w -> unitq r -> true_rates (mounted w r ps) step = map (hrot w) (true_rates ps step).
Proof.
  intros UW UR. induction ps as [|p ps IH]; [easy|]. destruct ps as [|q ps]; [easy|].
  change (true_rate (hmul (hmul w p) r) (hmul (hmul w q) r) step :: true_rates (mounted w r (q :: ps)) step
        = hrot w (true_rate p q step) :: map (hrot w) (true_rates (q :: ps) step)). rewrite IH. f_equal. now apply true_rate_mounted.
Qed.
Lemma component_len v : Rabs (v1 v) <= len3 v /\ Rabs (v2 v) <= len3 v /\ Rabs (v3 v) <= len3 v.
Proof.
  assert (H : forall x z, x * x <= z -> Rabs x <= sqrt z).
  { intros x z L. rewrite <- sqrt_Rsqr_abs. apply sqrt_le_1_alt. exact L. }
  destruct v as [a b c]. unfold len3, dot3. cbn [v1 v2 v3]. pose proof (Rle_0_sqr a). pose proof (Rle_0_sqr b). pose proof (Rle_0_sqr c). unfold Rsqr in *.
  repeat split; apply H; lra.
Qed.
Lemma rates_near dl ps qs a step : 0 < step -> Forall unitq ps -> measured_as dl ps qs -> no_fast_turn dl ps ->
  Forall2 (fun x y => len3 (vsub x y) <= rate_error dl step) (rates qs (ticks a step (length qs))) (true_rates ps step).
Proof.
  intros P U M. revert a. induction M as [|p q ps qs [Uq Hq] M IH]; intros a NF; [constructor|].
  destruct M as [|p' q' ps qs [Uq' Hq'] M]; [constructor|].
  inversion U as [|? ? U1 U']; subst. inversion U' as [|? ? U2 _]; subst.
  assert (TL : tl (ticks a step (length (q :: q' :: qs))) = ticks (a + step) step (length (q' :: qs))).
  { unfold ticks. cbn [length seq map tl]. f_equal; [cbn [INR]; ring|]. rewrite <- !seq_shift, !map_map. apply map_ext. intros i. rewrite !S_INR. ring. }
  change (Forall2 (fun x y => len3 (vsub x y) <= rate_error dl step)
    (rate q q' (nth 1 (ticks a step (length (q :: q' :: qs))) 0 - nth 0 (ticks a step (length (q :: q' :: qs))) 0) :: rates (q' :: qs) (tl (ticks a step (length (q :: q' :: qs)))))
    (true_rate p p' step :: true_rates (p' :: ps) step)).
  rewrite TL. replace (nth 1 _ 0 - nth 0 _ 0) with step by (unfold ticks; cbn [length seq map nth INR]; ring).
  constructor.
  - apply C96_rate; try assumption. now apply (NF 0%nat).
  - apply IH; [exact U'|]. intros i x y X Y. now apply (NF (S i)).
Qed.
Lemma noise_follows z e m rs v : Forall (fun x => Rabs (clamp m x - x) <= z) (components rs) ->
  Forall2 (fun x y => len3 (vsub x y) <= e) rs v -> follows (z + e) m rs v.
Proof.
  intros C F. unfold follows. induction F as [|x y rs v H F IH]; [constructor|].
  cbn [components flat_map app] in C. inversion C as [|? ? C1 C']; subst. inversion C' as [|? ? C2 C'']; subst. inversion C'' as [|? ? C3 C4]; subst.
  constructor; [|now apply IH]. destruct (component_len (vsub x y)) as (L1 & L2 & L3).
  assert (T : forall u w, Rabs (clamp m u - u) <= z -> Rabs (u - w) <= len3 (vsub x y) -> Rabs (clamp m u - w) <= z + e).
  { intros u w A B. assert (B' : Rabs (u - w) <= e) by lra. apply Rabs_le_inv in A, B'. apply Rabs_le. lra. }
  split; [|split]; apply T; assumption.
Qed.

(** Two sensors on one rig whose orientations are measured within dlA and dlB, and whose rates are clipped by at most zA and
    zB: the offset is exactly the difference c of the clocks if the self-correlation of the true rates falls off by more than
    these errors can change it. *)
Theorem C96_offset : forall ps qsA qsB w r a step c k pA pB dlA dlB zA zB,
  let n := length ps in
  (3 <= n)%nat -> 0 < step -> Forall unitq ps -> unitq w -> unitq r -> (1 <= k)%nat -> 0 <= pA <= 100 -> 0 <= pB <= 100 ->
  0 <= dlA -> 0 <= dlB -> 0 <= zA -> 0 <= zB ->
  measured_as dlA ps qsA -> measured_as dlB (mounted w r ps) qsB -> no_fast_turn dlA ps -> no_fast_turn dlB ps ->
  clipped_by zA pA (rates qsA (ticks a step n)) -> clipped_by zB pB (rates qsB (ticks (a + c) step n)) ->
  let s := map (fun i => len3 (averaged k (true_rates ps step) i)) (seq 0 (n - 1)) in
  let eA := zA + rate_error dlA step in let eB := zB + rate_error dlB step in
  (forall d, d <> 0%Z -> (Z.abs d < Z.of_nat (n - 1))%Z ->
     2 * (strength s * (sqrt 3 * (eA + eB) * sqrt (INR (n - 1))) + 3 * eA * eB * INR (n - 1)) < xcorr s s 0 - xcorr s s d) ->
  calculate_time_offset (map Fin (ticks a step n)) (inQs qsA) (map Fin (ticks (a + c) step n)) (inQs qsB)
    (mkFiltering (N:=XR) k (Fin pA) k (Fin pB)) = Ok (Fin c).
Proof.
  intros ps qsA qsB w r a step c k pA pB dlA dlB zA zB n N P U UW UR K PA PB DA DB ZA ZB MA MB NA NB CA CB s eA eB MARGIN.
  assert (LA : length qsA = n) by (symmetry; apply (Forall2_len _ _ _ MA)).
  assert (LB : length qsB = n) by (rewrite <- (Forall2_len _ _ _ MB); unfold mounted; now rewrite map_length).
  assert (UA : Forall unitq qsA) by (clear - MA; induction MA as [|? ? ? ? [H _]]; constructor; assumption).
  assert (UB : Forall unitq qsB) by (clear - MB; induction MB as [|? ? ? ? [H _]]; constructor; assumption).
  assert (UM : Forall unitq (mounted w r ps)).
  { apply Forall_forall. intros x I. apply in_map_iff in I as (p & <- & I). rewrite Forall_forall in U. apply unitq_mul; [apply unitq_mul|]; auto. }
  assert (NM : no_fast_turn dlB (mounted w r ps)).
  { intros i x y X Y. unfold mounted in X, Y. rewrite nth_error_map in X, Y.
    destruct (nth_error ps i) as [p|] eqn:E1; [|easy]. destruct (nth_error ps (S i)) as [q|] eqn:E2; [|easy]. injection X as <-. injection Y as <-.
    specialize (NB i p q E1 E2). replace (hdot (hmul (hmul w p) r) (hmul (hmul w q) r)) with (hdot p q); [exact NB|].
    unfold unitq in UW, UR. transitivity (hnorm2 w * hnorm2 r * hdot p q); [rewrite UW, UR; ring|].
    clear. destruct w as [[] ?], r as [[] ?], p as [[] ?], q as [[] ?]. specu. ring. }
  assert (RE : forall dl, 0 <= dl -> 0 <= rate_error dl step).
  { intros dl D. unfold rate_error. pose proof PI_RGT_0. apply Rmult_le_pos; [|left; now apply Rinv_0_lt_compat]. assert (0 <= PI * dl) by (apply Rmult_le_pos; lra). lra. }
  unfold s in MARGIN. clear s. rewrite <- LA in N, CA, CB, MARGIN |- *.
  apply (C89_noisy qsA qsB (true_rates ps step) w a step c k pA pB eA eB); try assumption.
  - now rewrite LB, LA.
  - unfold eA. specialize (RE dlA DA). lra.
  - unfold eB. specialize (RE dlB DB). lra.
  - intros m PM. unfold eA. apply noise_follows; [now apply CA|]. now apply rates_near.
  - intros m PM. unfold eB. apply noise_follows; [now apply CB|]. rewrite <- (true_rates_mounted w r) by assumption.
    rewrite LA, <- LB. now apply rates_near.
Qed.

(** ** Continuity *)
Definition count_below (x : R) (l : list R) : nat := length (filter (fun y => if Rle_dec y x then true else false) l).
Lemma count_perm x l s : Permutation l s -> count_below x l = count_below x s.
Proof.
  unfold count_below. induction 1 as [|y l s P IH|y z l|l s t P1 IH1 P2 IH2]; [easy| | |congruence].
  - cbn [filter]. destruct (Rle_dec y x); cbn [length]; congruence.
  - cbn [filter]. destruct (Rle_dec y x), (Rle_dec z x); reflexivity.
Qed.
Lemma count_near e x l l' : Forall2 (fun u w => Rabs (u - w) <= e) l l' -> (count_below x l <= count_below (x + e) l')%nat.
Proof.
  unfold count_below. induction 1 as [|u w l l' H F IH]; [easy|]. cbn [filter]. apply Rabs_le_inv in H.
  destruct (Rle_dec u x), (Rle_dec w (x + e)); cbn [length]; try lia. lra.
Qed.
Lemma sorted_tl y s : sorted (y :: s) -> sorted s.
Proof. intros S i j a b L A B. apply (S (Datatypes.S i) (Datatypes.S j)); [lia|exact A|exact B]. Qed.
Lemma count_sorted x s : sorted s -> forall k, (k < length s)%nat -> ((k < count_below x s)%nat <-> nth k s 0 <= x).
Proof.
  induction s as [|y s IH]; intros S k K; [cbn in K; lia|]. unfold count_below. cbn [filter].
  specialize (IH (sorted_tl _ _ S)). destruct (Rle_dec y x) as [G|G].
  - cbn [length]. destruct k as [|k]; cbn [nth]; [split; [easy|lia]|]. rewrite <- (IH k) by (cbn in K; lia). unfold count_below. lia.
  - assert (Z : filter (fun z => if Rle_dec z x then true else false) s = []).
    { destruct (filter _ s) as [|z f] eqn:E; [easy|exfalso]. assert (I : In z (filter (fun z => if Rle_dec z x then true else false) s)) by (rewrite E; now left).
      apply filter_In in I as [I T]. destruct (Rle_dec z x) as [H|]; [|easy]. apply In_nth_error in I as [j J].
      pose proof (S 0%nat (Datatypes.S j) y z ltac:(lia) eq_refl J). lra. }
    rewrite Z. cbn [length]. split; [lia|]. intros H. exfalso.
    assert (y <= nth k (y :: s) 0); [|lra]. apply (S 0%nat k); [lia|easy|]. now apply nth_error_nth'.
Qed.
Lemma order_near e l l' s s' k : Forall2 (fun u w => Rabs (u - w) <= e) l l' -> Permutation l s -> Permutation l' s' -> sorted s -> sorted s' ->
  (k < length l)%nat -> nth k s' 0 <= nth k s 0 + e.
Proof.
  intros F P P' S S' K. pose proof (Permutation_length P) as L. pose proof (Permutation_length P') as L'. pose proof (Forall2_len _ _ _ F) as LL.
  apply (count_sorted (nth k s 0 + e) s' S' k ltac:(lia)). rewrite <- (count_perm _ _ _ P').
  eapply Nat.lt_le_trans; [|apply (count_near e (nth k s 0) l l' F)]. rewrite (count_perm _ _ _ P). apply (count_sorted _ s S k ltac:(lia)). lra.
Qed.
Lemma percentile_near e p l l' m m' : l <> [] -> 0 <= p <= 100 -> Forall2 (fun u w => Rabs (u - w) <= e) l l' ->
  is_percentile l p m -> is_percentile l' p m' -> Rabs (m - m') <= e.
Proof.
  intros NE PP F (s & k & w & P & S & W & EQ & ->) (s' & k' & w' & P' & S' & W' & EQ' & ->).
  pose proof (Permutation_length P) as L. pose proof (Permutation_length P') as L'. pose proof (Forall2_len _ _ _ F) as LL.
  assert (LN : (1 <= length l)%nat) by (destruct l; [easy|cbn; lia]).
  replace (length s') with (length s) in * by lia. rewrite EQ in EQ'.
  assert (KK : k = k').
  { destruct (lt_eq_lt_dec k k') as [[H|H]|H]; [|easy|]; exfalso; apply le_INR in H; rewrite S_INR in H; lra. }
  subst k'. assert (w' = w) by lra. subst w'.
  assert (F' : Forall2 (fun u w => Rabs (u - w) <= e) l' l).
  { clear - F. induction F; constructor; [now rewrite Rabs_minus_sym|assumption]. }
  assert (K : (k <= length s - 1)%nat).
  { apply INR_le. assert (p / 100 * INR (length s - 1) <= 1 * INR (length s - 1)) by (apply Rmult_le_compat_r; [apply pos_INR|lra]). lra. }
  assert (B : forall j, (j <= length s - 1)%nat -> Rabs (nth j s 0 - nth j s' 0) <= e).
  { intros j J. pose proof (order_near e l l' s s' j F P P' S S' ltac:(lia)). pose proof (order_near e l' l s' s j F' P' P S' S ltac:(lia)). apply Rabs_le. lra. }
  pose proof (B k K) as B1. pose proof (B (Nat.min (Datatypes.S k) (length s - 1)) ltac:(lia)) as B2.
  set (u := nth k s 0) in *. set (u' := nth k s' 0) in *. set (z := nth (Nat.min (Datatypes.S k) (length s - 1)) s 0) in *. set (z' := nth (Nat.min (Datatypes.S k) (length s - 1)) s' 0) in *. clearbody u u' z z'. clear B.
  apply Rabs_le_inv in B1, B2.
  replace ((1 - w) * u + w * z - ((1 - w) * u' + w * z')) with ((1 - w) * (u - u') + w * (z - z')) by ring.
  apply Rabs_le. assert ((1 - w) * (u - u') <= (1 - w) * e) by (apply Rmult_le_compat_l; lra). assert (w * (z - z') <= w * e) by (apply Rmult_le_compat_l; lra).
  assert ((1 - w) * (- e) <= (1 - w) * (u - u')) by (apply Rmult_le_compat_l; lra). assert (w * (- e) <= w * (z - z')) by (apply Rmult_le_compat_l; lra). lra.
Qed.
Lemma clamp_near e m m' x y : Rabs (m - m') <= e -> Rabs (x - y) <= e -> Rabs (clamp m x - clamp m' y) <= e.
Proof.
  intros A B. apply Rabs_le_inv in A, B. apply Rabs_le. unfold clamp, Rmin, Rmax.
  destruct (Rle_dec x (- m)), (Rle_dec y (- m')); destruct (Rle_dec _ m), (Rle_dec _ m'); lra.
Qed.

(** neither a half turn nor exactly at the limit below which a step counts as no rotation *)
Definition regular_steps (ps : list rq) : Prop :=
  forall i p q, nth_error ps i = Some p -> nth_error ps (S i) = Some q ->
    hdot p q <> 0 /\ 1 - Rabs (hdot p q) <> 1 / 1000000000000 + 1 / 100000.
Lemma rate_continuous p p' dt ep : unitq p -> unitq p' -> 0 < dt -> 0 < ep -> hdot p p' <> 0 ->
  1 - Rabs (hdot p p') <> 1 / 1000000000000 + 1 / 100000 ->
  exists dl, 0 < dl /\ forall q q', unitq q -> unitq q' ->
    (dist q p <= dl \/ dist q (hneg p) <= dl) -> (dist q' p' <= dl \/ dist q' (hneg p') <= dl) ->
    len3 (vsub (rate q q' dt) (rate p p' dt)) <= ep.
Proof.
  intros Up Up' T E HZ HB. set (z := 1 / 1000000000000 + 1 / 100000) in *. pose proof PI_RGT_0 as PP.
  set (g := Rabs (1 - Rabs (hdot p p') - z)). assert (G : 0 < g) by (apply Rabs_pos_lt; lra).
  assert (H : 0 < Rabs (hdot p p')) by now apply Rabs_pos_lt.
  set (dl := Rmin (Rabs (hdot p p') / 3) (Rmin (g / 3) (ep * dt / PI))).
  assert (D0 : 0 < ep * dt / PI) by (apply Rdiv_lt_0_compat; [apply Rmult_lt_0_compat|]; lra).
  assert (DP : 0 < dl) by (repeat apply Rmin_glb_lt; lra).
  assert (D1 : dl <= Rabs (hdot p p') / 3) by apply Rmin_l.
  assert (D2 : dl <= g / 3) by (eapply Rle_trans; [apply Rmin_r|apply Rmin_l]).
  assert (D3 : dl <= ep * dt / PI) by (eapply Rle_trans; [apply Rmin_r|apply Rmin_r]).
  exists dl. split; [exact DP|]. intros q q' Uq Uq' A B.
  pose proof (rel_near p q p' q' dl Up Up' Uq Uq' A B ltac:(lra)) as N.
  destruct (pos_w_unit _ (unitq_rel q q' Uq Uq')) as [U1 W1]. destruct (pos_w_unit _ (unitq_rel p p' Up Up')) as [U2 W2].
  rewrite (rate_vector q q' dt T), (rate_vector p p' dt T). cbv zeta. fold z.
  assert (QP : qs (pos_w (hmul p (hconj p'))) = Rabs (hdot p p')).
  { assert (SP : qs (hmul p (hconj p')) = hdot p p') by (destruct p as [[? ? ?] ?], p' as [[? ? ?] ?]; specu; ring).
    unfold pos_w. rewrite SP. destruct (Rlt_dec _ 0); cbn [hneg qs]; rewrite SP; [rewrite Rabs_left|rewrite Rabs_pos_eq]; lra. }
  set (d := pos_w (hmul q (hconj q'))) in *. set (e := pos_w (hmul p (hconj p'))) in *.
  assert (LE1 : forall f, unitq f -> qs f <= 1). { intros f UF. unfold unitq in UF. destruct f as [[x y u] w]. specu. cbn in *. pose proof (Rle_0_sqr x). pose proof (Rle_0_sqr y). pose proof (Rle_0_sqr u). unfold Rsqr in *.
    assert (w * w <= 1) by lra. clear - H3. nra. }
  pose proof (LE1 d U1) as Q1. pose proof (LE1 e U2) as Q2.
  rewrite !(Rabs_left1 (_ - 1)) by lra.
  clearbody dl. assert (GE : g = Rabs (1 - Rabs (hdot p p') - z)) by reflexivity. clearbody g.
  pose proof (scalar_dist d e) as SD. assert (SD' : Rabs (qs d - qs e) <= 2 * dl) by lra. apply Rabs_le_inv in SD'. rewrite <- QP in *.
  assert (SAME : (- (qs d - 1) <= z /\ - (qs e - 1) <= z) \/ (~ - (qs d - 1) <= z /\ ~ - (qs e - 1) <= z)).
  { clear - GE D2 G SD'. unfold Rabs in GE. destruct (Rcase_abs _); [left|right]; lra. }
  destruct (Rle_dec (- (qs d - 1)) z), (Rle_dec (- (qs e - 1)) z); try tauto.
  - replace (vsub vzero vzero) with (vscale 0 vzero) by (apply rv_eq; specu; ring). rewrite len3_vscale by lra. lra.
  - replace (vsub (vscale (/ dt) (half_turn_vector d)) (vscale (/ dt) (half_turn_vector e))) with (vscale (/ dt) (vsub (half_turn_vector d) (half_turn_vector e)))
      by (destruct (half_turn_vector d), (half_turn_vector e); apply rv_eq; specu; ring).
    assert (TI : 0 < / dt) by now apply Rinv_0_lt_compat. rewrite len3_vscale by lra.
    pose proof (half_vector_near d e U1 U2 W1 W2) as HV.
    assert (X : PI / 2 * dist d e <= PI / 2 * (2 * (ep * dt / PI))) by (apply Rmult_le_compat_l; lra).
    replace (PI / 2 * (2 * (ep * dt / PI))) with (ep * dt) in X by (field; lra).
    apply (Rmult_le_reg_l dt); [easy|]. rewrite <- Rmult_assoc, Rinv_r by lra. lra.
Qed.
Lemma measured_le dl dl' ps qs : dl <= dl' -> measured_as dl ps qs -> measured_as dl' ps qs.
Proof. intros L M. induction M as [|p q ps qs [U H] M IH]; constructor; [|exact IH]. split; [exact U|]. destruct H; [left|right]; lra. Qed.
Lemma rates_continuous ps a step ep : 0 < step -> 0 < ep -> Forall unitq ps -> regular_steps ps ->
  exists dl, 0 < dl /\ forall qs, measured_as dl ps qs ->
    Forall2 (fun x y => len3 (vsub x y) <= ep) (rates qs (ticks a step (length ps))) (rates ps (ticks a step (length ps))).
Proof.
  intros P E. revert a. induction ps as [|p ps IH]; intros a U R.
  { exists 1. split; [lra|]. intros qs M. inversion M. constructor. }
  destruct ps as [|p' ps].
  { exists 1. split; [lra|]. intros qs M. inversion M as [|? q ? qs' _ M']; subst. inversion M'; subst. constructor. }
  inversion U as [|? ? U1 U']; subst. inversion U' as [|? ? U2 _]; subst.
  destruct (IH (a + step) U' ltac:(intros i x y X Y; now apply (R (S i)))) as (d1 & P1 & H1).
  destruct (R 0%nat p p' eq_refl eq_refl) as [R1 R2].
  destruct (rate_continuous p p' step ep U1 U2 P E R1 R2) as (d2 & P2 & H2).
  exists (Rmin d1 d2). split; [now apply Rmin_glb_lt|]. intros qs M.
  pose proof (measured_le _ d1 _ _ (Rmin_l d1 d2) M) as M1. pose proof (measured_le _ d2 _ _ (Rmin_r d1 d2) M) as M2.
  inversion M1 as [|? q ? qs1 _ M1']; subst. inversion M2 as [|? ? ? ? [Uq Hq] M2']; subst.
  inversion M2' as [|? q' ? qs2 [Uq' Hq'] _]; subst.
  assert (TL : tl (ticks a step (length (p :: p' :: ps))) = ticks (a + step) step (length (p' :: ps))).
  { unfold ticks. cbn [length seq map tl]. f_equal; [cbn [INR]; ring|]. rewrite <- !seq_shift, !map_map. apply map_ext. intros i. rewrite !S_INR. ring. }
  assert (ST : nth 1 (ticks a step (length (p :: p' :: ps))) 0 - nth 0 (ticks a step (length (p :: p' :: ps))) 0 = step) by (unfold ticks; cbn [length seq map nth INR]; ring).
  set (tk := ticks a step (length (p :: p' :: ps))) in *.
  change (Forall2 (fun x y => len3 (vsub x y) <= ep) (rate q q' (nth 1 tk 0 - nth 0 tk 0) :: rates (q' :: qs2) (tl tk)) (rate p p' (nth 1 tk 0 - nth 0 tk 0) :: rates (p' :: ps) (tl tk))).
  rewrite TL, ST. constructor; [now apply H2|now apply H1].
Qed.
Lemma components_near e rs v : Forall2 (fun x y => len3 (vsub x y) <= e) rs v -> Forall2 (fun x y => Rabs (x - y) <= e) (components rs) (components v).
Proof.
  induction 1 as [|x y rs v H F IH]; [constructor|]. cbn [components flat_map app]. destruct (component_len (vsub x y)) as (L1 & L2 & L3). change (Rabs (v1 x - v1 y) <= len3 (vsub x y)) in L1. change (Rabs (v2 x - v2 y) <= len3 (vsub x y)) in L2. change (Rabs (v3 x - v3 y) <= len3 (vsub x y)) in L3.
  do 3 (constructor; [lra|]). exact IH.
Qed.
Lemma smoothed_continuous ps a step k p ep : 0 < step -> 0 < ep -> (1 <= k)%nat -> 0 <= p <= 100 -> (2 <= length ps)%nat -> Forall unitq ps -> regular_steps ps ->
  exists dl, 0 < dl /\ forall qs, measured_as dl ps qs ->
    forall m m' i, is_percentile (components (rates ps (ticks a step (length ps)))) p m -> is_percentile (components (rates qs (ticks a step (length ps)))) p m' ->
    Rabs (len3 (smoothed m' k (rates qs (ticks a step (length ps))) i) - len3 (smoothed m k (rates ps (ticks a step (length ps))) i)) <= ep.
Proof.
  intros P E K PP LP U R. destruct (rates_continuous ps a step (ep / 2) P ltac:(lra) U R) as (dl & D & H). exists dl. split; [exact D|].
  intros qs M m m' i PM PM'. specialize (H qs M). set (rq := rates qs _) in *. set (rp := rates ps _) in *.
  assert (CN := components_near _ _ _ H).
  assert (NE : components rq <> []).
  { assert (L : length rp = (length ps - 1)%nat) by apply rates_length. assert (L' : length rq = length rp) by apply (Forall2_len _ _ _ H).
    destruct rq; [cbn in L'; lia|easy]. }
  assert (MM : Rabs (m' - m) <= ep / 2) by exact (percentile_near _ p _ _ _ _ NE PP CN PM' PM).
  set (v := map (fun r => RV (clamp m (v1 r)) (clamp m (v2 r)) (clamp m (v3 r))) rp).
  assert (FO : follows (ep / 2) m' rq v).
  { unfold follows, v. clear - H MM. induction H as [|x y rq rp H F IH]; cbn [map]; constructor; [|exact IH].
    destruct (component_len (vsub x y)) as (L1 & L2 & L3). change (Rabs (v1 x - v1 y) <= len3 (vsub x y)) in L1. change (Rabs (v2 x - v2 y) <= len3 (vsub x y)) in L2. change (Rabs (v3 x - v3 y) <= len3 (vsub x y)) in L3. cbn [v1 v2 v3].
    split; [|split]; apply clamp_near; lra. }
  pose proof (smoothed_near (ep / 2) m' k rq v i K ltac:(lra) FO) as S.
  assert (EQ : averaged k v i = smoothed m k rp i) by (unfold averaged, smoothed, v; now rewrite !map_map).
  rewrite EQ in S. eapply Rle_trans; [exact S|].
  assert (sqrt 3 <= 2) by (rewrite <- (sqrt_square 2) by lra; apply sqrt_le_1_alt; lra).
  assert (sqrt 3 * (ep / 2) <= 2 * (ep / 2)) by (apply Rmult_le_compat_r; lra). lra.
Qed.

(** Two recordings that give the same signal that is not silent (see C89 for when two sensors on one rig do): there is a noise
    level below which every recording of the same orientations gives exactly the same offset. *)
Theorem C96_tolerates : forall psA psB a step c kA pA kB pB norms,
  let n := length psA in
  (3 <= n)%nat -> length psB = n -> 0 < step -> Forall unitq psA -> Forall unitq psB -> (1 <= kA)%nat -> (1 <= kB)%nat ->
  0 <= pA <= 100 -> 0 <= pB <= 100 -> regular_steps psA -> regular_steps psB ->
  compute_angular_velocity_norms (inQs psA) (map Fin (ticks a step n)) kA (Fin pA) = Ok (map Fin norms) ->
  compute_angular_velocity_norms (inQs psB) (map Fin (ticks (a + c) step n)) kB (Fin pB) = Ok (map Fin norms) ->
  Exists (fun x => x <> 0) norms ->
  exists dl, 0 < dl /\ forall qsA qsB, measured_as dl psA qsA -> measured_as dl psB qsB ->
    calculate_time_offset (map Fin (ticks a step n)) (inQs qsA) (map Fin (ticks (a + c) step n)) (inQs qsB)
      (mkFiltering (N:=XR) kA (Fin pA) kB (Fin pB)) = Ok (Fin c).
Proof.
  intros psA psB a step c kA pA kB pB norms n N LB P UA UB KA KB PA PB RA RB EA EB NZ.
  assert (NZ' : exists i, sig_at norms i <> 0).
  { apply Exists_exists in NZ as (x & I & NX). apply In_nth_error in I as [j J]. exists (Z.of_nat j). unfold sig_at.
    destruct (Z.ltb_spec (Z.of_nat j) 0); [lia|]. rewrite Nat2Z.id, (nth_error_nth _ _ _ J). exact NX. }
  destruct (C87_tolerates norms norms 0 1 ltac:(lra) NZ') as (ep & EP & TOL); [intros i; rewrite Z.add_0_r; lra|].
  assert (DESC : forall ps t0 k p, length ps = n -> Forall unitq ps -> (1 <= k)%nat -> 0 <= p <= 100 ->
    compute_angular_velocity_norms (inQs ps) (map Fin (ticks t0 step n)) k (Fin p) = Ok (map Fin norms) ->
    length norms = (n - 1)%nat /\ exists m, is_percentile (components (rates ps (ticks t0 step n))) p m /\
      forall i, (i < n - 1)%nat -> nth_error norms i = Some (len3 (smoothed m k (rates ps (ticks t0 step n)) i))).
  { intros ps t0 k p L U K PP E. destruct (C43_norms ps (ticks t0 step n) k p U) as (m & norms' & PM & E' & LN & AT & _); try easy.
    { rewrite ticks_length. lia. } { now apply ticks_increasing. }
    assert (EQ : norms' = norms).
    { assert (Q : map Fin norms' = map Fin norms) by congruence. clear - Q. revert norms Q. induction norms' as [|x l IH]; intros [|y r] Q; try easy.
      cbn [map] in Q. injection Q as Q1 Q2. f_equal; [exact Q1|now apply IH]. }
    subst norms'. rewrite L in LN, AT. split; [exact LN|]. exists m. split; [exact PM|exact AT]. }
  destruct (DESC psA a kA pA eq_refl UA KA PA EA) as (LN & mA & PMA & ATA).
  destruct (DESC psB (a + c) kB pB LB UB KB PB EB) as (_ & mB & PMB & ATB).
  destruct (smoothed_continuous psA a step kA pA ep P EP KA PA ltac:(fold n; lia) UA RA) as (d1 & P1 & H1).
  destruct (smoothed_continuous psB (a + c) step kB pB ep P EP KB PB ltac:(lia) UB RB) as (d2 & P2 & H2).
  exists (Rmin d1 d2). split; [now apply Rmin_glb_lt|]. intros qsA qsB MA MB.
  pose proof (measured_le _ d1 _ _ (Rmin_l d1 d2) MA) as M1. pose proof (measured_le _ d2 _ _ (Rmin_r d1 d2) MB) as M2.
  assert (LqA : length qsA = n) by (symmetry; apply (Forall2_len _ _ _ M1)).
  assert (LqB : length qsB = n) by (rewrite <- LB; symmetry; apply (Forall2_len _ _ _ M2)).
  assert (UqA : Forall unitq qsA) by (clear - M1; induction M1 as [|? ? ? ? [H _]]; constructor; assumption).
  assert (UqB : Forall unitq qsB) by (clear - M2; induction M2 as [|? ? ? ? [H _]]; constructor; assumption).
  destruct (offset_norms qsA qsB a c step kA pA kB pB) as (mA' & mB' & a' & b' & PMA' & PMB' & SA & SB & E); try assumption; try lia.
  rewrite LqA in E, PMA', SA. rewrite LqB in E, PMB', SB. change (@T XR) with xr in *. rewrite E. clear E.
  specialize (H1 qsA M1 mA mA'). specialize (H2 qsB M2 mB mB'). rewrite LB in H2. fold n in H1.
  set (nA := map (fun i => len3 (smoothed mA' kA (rates qsA (ticks a step n)) i) - len3 (smoothed mA kA (rates psA (ticks a step n)) i)) (seq 0 (n - 1))).
  set (nB := map (fun i => len3 (smoothed mB' kB (rates qsB (ticks (a + c) step n)) i) - len3 (smoothed mB kB (rates psB (ticks (a + c) step n)) i)) (seq 0 (n - 1))).
  assert (NS : forall f, (forall i, (i < n - 1)%nat -> nth_error norms i = Some (f i)) -> norms = map f (seq 0 (n - 1))).
  { intros f AT. apply nth_ext with (d := f 0%nat) (d' := f 0%nat); [now rewrite map_length, seq_length|].
    intros i Hi. rewrite map_nth, seq_nth by lia. apply nth_error_nth. apply AT. lia. }
  rewrite (TOL (ticks a step (n - 1)) (ticks (a + c) step (n - 1)) nA a' nB b').
  - rewrite !ticks_hd by lia. do 2 f_equal. rewrite Rmult_0_r. lra.
  - rewrite ticks_length. lia.
  - intros Q. apply (f_equal (@length R)) in Q. rewrite ticks_length in Q. cbn in Q. lia.
  - unfold nA. rewrite map_length, seq_length. lia.
  - unfold nB. rewrite map_length, seq_length. lia.
  - rewrite SA, map_length, seq_length. lia.
  - rewrite SB, map_length, seq_length. lia.
  - apply Forall_forall. intros x I. apply in_map_iff in I as (i & <- & _). now apply H1.
  - apply Forall_forall. intros x I. apply in_map_iff in I as (i & <- & _). now apply H2.
  - intros i. rewrite (NS _ ATA), SA. unfold nA. rewrite !sig_map_seq. destruct (i <? 0)%Z; [lra|]. destruct (i <? _)%Z; lra.
  - intros i. rewrite (NS _ ATB), SB. unfold nB. rewrite !sig_map_seq. destruct (i <? 0)%Z; [lra|]. destruct (i <? _)%Z; lra.
Qed.

(** ** Example *)
Lemma clip_all e h rs v : 0 <= e <= h -> Forall2 (fun x y => len3 (vsub x y) <= e) rs v -> Forall (fun x => Rabs x <= h) (components v) -> In h (components v) ->
  clipped_by (2 * e) 100 rs.
Proof.
  intros E F B I m PM. pose proof (components_near _ _ _ F) as C.
  assert (HM : h - e <= m).
  { assert (X : forall l l', Forall2 (fun x y => Rabs (x - y) <= e) l l' -> In h l' -> exists x, In x l /\ h - e <= x).
    { clear. induction 1 as [|x y l l' H F IH]; intros I; [easy|]. destruct I as [-> |I].
      - exists x. split; [now left|]. apply Rabs_le_inv in H. lra.
      - destruct (IH I) as (z & Z & L). exists z. split; [now right|exact L]. }
    destruct (X _ _ C I) as (x & J & L). pose proof (percentile_100 _ _ _ PM J). lra. }
  apply Forall_forall. intros x J. pose proof (percentile_100 _ _ _ PM J) as XM.
  assert (XL : - h - e <= x).
  { clear - C B J. revert J. induction C as [|u y l l' H F IH]; intros J; [easy|]. inversion B; subst. destruct J as [-> |J]; [|now apply IH].
    apply Rabs_le_inv in H, H2. lra. }
  unfold clamp. apply Rabs_le. unfold Rmin, Rmax. destruct (Rle_dec x (- m)), (Rle_dec _ m); lra.
Qed.
(** every pair of recordings, with noise of about a ninth of a degree, of a swing by a right angle and back, the second sensor
    mounted upside down and measured in a frame turned by a right angle about x, at the largest filter limit *)
Example C96_example : forall qsA qsB,
  let w := RQ (RV (sqrt 2 / 2) 0 0) (sqrt 2 / 2) in let r := RQ (RV 1 0 0) 0 in
  measured_as (1 / 1000) swing qsA -> measured_as (1 / 1000) (mounted w r swing) qsB ->
  calculate_time_offset (map Fin (ticks 0 1 3)) (inQs qsA) (map Fin (ticks (0 + 7) 1 3)) (inQs qsB)
    (mkFiltering (N:=XR) 1 (Fin 100) 1 (Fin 100)) = Ok (Fin 7).
Proof.
  intros qsA qsB w r MA MB.
  assert (S2 : sqrt 2 * sqrt 2 = 2) by (apply sqrt_def; lra).
  assert (UW : unitq w) by (unfold w, unitq, hnorm2, hdot, dot3; cbn [qv qs v1 v2 v3]; nra).
  assert (UR : unitq r) by (unfold r, unitq, hnorm2, hdot, dot3; cbn [qv qs v1 v2 v3]; lra).
  assert (LA : length qsA = 3%nat) by (symmetry; apply (Forall2_len _ _ _ MA)).
  assert (LB : length qsB = 3%nat) by (symmetry; apply (Forall2_len _ _ _ MB)).
  pose proof swing_unit as US.
  set (h := PI / 4).
  assert (HP : 3 / 4 <= h <= 1) by (unfold h; pose proof PI2_3_2; pose proof PI_4; lra).
  assert (C2 : 2 * (cos h * cos h) - 1 = 0).
  { replace (2 * (cos h * cos h) - 1) with (cos (2 * h)) by (rewrite cos_2a_cos; ring). replace (2 * h) with (PI / 2) by (unfold h; field). apply cos_PI2. }
  assert (CP : 0 < cos h) by (apply cos_gt_0; unfold h; pose proof PI_RGT_0; lra).
  assert (C0 : 7 / 10 < cos h) by nra.
  assert (S0 : 0 < sin h) by (apply sin_gt_0; unfold h; pose proof PI_RGT_0; lra).
  assert (NF : no_fast_turn (1 / 1000) swing).
  { intros i p q A B. unfold swing in A, B. destruct i as [|[|[|i]]]; cbn in A, B; try discriminate; try (destruct i; discriminate);
      injection A as <-; injection B as <-; (eapply Rlt_le_trans; [|apply Rle_abs]); unfold hdot, dot3, hone, vzero; cbn [qv qs v1 v2 v3]; fold h; lra. }
  assert (NM : no_fast_turn (1 / 1000) (mounted w r swing)).
  { assert (HD : forall p q, hdot (hmul (hmul w p) r) (hmul (hmul w q) r) = hdot p q).
    { intros [[p1 p2 p3] p0] [[q1 q2 q3] q0]. unfold w, r. clear - S2. specu. set (t := sqrt 2 / 2). assert (T : t * t = 1 / 2) by (unfold t; lra).
      transitivity (2 * (t * t) * (p1 * q1 + p2 * q2 + p3 * q3 + p0 * q0)); [ring|rewrite T; lra]. }
    intros i x y X Y. unfold mounted in X, Y. rewrite nth_error_map in X, Y.
    destruct (nth_error swing i) as [p|] eqn:E1; [|easy]. destruct (nth_error swing (S i)) as [q|] eqn:E2; [|easy]. injection X as <-. injection Y as <-.
    rewrite HD. now apply (NF i). }
  assert (RT : forall sg d, d = RQ (RV 0 0 (sg * sin h)) (cos h) -> vscale (/ 1) (half_turn_vector (pos_w d)) = RV 0 0 (sg * h)).
  { intros sg d ->. unfold pos_w. cbn [qs qv]. destruct (Rlt_dec (cos h) 0); [lra|]. unfold half_turn_vector. cbn [qs qv].
    rewrite acos_cos by (unfold h; pose proof PI_RGT_0; lra). rewrite sqrt_1_cos2 by lra.
    unfold vscale. cbn [v1 v2 v3]. f_equal; field; lra. }
  assert (RA : true_rates swing 1 = [RV 0 0 (- 1 * h); RV 0 0 (1 * h)]).
  { unfold swing. fold h. cbn [true_rates]. unfold true_rate.
    f_equal; [|f_equal]; apply RT; unfold hone; clear; specu; f_equal; try ring; f_equal; ring. }
  assert (RB : true_rates (mounted w r swing) 1 = [RV 0 h 0; RV 0 (- h) 0]).
  { rewrite true_rates_mounted by easy. rewrite RA. cbn [map].
    assert (HR : forall z, hrot w (RV 0 0 z) = RV 0 (- z) 0).
    { intros z. unfold w, hrot. clear - S2. specu. f_equal; [ring|transitivity (- (sqrt 2 * sqrt 2 / 2) * z); [field|rewrite S2; field]|field]. }
    rewrite !HR. repeat f_equal; lra. }
  assert (UM : Forall unitq (mounted w r swing)).
  { apply Forall_forall. intros x I. apply in_map_iff in I as (p & <- & I). rewrite Forall_forall in US. apply unitq_mul; [apply unitq_mul|]; auto. }
  pose proof (rates_near (1 / 1000) swing qsA 0 1 ltac:(lra) US MA NF) as NA. rewrite RA, LA in NA.
  pose proof (rates_near (1 / 1000) _ qsB (0 + 7) 1 ltac:(lra) UM MB NM) as NB. rewrite RB, LB in NB.
  set (e := rate_error (1 / 1000) 1) in *.
  assert (E : 0 < e <= 85 / 10000).
  { unfold e, rate_error. pose proof PI_RGT_0. pose proof PI_4. lra. }
  apply (C96_offset swing qsA qsB w r 0 1 7 1 100 100 (1 / 1000) (1 / 1000) (2 * e) (2 * e));
    [apply le_n|lra|exact US|exact UW|exact UR|apply le_n|lra|lra|lra|lra|lra|lra|exact MA|exact MB|exact NF|exact NF| | |].
  - change (length swing) with 3%nat. apply (clip_all e h _ _ ltac:(lra) NA).
    + cbn [components flat_map app v1 v2 v3]. do 6 (apply Forall_cons; [apply Rabs_le; lra|]). constructor.
    + cbn. do 5 right. left. lra.
  - change (length swing) with 3%nat. apply (clip_all e h _ _ ltac:(lra) NB).
    + cbn [components flat_map app v1 v2 v3]. do 6 (apply Forall_cons; [apply Rabs_le; lra|]). constructor.
    + cbn. right. left. lra.
  - intros d D R. change (length swing) with 3%nat in *. rewrite RA. fold e. cbn [Nat.sub] in R |- *.
    assert (SS : map (fun i => len3 (averaged 1 [RV 0 0 (- 1 * h); RV 0 0 (1 * h)] i)) (seq 0 2) = [h; h]).
    { cbn [seq map]. unfold averaged, len3, dot3, moving_average, sig_at. cbn [v1 v2 v3 map]. simpl.
      f_equal; [|f_equal]; (transitivity (sqrt (h * h)); [f_equal; field|apply sqrt_square; lra]). }
    rewrite SS. assert (X0 : xcorr [h; h] [h; h] 0 = h * h + h * h) by (unfold xcorr, sig_at; simpl; ring).
    assert (X1 : xcorr [h; h] [h; h] d = h * h).
    { assert (DD : d = 1%Z \/ d = (-1)%Z) by lia. destruct DD as [-> | ->]; unfold xcorr, sig_at; simpl; ring. }
    rewrite X0, X1. replace (INR 2) with 2 by (cbn; lra).
    assert (ST : strength [h; h] = h * sqrt 2).
    { unfold strength. cbn. replace (h * h + (h * h + 0)) with (h * h * 2) by ring. rewrite sqrt_mult_alt by nra. now rewrite sqrt_square by lra. }
    rewrite ST. assert (S3 : sqrt 3 <= 18 / 10) by (rewrite <- (sqrt_square (18 / 10)) by lra; apply sqrt_le_1_alt; lra).
    replace (h * sqrt 2 * (sqrt 3 * (2 * e + e + (2 * e + e)) * sqrt 2)) with (h * (sqrt 2 * sqrt 2) * (sqrt 3 * (6 * e))) by ring. rewrite S2.
    assert (Q1 : sqrt 3 * (6 * e) <= 18 / 10 * (6 * (85 / 10000))) by (apply Rmult_le_compat; [apply sqrt_pos| | |]; lra).
    assert (Q2 : h * 2 * (sqrt 3 * (6 * e)) <= h * 2 * (18 / 10 * (6 * (85 / 10000)))) by (apply Rmult_le_compat_l; lra).
    assert (Q3 : e * e <= 85 / 10000 * (85 / 10000)) by (apply Rmult_le_compat; lra).
    assert (Q4 : 3 / 4 * h <= h * h) by (apply Rmult_le_compat_r; lra).
    replace (3 * (2 * e + e) * (2 * e + e) * 2) with (54 * (e * e)) by ring. lra.
Qed.
(** the same swing, recorded by two sensors without noise, meets the hypotheses of C96_tolerates *)
Example C96_tolerates_example : exists norms,
  (3 <= length swing)%nat /\ Forall unitq swing /\ regular_steps swing /\
  compute_angular_velocity_norms (inQs swing) (map Fin (ticks 0 1 3)) 1 (Fin 100) = Ok (map Fin norms) /\
  compute_angular_velocity_norms (inQs swing) (map Fin (ticks (0 + 7) 1 3)) 1 (Fin 100) = Ok (map Fin norms) /\
  Exists (fun x => x <> 0) norms.
Proof.
  set (h := PI / 4).
  assert (HP : 3 / 4 <= h <= 1) by (unfold h; pose proof PI2_3_2; pose proof PI_4; lra).
  assert (C2 : 2 * (cos h * cos h) - 1 = 0).
  { replace (2 * (cos h * cos h) - 1) with (cos (2 * h)) by (rewrite cos_2a_cos; ring). replace (2 * h) with (PI / 2) by (unfold h; field). apply cos_PI2. }
  assert (CP : 0 < cos h) by (apply cos_gt_0; unfold h; pose proof PI_RGT_0; lra).
  assert (C0 : 7 / 10 < cos h < 8 / 10) by nra.
  assert (S0 : 0 < sin h) by (apply sin_gt_0; unfold h; pose proof PI_RGT_0; lra).
  assert (RT : forall sg d, d = RQ (RV 0 0 (sg * sin h)) (cos h) ->
    (if Rle_dec (Rabs (qs (pos_w d) - 1)) (1 / 1000000000000 + 1 / 100000) then vzero
     else vscale (acos (qs (pos_w d)) / 1 / sqrt (1 - qs (pos_w d) * qs (pos_w d))) (qv (pos_w d))) = RV 0 0 (sg * h)).
  { intros sg d ->. unfold pos_w. cbn [qs qv]. destruct (Rlt_dec (cos h) 0); [lra|]. cbn [qs qv].
    destruct (Rle_dec _ _) as [L|_]; [rewrite Rabs_left in L by lra; lra|].
    rewrite acos_cos by (unfold h; pose proof PI_RGT_0; lra). rewrite sqrt_1_cos2 by lra.
    unfold vscale. cbn [v1 v2 v3]. f_equal; field; lra. }
  assert (RA : rates swing (ticks 0 1 3) = [RV 0 0 (- 1 * h); RV 0 0 (1 * h)]).
  { unfold swing. fold h. cbn [rates ticks seq map tl nth]. unfold rate.
    replace (0 + INR 1 * 1 - (0 + INR 0 * 1)) with 1 by (cbn; lra). replace (0 + INR 2 * 1 - (0 + INR 1 * 1)) with 1 by (cbn; lra).
    f_equal; [|f_equal]; apply RT; unfold hone; clear; specu; f_equal; try ring; f_equal; ring. }
  assert (RB : rates swing (ticks (0 + 7) 1 3) = [RV 0 0 (- 1 * h); RV 0 0 (1 * h)]).
  { rewrite ticks_shift, rates_shift by (rewrite ticks_length; cbn; lia). exact RA. }
  assert (NORM : forall t0, rates swing (ticks t0 1 3) = [RV 0 0 (- 1 * h); RV 0 0 (1 * h)] ->
    compute_angular_velocity_norms (inQs swing) (map Fin (ticks t0 1 3)) 1 (Fin 100) = Ok (map Fin [h; h])).
  { intros t0 R. destruct (C43_norms swing (ticks t0 1 3) 1 100 swing_unit) as (m & norms & PM & E & LN & AT & _); try lra; try lia; [rewrite ticks_length; cbn; lia|apply ticks_increasing; lra|].
    rewrite E, R in *. change (length swing - 1)%nat with 2%nat in *.
    assert (HM : h <= m) by (apply (percentile_100 _ _ _ PM); cbn; do 5 right; left; lra).
    assert (SM : forall i, (i < 2)%nat -> len3 (smoothed m 1 [RV 0 0 (- 1 * h); RV 0 0 (1 * h)] i) = h).
    { intros i I. assert (CL : forall x, - h <= x <= h -> clamp m x = x) by (intros x X; unfold clamp; rewrite Rmax_left by lra; apply Rmin_left; lra).
      unfold smoothed, len3, dot3, moving_average, sig_at. cbn [v1 v2 v3 map]. rewrite !CL by lra.
      destruct i as [|[|i]]; [| |lia]; simpl; (transitivity (sqrt (h * h)); [f_equal; field|apply sqrt_square; lra]). }
    do 2 f_equal. destruct norms as [|x [|y [|z norms]]]; try (cbn in LN; lia).
    pose proof (AT 0%nat ltac:(lia)) as A0. pose proof (AT 1%nat ltac:(lia)) as A1. cbn [nth_error] in A0, A1. rewrite SM in A0, A1 by lia. congruence. }
  exists [h; h]. split; [apply le_n|]. split; [apply swing_unit|]. split; [|split; [now apply NORM|split; [now apply NORM|apply Exists_cons_hd; lra]]].
  intros i p q A B. unfold swing in A, B. destruct i as [|[|[|i]]]; cbn in A, B; try discriminate; try (destruct i; discriminate);
    injection A as <-; injection B as <-; unfold hdot, dot3, hone, vzero; cbn [qv qs v1 v2 v3]; fold h;
    replace (_ + _) with (cos h) by ring; (split; [lra|rewrite Rabs_pos_eq; lra]).
Qed.
