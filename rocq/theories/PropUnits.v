(** * Property C101: the unit of time. *)

From Coq Require Import Reals ZArith Bool List Lra Lia Psatz Permutation.
From Verif Require Import Num Py XReal XFacts Quat DualQuat TimeAlign Spec TimeSpec Embed QuatFacts QuatTrig DualFacts ListFacts TimeFacts
  ResampleFacts StabilityFacts PropTimeOffset PropResample PropAligned PropFilter PropOffsetPath PropNoisySignal PropTwoSensors PropOrientNoise PropOffsetSwap.
Import ListNotations.
Local Open Scope R_scope.

(** ** Specification *)
(** numbers written in another unit *)
Definition scaled (c : R) (l : list R) : list R := map (Rmult c) l.
(** poses with the time stamps written in another unit *)
Definition restamped (c : R) (l : list PropAligned.row) : list PropAligned.row := map (fun r => (c * fst r, snd r)) l.

(** ** Two signals *)
Lemma sig_scaled c l i : sig_at (scaled c l) i = c * sig_at l i.
Proof.
  unfold sig_at, scaled. destruct (i <? 0)%Z; [ring|]. rewrite <- (Rmult_0_r c) at 1. apply map_nth.
Qed.
Lemma xcorr_scaled g h a b m : xcorr (scaled g a) (scaled h b) m = g * h * xcorr a b m.
Proof.
  unfold xcorr. unfold scaled at 3. rewrite map_length. induction (seq 0 (length a)) as [|i s IH]; cbn [map Rsum fold_right]; [ring|].
  change (fold_right Rplus 0) with Rsum. rewrite IH, !sig_scaled. ring.
Qed.
Lemma lag_scaled g h a b m : lag_range (scaled g a) (scaled h b) m <-> lag_range a b m.
Proof. unfold lag_range, scaled. now rewrite !map_length. Qed.
Lemma last_scaled c l : last (scaled c l) 0 = c * last l 0.
Proof. unfold scaled. induction l as [|x l IH]; [cbn; ring|]. destruct l; [easy|]. cbn [map last] in *. exact IH. Qed.
Lemma hd_scaled c l : hd 0 (scaled c l) = c * hd 0 l.
Proof. destruct l; cbn; [ring|easy]. Qed.
Lemma mean_step_scaled c l : mean_step (scaled c l) = c * mean_step l.
Proof. unfold mean_step. rewrite last_scaled, hd_scaled. unfold scaled. rewrite map_length. unfold Rdiv. ring. Qed.

(** Times in another unit and signals in other units: the offset is the same time in the new unit. *)
Theorem C101_signals : forall c g h times_A a times_B b,
  0 < c -> 0 < g -> 0 < h -> (2 <= length times_A)%nat -> times_B <> [] -> a <> [] -> b <> [] ->
  exists r, calculate_time_offset_from_signals (map Fin times_A) (map Fin a) (map Fin times_B) (map Fin b) = Ok (Fin r) /\
    calculate_time_offset_from_signals (map Fin (scaled c times_A)) (map Fin (scaled g a)) (map Fin (scaled c times_B)) (map Fin (scaled h b)) = Ok (Fin (c * r)).
Proof.
  intros c g h tA a tB b C G H LA TB NA NB. pose proof (Rmult_lt_0_compat _ _ G H) as GH.
  assert (NE : forall c (l : list R), l <> [] -> scaled c l <> []) by (intros ? [|? ?]; easy).
  destruct (C39_maximal_lag tA a tB b LA TB NA NB) as (m & R1 & B1 & E1).
  destruct (C39_maximal_lag (scaled c tA) (scaled g a) (scaled c tB) (scaled h b)) as (m' & R2 & B2 & E2); [unfold scaled; now rewrite map_length|now apply NE|now apply NE|now apply NE|].
  apply lag_scaled in R2.
  assert (B2' : forall k, lag_range a b k -> xcorr a b k <= xcorr a b m' /\ ((k < m')%Z -> xcorr a b k < xcorr a b m')).
  { intros k K. destruct (B2 k) as [H1 H2]; [now apply lag_scaled|]. rewrite !xcorr_scaled in H1, H2. split.
    - now apply Rmult_le_reg_l in H1.
    - intros L. specialize (H2 L). now apply Rmult_lt_reg_l in H2. }
  assert (m' = m) as ->.
  { destruct (Z.lt_trichotomy m m') as [L|[L|L]]; [|easy|].
    - destruct (B2' m R1) as [_ X]. destruct (B1 m' R2) as [Y _]. specialize (X L). lra.
    - destruct (B1 m' R2) as [_ X]. destruct (B2' m R1) as [Y _]. specialize (X L). lra. }
  eexists. split; [exact E1|]. rewrite E2, mean_step_scaled, !hd_scaled. do 2 f_equal. ring.
Qed.

(** ** Recordings *)
Lemma ticks_scaled c a step n : scaled c (ticks a step n) = ticks (c * a) (c * step) n.
Proof. unfold scaled, ticks. rewrite map_map. apply map_ext. intros i. ring. Qed.
Lemma rate_scaled c q q' dt : c <> 0 -> rate q q' (c * dt) = vscale (/ c) (rate q q' dt).
Proof.
  intros C. unfold rate. cbv zeta. destruct (Rle_dec _ _); [unfold vscale, vzero; cbn; f_equal; ring|].
  set (d := pos_w (hmul q (hconj q'))). unfold vscale. cbn [v1 v2 v3].
  assert (E : acos (qs d) / (c * dt) = / c * (acos (qs d) / dt)) by (unfold Rdiv; rewrite Rinv_mult; ring).
  rewrite E. unfold Rdiv. f_equal; ring.
Qed.
Lemma rates_scaled c : c <> 0 -> forall qs samples, rates qs (scaled c samples) = map (vscale (/ c)) (rates qs samples).
Proof.
  intros C. induction qs as [|q qs IH]; intros samples; [easy|]. destruct qs as [|q' qs]; [easy|].
  change (rates (q :: q' :: qs) ?s) with (rate q q' (nth 1 s 0 - nth 0 s 0) :: rates (q' :: qs) (tl s)). cbn [map].
  assert (TL : tl (scaled c samples) = scaled c (tl samples)) by now destruct samples. rewrite TL, IH. f_equal.
  assert (NT : forall i, nth i (scaled c samples) 0 = c * nth i samples 0).
  { intros i. unfold scaled. rewrite <- (Rmult_0_r c) at 1. apply map_nth. }
  rewrite !NT, <- rate_scaled by easy. f_equal. ring.
Qed.
Lemma components_scaled c l : components (map (vscale c) l) = scaled c (components l).
Proof.
  induction l as [|r l IH]; [easy|].
  change (components (map (vscale c) (r :: l))) with (c * v1 r :: c * v2 r :: c * v3 r :: components (map (vscale c) l)). now rewrite IH.
Qed.
Lemma percentile_scaled c l p m : 0 < c -> is_percentile l p m -> is_percentile (scaled c l) p (c * m).
Proof.
  intros C (s & k & w & P & S & W & E & ->). exists (scaled c s), k, w. unfold scaled. rewrite map_length.
  assert (NT : forall i, nth i (map (Rmult c) s) 0 = c * nth i s 0) by (intros i; rewrite <- (Rmult_0_r c) at 1; apply map_nth).
  split; [now apply Permutation_map|]. split.
  { intros i j a b L A B. rewrite nth_error_map in A, B. destruct (nth_error s i) as [x|] eqn:X; [|easy]. destruct (nth_error s j) as [y|] eqn:Y; [|easy].
    cbn in A, B. injection A as <-. injection B as <-. apply Rmult_le_compat_l; [lra|]. exact (S i j x y L X Y). }
  split; [easy|]. split; [easy|]. rewrite !NT. ring.
Qed.
Lemma clamp_scaled c m x : 0 < c -> clamp (c * m) (c * x) = c * clamp m x.
Proof.
  intros C. unfold clamp. replace (- (c * m)) with (c * - m) by ring.
  rewrite RmaxRmult by lra. set (y := Rmax x (- m)). unfold Rmin. destruct (Rle_dec (c * y) (c * m)), (Rle_dec y m); nra.
Qed.
Lemma average_scaled c l k i : moving_average (scaled c l) k i = c * moving_average l k i.
Proof.
  unfold moving_average. unfold Rdiv. rewrite <- Rmult_assoc. f_equal. induction (seq 0 k) as [|j s IH]; cbn [map Rsum fold_right]; [ring|].
  change (fold_right Rplus 0) with Rsum. rewrite IH, sig_scaled. ring.
Qed.
Lemma smoothed_scaled c m k v i : 0 < c -> smoothed (c * m) k (map (vscale c) v) i = vscale c (smoothed m k v i).
Proof.
  intros C. unfold smoothed, vscale. cbn [v1 v2 v3]. rewrite !map_map.
  assert (E : forall f, moving_average (map (fun r => clamp (c * m) (c * f r)) v) k i = c * moving_average (map (fun r => clamp m (f r)) v) k i).
  { intros f. rewrite <- average_scaled. unfold scaled. rewrite map_map. f_equal. apply map_ext. intros r. now apply clamp_scaled. }
  f_equal; [apply (E v1)|apply (E v2)|apply (E v3)].
Qed.
Lemma speeds_scaled c qs t0 step k p s : 0 < c -> speeds qs t0 step k p s -> speeds qs (c * t0) (c * step) k p (scaled (/ c) s).
Proof.
  intros C (m & PM & ->). assert (C' : 0 < / c) by now apply Rinv_0_lt_compat. exists (/ c * m). rewrite <- ticks_scaled, rates_scaled by lra. split.
  - rewrite components_scaled. now apply percentile_scaled.
  - unfold scaled. rewrite map_map. apply map_ext. intros i. rewrite smoothed_scaled by easy. now rewrite PropOrientNoise.len3_vscale by lra.
Qed.

(** Two regularly sampled recordings with the time stamps in another unit: the offset is the same time in the new
    unit, whatever the motions and the settings of the filters. *)
Theorem C101_recordings : forall u qA qB a c step kA pA kB pB, 0 < u ->
  (3 <= length qA)%nat -> (2 <= length qB)%nat -> 0 < step -> Forall unitq qA -> Forall unitq qB -> (1 <= kA)%nat -> (1 <= kB)%nat ->
  0 <= pA <= 100 -> 0 <= pB <= 100 ->
  let tA := ticks a step (length qA) in let tB := ticks (a + c) step (length qB) in
  exists r,
    calculate_time_offset (map Fin tA) (inQs qA) (map Fin tB) (inQs qB) (mkFiltering (N:=XR) kA (Fin pA) kB (Fin pB)) = Ok (Fin r) /\
    calculate_time_offset (map Fin (scaled u tA)) (inQs qA) (map Fin (scaled u tB)) (inQs qB) (mkFiltering (N:=XR) kA (Fin pA) kB (Fin pB)) = Ok (Fin (u * r)).
Proof.
  intros u qA qB a c step kA pA kB pB U NA NB P UA UB KA KB PA PB. cbv zeta. assert (U' : 0 < / u) by now apply Rinv_0_lt_compat.
  destruct (offset_norms qA qB a c step kA pA kB pB) as (mA & mB & a' & b' & PMA & PMB & SA & SB & E); [exact NA|exact NB|exact P|exact UA|exact UB|exact KA|exact KB|exact PA|exact PB|].
  destruct (offset_norms qA qB (u * a) (u * c) (u * step) kA pA kB pB) as (mA' & mB' & a'' & b'' & PMA' & PMB' & SA' & SB' & E');
    [exact NA|exact NB|now apply Rmult_lt_0_compat|exact UA|exact UB|exact KA|exact KB|exact PA|exact PB|].
  replace (u * a + u * c) with (u * (a + c)) in * by ring.
  assert (HA : a'' = scaled (/ u) a').
  { eapply (speeds_unique qA (u * a) (u * step) kA pA); [lia|exact PA|exists mA'; now split|]. apply speeds_scaled; [exact U|]. exists mA. now split. }
  assert (HB : b'' = scaled (/ u) b').
  { eapply (speeds_unique qB (u * (a + c)) (u * step) kB pB); [lia|exact PB|exists mB'; now split|]. apply speeds_scaled; [exact U|]. exists mB. now split. }
  assert (LA : length a' = (length qA - 1)%nat) by (rewrite SA, map_length, seq_length; easy).
  assert (LB : length b' = (length qB - 1)%nat) by (rewrite SB, map_length, seq_length; easy).
  destruct (C101_signals u (/ u) (/ u) (ticks a step (length qA - 1)) a' (ticks (a + c) step (length qB - 1)) b') as (r & E1 & E2); [exact U|exact U'|exact U'| | | | |].
  { rewrite ticks_length. lia. } { intros Q. apply (f_equal (@length R)) in Q. rewrite ticks_length in Q. cbn in Q. lia. }
  { intros Q. rewrite Q in LA. cbn in LA. lia. } { intros Q. rewrite Q in LB. cbn in LB. lia. }
  exists r. split; [etransitivity; [exact E|exact E1]|]. rewrite !ticks_scaled. rewrite !ticks_scaled in E2. rewrite HA, HB in E'. etransitivity; [exact E'|exact E2].
Qed.

(** ** The alignment *)
(** The limits of the alignment are in seconds: the same two recordings with the time stamps written in half seconds
    give no aligned pose at all. *)
Definition still : rv * rq := (vzero, hone).
Definition A101 : list PropAligned.row := [(0, still); (15 / 100, still); (30 / 100, still)].
Definition B101 : list PropAligned.row := [(75 / 1000, still); (225 / 1000, still); (375 / 1000, still)].
Lemma sorted3 a b c : a <= b <= c -> sorted [a; b; c].
Proof.
  intros H [|[|[|i]]] [|[|[|j]]] x y L X Y; try lia; cbn in X, Y; try (destruct i; discriminate); try (destruct j; discriminate); injection X as <-; injection Y as <-; lra.
Qed.
Lemma sorted2 a b : a <= b -> sorted [a; b].
Proof.
  intros H [|[|i]] [|[|j]] x y L X Y; try lia; cbn in X, Y; try (destruct i; discriminate); try (destruct j; discriminate); injection X as <-; injection Y as <-; lra.
Qed.
Lemma aligned101 c : 0 < c -> exists outA outB,
  compute_aligned_poses (inS (restamped c A101)) (inS (restamped c B101)) (Fin 0) = Ok (inS outA, inS outB) /\ row_times outA = row_times outB /\
  filtered_by (fun t => c * (75 / 1000) <= t /\ matched [c * (75 / 1000); c * (225 / 1000); c * (375 / 1000)] t) [c * 0; c * (15 / 100); c * (30 / 100)] (row_times outA).
Proof.
  intros C. destruct (C41_contract (restamped c A101) (restamped c B101) 0) as (s & oA & oB & E & T1 & T2 & _ & _ & F & _).
  - discriminate.
  - discriminate.
  - apply sorted3. cbn [fst]. lra.
  - apply sorted3. cbn [fst]. lra.
  - assert (UN : unitq hone) by (unfold unitq; specu; lra). repeat constructor; exact UN.
  - assert (UN : unitq hone) by (unfold unitq; specu; lra). repeat constructor; exact UN.
  - exists oA, oB. split; [exact E|]. split; [now rewrite T1, T2|]. rewrite T1.
    assert (EA : row_times (shift_rows 0 (restamped c A101)) = [c * 0; c * (15 / 100); c * (30 / 100)]) by (cbn [row_times shift_rows restamped A101 map fst]; now rewrite !Rplus_0_r).
    assert (EB : row_times (restamped c B101) = [c * (75 / 1000); c * (225 / 1000); c * (375 / 1000)]) by reflexivity.
    rewrite EA, EB in F. cbn [hd] in F. rewrite Rmax_right in F by lra. apply F; [cbn; lia|cbn; lia|].
    exists (c * (15 / 100)), (c * (15 / 100)). split; [|split; [|lra]].
    + exists [c * (15 / 100); c * (15 / 100)]. unfold gaps. cbn [tl combine map fst snd]. split; [|split; [apply sorted2; lra|cbn; lra]].
      replace (c * (15 / 100) - c * 0) with (c * (15 / 100)) by lra. replace (c * (30 / 100) - c * (15 / 100)) with (c * (15 / 100)) by lra. apply Permutation_refl.
    + exists [c * (15 / 100); c * (15 / 100)]. unfold gaps. cbn [tl combine map fst snd]. split; [|split; [apply sorted2; lra|cbn; lra]].
      replace (c * (225 / 1000) - c * (75 / 1000)) with (c * (15 / 100)) by lra. replace (c * (375 / 1000) - c * (225 / 1000)) with (c * (15 / 100)) by lra. apply Permutation_refl.
Qed.
Theorem C101_alignment_refuted : exists A B outA outB,
  compute_aligned_poses (inS A) (inS B) (Fin 0) = Ok (inS outA, inS outB) /\ row_times outA = [15 / 100] /\ row_times outB = [15 / 100] /\
  compute_aligned_poses (inS (restamped 2 A)) (inS (restamped 2 B)) (Fin (2 * 0)) = Ok ([], []).
Proof.
  destruct (aligned101 1) as (oA & oB & E & T & F); [lra|]. destruct (aligned101 2) as (oA' & oB' & E' & T' & F'); [lra|].
  assert (ID : forall l, restamped 1 l = l) by (intros l; unfold restamped; rewrite <- (map_id l) at 2; apply map_ext; intros [t x]; cbn; now rewrite Rmult_1_l).
  rewrite !ID in E. exists A101, B101, oA, oB. split; [exact E|].
  assert (M : forall c t, matched [c * (75 / 1000); c * (225 / 1000); c * (375 / 1000)] t -> 0 < c -> c * (75 / 1000) < t -> t < c * (225 / 1000) -> t - c * (75 / 1000) < 1 / 10).
  { intros c t (j & b & (A1 & A2 & A3) & L & X) C L1 L2. destruct j as [|[|j]]; [cbn in A1; injection A1 as <-; lra| |cbn in L; lia].
    cbn in A1. injection A1 as <-. destruct X as [X|(k & a & K & A4 & X & _)]; [lra|]. injection K as <-. cbn in A4. injection A4 as <-. exact X. }
  assert (M2 : forall c t, matched [c * (75 / 1000); c * (225 / 1000); c * (375 / 1000)] t -> 0 < c -> t <= c * (225 / 1000)).
  { intros c t (j & b & (A1 & A2 & A3) & L & X) C. destruct j as [|[|j]]; [cbn in A1; injection A1 as <-; lra|cbn in A1; injection A1 as <-; lra|cbn in L; lia]. }
  assert (R1 : row_times oA = [15 / 100]).
  { eapply filtered_unique; [exact F|]. replace (1 * (15 / 100)) with (15 / 100) by lra. apply filtered_drop; [intros [X _]; lra|]. apply filtered_keep.
    - split; [lra|]. exists 1%nat, (1 * (225 / 1000)). split; [|split; [cbn; lia|]].
      + split; [reflexivity|]. split; [lra|]. intros [|j] a L X; [cbn in X; injection X as <-; lra|lia].
      + right. exists 0%nat, (1 * (75 / 1000)). split; [easy|]. split; [easy|]. lra.
    - apply filtered_drop; [|constructor]. intros [_ X]. apply M2 in X; lra. }
  split; [exact R1|]. split; [now rewrite <- T|].
  assert (R2 : row_times oA' = []).
  { eapply filtered_unique; [exact F'|]. apply filtered_drop; [intros [X _]; lra|]. apply filtered_drop; [intros [_ X]; apply M in X; lra|].
    apply filtered_drop; [|constructor]. intros [_ X]. apply M2 in X; lra. }
  assert (oA' = []) as -> by (unfold row_times in R2; now apply map_eq_nil in R2).
  assert (oB' = []) as -> by (unfold row_times in T'; cbn in T'; symmetry in T'; now apply map_eq_nil in T').
  rewrite Rmult_0_r. exact E'.
Qed.

(** two recordings of two turning sensors, the second one started five seconds later, in seconds and in milliseconds *)
Example C101_example : exists r,
  let q := [hone; RQ (RV 0 0 (3 / 5)) (4 / 5); hone] in
  calculate_time_offset (map Fin (ticks 0 1 3)) (inQs q) (map Fin (ticks 5 1 3)) (inQs q) (mkFiltering (N:=XR) 1 (Fin 50) 1 (Fin 50)) = Ok (Fin r) /\
  calculate_time_offset (map Fin (scaled 1000 (ticks 0 1 3))) (inQs q) (map Fin (scaled 1000 (ticks 5 1 3))) (inQs q) (mkFiltering (N:=XR) 1 (Fin 50) 1 (Fin 50)) = Ok (Fin (1000 * r)).
Proof.
  set (q := [hone; RQ (RV 0 0 (3 / 5)) (4 / 5); hone]).
  destruct (C101_recordings 1000 q q 0 5 1 1 50 1 50) as (r & E & E').
  - lra.
  - cbn; lia.
  - cbn; lia.
  - lra.
  - repeat constructor; unfold unitq; specu; lra.
  - repeat constructor; unfold unitq; specu; lra.
  - lia.
  - lia.
  - lra.
  - lra.
  - exists r. cbv zeta. rewrite Rplus_0_l in E, E'. split; [exact E|exact E'].
Qed.
