(** * Property C98: exchanging the two recordings negates the time offset, if the best match is unique. *)

From Coq Require Import Reals ZArith Bool List Lra Lia Psatz Permutation.
From Verif Require Import Num Py XReal XFacts Quat DualQuat TimeAlign Spec TimeSpec Embed QuatFacts QuatTrig DualFacts ListFacts TimeFacts
  ResampleFacts StabilityFacts PropTimeOffset PropResample PropAligned PropFilter PropOffsetPath PropNoisySignal PropTwoSensors PropOrientNoise.
Import ListNotations.
Local Open Scope R_scope.

(** ** Specification *)
(** m and M are the first and the last lag at which the signals match best *)
Record best_lags (a b : list R) (m M : Z) : Prop := {
  bl_order : (m <= M)%Z;
  bl_first : lag_range a b m;
  bl_last : lag_range a b M;
  bl_equal : xcorr a b M = xcorr a b m;
  bl_best : forall k, lag_range a b k -> xcorr a b k <= xcorr a b m;
  bl_before : forall k, lag_range a b k -> (k < m)%Z -> xcorr a b k < xcorr a b m;
  bl_after : forall k, lag_range a b k -> (M < k)%Z -> xcorr a b k < xcorr a b M;
}.

(** ** Facts *)
Lemma xcorr_swap a b k : xcorr b a (- k) = xcorr a b k.
Proof.
  set (s := (- Z.of_nat (length a) - Z.of_nat (length b) - Z.abs k)%Z).
  set (n := Z.to_nat (2 * (Z.of_nat (length a) + Z.of_nat (length b) + Z.abs k) + 1)).
  rewrite (xcorr_zsum a b k s n) by (unfold s, n; lia).
  rewrite (xcorr_zsum b a (- k) (s + k) n) by (unfold s, n; lia).
  rewrite <- zsum_shift. apply zsum_ext. intros i _. replace (i + k + - k)%Z with i by lia. ring.
Qed.
Lemma lag_range_swap a b k : lag_range b a (- k) <-> lag_range a b k.
Proof. unfold lag_range. lia. Qed.

Lemma is_percentile_unique l p m m' : l <> [] -> 0 <= p <= 100 -> is_percentile l p m -> is_percentile l p m' -> m = m'.
Proof.
  intros NE P A B. assert (F : Forall2 (fun u w => Rabs (u - w) <= 0) l l).
  { clear. induction l; constructor; [rewrite Rminus_eq_0, Rabs_R0; lra|easy]. }
  pose proof (percentile_near 0 p l l m m' NE P F A B) as H. pose proof (Rabs_pos (m - m')).
  destruct (Req_dec (m - m') 0) as [|N]; [lra|]. apply Rabs_no_R0 in N. lra.
Qed.

(** ** Two signals *)
Theorem C98_signals : forall times_A a times_B b,
  (2 <= length times_A)%nat -> (2 <= length times_B)%nat -> a <> [] -> b <> [] ->
  exists m M, best_lags a b m M /\
    calculate_time_offset_from_signals (map Fin times_A) (map Fin a) (map Fin times_B) (map Fin b) =
      Ok (Fin (mean_step times_A * IZR m + hd 0 times_B - hd 0 times_A)) /\
    calculate_time_offset_from_signals (map Fin times_B) (map Fin b) (map Fin times_A) (map Fin a) =
      Ok (Fin (- (mean_step times_B * IZR M + hd 0 times_B - hd 0 times_A))).
Proof.
  intros tA a tB b LA LB NA NB.
  assert (TA : tA <> []) by now destruct tA. assert (TB : tB <> []) by now destruct tB.
  destruct (C39_maximal_lag tA a tB b LA TB NA NB) as (m & R1 & B1 & E1).
  destruct (C39_maximal_lag tB b tA a LB TA NB NA) as (j & R2 & B2 & E2).
  assert (RJ : lag_range a b (- j)) by now apply lag_range_swap.
  assert (S : forall k, xcorr b a k = xcorr a b (- k)) by (intros k; rewrite <- (xcorr_swap a b), Z.opp_involutive; easy).
  assert (B3 : forall k, lag_range a b k -> xcorr a b k <= xcorr a b (- j) /\ ((- j < k)%Z -> xcorr a b k < xcorr a b (- j))).
  { intros k K. destruct (B2 (- k)%Z) as [H1 H2]; [now apply lag_range_swap|]. rewrite !S, !Z.opp_involutive in *. split; [easy|]. intros L. apply H2. lia. }
  assert (EQ : xcorr a b (- j) = xcorr a b m) by (apply Rle_antisym; [now apply B1|now apply B3]).
  exists m, (- j)%Z. split; [|split].
  - constructor; try easy.
    + destruct (Z_le_gt_dec m (- j)) as [L|L]; [easy|]. destruct (B3 m R1) as [_ H]. specialize (H ltac:(lia)). lra.
    + intros k K. apply (B1 k K).
    + intros k K. apply (B1 k K).
    + intros k K L. now apply (B3 k K).
  - exact E1.
  - rewrite E2. do 2 f_equal. rewrite opp_IZR. ring.
Qed.

(** ** Two equally spaced recordings of the same rate *)
(** the signal of a recording: the lengths of its rotation rates, clipped at the percentile p and averaged over k samples *)
Definition speeds (qs : list rq) (t0 step : R) (k : nat) (p : R) (s : list R) : Prop :=
  exists m, is_percentile (components (rates qs (ticks t0 step (length qs)))) p m /\
    s = map (fun i => len3 (smoothed m k (rates qs (ticks t0 step (length qs))) i)) (seq 0 (length qs - 1)).
Lemma speeds_unique qs t0 step k p s s' : (2 <= length qs)%nat -> 0 <= p <= 100 -> speeds qs t0 step k p s -> speeds qs t0 step k p s' -> s = s'.
Proof.
  intros L P (m & A & ->) (m' & B & ->). assert (m = m'); [|now subst].
  eapply is_percentile_unique; [|exact P|exact A|exact B].
  pose proof (rates_length qs (ticks t0 step (length qs))) as R. unfold components.
  destruct (rates qs _); [cbn in R; lia|easy].
Qed.
(** Called as (A, B) and as (B, A), with the settings of the filters exchanged too, the two offsets are a negated pair exactly if there is
    one best lag; in general they add up to minus the distance of the first and the last one, in seconds. *)
Theorem C98_recordings : forall qA qB a c step kA pA kB pB,
  (3 <= length qA)%nat -> (3 <= length qB)%nat -> 0 < step -> Forall unitq qA -> Forall unitq qB -> (1 <= kA)%nat -> (1 <= kB)%nat ->
  0 <= pA <= 100 -> 0 <= pB <= 100 ->
  exists sA sB m M rAB rBA,
    speeds qA a step kA pA sA /\ speeds qB (a + c) step kB pB sB /\ best_lags sA sB m M /\
    calculate_time_offset (map Fin (ticks a step (length qA))) (inQs qA) (map Fin (ticks (a + c) step (length qB))) (inQs qB)
        (mkFiltering (N:=XR) kA (Fin pA) kB (Fin pB)) = Ok (Fin rAB) /\
    calculate_time_offset (map Fin (ticks (a + c) step (length qB))) (inQs qB) (map Fin (ticks a step (length qA))) (inQs qA)
        (mkFiltering (N:=XR) kB (Fin pB) kA (Fin pA)) = Ok (Fin rBA) /\
    rAB = c + step * IZR m /\ rBA = - (c + step * IZR M) /\ rAB + rBA = - (step * IZR (M - m)) /\ (rBA = - rAB <-> m = M).
Proof.
  intros qA qB a c step kA pA kB pB NA NB P UA UB KA KB PA PB.
  destruct (offset_norms qA qB a c step kA pA kB pB) as (mA & mB & a' & b' & PMA & PMB & SA & SB & E); try easy; [lia|].
  destruct (offset_norms qB qA (a + c) (- c) step kB pB kA pA) as (mB' & mA' & b'' & a'' & PMB' & PMA' & SB' & SA' & E'); try easy; [lia|].
  replace (a + c + - c) with a in * by ring.
  assert (HA : a'' = a') by (eapply (speeds_unique qA a step kA pA); [lia|easy|now exists mA'|now exists mA]).
  assert (HB : b'' = b') by (eapply (speeds_unique qB (a + c) step kB pB); [lia|easy|now exists mB'|now exists mB]). rewrite HA, HB in E'.
  assert (LA : length a' = (length qA - 1)%nat) by (rewrite SA, map_length, seq_length; easy).
  assert (LB : length b' = (length qB - 1)%nat) by (rewrite SB, map_length, seq_length; easy).
  destruct (C98_signals (ticks a step (length qA - 1)) a' (ticks (a + c) step (length qB - 1)) b') as (m & M & BL & E1 & E2).
  { rewrite ticks_length. lia. } { rewrite ticks_length. lia. } { intros Q. rewrite Q in LA. cbn in LA. lia. } { intros Q. rewrite Q in LB. cbn in LB. lia. }
  exists a', b', m, M, (c + step * IZR m), (- (c + step * IZR M)). split; [now exists mA|]. split; [now exists mB|]. split; [exact BL|].
  rewrite !ticks_hd, !ticks_mean in E1, E2 by lia.
  split; [etransitivity; [exact E|]; etransitivity; [exact E1|]; do 2 f_equal; lra|].
  split; [etransitivity; [exact E'|]; etransitivity; [exact E2|]; do 2 f_equal; lra|]. clear E E' E1 E2. split; [easy|]. split; [easy|]. split; [rewrite minus_IZR; lra|].
  split; [|intros ->; lra]. intros H. apply eq_IZR. apply (Rmult_eq_reg_l step); lra.
Qed.

(** ** Two recordings in which the device turns by at most half a degree between two samples: every lag is a best lag *)
Definition slow (qs : list rq) : Prop :=
  forall i p q, nth_error qs i = Some p -> nth_error qs (S i) = Some q -> 1 - 1 / 100000 <= Rabs (hdot p q).
Theorem C98_slow : forall qA qB a c step kA pA kB pB,
  (3 <= length qA)%nat -> (3 <= length qB)%nat -> 0 < step -> Forall unitq qA -> Forall unitq qB -> slow qA -> slow qB ->
  (1 <= kA)%nat -> (1 <= kB)%nat -> 0 <= pA <= 100 -> 0 <= pB <= 100 ->
  exists rAB rBA,
    calculate_time_offset (map Fin (ticks a step (length qA))) (inQs qA) (map Fin (ticks (a + c) step (length qB))) (inQs qB)
        (mkFiltering (N:=XR) kA (Fin pA) kB (Fin pB)) = Ok (Fin rAB) /\
    calculate_time_offset (map Fin (ticks (a + c) step (length qB))) (inQs qB) (map Fin (ticks a step (length qA))) (inQs qA)
        (mkFiltering (N:=XR) kB (Fin pB) kA (Fin pA)) = Ok (Fin rBA) /\
    rAB + rBA = - (step * INR (length qA + length qB - 4)) /\ rBA < - rAB.
Proof.
  intros qA qB a c step kA pA kB pB NA NB P UA UB SA SB KA KB PA PB.
  exists (c - INR (length qA - 2) * step), (- c - INR (length qB - 2) * step).
  assert (N : INR (length qA + length qB - 4) = INR (length qA - 2) + INR (length qB - 2)) by (rewrite <- plus_INR; f_equal; lia).
  split; [|split; [|split]].
  - apply C89_slow; try assumption. lia.
  - replace (map Fin (ticks a step (length qA))) with (map Fin (ticks ((a + c) + - c) step (length qA))) by (do 2 f_equal; ring).
    apply C89_slow; try assumption. lia.
  - rewrite N. lra.
  - assert (0 < INR (length qA - 2) * step) by (apply Rmult_lt_0_compat; [apply lt_0_INR; lia|easy]).
    assert (0 < INR (length qB - 2) * step) by (apply Rmult_lt_0_compat; [apply lt_0_INR; lia|easy]). lra.
Qed.

(** A pulse and the middle of a delayed copy: one best lag.  One pulse against two equal ones: two best lags, and the offsets of the two
    calls differ by the distance of the pulses. *)
Lemma lags_in a b m M : best_lags a b m M -> forall m' M', best_lags a b m' M' -> m' = m /\ M' = M.
Proof.
  assert (H : forall m M m' M', best_lags a b m M -> best_lags a b m' M' -> (m <= m')%Z /\ (M' <= M)%Z).
  { clear. intros m M m' M' A B. split.
    - destruct (Z_le_gt_dec m m') as [|L]; [easy|]. pose proof (bl_before _ _ _ _ A m' (bl_first _ _ _ _ B) ltac:(lia)). pose proof (bl_best _ _ _ _ B m (bl_first _ _ _ _ A)). lra.
    - destruct (Z_le_gt_dec M' M) as [|L]; [easy|]. pose proof (bl_after _ _ _ _ A M' (bl_last _ _ _ _ B) ltac:(lia)). pose proof (bl_best _ _ _ _ B M (bl_last _ _ _ _ A)). rewrite <- (bl_equal _ _ _ _ B) in *. lra. }
  intros A m' M' B. destruct (H _ _ _ _ A B), (H _ _ _ _ B A). lia.
Qed.
Ltac all_lags := intros k; unfold lag_range; cbn [length]; intros K;
  let H := fresh in assert (H : (k = -4 \/ k = -3 \/ k = -2 \/ k = -1 \/ k = 0 \/ k = 1 \/ k = 2 \/ k = 3)%Z) by lia;
  destruct H as [->|[->|[->|[->|[->|[->|[->| ->]]]]]]]; try lia; unfold xcorr, sig_at; simpl; try (intros; lia); lra.
Example C98_one_best_lag :
  best_lags [0; 1; 3; 1; 0] [1; 3; 1] (-1) (-1) /\
  calculate_time_offset_from_signals (map Fin [0; 1; 2; 3; 4]) (map Fin [0; 1; 3; 1; 0]) (map Fin [10; 11; 12]) (map Fin [1; 3; 1]) = Ok (Fin 9) /\
  calculate_time_offset_from_signals (map Fin [10; 11; 12]) (map Fin [1; 3; 1]) (map Fin [0; 1; 2; 3; 4]) (map Fin [0; 1; 3; 1; 0]) = Ok (Fin (- 9)).
Proof.
  assert (B : best_lags [0; 1; 3; 1; 0] [1; 3; 1] (-1) (-1)).
  { constructor; [lia|unfold lag_range; cbn [length]; lia|unfold lag_range; cbn [length]; lia|easy|all_lags|all_lags|all_lags]. }
  split; [exact B|]. destruct (C98_signals [0; 1; 2; 3; 4] [0; 1; 3; 1; 0] [10; 11; 12] [1; 3; 1]) as (m & M & B' & E1 & E2); try easy; try (cbn; lia).
  destruct (lags_in _ _ _ _ B m M B') as [-> ->]. split; [rewrite E1|rewrite E2]; do 2 f_equal; unfold mean_step; simpl; lra.
Qed.
Example C98_two_best_lags :
  best_lags [0; 1; 0] [1; 0; 1] (-1) 1 /\
  calculate_time_offset_from_signals (map Fin [0; 1; 2]) (map Fin [0; 1; 0]) (map Fin [10; 11; 12]) (map Fin [1; 0; 1]) = Ok (Fin 9) /\
  calculate_time_offset_from_signals (map Fin [10; 11; 12]) (map Fin [1; 0; 1]) (map Fin [0; 1; 2]) (map Fin [0; 1; 0]) = Ok (Fin (- 11)).
Proof.
  assert (B : best_lags [0; 1; 0] [1; 0; 1] (-1) 1).
  { constructor; [lia|unfold lag_range; cbn [length]; lia|unfold lag_range; cbn [length]; lia|unfold xcorr, sig_at; simpl; lra|all_lags|all_lags|all_lags]. }
  split; [exact B|]. destruct (C98_signals [0; 1; 2] [0; 1; 0] [10; 11; 12] [1; 0; 1]) as (m & M & B' & E1 & E2); try easy; try (cbn; lia).
  destruct (lags_in _ _ _ _ B m M B') as [-> ->]. split; [rewrite E1|rewrite E2]; do 2 f_equal; unfold mean_step; simpl; lra.
Qed.
(** a swing by a right angle and back: the hypotheses of the theorem on recordings hold; the first offset is 7, the second at most -7 *)
Example C98_recordings_example :
  calculate_time_offset (map Fin (ticks 0 1 3)) (inQs swing) (map Fin (ticks (0 + 7) 1 3)) (inQs swing)
    (mkFiltering (N:=XR) 1 (Fin 100) 1 (Fin 100)) = Ok (Fin 7) /\
  exists rBA, calculate_time_offset (map Fin (ticks (0 + 7) 1 3)) (inQs swing) (map Fin (ticks 0 1 3)) (inQs swing)
    (mkFiltering (N:=XR) 1 (Fin 100) 1 (Fin 100)) = Ok (Fin rBA) /\ rBA <= - 7.
Proof.
  split; [apply C39_same_path_example|].
  destruct (C98_recordings swing swing 0 7 1 1 100 1 100) as (sA & sB & m & M & rAB & rBA & _ & _ & B & E & E' & -> & HB & HS & _); try lra; try (cbn; lia); try apply swing_unit.
  exists rBA. split; [exact E'|]. pose proof C39_same_path_example as Q. change (length swing) with 3%nat in E. rewrite E in Q. injection Q as Q.
  pose proof (IZR_le _ _ (bl_order _ _ _ _ B)). lra.
Qed.
(** two cameras at rest *)
Example C98_slow_example : exists rAB rBA,
  calculate_time_offset (map Fin (ticks 0 (1 / 20) 1000)) (inQs (repeat hone 1000)) (map Fin (ticks (0 + 7) (1 / 20) 1000)) (inQs (repeat hone 1000))
    (mkFiltering (N:=XR) 25 (Fin 99) 25 (Fin 99)) = Ok (Fin rAB) /\
  calculate_time_offset (map Fin (ticks (0 + 7) (1 / 20) 1000)) (inQs (repeat hone 1000)) (map Fin (ticks 0 (1 / 20) 1000)) (inQs (repeat hone 1000))
    (mkFiltering (N:=XR) 25 (Fin 99) 25 (Fin 99)) = Ok (Fin rBA) /\ rAB + rBA = - (998 / 10).
Proof.
  assert (U : unitq hone) by (unfold unitq, hone, hnorm2, hdot, dot3, vzero; cbn [qv qs v1 v2 v3]; lra).
  assert (F : Forall unitq (repeat hone 1000)) by (apply Forall_forall; intros x I; apply repeat_spec in I; now subst).
  assert (S : slow (repeat hone 1000)).
  { intros i p q A B. apply nth_error_In, repeat_spec in A, B. subst. unfold unitq, hnorm2 in U. rewrite U, Rabs_R1. lra. }
  destruct (C98_slow (repeat hone 1000) (repeat hone 1000) 0 7 (1 / 20) 25 99 25 99) as (rAB & rBA & E1 & E2 & HS & _); try assumption; try lra; try lia;
    try (rewrite repeat_length; lia).
  rewrite repeat_length in E1, E2, HS. exists rAB, rBA. split; [exact E1|]. split; [exact E2|]. rewrite HS.
  rewrite INR_IZR_INZ. replace (Z.of_nat (1000 + 1000 - 4)) with 1996%Z by reflexivity. lra.
Qed.
