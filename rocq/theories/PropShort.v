(** * Property C69: calculate_time_offset on recordings that are shorter than the smoothing kernel. *)

From Coq Require Import Reals ZArith Bool List Lra Lia Psatz Permutation FinFun.
From Verif Require Import Num Py XReal XFacts Quat DualQuat TimeAlign Spec TimeSpec Embed QuatFacts QuatTrig
  ListFacts TimeFacts ResampleFacts PropTimeOffset PropResample PropAligned PropFilter PropOffsetPath.
Import ListNotations.
Local Open Scope R_scope.

(** ** A kernel that reaches over the complete signal averages all of it, everywhere *)
Lemma Rsum_app a b : Rsum (a ++ b) = Rsum a + Rsum b.
Proof. induction a as [|x a IH]; cbn [app Rsum fold_right]; [unfold Rsum; lra|]. unfold Rsum in *. rewrite IH. lra. Qed.
Lemma Rsum_zero {A} (f : A -> R) l : (forall x, In x l -> f x = 0) -> Rsum (map f l) = 0.
Proof.
  induction l as [|x l IH]; intros H; [easy|]. cbn [map Rsum fold_right]. rewrite H by now left. unfold Rsum in IH. rewrite IH; [lra|]. intros; apply H. now right.
Qed.
Lemma window_all c k i : (i < length c)%nat -> (2 * length c - 1 <= k)%nat -> moving_average c k i = Rsum c / INR k.
Proof.
  intros I K. unfold moving_average. f_equal.
  assert (K2 : (i <= k / 2)%nat) by (apply Nat.div_le_lower_bound; lia).
  assert (K3 : (length c - i + k / 2 <= k)%nat) by (pose proof (Nat.div_mod_eq k 2); pose proof (Nat.mod_upper_bound k 2); lia).
  set (h := (k / 2 - i)%nat).
  assert (ES : seq 0 k = seq 0 h ++ seq h (length c) ++ seq (h + length c) (k - h - length c)).
  { replace k with (h + (length c + (k - h - length c)))%nat at 1 by (unfold h; lia). now rewrite seq_app, (seq_app (length c)). }
  rewrite ES. clear ES.
  rewrite !map_app, !Rsum_app.
  rewrite (Rsum_zero _ (seq 0 h)) by (intros j J; apply in_seq in J; apply sig_out; left; unfold h in J; lia).
  rewrite (Rsum_zero _ (seq (h + length c) _)) by (intros j J; apply in_seq in J; apply sig_out; right; unfold h in J; lia).
  rewrite Rplus_0_l, Rplus_0_r. f_equal.
  assert (E : map (fun j => sig_at c (Z.of_nat i - Z.of_nat (k / 2) + Z.of_nat j)) (seq h (length c)) = map (fun j => nth j c 0) (seq 0 (length c))).
  { assert (H2 : (h + i = k / 2)%nat) by (unfold h; lia). clearbody h. revert H2. generalize (k / 2)%nat as half. intros half H2. clear - H2.
    rewrite <- (Nat.add_0_r h) at 1. generalize 0%nat as o. generalize (length c) as n. induction n as [|n IH]; intros o; [easy|]. cbn [seq map]. f_equal.
    - rewrite <- sig_nat. f_equal. lia.
    - replace (S (h + o)) with (h + S o)%nat by lia. apply IH. }
  rewrite E. clear. induction c as [|x c IH]; [easy|]. cbn [length seq map nth]. f_equal. rewrite <- seq_shift, map_map. exact IH.
Qed.

(** ** Cross correlation of two constant signals *)
Definition overlap (la lb : nat) (m : Z) : Z := Z.max 0 (Z.min (Z.of_nat la) (Z.of_nat lb - m) - Z.max 0 (- m)).
Lemma sig_repeat u n i : sig_at (repeat u n) i = if andb (0 <=? i)%Z (i <? Z.of_nat n)%Z then u else 0.
Proof.
  destruct (Z.leb_spec 0 i); cbn [andb]; [|now apply sig_out; left].
  destruct (Z.ltb_spec i (Z.of_nat n)); [|apply sig_out; right; now rewrite repeat_length].
  unfold sig_at. destruct (Z.ltb_spec i 0); [lia|].
  rewrite (nth_indep _ 0 u) by (rewrite repeat_length; lia). apply nth_repeat.
Qed.
Lemma xcorr_constant u v la lb m : xcorr (repeat u la) (repeat v lb) m = u * v * IZR (overlap la lb m).
Proof.
  unfold xcorr. rewrite repeat_length.
  assert (G : forall n, (n <= la)%nat ->
    Rsum (map (fun i => sig_at (repeat u la) (Z.of_nat i) * sig_at (repeat v lb) (Z.of_nat i + m)) (seq 0 n)) = u * v * IZR (overlap n lb m)).
  { induction n as [|n IH]; intros L.
    - cbn [seq map Rsum fold_right]. replace (overlap 0 lb m) with 0%Z by (unfold overlap; lia). lra.
    - rewrite seq_S, map_app, Rsum_app, IH by lia. cbn [map Nat.add Rsum fold_right]. rewrite !sig_repeat.
      replace (0 <=? Z.of_nat n)%Z with true by (symmetry; apply Z.leb_le; lia).
      replace (Z.of_nat n <? Z.of_nat la)%Z with true by (symmetry; apply Z.ltb_lt; lia). cbn [andb].
      destruct (Z.leb_spec 0 (Z.of_nat n + m)); cbn [andb]; [destruct (Z.ltb_spec (Z.of_nat n + m) (Z.of_nat lb))|].
      + replace (overlap (S n) lb m) with (overlap n lb m + 1)%Z by (unfold overlap; lia). rewrite plus_IZR. lra.
      + replace (overlap (S n) lb m) with (overlap n lb m) by (unfold overlap; lia). lra.
      + replace (overlap (S n) lb m) with (overlap n lb m) by (unfold overlap; lia). lra. }
  now apply G.
Qed.

(** ** The theorem *)
(** sum of the rotation rates of a recording, each component limited to [-m, m] *)
Definition clipped_sum (m : R) (v : list rv) : rv :=
  RV (Rsum (map (fun r => clamp m (v1 r)) v)) (Rsum (map (fun r => clamp m (v2 r)) v)) (Rsum (map (fun r => clamp m (v3 r)) v)).
(** Two equally spaced recordings [qsA] (from time a) and [qsB] (from time b), both with samples every [step] seconds, of
    nA and nB samples, where the smoothing kernels have at least 2 nA - 3 and 2 nB - 3 taps (25 taps: up to 14 samples).
    Only the sums of the clipped rates matter: if both are non-zero, the recordings are taken to start together or, if the first is
    longer, to end together, whatever the motions are; if one of the sums is zero, the second recording is taken to begin at the end of the first. *)
Theorem C69_short : forall (qsA qsB : list rq) (a b step : R) kA pA kB pB,
  (3 <= length qsA)%nat -> (2 <= length qsB)%nat -> 0 < step -> Forall unitq qsA -> Forall unitq qsB ->
  (2 * length qsA - 3 <= kA)%nat -> (2 * length qsB - 3 <= kB)%nat -> 0 <= pA <= 100 -> 0 <= pB <= 100 ->
  let tA := map Fin (ticks a step (length qsA)) in
  let tB := map Fin (ticks b step (length qsB)) in
  exists mA mB,
    is_percentile (components (rates qsA (ticks a step (length qsA)))) pA mA /\
    is_percentile (components (rates qsB (ticks b step (length qsB)))) pB mB /\
    let sumA := clipped_sum mA (rates qsA (ticks a step (length qsA))) in
    let sumB := clipped_sum mB (rates qsB (ticks b step (length qsB))) in
    (sumA <> vzero -> sumB <> vzero ->
      calculate_time_offset tA (inQs qsA) tB (inQs qsB) (mkFiltering (N:=XR) kA (Fin pA) kB (Fin pB)) =
        Ok (Fin (b - a - INR (length qsA - length qsB) * step))) /\
    (sumA = vzero \/ sumB = vzero ->
      calculate_time_offset tA (inQs qsA) tB (inQs qsB) (mkFiltering (N:=XR) kA (Fin pA) kB (Fin pB)) =
        Ok (Fin (b - a - INR (length qsA - 2) * step))).
Proof.
  intros qsA qsB a b step kA pA kB pB NA NB P UA UB KA KB PA PB tA tB.
  assert (G : forall qs s k p, Forall unitq qs -> (2 <= length qs)%nat -> (2 * length qs - 3 <= k)%nat -> 0 <= p <= 100 ->
    exists m u, is_percentile (components (rates qs (ticks s step (length qs)))) p m /\
      (clipped_sum m (rates qs (ticks s step (length qs))) <> vzero -> 0 < u) /\
      (clipped_sum m (rates qs (ticks s step (length qs))) = vzero -> u = 0) /\
      compute_angular_velocity_norms (N:=XR) (inQs qs) (map Fin (ticks s step (length qs))) k (Fin p) = Ok (map Fin (repeat u (length qs - 1)))).
  { clear - P. intros qs s k p U N K PP.
    destruct (C43_norms qs (ticks s step (length qs)) k p U) as (m & norms & PM & E & LN & AT & B); try easy.
    { rewrite ticks_length. lia. } { now apply ticks_increasing. } { lia. }
    set (v := rates qs (ticks s step (length qs))) in *. assert (LV : length v = (length qs - 1)%nat) by apply rates_length.
    set (c := clipped_sum m v). set (r := RV (v1 c / INR k) (v2 c / INR k) (v3 c / INR k)).
    assert (KP : 0 < INR k) by (apply lt_0_INR; lia).
    exists m, (len3 r). split; [exact PM|]. split; [|split].
    { intros NZ. change (c <> vzero) in NZ. apply sqrt_lt_R0. unfold r, dot3. cbn [v1 v2 v3]. clearbody c. clear - NZ KP. destruct c as [x y z]. cbn [v1 v2 v3].
      assert (H : 0 < x * x + y * y + z * z).
      { destruct (Req_dec x 0) as [X|X]; [|apply Rsqr_pos_lt in X; unfold Rsqr in X; nra].
        destruct (Req_dec y 0) as [Y|Y]; [|apply Rsqr_pos_lt in Y; unfold Rsqr in Y; nra].
        destruct (Req_dec z 0) as [Z|Z]; [|apply Rsqr_pos_lt in Z; unfold Rsqr in Z; nra].
        exfalso. apply NZ. now subst. }
      replace (x / INR k * (x / INR k) + y / INR k * (y / INR k) + z / INR k * (z / INR k)) with ((x * x + y * y + z * z) * (/ INR k * / INR k)) by (field; lra).
      apply Rinv_0_lt_compat in KP. apply Rmult_lt_0_compat; [exact H|now apply Rmult_lt_0_compat]. }
    { intros Z. change (c = vzero) in Z. unfold r, len3, dot3. rewrite Z. cbn [vzero v1 v2 v3]. unfold Rdiv. rewrite Rmult_0_l, Rmult_0_l, !Rplus_0_l. apply sqrt_0. }
    rewrite E. do 2 f_equal.
    assert (AT' : forall i, (i < length qs - 1)%nat -> nth_error norms i = Some (len3 r)).
    { intros i I. rewrite AT by easy. unfold smoothed. rewrite !window_all; rewrite ?map_length; try lia. reflexivity. }
    clear - LN AT'. revert LN AT'. generalize (length qs - 1)%nat as n. induction norms as [|x l IH]; intros n LN AT; destruct n; try discriminate LN; [easy|].
    cbn [repeat]. f_equal; [|apply IH; [now injection LN|]].
    - specialize (AT 0%nat ltac:(lia)). cbn in AT. congruence.
    - intros i I. apply (AT (S i)). lia. }
  destruct (G qsA a kA pA UA ltac:(lia) KA PA) as (mA & u & PMA & UP & U0 & EA). destruct (G qsB b kB pB UB NB KB PB) as (mB & v & PMB & VP & V0 & EB). clear G.
  exists mA, mB. split; [exact PMA|]. split; [exact PMB|]. intros sumA sumB. fold sumA in UP, U0. fold sumB in VP, V0. clearbody sumA sumB.
  set (la := (length qsA - 1)%nat) in *. set (lb := (length qsB - 1)%nat) in *.
  assert (CO : calculate_time_offset tA (inQs qsA) tB (inQs qsB) (mkFiltering (N:=XR) kA (Fin pA) kB (Fin pB)) =
    calculate_time_offset_from_signals (N:=XR) (map Fin (ticks a step la)) (map Fin (repeat u la))
      (map Fin (ticks b step lb)) (map Fin (repeat v lb))).
  { unfold calculate_time_offset, tA, tB. rewrite !mean_step_in by (rewrite ticks_length; lia).
    rewrite !ticks_mean by lia. cbn [leb XR xleb]. rewrite Rleb_t by lra.
    pose proof (resample_ticks qsA a step ltac:(lia) P UA) as R1. pose proof (resample_ticks qsB b step ltac:(lia) P UB) as R2.
    change (@T XR) with xr in *. rewrite R1. cbn [bind]. rewrite R2. cbn [bind].
    cbn [smoothing_kernel_size_A clipping_percentile_A smoothing_kernel_size_B clipping_percentile_B].
    rewrite EA. cbn [bind]. rewrite EB. cbn [bind].
    rewrite !map_length, !firstn_map, !repeat_length. fold la. fold lb. rewrite !ticks_firstn by (unfold la, lb; lia).
    rewrite map_length, !ticks_length. rewrite assert_true by apply Nat.eqb_refl. reflexivity. }
  change (@T XR) with xr in *. rewrite CO.
  assert (T1 : (2 <= length (ticks a step la))%nat) by (rewrite ticks_length; unfold la; lia).
  assert (T2 : ticks b step lb <> []).
  { intros Q. apply (f_equal (@length R)) in Q. rewrite ticks_length in Q. cbn in Q. unfold lb in Q. lia. }
  assert (S1 : repeat u la <> []) by (intros Q; apply (f_equal (@length R)) in Q; rewrite repeat_length in Q; cbn in Q; unfold la in Q; lia).
  assert (S2 : repeat v lb <> []) by (intros Q; apply (f_equal (@length R)) in Q; rewrite repeat_length in Q; cbn in Q; unfold lb in Q; lia).
  destruct (C39_maximal_lag (ticks a step la) (repeat u la) (ticks b step lb) (repeat v lb) T1 T2 S1 S2) as (l & LR & MX & EQ).
  change (@T XR) with xr in *. rewrite EQ. rewrite !ticks_hd, ticks_mean by (unfold la, lb; lia).
  unfold lag_range in *. rewrite !repeat_length in *.
  assert (LA : (2 <= la)%nat) by (unfold la; lia). assert (LB : (1 <= lb)%nat) by (unfold lb; lia).
  split.
  - intros NZA NZB. do 2 f_equal. assert (UV : 0 < u * v) by (apply Rmult_lt_0_compat; auto).
    assert (l = - Z.of_nat (la - lb))%Z as ->.
    { destruct (MX (- Z.of_nat (la - lb))%Z ltac:(clear - LR LA LB; lia)) as [M1 M2]. rewrite !xcorr_constant in M1, M2.
      assert (O : overlap la lb (- Z.of_nat (la - lb)) = Z.min (Z.of_nat la) (Z.of_nat lb)) by (unfold overlap; lia). rewrite O in M1, M2.
      destruct (Z.lt_trichotomy l (- Z.of_nat (la - lb))) as [C|[C|C]]; [|easy|].
      - apply Rmult_le_reg_l in M1; [|easy]. apply le_IZR in M1. unfold overlap in M1. clear - M1 C LR LA LB. lia.
      - specialize (M2 C). apply Rmult_lt_reg_l in M2; [|easy]. apply lt_IZR in M2. unfold overlap in M2. clear - M2. lia. }
    rewrite opp_IZR, <- INR_IZR_INZ. replace (length qsA - length qsB)%nat with (la - lb)%nat by (unfold la, lb; lia). lra.
  - intros Z. do 2 f_equal. assert (UV0 : u * v = 0) by (destruct Z as [Z|Z]; [rewrite U0 by easy|rewrite V0 by easy]; ring).
    assert (l = 1 - Z.of_nat la)%Z as ->.
    { destruct (Z.eq_dec l (1 - Z.of_nat la)) as [|NE]; [easy|exfalso].
      destruct (MX (1 - Z.of_nat la)%Z ltac:(clear - LR LA LB; lia)) as [_ M]. specialize (M ltac:(lia)).
      rewrite !xcorr_constant, UV0 in M. lra. }
    replace (1 - Z.of_nat la)%Z with (- Z.of_nat (length qsA - 2))%Z by (unfold la; lia). rewrite opp_IZR, <- INR_IZR_INZ. lra.
Qed.

(** With the default filter settings and recordings of the same 3 to 14 samples: the difference of the first time stamps. *)
Theorem C69_same_length : forall (qsA qsB : list rq) (a b step : R),
  (3 <= length qsA <= 14)%nat -> length qsB = length qsA -> 0 < step -> Forall unitq qsA -> Forall unitq qsB ->
  exists mA mB,
    is_percentile (components (rates qsA (ticks a step (length qsA)))) (995 / 10) mA /\
    is_percentile (components (rates qsB (ticks b step (length qsB)))) 99 mB /\
    (clipped_sum mA (rates qsA (ticks a step (length qsA))) <> vzero ->
     clipped_sum mB (rates qsB (ticks b step (length qsB))) <> vzero ->
     calculate_time_offset (map Fin (ticks a step (length qsA))) (inQs qsA) (map Fin (ticks b step (length qsB))) (inQs qsB)
       (default_filtering (N:=XR)) = Ok (Fin (b - a))).
Proof.
  intros qsA qsB a b step L E P UA UB.
  destruct (C69_short qsA qsB a b step 25 (995 / 10) 25 99) as (mA & mB & PA & PB & H & _); try easy; try lia; try lra.
  exists mA, mB. split; [exact PA|]. split; [exact PB|]. intros NA NB. specialize (H NA NB). cbv zeta in H.
  rewrite E, Nat.sub_diag in H. cbn [INR] in H. rewrite Rmult_0_l, Rminus_0_r in H. rewrite <- E in H at 2. rewrite <- H.
  reflexivity.
Qed.

(** *** Examples *)
Lemma rate_same q dt : unitq q -> rate q q dt = vzero.
Proof.
  intros U. unfold rate. assert (E : hmul q (hconj q) = hone).
  { unfold unitq in U. destruct q as [[x y z] w]. apply rq_eq; specu; try ring. lra. }
  rewrite E. unfold pos_w, hone. cbn [Spec.qs qv]. destruct (Rlt_dec 1 0); [lra|]. cbn [Spec.qs qv].
  destruct (Rle_dec _ _) as [|K]; [easy|]. exfalso. apply K. rewrite Rminus_diag_eq, Rabs_R0 by easy. lra.
Qed.
Lemma rate_step q1 q2 v w dt : hmul q1 (hconj q2) = RQ v w -> 0 <= w <= 9/10 -> 0 < dt -> exists c, 0 < c /\ rate q1 q2 dt = vscale c v.
Proof.
  intros E W D. exists (acos w / dt / sqrt (1 - w * w)). split.
  - assert (A : 0 < acos w) by (apply acos_bound_lt; lra). assert (S : 0 < sqrt (1 - w * w)) by (apply sqrt_lt_R0; nra).
    apply Rdiv_lt_0_compat; [|easy]. now apply Rdiv_lt_0_compat.
  - unfold rate. rewrite E. unfold pos_w. cbn [Spec.qs qv]. destruct (Rlt_dec w 0); [lra|]. cbn [Spec.qs qv].
    destruct (Rle_dec _ _) as [K|_]; [|easy]. exfalso. rewrite Rabs_left in K by lra. lra.
Qed.
(** the limit is positive if it is (partly) the largest of the components and another one is not negative *)
Lemma percentile_positive l p m i j x : is_percentile l p m -> INR (length l - 2) < p / 100 * INR (length l - 1) -> p <= 100 -> (2 <= length l)%nat ->
  i <> j -> nth_error l i = Some 0 -> nth_error l j = Some 0 -> In x l -> 0 < x -> 0 < m.
Proof.
  intros (s & k & w & P & SO & W & K & ->) B P1 L2 IJ I J IX X.
  pose proof (Permutation_length P) as LS. rewrite LS in *.
  assert (K1 : (length s - 2 <= k)%nat).
  { apply Nat.lt_succ_r. apply INR_lt. rewrite S_INR. lra. }
  assert (K2 : (k <= length s - 1)%nat).
  { apply INR_le. assert (0 <= INR (length s - 1)) by apply pos_INR. assert (p / 100 * INR (length s - 1) <= 1 * INR (length s - 1)) by (apply Rmult_le_compat_r; lra). lra. }
  assert (TOP : 0 < nth (length s - 1) s 0).
  { apply (Permutation_in _ P) in IX. apply In_nth_error in IX as (n & N).
    assert (n < length s)%nat by (apply nth_error_Some; congruence).
    assert (x <= nth (length s - 1) s 0); [|lra]. apply (SO n (length s - 1)%nat); [lia|easy|]. apply nth_error_nth'. lia. }
  assert (SND : 0 <= nth (length s - 2) s 0).
  { apply Permutation_sym, Permutation_nth_error in P as (_ & f & INJ & F). rewrite F in I, J.
    assert (f i < length s)%nat by (apply nth_error_Some; congruence). assert (f j < length s)%nat by (apply nth_error_Some; congruence).
    assert (NE : f i <> f j) by (intros C; now apply INJ in C).
    assert (Q : exists n, (n <= length s - 2)%nat /\ nth_error s n = Some 0).
    { destruct (Nat.le_gt_cases (f i) (length s - 2)); [now exists (f i)|]. exists (f j). split; [lia|easy]. }
    destruct Q as (n & N & S). apply (SO n (length s - 2)%nat); [easy|easy|]. apply nth_error_nth'. lia. }
  destruct (Nat.eq_dec k (length s - 1)) as [->|NE].
  - rewrite Nat.min_r by lia. lra.
  - assert (k = length s - 2)%nat as -> by lia. replace (Nat.min (S (length s - 2)) (length s - 1)) with (length s - 1)%nat by lia.
    assert (WP : 0 < w) by lra. apply Rplus_le_lt_0_compat; [apply Rmult_le_pos; lra|now apply Rmult_lt_0_compat].
Qed.
Lemma clamp_zero m : 0 < m -> clamp m 0 = 0.
Proof. intros M. unfold clamp, Rmin, Rmax. destruct (Rle_dec 0 (- m)); [lra|]. destruct (Rle_dec 0 m); lra. Qed.
Lemma clamp_positive m x : 0 < m -> 0 < x -> 0 < clamp m x.
Proof. intros M X. unfold clamp, Rmin, Rmax. destruct (Rle_dec x (- m)); destruct (Rle_dec _ m); lra. Qed.
Lemma clamp_negative m x : 0 < m -> x < 0 -> clamp m x < 0.
Proof. intros M X. unfold clamp, Rmin, Rmax. destruct (Rle_dec x (- m)); destruct (Rle_dec _ m); lra. Qed.

(** Two recordings of the same turn about the z axis with the same clock: in the second one the turn happens two samples
    later. The time offset is nevertheless zero. *)
Definition turn69 : rq := RQ (RV 0 0 (- 3/5)) (4/5).
Definition early69 : list rq := [hone; turn69; turn69; turn69].
Definition late69 : list rq := [hone; hone; hone; turn69].
Theorem C69_delay_refuted : exists (qsA qsB : list rq) (a step : R),
  length qsB = length qsA /\ 0 < step /\ Forall unitq qsA /\ Forall unitq qsB /\
  (forall i, (i + 2 < length qsB)%nat -> nth_error qsB (i + 2) = nth_error qsA i) /\ qsA <> qsB /\
  calculate_time_offset (map Fin (ticks a step (length qsA))) (inQs qsA) (map Fin (ticks a step (length qsB))) (inQs qsB)
    (default_filtering (N:=XR)) = Ok (Fin 0).
Proof.
  assert (UT : unitq turn69) by (unfold unitq, turn69; specu; lra). assert (U1 : unitq hone) by (unfold unitq; specu; lra).
  exists early69, late69, 0, 1. split; [reflexivity|]. split; [lra|]. split; [now repeat constructor|]. split; [now repeat constructor|].
  split; [intros [|[|i]] I; cbn in I; try lia; reflexivity|]. split; [intros E; injection E as _ E _; lra|].
  destruct (rate_step hone turn69 (RV 0 0 (3/5)) (4/5) 1) as (c & CP & RC); try lra.
  { unfold turn69, hone. apply rq_eq; specu; ring || lra. }
  assert (DT : forall i, 0 + INR (S i) * 1 - (0 + INR i * 1) = 1) by (intros i; rewrite S_INR; lra).
  assert (RA : rates early69 (ticks 0 1 4) = [RV (c * 0) (c * 0) (c * (3/5)); vzero; vzero]).
  { unfold early69. cbn [rates ticks seq map tl nth]. rewrite !DT, RC, !rate_same by easy. reflexivity. }
  assert (RB : rates late69 (ticks 0 1 4) = [vzero; vzero; RV (c * 0) (c * 0) (c * (3/5))]).
  { unfold late69. cbn [rates ticks seq map tl nth]. rewrite !DT, RC, !rate_same by easy. reflexivity. }
  destruct (C69_same_length early69 late69 0 0 1) as (mA & mB & PA & PB & H); try easy; try (cbn; lia); try lra; try now repeat constructor.
  rewrite Rminus_0_r in H. change (length early69) with 4%nat in *. change (length late69) with 4%nat in *. apply H; clear H.
  - rewrite RA in *.
    assert (M : 0 < mA).
    { apply (percentile_positive _ _ _ 3 4 (c * (3/5)) PA); try reflexivity; try discriminate; try lra; cbn; try lia; try lra; tauto. }
    intros E. apply (f_equal v3) in E. unfold clipped_sum, vzero in E. cbn [v1 v2 v3 map Rsum fold_right] in E.
    rewrite clamp_zero in E by easy. pose proof (clamp_positive mA (c * (3/5)) M ltac:(lra)). lra.
  - rewrite RB in *.
    assert (M : 0 < mB).
    { apply (percentile_positive _ _ _ 0 1 (c * (3/5)) PB); try reflexivity; try discriminate; try lra; cbn; try lia; try lra; tauto. }
    intros E. apply (f_equal v3) in E. unfold clipped_sum, vzero in E. cbn [v1 v2 v3 map Rsum fold_right] in E.
    rewrite clamp_zero in E by easy. pose proof (clamp_positive mB (c * (3/5)) M ltac:(lra)). lra.
Qed.
