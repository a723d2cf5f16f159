(** * Properties C39, C42: calculate_time_offset from two orientation paths, end to end. *)

From Coq Require Import Reals ZArith Bool List Lra Lia Psatz Permutation.
From Verif Require Import Num Py XReal XFacts Quat DualQuat TimeAlign Spec TimeSpec Embed QuatFacts QuatTrig
  ListFacts TimeFacts ResampleFacts PropTimeOffset PropResample PropAligned PropFilter.
Import ListNotations.
Local Open Scope R_scope.

(** ** C42: both paths are resampled with the larger of the two mean steps *)
Theorem C42_larger_step : forall tA qA tB qB cfg r,
  (2 <= length tA)%nat -> (2 <= length tB)%nat ->
  calculate_time_offset (map Fin tA) qA (map Fin tB) qB cfg = Ok r ->
  let dt := Rmax (mean_step tA) (mean_step tB) in
  exists rA sA rB sB nA nB,
    resample_quaternions (map Fin tA) qA (Fin dt) = Ok (rA, sA) /\
    resample_quaternions (map Fin tB) qB (Fin dt) = Ok (rB, sB) /\
    compute_angular_velocity_norms rA sA (smoothing_kernel_size_A cfg) (clipping_percentile_A cfg) = Ok nA /\
    compute_angular_velocity_norms rB sB (smoothing_kernel_size_B cfg) (clipping_percentile_B cfg) = Ok nB /\
    calculate_time_offset_from_signals (removelast sA) nA (firstn (length nB) sB) nB = Ok r.
Proof.
  intros tA qA tB qB cfg r LA LB H dt. unfold calculate_time_offset in H. rewrite !mean_step_in in H by easy.
  assert (ED : (if leb (Num:=XR) (Fin (mean_step tB)) (Fin (mean_step tA)) then Fin (mean_step tA) else Fin (mean_step tB)) = Fin dt).
  { unfold dt, Rmax. cbn [leb XR xleb]. destruct (Rleb _ _) eqn:C; [apply Rleb_iff in C|apply Rleb_false in C];
      destruct (Rle_dec (mean_step tA) (mean_step tB)); f_equal; lra. }
  change (@T XR) with xr in *. rewrite ED in H.
  apply bind_ok in H as ([rA sA] & RA & H). apply bind_ok in H as ([rB sB] & RB & H).
  apply bind_ok in H as (nA & NA & H). apply bind_ok in H as (nB & NB & H). apply assert_ok in H as [A H].
  exists rA, sA, rB, sB, nA, nB. repeat (split; [assumption|]). rewrite <- H. f_equal.
  apply Nat.eqb_eq in A. rewrite firstn_length in A. destruct (Nat.eq_dec (length sA) 0) as [Z|Z].
  - destruct sA; [|discriminate]. now rewrite firstn_nil.
  - rewrite removelast_firstn_len. f_equal. lia.
Qed.

(** ** Equally spaced stamps *)
Definition ticks (a step : R) (n : nat) : list R := map (fun i => a + INR i * step) (seq 0 n).
Lemma ticks_length a step n : length (ticks a step n) = n.
Proof. unfold ticks. now rewrite map_length, seq_length. Qed.
Lemma ticks_nth a step n i : (i < n)%nat -> nth_error (ticks a step n) i = Some (a + INR i * step).
Proof.
  intros L. unfold ticks. rewrite nth_error_map, (nth_error_nth' _ 0%nat) by now rewrite seq_length. now rewrite seq_nth.
Qed.
Lemma ticks_at a step n i t : nth_error (ticks a step n) i = Some t -> (i < n)%nat /\ t = a + INR i * step.
Proof.
  intros E. assert (L : (i < n)%nat). { rewrite <- (ticks_length a step n). apply nth_error_Some. congruence. }
  split; [easy|]. rewrite ticks_nth in E by easy. congruence.
Qed.
Lemma ticks_strict a step n i j s t : 0 < step -> (i < j)%nat ->
  nth_error (ticks a step n) i = Some s -> nth_error (ticks a step n) j = Some t -> s < t.
Proof.
  intros P L A B. apply ticks_at in A as [_ ->]. apply ticks_at in B as [_ ->]. apply lt_INR in L. nra.
Qed.
Lemma ticks_sorted a step n : 0 < step -> sorted (ticks a step n).
Proof.
  intros P i j s t L A B. destruct (Nat.eq_dec i j) as [->|NE]; [rewrite A in B; injection B as ->; lra|].
  apply Rlt_le. eapply (ticks_strict a step n i j); eauto. lia.
Qed.
Lemma ticks_increasing a step n : 0 < step -> increasing (ticks a step n).
Proof. intros P i s t A B. eapply (ticks_strict a step n i (S i)); eauto. Qed.
Lemma ticks_hd a step n : (1 <= n)%nat -> hd 0 (ticks a step n) = a.
Proof. destruct n; [lia|]. intros _. cbn. lra. Qed.
Lemma ticks_last a step n : (1 <= n)%nat -> last (ticks a step n) 0 = a + INR (n - 1) * step.
Proof.
  intros N. assert (NE : ticks a step n <> []) by (intros E; apply (f_equal (@length R)) in E; rewrite ticks_length in E; cbn in E; lia).
  pose proof (last_nth_error (ticks a step n) 0 NE) as E. rewrite ticks_length in E. now apply ticks_at in E.
Qed.
Lemma ticks_mean a step n : (2 <= n)%nat -> mean_step (ticks a step n) = step.
Proof.
  intros N. unfold mean_step. rewrite ticks_last, ticks_hd, ticks_length by lia.
  assert (0 < INR (n - 1)) by (apply lt_0_INR; lia). field. lra.
Qed.
Lemma ticks_firstn a step n k : (k <= n)%nat -> firstn k (ticks a step n) = ticks a step k.
Proof.
  intros L. unfold ticks. rewrite firstn_map. f_equal. rewrite <- (firstn_all2 (n:=k) (seq 0 k)) by now rewrite seq_length.
  replace n with (k + (n - k))%nat by lia. rewrite seq_app, firstn_app, seq_length, Nat.sub_diag. cbn [firstn]. now rewrite app_nil_r.
Qed.
(** rates depend on the differences of the stamps only *)
Lemma rates_shift qs : forall s c, (length qs <= length s)%nat -> rates qs (map (Rplus c) s) = rates qs s.
Proof.
  induction qs as [|q qs IH]; intros s c L; [easy|]. destruct qs as [|q' qs]; [easy|].
  destruct s as [|s0 [|s1 s]]; cbn [length] in L; try lia. 
  change (rate q q' (c + s1 - (c + s0)) :: rates (q' :: qs) (map (Rplus c) (s1 :: s)) =
          rate q q' (s1 - s0) :: rates (q' :: qs) (s1 :: s)).
  rewrite IH by (cbn [length] in *; lia). do 2 f_equal. lra.
Qed.
Lemma ticks_shift a c step n : ticks (a + c) step n = map (Rplus c) (ticks a step n).
Proof. unfold ticks. rewrite map_map. apply map_ext. intros; lra. Qed.

(** resampling equally spaced stamps with their own step changes nothing *)
Lemma resample_ticks qs a step : (2 <= length qs)%nat -> 0 < step -> Forall unitq qs ->
  resample_quaternions (N:=XR) (map Fin (ticks a step (length qs))) (inQs qs) (Fin step) =
    Ok (inQs qs, map Fin (ticks a step (length qs))).
Proof.
  intros N P U. set (n := length qs) in *. set (t := ticks a step n).
  assert (NE : t <> []) by (unfold t; intros E; apply (f_equal (@length R)) in E; rewrite ticks_length in E; cbn in E; lia).
  assert (NE' : map Fin t <> []) by (destruct t; easy).
  unfold resample_quaternions. change (@T XR) with xr.
  rewrite (py_index_last _ (Fin 0) NE'), last_map_fin by easy. cbn [bind].
  change 0%Z with (Z.of_nat 0). rewrite py_index_nat.
  replace (index (map Fin t) 0) with (Ok (Fin (hd 0 t))) by now destruct t.
  unfold t at 1 2 3. rewrite ticks_hd, ticks_last by lia. cbn [bind sub XR xsub div]. rewrite xdiv_fin by lra.
  unfold n1. cbn [lit add XR xadd]. change (Rlit 1 0) with 1.
  assert (X : (a + INR (n - 1) * step - a) / step + 1 = INR n).
  { rewrite minus_INR by lia. cbn. field. lra. }
  rewrite X.
  change (linspace (N:=XR) _ _ _) with (linspace (N:=XR) (Fin a) (Fin (a + INR (n - 1) * step)) (Fin (INR n))).
  rewrite linspace_in by apply pos_INR.
  assert (IP : Int_part (INR n) = Z.of_nat n).
  { rewrite INR_IZR_INZ. destruct (base_Int_part (IZR (Z.of_nat n))) as [B1 B2].
    apply le_IZR in B1. assert (B3 : IZR (Z.of_nat n - 1) < IZR (Int_part (IZR (Z.of_nat n)))) by (rewrite minus_IZR; lra).
    apply lt_IZR in B3. lia. }
  rewrite IP, Nat2Z.id. 
  assert (GR : match n with O => [] | S O => [a] | S d => grid a (a + INR (n - 1) * step) d end = t).
  { destruct n as [|[|d]] eqn:EN; try lia. unfold grid, t, ticks. apply map_ext. intros i.
    replace (S (S d) - 1)%nat with (S d) by lia. assert (INR (S d) <> 0) by (apply not_0_INR; lia). field. easy. }
  change (@T XR) with xr. rewrite GR. cbn [bind].
  destruct (C40_resample t qs t) as (out & E & F); try easy.
  { apply ticks_sorted; easy. } { unfold t. now rewrite ticks_length. }
  { apply Forall_forall. intros s I. apply In_nth_error in I as (i & I). apply (sorted_range _ i); [now apply ticks_sorted|easy]. }
  assert (out = qs) as ->.
  { assert (LO : length out = n) by (apply Forall2_len in F; unfold t in F; rewrite ticks_length in F; lia).
    apply nth_ext with (d := hone) (d' := hone); [easy|]. intros i Hi.
    assert (Hi' : (i < n)%nat) by lia.
    assert (IL : (i < length t)%nat) by (unfold t; now rewrite ticks_length).
    pose proof (Forall2_nth _ _ _ 0 hone F i IL) as RS.
    pose proof (nth_error_nth' t 0 IL) as ET.
    assert (UN : forall r u, first_from t (nth i t 0) r u -> r = i /\ u = nth i t 0).
    { intros r u (F1 & F2 & F3). assert (r = i).
      { destruct (Nat.lt_trichotomy r i) as [L|[L|L]]; [|easy|].
        - pose proof (ticks_strict a step n r i _ _ P L F1 ET). lra.
        - pose proof (F3 i _ L ET). lra. }
      subst. split; [easy|]. congruence. }
    inversion RS as [r u q FF Q _|k tl0 tr ql qr q FF TL TS QL QR C SL]; subst.
    - destruct (UN _ _ FF) as [-> ->]. symmetry. now apply nth_error_nth.
    - destruct (UN _ _ FF) as [_ ->]. lra. }
  now rewrite E.
Qed.

(** Two equally spaced recordings of the same orientation path, the second with its clock ahead by
    [c], with equal filter settings on both sides: the offset is exactly [c] if any smoothed rate is
    non-zero.  If all are zero (no rotation, or less than about half a degree per sample, see C10),
    the lag is undetermined and the answer is off by all but one of the signal's samples. *)
Theorem C39_same_path : forall (qs : list rq) (a step c : R) (k : nat) (p : R),
  (3 <= length qs)%nat -> 0 < step -> Forall unitq qs -> (1 <= k)%nat -> 0 <= p <= 100 ->
  let n := length qs in
  let tA := map Fin (ticks a step n) in
  let tB := map Fin (ticks (a + c) step n) in
  exists norms,
    compute_angular_velocity_norms (inQs qs) tA k (Fin p) = Ok (map Fin norms) /\
    (Exists (fun x => x <> 0) norms ->
       calculate_time_offset tA (inQs qs) tB (inQs qs) (mkFiltering (N:=XR) k (Fin p) k (Fin p)) = Ok (Fin c)) /\
    (Forall (fun x => x = 0) norms ->
       calculate_time_offset tA (inQs qs) tB (inQs qs) (mkFiltering (N:=XR) k (Fin p) k (Fin p))
         = Ok (Fin (c - INR (n - 2) * step))).
Proof.
  intros qs a step c k p N P U K PP n tA tB.
  destruct (C43_norms qs (ticks a step n) k p U) as (m & norms & PM & E & LN & AT & B); try easy.
  { rewrite ticks_length. unfold n. lia. } { now apply ticks_increasing. }
  assert (PM' := PM).
  destruct (C43_norms qs (ticks (a + c) step n) k p U) as (m' & norms' & PM2 & E' & LN' & AT' & B'); try easy.
  { rewrite ticks_length. unfold n. lia. } { now apply ticks_increasing. }
  assert (RS : rates qs (ticks (a + c) step n) = rates qs (ticks a step n)).
  { rewrite ticks_shift. apply rates_shift. rewrite ticks_length. unfold n. lia. }
  assert (NN : norms' = norms).
  { assert (EQ : compute_angular_velocity_norms (N:=XR) (inQs qs) (map Fin (ticks (a + c) step n)) k (Fin p)
               = compute_angular_velocity_norms (N:=XR) (inQs qs) (map Fin (ticks a step n)) k (Fin p)).
    { unfold compute_angular_velocity_norms. unfold inQs at 1 5. destruct qs as [|q qs']; [easy|]. cbn [map].
      change (@T XR) with xr. rewrite !velocities_in; rewrite ?ticks_length; try easy; try (unfold n; lia); try now apply ticks_increasing.
      now rewrite RS. }
    change (@T XR) with xr in *. rewrite EQ, E in E'. injection E' as E'. clear - E'. revert norms' E'.
    induction norms as [|x l IH]; intros [|y l'] E'; cbn in E'; try discriminate; [easy|]. injection E' as -> E'. f_equal. now apply IH. }
  subst norms'. exists norms. split; [exact E|].
  assert (NOFF : norms <> []) by (intros Q; rewrite Q in LN; cbn in LN; lia).
  assert (CO : calculate_time_offset tA (inQs qs) tB (inQs qs) (mkFiltering (N:=XR) k (Fin p) k (Fin p)) =
    calculate_time_offset_from_signals (N:=XR) (map Fin (ticks a step (n - 1))) (map Fin norms)
      (map Fin (ticks (a + c) step (n - 1))) (map Fin norms)).
  { unfold calculate_time_offset, tA, tB. rewrite !mean_step_in by (rewrite ticks_length; unfold n; lia).
    rewrite !ticks_mean by (unfold n; lia). cbn [leb XR xleb]. rewrite Rleb_t by lra.
    pose proof (resample_ticks qs a step ltac:(lia) P U) as R1. pose proof (resample_ticks qs (a + c) step ltac:(lia) P U) as R2.
    fold n in R1, R2. change (@T XR) with xr in *. rewrite R1. cbn [bind]. rewrite R2. cbn [bind].
    cbn [smoothing_kernel_size_A clipping_percentile_A smoothing_kernel_size_B clipping_percentile_B].
    rewrite E. cbn [bind]. rewrite E'. cbn [bind].
    rewrite !map_length, !firstn_map, LN. fold n. rewrite !ticks_firstn by lia.
    rewrite map_length, !ticks_length. rewrite assert_true by apply Nat.eqb_refl. reflexivity. }
  change (@T XR) with xr in *. rewrite CO.
  assert (T1 : (2 <= length (ticks a step (n - 1)))%nat) by (rewrite ticks_length; unfold n; lia).
  assert (T2 : ticks (a + c) step (n - 1) <> []).
  { intros Q. apply (f_equal (@length R)) in Q. rewrite ticks_length in Q. cbn in Q. unfold n in Q. lia. }
  split; intros Z.
  - rewrite (C39_delayed_copy _ _ _ _ 0 1); [|exact T1|exact T2|lra| |].
    + rewrite !ticks_hd by (unfold n; lia). do 2 f_equal. rewrite Rmult_0_r. lra.
    + apply Exists_exists in Z as (x & I & NZ). apply In_nth with (d := 0) in I as (i & _ & <-). exists (Z.of_nat i). now rewrite sig_nat.
    + intros i. rewrite Z.add_0_r. lra.
  - destruct (C39_maximal_lag (ticks a step (n - 1)) norms (ticks (a + c) step (n - 1)) norms T1 T2 NOFF NOFF) as (l & LR & MX & EQ).
    change (@T XR) with xr in *. rewrite EQ. rewrite !ticks_hd, ticks_mean by (unfold n; lia).
    assert (X0 : forall j, xcorr norms norms j = 0).
    { intros j. unfold xcorr. rewrite (Rsum_seq (fun i => sig_at norms i * sig_at norms (i + j))).
      apply zsum_zero. intros i _. assert (S0 : sig_at norms i = 0); [|rewrite S0; ring].
      unfold sig_at. destruct (i <? 0)%Z; [easy|]. destruct (Nat.lt_ge_cases (Z.to_nat i) (length norms)); [|now apply nth_overflow].
      rewrite Forall_forall in Z. apply Z. now apply nth_In. }
    unfold lag_range in *. rewrite LN in *. fold n in LR, MX.
    assert (l = (1 - Z.of_nat (n - 1)))%Z.
    { destruct (Z.eq_dec l (1 - Z.of_nat (n - 1))) as [|NE]; [easy|exfalso].
      destruct (MX (1 - Z.of_nat (n - 1))%Z ltac:(unfold n in *; lia)) as [_ M]. specialize (M ltac:(lia)). rewrite !X0 in M. lra. }
    subst l. do 2 f_equal. assert (IE : IZR (1 - Z.of_nat (n - 1)) = - INR (n - 2)).
    { rewrite INR_IZR_INZ, <- opp_IZR. f_equal. unfold n in *. lia. }
    rewrite IE. lra.
Qed.

(** a swing by a right angle about z and back, sampled once per second; the clocks differ by 7 s *)
Definition swing : list rq :=
  [hone; RQ (RV 0 0 (sin (PI / 4))) (cos (PI / 4)); hone].
Lemma swing_unit : Forall unitq swing.
Proof.
  assert (SC : sin (PI / 4) * sin (PI / 4) + cos (PI / 4) * cos (PI / 4) = 1) by (pose proof (sin2_cos2 (PI / 4)) as Q; exact Q).
  repeat constructor; unfold unitq, hnorm2, hdot, dot3, hone, vzero; cbn [qv qs v1 v2 v3]; lra.
Qed.
Lemma percentile_100 l m x : is_percentile l 100 m -> In x l -> x <= m.
Proof.
  intros (s & k & w & P & SO & W & K & ->) I.
  assert (LS : (0 < length s)%nat) by (rewrite <- (Permutation_length P); destruct l; [easy|cbn; lia]).
  assert (KE : INR k + w = INR (length s - 1)) by lra.
  assert (K1 : (k <= length s - 1)%nat) by (apply INR_le; lra).
  assert (K2 : (length s - 1 <= k)%nat).
  { apply Nat.lt_succ_r. apply INR_lt. rewrite S_INR. lra. }
  assert (k = length s - 1)%nat as -> by lia. assert (w = 0) by lra. subst w. rewrite Rmult_0_l, Rminus_0_r, Rmult_1_l, Rplus_0_r.
  apply (Permutation_in _ P) in I. apply In_nth_error in I as (i & I).
  assert (i < length s)%nat by (apply nth_error_Some; congruence).
  apply (SO i (length s - 1)%nat); [lia|easy|]. apply nth_error_nth'. lia.
Qed.
Example C39_same_path_example :
  calculate_time_offset (map Fin (ticks 0 1 3)) (inQs swing) (map Fin (ticks (0 + 7) 1 3)) (inQs swing)
    (mkFiltering (N:=XR) 1 (Fin 100) 1 (Fin 100)) = Ok (Fin 7).
Proof.
  destruct (C39_same_path swing 0 1 7 1 100) as (norms & E & H & _); try lra; try (cbn; lia); [apply swing_unit|].
  apply H. clear H.
  destruct (C43_norms swing (ticks 0 1 3) 1 100 swing_unit) as (m & norms' & PM & E' & LN & AT & _); try lra; try (cbn; lia).
  { apply ticks_increasing. lra. }
  change (length swing) with 3%nat in *.
  assert (norms' = norms) as ->.
  { rewrite E in E'. injection E' as E'. clear - E'. revert norms' E'.
    induction norms as [|x l IH]; intros [|y l'] E'; cbn in E'; try discriminate; [easy|]. injection E' as -> E'. f_equal. now apply IH. }
  set (h := PI / 4) in *. set (q := RQ (RV 0 0 (sin h)) (cos h)) in *.
  assert (HP : 0 < h) by (unfold h; pose proof PI_RGT_0; lra).
  assert (S0 : 0 < sin h) by (apply sin_gt_0; unfold h; pose proof PI_RGT_0; lra).
  assert (C0 : cos h < 9 / 10).
  { assert (C2 : 2 * (cos h * cos h) - 1 = 0).
    { replace (2 * (cos h * cos h) - 1) with (cos (2 * h)) by (rewrite cos_2a_cos; ring). replace (2 * h) with (PI / 2) by (unfold h; field). apply cos_PI2. }
    nra. }
  assert (CP : 0 < cos h) by (apply cos_gt_0; unfold h; pose proof PI_RGT_0; lra).
  assert (RT : forall sg d, d = RQ (RV 0 0 (sg * sin h)) (cos h) ->
    (if Rle_dec (Rabs (qs (pos_w d) - 1)) (1 / 1000000000000 + 1 / 100000) then vzero
     else vscale (acos (qs (pos_w d)) / 1 / sqrt (1 - qs (pos_w d) * qs (pos_w d))) (qv (pos_w d))) = RV 0 0 (sg * h)).
  { intros sg d ->. unfold pos_w. cbn [qs qv]. destruct (Rlt_dec (cos h) 0); [lra|]. cbn [qs qv].
    destruct (Rle_dec _ _) as [L|_]; [rewrite Rabs_left in L by lra; lra|].
    rewrite acos_cos by (unfold h; pose proof PI_RGT_0; lra). rewrite sqrt_1_cos2 by lra.
    unfold vscale. cbn [v1 v2 v3]. f_equal; field; lra. }
  assert (RA : rates swing (ticks 0 1 3) = [RV 0 0 (- 1 * h); RV 0 0 (1 * h)]).
  { unfold swing. fold h. fold q. cbn [rates ticks seq map tl nth]. unfold rate.
    replace (0 + INR 1 * 1 - (0 + INR 0 * 1)) with 1 by (cbn; lra). replace (0 + INR 2 * 1 - (0 + INR 1 * 1)) with 1 by (cbn; lra).
    f_equal; [|f_equal]; apply RT; unfold q, hone; clear; specu; f_equal; try ring; f_equal; ring. }
  rewrite RA in *. apply Exists_exists. exists (len3 (smoothed m 1 [RV 0 0 (-1 * h); RV 0 0 (1 * h)] 0)).
  split; [apply (nth_error_In norms 0), AT; lia|].
  assert (MH : h <= m). { apply (percentile_100 _ _ _ PM). cbn. right; right; right; right; right; left. lra. }
  intros L0. unfold smoothed, len3 in L0. apply sqrt_eq_0 in L0; [|unfold dot3; cbn [v1 v2 v3]; nra].
  unfold dot3, moving_average, sig_at in L0. cbn [v1 v2 v3 map seq Rsum fold_right] in L0. simpl in L0.
  assert (CZ : clamp m (-1 * h) = - h).
  { unfold clamp, Rmax, Rmin. destruct (Rle_dec (-1 * h) (- m)); [|]; destruct (Rle_dec _ m); lra. }
  rewrite CZ in L0. match type of L0 with ?a * ?a + ?b * ?b + ?c * ?c = 0 => assert (Q : c * c <= 0) by nra; replace c with (- h) in Q by field end.
  nra.
Qed.
Example C43_example : exists norms,
  compute_angular_velocity_norms (inQs swing) (map Fin (ticks 0 1 3)) 25 (Fin 99) = Ok (map Fin norms) /\ length norms = 2%nat.
Proof.
  destruct (C43_norms swing (ticks 0 1 3) 25 99 swing_unit) as (m & norms & _ & E & LN & _); try lra; try (cbn; lia).
  { apply ticks_increasing. lra. }
  now exists norms.
Qed.
