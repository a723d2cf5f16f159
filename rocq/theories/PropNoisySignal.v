(** * Property C87: the time offset found from noisy signals. *)

From Coq Require Import Reals ZArith Bool List Lra Lia Psatz.
From Verif Require Import Num Py XReal XFacts TimeAlign Spec TimeSpec TimeFacts ListFacts PropTimeOffset.
Import ListNotations.
Local Open Scope R_scope.

(** ** Specification *)
(** the Euclidean length of a signal *)
Definition strength (l : list R) : R := sqrt (Rsum (map (fun x => x * x) l)).
(** the signal l is the signal c disturbed by the noise n *)
Definition disturbed (c n l : list R) : Prop := forall i, sig_at l i = sig_at c i + sig_at n i.
(** how far noises nA and nB can change the correlations of the signals a and b *)
Definition disturbance (a nA b nB : list R) : R :=
  strength a * strength nB + strength nA * strength b + strength nA * strength nB.

(** ** Cauchy-Schwarz *)
Lemma Rabs_both x y : Rabs x <= y -> - y <= x <= y.
Proof. unfold Rabs. destruct (Rcase_abs x); lra. Qed.
Lemma zsum_cs f g s n : Rabs (zsum (fun i => f i * g i) s n) <= sqrt (zsum (fun i => f i * f i) s n) * sqrt (zsum (fun i => g i * g i) s n).
Proof.
  revert s; induction n as [|n IH]; intros s; cbn [zsum].
  - rewrite Rabs_R0, sqrt_0. lra.
  - specialize (IH (s + 1)%Z). set (A := zsum (fun i => f i * f i) (s + 1) n) in *. set (B := zsum (fun i => g i * g i) (s + 1) n) in *.
    assert (A0 : 0 <= A) by (apply zsum_pos; intros; nra). assert (B0 : 0 <= B) by (apply zsum_pos; intros; nra).
    eapply Rle_trans; [apply Rabs_triang|]. rewrite Rabs_mult. set (x := f s) in *. set (y := g s) in *.
    pose proof (Rabs_pos x) as X0. pose proof (Rabs_pos y) as Y0.
    assert (XX : x * x = Rabs x * Rabs x) by (rewrite <- Rabs_mult; symmetry; apply Rabs_pos_eq; nra).
    assert (YY : y * y = Rabs y * Rabs y) by (rewrite <- Rabs_mult; symmetry; apply Rabs_pos_eq; nra).
    rewrite XX, YY. set (u := Rabs x) in *. set (v := Rabs y) in *. clearbody u v.
    pose proof (sqrt_pos A) as SA. pose proof (sqrt_pos B) as SB. pose proof (sqrt_sqrt A A0) as EA. pose proof (sqrt_sqrt B B0) as EB.
    set (p := sqrt A) in *. set (q := sqrt B) in *. clearbody p q. rewrite <- EA, <- EB.
    eapply Rle_trans; [apply Rplus_le_compat_l, IH|].
    rewrite <- sqrt_mult by nra. rewrite <- (sqrt_square (u * v + p * q)) by nra. apply sqrt_le_1_alt.
    pose proof (Rle_0_sqr (u * q - v * p)) as Q. unfold Rsqr in Q. nra.
Qed.
Lemma strength_zsum l m s n : (s + m <= 0)%Z -> (Z.of_nat (length l) <= s + m + Z.of_nat n)%Z ->
  strength l = sqrt (zsum (fun i => sig_at l (i + m) * sig_at l (i + m)) s n).
Proof.
  intros H1 H2. unfold strength. f_equal. rewrite (zsum_shift (fun i => sig_at l i * sig_at l i)).
  rewrite (zsum_support _ (length l)) by (try easy; intros i Hi; rewrite (sig_out l) by easy; ring).
  change 0%Z with (Z.of_nat 0). rewrite <- Rsum_seq. f_equal. clear.
  induction l as [|x l IH]; [easy|]. cbn [length seq map]. f_equal. rewrite IH, <- seq_shift, map_map. apply map_ext. intros i.
  now rewrite !sig_nat.
Qed.
Lemma strength_pos l : 0 <= strength l.
Proof. apply sqrt_pos. Qed.
(** the correlation is at most the product of the strengths *)
Lemma xcorr_cs a b m : Rabs (xcorr a b m) <= strength a * strength b.
Proof.
  set (w := (length a + length b + Z.abs_nat m)%nat).
  rewrite (xcorr_zsum a b m (- Z.of_nat w) (w + w)) by (unfold w; lia).
  eapply Rle_trans; [apply zsum_cs|]. apply Req_le. f_equal.
  - rewrite (strength_zsum a 0 (- Z.of_nat w) (w + w)) by (unfold w; lia). f_equal. apply zsum_ext. intros. now rewrite !Z.add_0_r.
  - symmetry. apply strength_zsum; unfold w; lia.
Qed.
Lemma xcorr_disturbed a nA a' b nB b' m : disturbed a nA a' -> disturbed b nB b' ->
  xcorr a' b' m = xcorr a b m + xcorr a nB m + xcorr nA b m + xcorr nA nB m.
Proof.
  intros DA DB. set (n := (length a + length nA + length a')%nat).
  rewrite (xcorr_zsum a' b' m 0 n), (xcorr_zsum a b m 0 n), (xcorr_zsum a nB m 0 n), (xcorr_zsum nA b m 0 n), (xcorr_zsum nA nB m 0 n) by (unfold n; lia).
  rewrite <- !zsum_plus. apply zsum_ext. intros i _. rewrite DA, DB. ring.
Qed.

(** ** C87 *)
(** Every correlation changes by at most the disturbance. *)
Lemma correlation_changes a nA a' b nB b' m : disturbed a nA a' -> disturbed b nB b' ->
  Rabs (xcorr a' b' m - xcorr a b m) <= disturbance a nA b nB.
Proof.
  intros DA DB. rewrite (xcorr_disturbed a nA a' b nB b' m DA DB). unfold disturbance.
  pose proof (xcorr_cs a nB m) as H1. pose proof (xcorr_cs nA b m) as H2. pose proof (xcorr_cs nA nB m) as H3.
  apply Rabs_both in H1, H2, H3. apply Rabs_le. lra.
Qed.

(** The lag found from the noisy signals a' and b' correlates the clean signals a and b almost best. *)
Theorem C87_nearly_best : forall times_A times_B a nA a' b nB b',
  (2 <= length times_A)%nat -> times_B <> [] -> a' <> [] -> b' <> [] ->
  disturbed a nA a' -> disturbed b nB b' ->
  exists m, lag_range a' b' m /\
    calculate_time_offset_from_signals (map Fin times_A) (map Fin a') (map Fin times_B) (map Fin b') =
      Ok (Fin (mean_step times_A * IZR m + hd 0 times_B - hd 0 times_A)) /\
    forall k, lag_range a' b' k -> xcorr a b k <= xcorr a b m + 2 * disturbance a nA b nB.
Proof.
  intros tA tB a nA a' b nB b' LA NB NA NBb DA DB.
  destruct (C39_maximal_lag tA a' tB b' LA NB NA NBb) as (m & MR & MX & E). exists m. split; [easy|]. split; [easy|].
  intros k KR. destruct (MX k KR) as [M _].
  pose proof (correlation_changes a nA a' b nB b' k DA DB) as H1. pose proof (correlation_changes a nA a' b nB b' m DA DB) as H2.
  apply Rabs_both in H1, H2. lra.
Qed.

(** If B is a copy of A delayed by k samples and scaled by a positive gain, both with noise, and no other lag comes within
    the noise of the true one, the offset is exact. *)
Theorem C87_exact : forall times_A times_B a nA a' b nB b' k gain,
  (2 <= length times_A)%nat -> times_B <> [] -> a' <> [] -> b' <> [] ->
  disturbed a nA a' -> disturbed b nB b' -> (forall i, sig_at b (i + k) = gain * sig_at a i) ->
  lag_range a' b' k ->
  (forall d, d <> 0%Z -> lag_range a' b' (k + d) -> 2 * disturbance a nA b nB < gain * (xcorr a a 0 - xcorr a a d)) ->
  calculate_time_offset_from_signals (map Fin times_A) (map Fin a') (map Fin times_B) (map Fin b') =
    Ok (Fin (mean_step times_A * IZR k + hd 0 times_B - hd 0 times_A)).
Proof.
  intros tA tB a nA a' b nB b' k gain LA NB NA NBb DA DB SH KR MARGIN.
  destruct (C87_nearly_best tA tB a nA a' b nB b' LA NB NA NBb DA DB) as (m & MR & E & MX).
  assert (X : forall j, xcorr a b j = gain * xcorr a a (j - k)).
  { intros j. rewrite (xcorr_zsum a b j 0 (length a)), (xcorr_zsum a a (j - k) 0 (length a)) by lia.
    rewrite <- zsum_scal. apply zsum_ext. intros i _. replace (i + j)%Z with (i + (j - k) + k)%Z by lia. rewrite SH. ring. }
  rewrite E. destruct (Z.eq_dec m k) as [-> |NE]; [easy|exfalso].
  specialize (MX k KR). rewrite !X in MX. replace (k - k)%Z with 0%Z in MX by lia.
  specialize (MARGIN (m - k)%Z ltac:(lia)). replace (k + (m - k))%Z with m in MARGIN by lia. specialize (MARGIN MR). lra.
Qed.

(** For a clean signal that is not zero there is room for noise: some positive amount of noise per sample is harmless,
    whatever its shape. *)
Lemma strength_samples l n : Forall (fun x => Rabs x <= n) l -> 0 <= n -> strength l <= n * sqrt (INR (length l)).
Proof.
  intros F P. unfold strength. rewrite <- (sqrt_square n P) at 1. rewrite <- sqrt_mult by (try nra; apply pos_INR). apply sqrt_le_1_alt.
  induction F as [|x l H F IH]; [cbn; nra|]. cbn [map Rsum fold_right length]. fold (Rsum (map (fun x => x * x) l)). rewrite S_INR.
  assert (x * x <= n * n).
  { assert (XX : x * x = Rabs x * Rabs x) by (rewrite <- Rabs_mult; symmetry; apply Rabs_pos_eq; nra). rewrite XX. pose proof (Rabs_pos x). nra. }
  nra.
Qed.
Lemma finite_margin a : (exists i, sig_at a i <> 0) -> exists mu, 0 < mu /\ forall d, d <> 0%Z -> mu <= xcorr a a 0 - xcorr a a d.
Proof.
  intros NZ.
  assert (R0 : 0 < xcorr a a 0).
  { pose proof (autocorr_strict a (1 + Z.of_nat (length a)) ltac:(lia) NZ) as H.
    assert (Z0 : xcorr a a (1 + Z.of_nat (length a)) = 0).
    { rewrite (xcorr_zsum a a _ 0 (length a)) by lia. apply zsum_zero. intros i Hi. rewrite (sig_out a (i + _)) by lia. ring. }
    lra. }
  assert (B : forall w, exists mu, 0 < mu /\ mu <= xcorr a a 0 /\ forall d, d <> 0%Z -> (Z.abs d <= Z.of_nat w)%Z -> mu <= xcorr a a 0 - xcorr a a d).
  { induction w as [|w (mu & P & LE & H)].
    - exists (xcorr a a 0). split; [easy|]. split; [lra|]. intros d D1 D2. lia.
    - set (e := Z.of_nat (S w)). set (g1 := xcorr a a 0 - xcorr a a e). set (g2 := xcorr a a 0 - xcorr a a (- e)).
      assert (P1 : 0 < g1) by (pose proof (autocorr_strict a e ltac:(unfold e; lia) NZ); unfold g1; lra).
      assert (P2 : 0 < g2) by (pose proof (autocorr_strict a (- e) ltac:(unfold e; lia) NZ); unfold g2; lra).
      exists (Rmin mu (Rmin g1 g2)). split; [repeat apply Rmin_glb_lt; easy|].
      pose proof (Rmin_l mu (Rmin g1 g2)). pose proof (Rmin_r mu (Rmin g1 g2)). pose proof (Rmin_l g1 g2). pose proof (Rmin_r g1 g2).
      split; [lra|]. intros d D1 D2.
      destruct (Z.eq_dec d e) as [-> |N1]; [fold g1; lra|]. destruct (Z.eq_dec d (- e)) as [-> |N2]; [fold g2; lra|].
      assert (D3 : (Z.abs d <= Z.of_nat w)%Z) by (unfold e in *; lia). specialize (H d D1 D3). lra. }
  destruct (B (length a)) as (mu & P & LE & H). exists mu. split; [easy|]. intros d D1.
  destruct (Z_le_gt_dec (Z.abs d) (Z.of_nat (length a))) as [L|L]; [now apply H|].
  assert (Z0 : xcorr a a d = 0).
  { rewrite (xcorr_zsum a a _ 0 (length a)) by lia. apply zsum_zero. intros i Hi. rewrite (sig_out a (i + _)) by lia. ring. }
  lra.
Qed.
Theorem C87_tolerates : forall a b k gain, 0 < gain -> (exists i, sig_at a i <> 0) -> (forall i, sig_at b (i + k) = gain * sig_at a i) ->
  exists eps, 0 < eps /\ forall times_A times_B nA a' nB b',
    (2 <= length times_A)%nat -> times_B <> [] ->
    length nA = length a -> length nB = length b -> length a' = length a -> length b' = length b ->
    Forall (fun x => Rabs x <= eps) nA -> Forall (fun x => Rabs x <= eps) nB ->
    disturbed a nA a' -> disturbed b nB b' ->
    calculate_time_offset_from_signals (map Fin times_A) (map Fin a') (map Fin times_B) (map Fin b') =
      Ok (Fin (mean_step times_A * IZR k + hd 0 times_B - hd 0 times_A)).
Proof.
  intros a b k gain G NZ SH. destruct (finite_margin a NZ) as (mu & MU & MARGIN).
  set (n := sqrt (INR (length a)) + sqrt (INR (length b))).
  assert (N0 : 0 <= n) by (unfold n; pose proof (sqrt_pos (INR (length a))); pose proof (sqrt_pos (INR (length b))); lra).
  set (C := n * (strength a + strength b + n)). pose proof (strength_pos a) as SA. pose proof (strength_pos b) as SB.
  assert (C0 : 0 <= C) by (unfold C; nra).
  set (eps := Rmin 1 (gain * mu / (4 * (C + 1)))).
  assert (Q : 0 < gain * mu / (4 * (C + 1))) by (apply Rdiv_lt_0_compat; nra).
  assert (E0 : 0 < eps) by (apply Rmin_glb_lt; lra). assert (E1 : eps <= 1) by apply Rmin_l.
  assert (E2 : 4 * (eps * C) < gain * mu).
  { assert (L : eps <= gain * mu / (4 * (C + 1))) by apply Rmin_r.
    assert (V : gain * mu / (4 * (C + 1)) * (4 * (C + 1)) = gain * mu) by (field; lra). nra. }
  exists eps. split; [easy|]. intros tA tB nA a' nB b' LA NB L1 L2 L3 L4 FA FB DA DB.
  assert (KR : lag_range a' b' k /\ a' <> [] /\ b' <> []).
  { destruct NZ as (i0 & NZ). unfold lag_range. rewrite L3, L4.
    assert (I0 : (0 <= i0 < Z.of_nat (length a))%Z).
    { destruct (Z_lt_ge_dec i0 0), (Z_lt_ge_dec i0 (Z.of_nat (length a))); try lia; destruct NZ; apply sig_out; lia. }
    assert (NZb : sig_at b (i0 + k) <> 0) by (rewrite SH; intros E; apply Rmult_integral in E; destruct E; [lra|easy]).
    assert (I1 : (0 <= i0 + k < Z.of_nat (length b))%Z).
    { destruct (Z_lt_ge_dec (i0 + k) 0), (Z_lt_ge_dec (i0 + k) (Z.of_nat (length b))); try lia; destruct NZb; apply sig_out; lia. }
    split; [lia|]. split; [intros ->; cbn in L3; lia|intros ->; cbn in L4; lia]. }
  destruct KR as (KR & NA & NBb). apply (C87_exact tA tB a nA a' b nB b' k gain); try easy. intros d D1 _. specialize (MARGIN d D1).
  pose proof (strength_samples nA eps FA ltac:(lra)) as S1. pose proof (strength_samples nB eps FB ltac:(lra)) as S2. rewrite L1 in S1. rewrite L2 in S2.
  pose proof (strength_pos nA) as P1. pose proof (strength_pos nB) as P2.
  pose proof (sqrt_pos (INR (length a))) as Q1. pose proof (sqrt_pos (INR (length b))) as Q2.
  assert (S1' : strength nA <= eps * n) by (unfold n; nra). assert (S2' : strength nB <= eps * n) by (unfold n; nra).
  assert (DI : disturbance a nA b nB <= eps * C).
  { unfold disturbance, C. assert (eps * n <= n) by nra.
    assert (strength nA * strength nB <= eps * n * n) by nra.
    assert (strength a * strength nB <= strength a * (eps * n)) by nra.
    assert (strength nA * strength b <= eps * n * strength b) by nra. nra. }
  nra.
Qed.

(** A pulse, delayed by one sample, with noise on both signals. *)
Example C87_example :
  calculate_time_offset_from_signals (map Fin [0; 1; 2]) (map Fin [1/10; 10; 0]) (map Fin [5]) (map Fin [0; 0; 10; 1/10]) = Ok (Fin 6).
Proof.
  rewrite (C87_exact [0; 1; 2] [5] [0; 10; 0] [1/10; 0; 0] [1/10; 10; 0] [0; 0; 10; 0] [0; 0; 0; 1/10] [0; 0; 10; 1/10] 1 1); try easy; try (cbn; lia).
  - unfold mean_step. cbn [last hd length Nat.sub]. do 2 f_equal. simpl INR. lra.
  - intros i. destruct (Z_lt_ge_dec i 0); [rewrite !sig_out by lia; lra|]. destruct (Z_lt_ge_dec i 3); [|rewrite !sig_out by (cbn [length]; lia); lra].
    assert (E : (i = 0 \/ i = 1 \/ i = 2)%Z) by lia. destruct E as [-> |[-> | ->]]; unfold sig_at; simpl; lra.
  - intros i. destruct (Z_lt_ge_dec i 0); [rewrite !sig_out by lia; lra|]. destruct (Z_lt_ge_dec i 4); [|rewrite !sig_out by (cbn [length]; lia); lra].
    assert (E : (i = 0 \/ i = 1 \/ i = 2 \/ i = 3)%Z) by lia. destruct E as [-> |[-> |[-> | ->]]]; unfold sig_at; simpl; lra.
  - intros i. destruct (Z_lt_ge_dec i (-1)); [rewrite !sig_out by lia; lra|]. destruct (Z_lt_ge_dec i 3); [|rewrite !sig_out by (cbn [length]; lia); lra].
    assert (E : (i = -1 \/ i = 0 \/ i = 1 \/ i = 2)%Z) by lia. destruct E as [-> |[-> |[-> | ->]]]; unfold sig_at; simpl; lra.
  - intros d D0 [D1 D2]. cbn [length Z.of_nat Pos.of_succ_nat Pos.succ] in D1, D2.
    assert (S1 : strength [0; 10; 0] = 10) by (unfold strength; cbn; match goal with |- sqrt ?x = _ => replace x with (10 * 10) by lra end; apply sqrt_square; lra).
    assert (S2 : strength [0; 0; 10; 0] = 10) by (unfold strength; cbn; match goal with |- sqrt ?x = _ => replace x with (10 * 10) by lra end; apply sqrt_square; lra).
    assert (S3 : strength [1/10; 0; 0] = 1/10) by (unfold strength; cbn; match goal with |- sqrt ?x = _ => replace x with (1/10 * (1/10)) by lra end; apply sqrt_square; lra).
    assert (S4 : strength [0; 0; 0; 1/10] = 1/10) by (unfold strength; cbn; match goal with |- sqrt ?x = _ => replace x with (1/10 * (1/10)) by lra end; apply sqrt_square; lra).
    unfold disturbance. rewrite S1, S2, S3, S4.
    assert (E : (d = -3 \/ d = -2 \/ d = -1 \/ d = 1 \/ d = 2)%Z) by lia.
    destruct E as [-> |[-> |[-> |[-> | ->]]]]; unfold xcorr, sig_at; simpl; lra.
Qed.
