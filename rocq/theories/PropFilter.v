(** * Property C43: clipping and smoothing of the angular velocities. *)

From Coq Require Import Reals ZArith Bool List Lra Lia Psatz Permutation.
From Verif Require Import Num Py XReal XFacts Quat DualQuat TimeAlign Spec TimeSpec Embed QuatFacts QuatTrig
  ListFacts TimeFacts ResampleFacts PropTimeOffset PropResample PropAligned.
Import ListNotations.
Local Open Scope R_scope.

Lemma percentile_in l p : l <> [] -> 0 <= p <= 100 ->
  exists m, percentile (N:=XR) (map Fin l) (Fin p) = Ok (Fin m) /\ is_percentile l p m.
Proof.
  intros NE [P0 P1]. unfold percentile. destruct (map Fin l) as [|x t] eqn:EL; [now destruct l|]. rewrite <- EL. clear x t EL.
  unfold n0. cbn [lit ltb XR xltb]. change (Rlit 0 0) with 0. change (Rlit 100 0) with 100.
  rewrite !Rltb_f by lra. cbn [orb]. rewrite existsb_isnan. destruct (sort_in l) as (s & E & P & SO). rewrite E, map_length.
  assert (LS : (0 < length s)%nat) by (rewrite <- (Permutation_length P); destruct l; [easy|cbn; lia]).
  rewrite of_nat_fin. cbn [div XR]. rewrite xdiv_fin by lra. cbn [mul XR xmul trunc xtrunc].
  set (x := p / 100 * INR (length s - 1)).
  assert (X0 : 0 <= x) by (unfold x; apply Rmult_le_pos; [lra|apply pos_INR]).
  destruct (Rlt_dec x 0); [lra|]. destruct (base_Int_part x) as [B1 B2].
  assert (Z0 : (0 <= Int_part x)%Z) by (apply Z.lt_succ_r, lt_IZR; rewrite succ_IZR; lra).
  set (k := Z.to_nat (Int_part x)). assert (K : INR k = IZR (Int_part x)) by (unfold k; rewrite INR_IZR_INZ, Z2Nat.id; easy).
  assert (KL : (k < length s)%nat).
  { assert (INR k <= INR (length s - 1)).
    { rewrite K. unfold x in B1. assert (p / 100 * INR (length s - 1) <= 1 * INR (length s - 1)); [|unfold x in *; lra].
      apply Rmult_le_compat_r; [apply pos_INR|lra]. }
    apply INR_le in H. lia. }
  assert (NT : forall i, (i < length s)%nat -> nth i (map Fin s) (nan (N:=XR)) = Fin (nth i s 0)).
  { intros i Hi. rewrite (nth_indep _ _ (Fin 0)) by now rewrite map_length. now rewrite (map_nth Fin). }
  rewrite !NT by lia. rewrite of_nat_fin. unfold n1. cbn [lit sub mul add XR xsub xmul xadd]. change (Rlit 1 0) with 1.
  eexists. split; [reflexivity|]. exists s, k, (x - INR k). split; [easy|]. split; [easy|]. split; [lra|]. split; [fold x; lra|].
  fold k. ring.
Qed.

Lemma window_seq {A} (g : nat -> A) o n N : (o + n <= N)%nat ->
  firstn n (skipn o (map g (seq 0 N))) = map (fun i => g (o + i)%nat) (seq 0 n).
Proof.
  intros L. replace N with (o + (n + (N - o - n)))%nat by lia. rewrite seq_app, map_app, skipn_app.
  rewrite map_length, seq_length, Nat.sub_diag, skipn_all2 by now rewrite map_length, seq_length. cbn [skipn app Nat.add].
  rewrite seq_app, map_app, firstn_app, map_length, seq_length, Nat.sub_diag, firstn_all2 by now rewrite map_length, seq_length.
  cbn [firstn]. rewrite app_nil_r. clear. rewrite <- (Nat.add_0_r o) at 1. generalize 0%nat at 1 2.
  induction n; intros a; [easy|]. cbn [seq map]. f_equal. replace (S (o + a)) with (o + S a)%nat by lia. apply IHn.
Qed.
Lemma smooth_in c k : (1 <= k)%nat ->
  correlate_same (N:=XR) (map Fin c) (repeat (div (Num:=XR) (n1 (N:=XR)) (of_nat (N:=XR) k)) k) =
  map Fin (map (moving_average c k) (seq 0 (length c))).
Proof.
  intros K. assert (KP : 0 < INR k) by (apply lt_0_INR; lia).
  unfold n1. rewrite of_nat_fin. cbn [lit div XR]. change (Rlit 1 0) with 1. rewrite xdiv_fin by lra.
  assert (ER : repeat (Fin (1 / INR k)) k = map Fin (repeat (1 / INR k) k)) by (clear; generalize (1 / INR k); induction k; intros; cbn; [easy|]; f_equal; apply IHk).
  change (@T XR) with xr. rewrite ER. unfold correlate_same. rewrite !map_length, repeat_length.
  destruct c as [|c0 c']; [easy|]. set (c := c0 :: c').
  change (@T XR) with xr. rewrite correlate_in; [|easy|destruct k; [lia|easy]]. rewrite repeat_length.
  assert (LC : (1 <= length c)%nat) by (cbn; lia).
  rewrite map_map. rewrite window_seq.
  2:{ pose proof (Nat.div_le_upper_bound (k - 1) 2 (k - 1)). lia. }
  rewrite map_map. apply map_ext_in. intros i _. f_equal. unfold xcorr, moving_average. rewrite repeat_length.
  unfold Rdiv at 2. rewrite Rmult_comm.
  assert (SC : forall f l, Rsum (map (fun j : nat => / INR k * f j) l) = / INR k * Rsum (map f l)).
  { clear. intros f l. induction l as [|x l IH]; cbn [map Rsum fold_right]; [lra|]. unfold Rsum in IH. rewrite IH. lra. }
  rewrite <- SC. f_equal. apply map_ext_in. intros j J. apply in_seq in J. f_equal.
  - rewrite sig_nat. rewrite (nth_indep _ 0 (1 / INR k)) by (rewrite repeat_length; lia). rewrite nth_repeat. unfold Rdiv. lra.
  - f_equal. assert (HH : ((k - 1) / 2 + k / 2 = k - 1)%nat).
    { clear - K. destruct k as [|k]; [lia|]. rewrite Nat.sub_succ, Nat.sub_0_r.
      pose proof (Nat.div_mod_eq k 2). pose proof (Nat.div_mod_eq (S k) 2).
      pose proof (Nat.mod_upper_bound k 2). pose proof (Nat.mod_upper_bound (S k) 2). lia. }
    lia.
Qed.

(** ** The filter *)
(** every component of every row is the moving average of the clipped column, where the clipping
    limit is the percentile over all components *)
Definition components (v : list rv) : list R := flat_map (fun r => [v1 r; v2 r; v3 r]) v.
Definition smoothed (m : R) (k : nat) (v : list rv) (i : nat) : rv :=
  RV (moving_average (map (fun r => clamp m (v1 r)) v) k i)
     (moving_average (map (fun r => clamp m (v2 r)) v) k i)
     (moving_average (map (fun r => clamp m (v3 r)) v) k i).
Theorem C43_filter : forall (v : list rv) k p, v <> [] -> (1 <= k)%nat -> 0 <= p <= 100 ->
  exists m, is_percentile (components v) p m /\
    filter_and_smooth (map inV v) k (Fin p) = Ok (map inV (map (smoothed m k v) (seq 0 (length v)))).
Proof.
  intros v k p NE K P. unfold filter_and_smooth.
  assert (EF : flatten3 (map inV v) = map Fin (components v)).
  { unfold flatten3, components. clear. induction v as [|x v IH]; [easy|]. cbn [map flat_map]. rewrite map_app, IH. reflexivity. }
  destruct (percentile_in (components v) p) as (m & E & PM); [destruct v; easy|easy|].
  exists m. split; [easy|]. change (@T XR) with xr in *. rewrite EF, E. cbn [bind].
  destruct k as [|k']; [lia|]. set (k := S k') in *.
  assert (CL : forall (f : vec3 -> xr) (g : rv -> R), (forall r, f (inV r) = Fin (g r)) ->
     map (fun r => clip (opp (Num:=XR) (Fin m)) (Fin m) (f r)) (map inV v) = map Fin (map (fun r => clamp m (g r)) v)).
  { intros f g H. rewrite !map_map. apply map_ext. intros r. rewrite H. cbn [opp XR xopp]. rewrite clip_fin. reflexivity. }
  change (@T XR) with xr in *.
  rewrite (CL vx v1), (CL vy v2), (CL vz v3) by easy. rewrite !smooth_in by easy. rewrite !map_length. f_equal.
  unfold smoothed. generalize (seq 0 (length v)) as l. intros l. induction l as [|i l IH]; [easy|]. cbn [map combine]. f_equal. exact IH.
Qed.

Lemma avg_bound c k i M : (1 <= k)%nat -> 0 <= M -> Forall (fun x => Rabs x <= M) c -> Rabs (moving_average c k i) <= M.
Proof.
  intros K M0 F. unfold moving_average. assert (KP : 0 < INR k) by (apply lt_0_INR; lia).
  assert (S0 : forall z, Rabs (sig_at c z) <= M).
  { intros z. unfold sig_at. destruct (z <? 0)%Z; [now rewrite Rabs_R0|].
    destruct (Nat.lt_ge_cases (Z.to_nat z) (length c)); [|rewrite nth_overflow by easy; now rewrite Rabs_R0].
    rewrite Forall_forall in F. apply F. now apply nth_In. }
  assert (B : Rabs (Rsum (map (fun j => sig_at c (Z.of_nat i - Z.of_nat (k / 2) + Z.of_nat j)) (seq 0 k))) <= INR k * M).
  { enough (B' : forall l, Rabs (Rsum (map (fun j => sig_at c (Z.of_nat i - Z.of_nat (k / 2) + Z.of_nat j)) l)) <= INR (length l) * M)
      by (specialize (B' (seq 0 k)); now rewrite seq_length in B').
    induction l as [|x l IH]; [cbn; rewrite Rabs_R0; lra|].
    cbn [map Rsum fold_right]. change (length (x :: l)) with (S (length l)). rewrite S_INR.
    eapply Rle_trans; [apply Rabs_triang|]. pose proof (S0 (Z.of_nat i - Z.of_nat (k / 2) + Z.of_nat x)%Z). unfold Rsum in IH. lra. }
  unfold Rdiv. rewrite Rabs_mult, (Rabs_pos_eq (/ INR k)) by (apply Rlt_le, Rinv_0_lt_compat; easy).
  apply (Rmult_le_reg_r (INR k)); [easy|]. rewrite Rmult_assoc, Rinv_l by lra. lra.
Qed.
Lemma clamp_bound m x : Rabs (clamp m x) <= Rabs m.
Proof.
  unfold clamp, Rmin, Rmax. destruct (Rle_dec x (- m)); destruct (Rle_dec _ m); unfold Rabs; repeat destruct (Rcase_abs _); lra.
Qed.
(** no smoothed component exceeds the largest clipped magnitude (in particular not the limit) *)
Theorem C43_bounded : forall v k p out M, v <> [] -> (1 <= k)%nat -> 0 <= p <= 100 ->
  filter_and_smooth (map inV v) k (Fin p) = Ok (map inV out) ->
  exists m, is_percentile (components v) p m /\ length out = length v /\
    (Forall (fun x => Rabs (clamp m x) <= M) (components v) -> Forall (fun x => Rabs x <= M) (components out)) /\
    Forall (fun x => Rabs x <= Rabs m) (components out).
Proof.
  intros v k p out M NE K P H. destruct (C43_filter v k p NE K P) as (m & PM & E). exists m. split; [easy|].
  rewrite E in H.
  assert (EO : out = map (smoothed m k v) (seq 0 (length v))).
  { injection H as H. clear - H. revert H. generalize (map (smoothed m k v) (seq 0 (length v))). clear.
    intros l. revert out. induction l as [|x l IH]; intros [|y out] H; cbn [map] in H; try discriminate; [easy|].
    injection H as X1 X2 X3 H. f_equal; [|now apply IH]. destruct x, y. cbn in *. congruence. }
  split; [rewrite EO, map_length; apply seq_length|].
  assert (G : forall M', Forall (fun x => Rabs (clamp m x) <= M') (components v) -> Forall (fun x => Rabs x <= M') (components out)).
  { intros M' F. assert (M0 : 0 <= M').
    { destruct v as [|x v]; [easy|]. inversion F; subst. pose proof (Rabs_pos (clamp m (v1 x))). lra. }
    assert (FF : forall g, (g = v1 \/ g = v2 \/ g = v3) -> Forall (fun x => Rabs x <= M') (map (fun r => clamp m (g r)) v)).
    { intros g HG. apply Forall_forall. intros x I. apply in_map_iff in I as (r & <- & I). rewrite Forall_forall in F. apply F.
      unfold components. apply in_flat_map. exists r. split; [easy|]. cbn. destruct HG as [->|[-> | ->]]; tauto. }
    apply Forall_forall. intros x I. unfold components in I. apply in_flat_map in I as (r & I & J).
    rewrite EO in I. apply in_map_iff in I as (i & <- & I). cbn in J.
    destruct J as [<-|[<-|[<-|[]]]]; apply avg_bound; try easy; apply FF; tauto. }
  split; [apply G|]. apply G. apply Forall_forall. intros; apply clamp_bound.
Qed.

(** ** The norms *)
(** the (half, reversed) rotation rate between two consecutive orientations, see C10; steps of less
    than about half a degree count as no rotation *)
Definition rate (q1 q2 : rq) (dt : R) : rv :=
  let d := pos_w (hmul q1 (hconj q2)) in
  if Rle_dec (Rabs (qs d - 1)) (1 / 1000000000000 + 1 / 100000) then vzero
  else vscale (acos (qs d) / dt / sqrt (1 - qs d * qs d)) (qv d).
Fixpoint rates (qs : list rq) (samples : list R) : list rv :=
  match qs with
  | q :: (q' :: _) as qs' => rate q q' (nth 1 samples 0 - nth 0 samples 0) :: rates qs' (tl samples)
  | _ => []
  end.
Definition increasing (l : list R) : Prop :=
  forall i a b, nth_error l i = Some a -> nth_error l (S i) = Some b -> a < b.
Lemma rates_length qs : forall s, length (rates qs s) = (length qs - 1)%nat.
Proof.
  induction qs as [|q qs IH]; intros s; [easy|]. destruct qs as [|q' qs]; [easy|].
  change (S (length (rates (q' :: qs) (tl s))) = (length (q :: q' :: qs) - 1)%nat). rewrite IH. cbn [length]. lia.
Qed.
Lemma velocities_cons {N : Num} q q' qs s : angular_velocities (N:=N) (q :: q' :: qs) s =
  (do s1 <- index s 1; do s0 <- index s 0; assert ltb n0 (sub s1 s0);
   do rest <- angular_velocities (q' :: qs) (tl s);
   Ok (angular_velocity_between_quaternions q q' (sub s1 s0) :: rest)).
Proof. reflexivity. Qed.
Lemma velocities_in qs : forall s, Forall unitq qs -> (length qs <= length s)%nat -> increasing s ->
  angular_velocities (N:=XR) (inQs qs) (map Fin s) = Ok (map inV (rates qs s)).
Proof.
  unfold inQs. induction qs as [|q qs IH]; intros s U L INC; [easy|]. destruct qs as [|q' qs]; [easy|].
  destruct s as [|s0 [|s1 s]]; cbn [length] in L; try lia.
  assert (LT : s0 < s1) by (now apply (INC 0%nat)).
  inversion U as [|? ? U1 U']; subst. inversion U' as [|? ? U2 _]; subst.
  cbn [map]. rewrite velocities_cons. cbn [index nth_error bind sub XR xsub]. unfold n0. cbn [lit ltb XR xltb].
  change (Rlit 0 0) with 0. rewrite assert_true by (apply Rltb_t; lra).
  cbn [tl]. change (inQ q' :: map inQ qs) with (map inQ (q' :: qs)). change (Fin s1 :: map Fin s) with (map Fin (s1 :: s)).
  change (@T XR) with xr. rewrite IH; [|easy|cbn [length] in *; lia|intros i a b A B; now apply (INC (S i))].
  cbn [bind]. pose proof (angvel_in q q' (s1 - s0) U1 U2 ltac:(lra)) as AV. cbv zeta in AV. rewrite AV.
  cbn [rates nth tl]. reflexivity.
Qed.
Lemma vnorm_in v : vnorm (N:=XR) (inV v) = Fin (len3 v).
Proof.
  unfold vnorm, vdot, len3, dot3. cbn [inV vx vy vz mul add sqrtn XR xmul xadd]. apply xsqrt_fin. nra.
Qed.

(** one non-negative number per pair of consecutive quaternions: the length of the smoothed clipped
    rate *)
Theorem C43_norms : forall qs samples k p,
  Forall unitq qs -> (2 <= length qs <= length samples)%nat -> increasing samples -> (1 <= k)%nat -> 0 <= p <= 100 ->
  exists m norms, is_percentile (components (rates qs samples)) p m /\
    compute_angular_velocity_norms (inQs qs) (map Fin samples) k (Fin p) = Ok (map Fin norms) /\
    length norms = (length qs - 1)%nat /\
    (forall i, (i < length qs - 1)%nat -> nth_error norms i = Some (len3 (smoothed m k (rates qs samples) i))) /\
    Forall (fun x => 0 <= x <= sqrt 3 * Rabs m) norms.
Proof.
  intros qs s k p U [L1 L2] INC K P. set (v := rates qs s). pose proof (rates_length qs s) as LV. fold v in LV.
  assert (NV : v <> []) by (intros E; rewrite E in LV; cbn in LV; lia).
  destruct (C43_filter v k p NV K P) as (m & PM & E).
  set (norms := map (fun i => len3 (smoothed m k v i)) (seq 0 (length v))). exists m, norms. split; [easy|].
  assert (LN : length norms = (length qs - 1)%nat) by (unfold norms; now rewrite map_length, seq_length).
  assert (AT : forall i, (i < length qs - 1)%nat -> nth_error (map (smoothed m k v) (seq 0 (length v))) i = Some (smoothed m k v i)).
  { intros i Hi. rewrite nth_error_map, (nth_error_nth' _ 0%nat) by (rewrite seq_length; lia). rewrite seq_nth by lia. easy. }
  split; [|split; [exact LN|split]].
  - unfold compute_angular_velocity_norms. unfold inQs at 1. destruct qs as [|q0 qs']; [cbn in L1; lia|]. cbn [map]. set (qs := q0 :: qs') in *.
    change (@T XR) with xr. rewrite velocities_in by easy. fold v. cbn [bind]. rewrite E. cbn [bind].
    unfold inQs. rewrite map_length. rewrite (mapM_seq _ (fun i => Fin (len3 (smoothed m k v i)))).
    + cbn [bind]. rewrite assert_true; [|rewrite map_length, seq_length; apply Nat.eqb_refl].
      unfold norms. now rewrite map_map, LV.
    + intros i Hi. rewrite index_map, (index_some _ _ _ (AT i Hi)). cbn [bind]. now rewrite vnorm_in.
  - intros i Hi. unfold norms. rewrite nth_error_map, (nth_error_nth' _ 0%nat) by (rewrite seq_length; lia). now rewrite seq_nth by lia.
  - apply Forall_forall. intros x I. apply in_map_iff in I as (i & <- & _).
    assert (B : forall g, Forall (fun x => Rabs x <= Rabs m) (map (fun r => clamp m (g r)) v)).
    { intros g. apply Forall_forall. intros y J. apply in_map_iff in J as (r & <- & _). apply clamp_bound. }
    pose proof (avg_bound _ k i (Rabs m) K (Rabs_pos m) (B v1)) as B1.
    pose proof (avg_bound _ k i (Rabs m) K (Rabs_pos m) (B v2)) as B2.
    pose proof (avg_bound _ k i (Rabs m) K (Rabs_pos m) (B v3)) as B3.
    unfold len3, smoothed, dot3. cbn [v1 v2 v3]. split; [apply sqrt_pos|].
    pose proof (Rabs_pos m) as MP. rewrite <- (sqrt_square (Rabs m)) by easy. rewrite <- sqrt_mult_alt by lra.
    apply sqrt_le_1_alt.
    assert (SQ : forall y, Rabs y <= Rabs m -> y * y <= Rabs m * Rabs m).
    { intros y Y. rewrite <- (Rabs_mult m m), (Rabs_pos_eq (m * m)) by nra. now apply Rsqr_le_abs_1 in Y. }
    pose proof (SQ _ B1). pose proof (SQ _ B2). pose proof (SQ _ B3). lra.
Qed.
(** whatever the arithmetic: one value per pair, and a pair of samples that does not increase raises *)
Theorem C43_length : forall (N : Num) qs samples k p out,
  compute_angular_velocity_norms (N:=N) qs samples k p = Ok out -> qs <> [] /\ length out = (length qs - 1)%nat.
Proof.
  intros N qs samples k p out H. unfold compute_angular_velocity_norms in H. destruct qs as [|q qs]; [easy|]. split; [easy|].
  apply bind_ok in H as (v & _ & H). apply bind_ok in H as (f & _ & H). apply bind_ok in H as (ns & _ & H).
  apply assert_ok in H as [A H]. injection H as <-. now apply Nat.eqb_eq in A.
Qed.
Theorem C43_not_increasing : forall (N : Num) qs samples k p i a b,
  (length qs <= length samples)%nat -> (S i < length qs)%nat ->
  nth_error samples i = Some a -> nth_error samples (S i) = Some b -> ltb n0 (sub b a) = false ->
  compute_angular_velocity_norms (N:=N) qs samples k p = Err AssertionError.
Proof.
  intros N qs samples k p i a b L I A B C. unfold compute_angular_velocity_norms.
  destruct qs as [|q qs]; [cbn in I; lia|].
  enough (E : angular_velocities (q :: qs) samples = Err AssertionError) by now rewrite E.
  revert q qs samples L I A B. induction i as [|i IH]; intros q qs samples L I A B;
    (destruct qs as [|q' qs]; [cbn in I; lia|]); (destruct samples as [|s0 [|s1 samples]]; cbn [length] in *; try lia);
    rewrite velocities_cons; cbn [index nth_error bind].
  - cbn in A, B. injection A as ->. injection B as ->. now rewrite assert_false.
  - destruct (ltb n0 (sub s1 s0)) eqn:C'; [|now rewrite assert_false]. rewrite assert_true by easy. cbn [tl].
    rewrite IH; [easy|cbn [length] in *; lia|cbn [length] in *; lia|exact A|exact B].
Qed.

(** The limit is a percentile of the signed components, so it is negative when most of them are; then
    clipping replaces every component by the limit. *)
Theorem C43_negative_limit : forall m x, m < 0 -> clamp m x = m.
Proof. intros m x M. unfold clamp, Rmin, Rmax. destruct (Rle_dec x (- m)); destruct (Rle_dec _ m); lra. Qed.
Example C43_negative_limit_example :
  filter_and_smooth (map inV [RV (-1) (-2) (-3)]) 1 (Fin 50) = Ok (map inV [RV (-2) (-2) (-2)]).
Proof.
  destruct (C43_filter [RV (-1) (-2) (-3)] 1 50) as (m & (s & k & w & P & SO & W & K & M) & E); try easy; try lra.
  assert (LS : length s = 3%nat) by (symmetry; apply (Permutation_length P)). rewrite LS in K, M. cbn [Nat.sub INR] in K.
  assert (K1 : (k < 2)%nat) by (apply INR_lt; cbn; lra). assert (K0 : (0 < k)%nat) by (apply INR_lt; cbn; lra).
  assert (k = 1)%nat as -> by lia. assert (w = 0) by (cbn in K; lra). subst w.
  destruct s as [|a [|b [|c [|d s]]]]; try discriminate. cbn in M.
  assert (A1 : a <= b) by (apply (SO 0%nat 1%nat); [lia|easy|easy]). assert (A2 : b <= c) by (apply (SO 1%nat 2%nat); [lia|easy|easy]).
  assert (IA : In a (components [RV (-1) (-2) (-3)])) by (apply (Permutation_in a (Permutation_sym P)); cbn; tauto).
  assert (IB : In b (components [RV (-1) (-2) (-3)])) by (apply (Permutation_in b (Permutation_sym P)); cbn; tauto).
  assert (IC : In c (components [RV (-1) (-2) (-3)])) by (apply (Permutation_in c (Permutation_sym P)); cbn; tauto).
  assert (SUM : a + b + c = -6).
  { assert (S2 : forall l l', Permutation l l' -> Rsum l = Rsum l').
    { clear. unfold Rsum. intros l l' Q. induction Q; cbn [map fold_right] in *; try lra. }
    specialize (S2 _ _ P). cbn in S2. lra. }
  assert (SQ : a * a + b * b + c * c = 14).
  { assert (S2 : forall l l', Permutation l l' -> Rsum (map (fun x => x * x) l) = Rsum (map (fun x => x * x) l')).
    { clear. unfold Rsum. intros l l' Q. induction Q; cbn [map fold_right] in *; try lra. }
    specialize (S2 _ _ P). cbn in S2. lra. }
  cbn in IA, IB, IC.
  assert (B : b = -2) by (destruct IA as [<-|[<-|[<-|[]]]], IB as [<-|[<-|[<-|[]]]], IC as [<-|[<-|[<-|[]]]]; lra).
  assert (M2 : m = -2) by (rewrite M, B; lra). rewrite M2 in E. rewrite E. do 2 f_equal.
  unfold smoothed, moving_average, sig_at. cbn [map length seq Rsum fold_right v1 v2 v3].
  rewrite !C43_negative_limit by lra. simpl. do 2 f_equal; lra.
Qed.
