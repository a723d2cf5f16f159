(** * Property C71: time alignment in double precision. *)

From Coq Require Import Reals ZArith Bool List Lra Lia Psatz.
From Flocq Require Import Core BinarySingleNaN.
From Verif Require Import Num Py Quat DualQuat TimeAlign CsvIo F64 Spec TimeSpec ListFacts ResampleFacts F64Facts FloatFacts PropFloat FloatTime FloatGrid PropFilter PropAligned.
Import ListNotations.
Local Open Scope R_scope.

(** ** Specification *)
(** stamps of at most 1e10 seconds (the year 2286), at least 0.2 ms apart *)
Definition stamps_ok (l : list f64) : Prop :=
  Forall (fun t : f64 => fin t /\ Rabs (V t) <= 10000000000) l /\ spaced (2 / 10000) l.
Definition duration (l : list f64) : R := V (last l zerof) - V (hd zerof l).
Definition mean_gap (l : list f64) : R := duration l / INR (length l - 1).
(** both recordings last at least three mean steps of either recording *)
Definition long_enough (lA lB : list f64) : Prop :=
  (2 <= length lA)%nat /\ (2 <= length lB)%nat /\
  3 * mean_gap lA <= duration lA /\ 3 * mean_gap lB <= duration lA /\ 3 * mean_gap lA <= duration lB /\ 3 * mean_gap lB <= duration lB.
Definition unit_quats {L} (qs : list (@quat (F64 L))) : Prop := Forall (fun q => is_unit_ q = true) qs.

(** ** Resampling at given times *)
(** Sorted finite stamps whose span does not overflow, one unit quaternion each, sample times within the recording: no
    exception, for any number of stamps and samples. *)
Theorem C71_resample : forall L (times : list (@T (F64 L))) (qs : list (@quat (F64 L))) (samples : list (@T (F64 L))),
  times <> [] -> allfin times -> sorted (map V times) -> length qs = length times -> unit_quats qs ->
  fin (Bminus mode_NE (last times zerof) (hd zerof times)) -> Forall (fun s : f64 => fin s /\ V (hd zerof times) <= V s <= V (last times zerof)) samples ->
  exists out, resample_quaternions_from_samples times qs samples = Ok out /\ length out = length samples.
Proof. intros. now apply resample_ok. Qed.

Lemma stamps_fin l : stamps_ok l -> allfin l.
Proof. intros [A _]. eapply Forall_impl; [|exact A]. intros t H. exact (proj1 H). Qed.
Lemma stamps_sorted l : stamps_ok l -> sorted (map V l).
Proof. intros [_ H]. apply (spaced_sorted (2 / 10000)); [lra|exact H]. Qed.
Lemma stamps_hd l : stamps_ok l -> l <> [] -> fin (hd zerof l) /\ Rabs (V (hd zerof l)) <= 10000000000.
Proof. intros [A _] NE. rewrite Forall_forall in A. apply A, hd_In, NE. Qed.
Lemma stamps_last l : stamps_ok l -> l <> [] -> fin (last l zerof) /\ Rabs (V (last l zerof)) <= 10000000000.
Proof. intros [A _] NE. rewrite Forall_forall in A. apply A, last_In, NE. Qed.

(** ** The equally spaced grid *)
(** For a step dt of at least 0.1 ms that fits m times into the recording (1 <= m <= 10), resampling does not raise.  It
    yields d + 1 > m quaternions and sample times: the first and last stamp of the recording, every sample within 12
    microseconds of its exact place, consecutive samples at least 25 microseconds apart. *)
Theorem C71_grid : forall L (times : list (@T (F64 L))) (qs : list (@quat (F64 L))) (dt : @T (F64 L)) m,
  times <> [] -> stamps_ok times -> length qs = length times -> unit_quats qs ->
  fin (dt : f64) -> 1 / 10000 <= V dt -> (1 <= m <= 10)%Z -> IZR m * V dt <= V (Bminus mode_NE (last times zerof) (hd zerof times)) ->
  exists out samples d, resample_quaternions times qs dt = Ok (out, samples) /\ (m <= Z.of_nat d)%Z /\ length out = S d /\ length samples = S d /\
    INR d <= 400000000000000 /\ spaced (25 / 1000000) samples /\ last samples zerof = last times zerof /\
    forall i (s : f64), nth_error samples i = Some s -> fin s /\ V (hd zerof times) <= V s <= V (last times zerof) /\
      Rabs (V s - (V (hd zerof times) + INR i * (duration times / INR d))) <= 12 / 1000000.
Proof.
  intros L times qs dt m NE OK LQ UQ FT DT M MD.
  destruct (stamps_hd times OK NE) as [FH BHd]. destruct (stamps_last times OK NE) as [FL BL].
  destruct (count_ok L (hd zerof times) (last times zerof) dt m FH FL BHd BL FT DT M MD) as (d & ET & MDn & DD).
  unfold resample_quaternions. change (@T (F64 L)) with f64 in *. rewrite (py_index_last times zerof NE). cbn [bind].
  assert (E0 : py_index times 0 = Ok (hd zerof times)) by (destruct times; [contradiction|reflexivity]). rewrite E0. cbn [bind].
  set (a := hd zerof times) in *. set (b := last times zerof) in *.
  assert (D1 : (1 <= d)%nat) by lia. pose proof (grid_d a b d BHd BL D1 DD) as GD.
  assert (EL : linspace (N:=F64 L) a b (add (Num:=F64 L) (div (Num:=F64 L) (sub (Num:=F64 L) b a) dt) (n1 (N:=F64 L))) = Ok (grid L a b d)).
  { unfold linspace. change (add (Num:=F64 L) (div (Num:=F64 L) (sub (Num:=F64 L) b a) dt) (n1 (N:=F64 L))) with (Bplus mode_NE (Bdiv mode_NE (Bminus mode_NE b a) dt) (n1 (N:=F64 L))).
    rewrite ET. destruct (Z.ltb_spec (Z.of_nat (S d)) 0); [lia|]. rewrite Nat2Z.id. destruct d as [|d']; [lia|]. reflexivity. }
  rewrite EL. cbn [bind].
  assert (FS : Forall (fun s : f64 => fin s /\ V a <= V s <= V b) (grid L a b d)).
  { apply Forall_forall. intros s I. apply In_nth_error in I as (i & I). destruct (grid_near L a b d FH FL BHd BL D1 DD i s I) as (F & G & _). exact (conj F G). }
  pose proof big_huge as BH. assert (FSP : fin (Bminus mode_NE b a)).
  { apply Rabs_le_inv in BHd. apply Rabs_le_inv in BL. apply (sub_ok b a FL FH). absle; lra. }
  destruct (resample_ok L times qs (grid L a b d) NE (stamps_fin _ OK) (stamps_sorted _ OK) LQ UQ FSP FS) as (out & ER & LO).
  change (@T (F64 L)) with f64 in *. rewrite ER. cbn [bind]. exists out, (grid L a b d), d. split; [reflexivity|]. split; [exact MDn|]. split; [exact (eq_trans LO (grid_length L a b d D1))|].
  split; [exact (grid_length L a b d D1)|]. split; [apply GD|]. split; [intros i x y; now apply (grid_gap L a b d FH FL BHd BL D1 DD)|]. split; [unfold grid; apply last_last|].
  intros i s I. exact (grid_near L a b d FH FL BHd BL D1 DD i s I).
Qed.

(** ** The time offset *)
(** the mean step and the chosen step *)
Lemma mean_gap_near L (l : list f64) : (2 <= length l)%nat -> stamps_ok l ->
  fin (mean (N:=F64 L) (diff (N:=F64 L) l) : f64) /\ 2 / 10000 <= mean_gap l /\ 95 / 100 * mean_gap l <= V (mean (N:=F64 L) (diff (N:=F64 L) l)) <= 105 / 100 * mean_gap l.
Proof.
  intros LL [A SP]. destruct (mean_near L (2 / 10000) l ltac:(lra) LL A SP) as (F & K & N1 & E). fold (duration l) in *. fold (mean_gap l) in E.
  assert (NE : l <> []) by (destruct l; [cbn in LL; lia|discriminate]).
  destruct (stamps_hd l (conj A SP) NE) as [_ B1]. destruct (stamps_last l (conj A SP) NE) as [_ B2]. apply Rabs_le_inv in B1. apply Rabs_le_inv in B2.
  assert (DB : duration l <= 20000000000) by (unfold duration; lra). set (n := INR (length l - 1)) in *.
  assert (NB : n <= 100000000000000) by lra.
  assert (MG : 2 / 10000 <= mean_gap l).
  { unfold mean_gap. fold n. apply Rmult_le_reg_r with n; [lra|]. unfold Rdiv at 2. rewrite Rmult_assoc, Rinv_l, Rmult_1_r by lra. lra. }
  split; [exact F|]. split; [exact MG|].
  assert (C : 0 <= 4 * u * n + 1 / 1000 <= 46 / 1000) by (nums; lra).
  assert ((4 * u * n + 1 / 1000) * mean_gap l <= 46 / 1000 * mean_gap l) by (apply Rmult_le_compat_r; lra).
  apply Rabs_le_inv in E. lra.
Qed.
Lemma duration_near (l : list f64) : l <> [] -> stamps_ok l -> 0 <= duration l -> 999 / 1000 * duration l - 1 / 1000000 <= V (Bminus mode_NE (last l zerof) (hd zerof l)).
Proof.
  intros NE OK D0. destruct (stamps_hd l OK NE) as [F1 B1]. destruct (stamps_last l OK NE) as [F2 B2]. apply Rabs_le_inv in B1. apply Rabs_le_inv in B2. pose proof big_huge as BH.
  destruct (sub_ok (last l zerof) (hd zerof l) F2 F1) as [_ E]; [absle; lra|]. rewrite E. fold (duration l).
  pose proof (rnd_error (duration l)) as R. rewrite (Rabs_pos_eq (duration l)) in R by lra. apply Rabs_le_inv in R. nums. lra.
Qed.

Lemma percentile_ok L (l : list (@T (F64 L))) (p : @T (F64 L)) : l <> [] -> (Z.of_nat (length l) <= 2 ^ 53)%Z -> fin (p : f64) -> 0 <= V p <= 100 ->
  exists m, percentile l p = Ok m.
Proof.
  intros NE LL FP P. unfold percentile. destruct l as [|x l]; [contradiction|]. set (xs := x :: l) in *. clearbody xs.
  destruct (lit_int L 0 ltac:(lia)) as [F0 V0]. destruct (lit_int L 100 ltac:(lia)) as [F100 V100].
  assert (C0 : ltb (Num:=F64 L) p (n0 (N:=F64 L)) = false).
  { destruct (ltb (Num:=F64 L) p (n0 (N:=F64 L))) eqn:C; [|reflexivity]. change (Bltb p (lit (Num:=F64 L) 0 0) = true) in C. apply ltb_V in C; [lra|exact FP|exact F0]. }
  assert (C1 : ltb (Num:=F64 L) (lit (Num:=F64 L) 100 0) p = false).
  { destruct (ltb (Num:=F64 L) (lit (Num:=F64 L) 100 0) p) eqn:C; [|reflexivity]. change (Bltb (lit (Num:=F64 L) 100 0) p = true) in C. apply ltb_V in C; [lra|exact F100|exact FP]. }
  rewrite C0, C1. cbn [orb]. destruct (existsb isnan xs); [eexists; reflexivity|].
  assert (LS : length (sort xs) = length xs).
  { unfold sort. clear. induction xs as [|x xs IH]; [reflexivity|]. cbn [fold_right length]. rewrite <- IH. generalize (fold_right insert [] xs). intros l.
    induction l as [|y l IHl]; [reflexivity|]. cbn [insert]. destruct (ltb y x); cbn [length]; [now rewrite IHl|reflexivity]. }
  rewrite LS. destruct (of_nat_V L (length xs - 1)) as [Fn Vn]; [lia|]. pose proof big_huge as BH.
  assert (PQ : 0 <= V p / 100 <= 1) by lra.
  destruct (div_ok p (lit (Num:=F64 L) 100 0) FP) as [FD ED]; [lra|rewrite V100, Rabs_pos_eq; lra|]. rewrite V100 in ED.
  destruct (of_Z_V 1 ltac:(lia)) as [F1 V1].
  assert (DB : 0 <= V (Bdiv mode_NE p (lit (Num:=F64 L) 100 0)) <= 1).
  { rewrite ED. split; [apply rnd_pos; lra|]. rewrite <- V1, <- (rnd_self (f_of_Z 1)), V1. apply rnd_le. lra. }
  assert (NB : 0 <= INR (length xs - 1) <= 10000000000000000).
  { split; [apply pos_INR|]. rewrite INR_IZR_INZ. apply IZR_le. lia. }
  set (dv := Bdiv mode_NE p (lit (Num:=F64 L) 100 0)) in *.
  assert (PB : 0 <= V dv * INR (length xs - 1) <= 10000000000000000) by nra.
  destruct (mul_ok dv (of_nat (N:=F64 L) (length xs - 1)) FD Fn) as [FM _]; [rewrite Vn, Rabs_pos_eq; lra|].
  change (div (Num:=F64 L) p (lit (Num:=F64 L) 100 0)) with dv. change (mul (Num:=F64 L) dv ?y) with (Bmult mode_NE dv y).
  change (trunc (Num:=F64 L) ?z) with (if is_finite z then Some (Btrunc z) else None). rewrite FM. eexists. reflexivity.
Qed.

Lemma correlate_full_length {N : Num} (x y : list T) : x <> [] -> y <> [] -> length (correlate_full x y) = (length x + length y - 1)%nat.
Proof. intros X Y. unfold correlate_full. destruct x; [contradiction|]. destruct y; [contradiction|]. now rewrite map_length, seq_length. Qed.
Lemma correlate_same_length {N : Num} (x y : list T) : x <> [] -> y <> [] -> length (correlate_same x y) = length x.
Proof.
  intros X Y. unfold correlate_same. rewrite firstn_length, skipn_length, correlate_full_length by assumption.
  assert (1 <= length y)%nat by (destruct y; [contradiction|cbn; lia]). pose proof (Nat.div_le_upper_bound (length y - 1) 2 (length y - 1)). lia.
Qed.
Lemma filter_ok L (v : list (@vec3 (F64 L))) k (p : @T (F64 L)) : v <> [] -> (1 <= k)%nat -> INR (length v) <= 400000000000000 -> fin (p : f64) -> 0 <= V p <= 100 ->
  exists out, filter_and_smooth v k p = Ok out /\ length out = length v.
Proof.
  intros NE K LV FP P. unfold filter_and_smooth.
  assert (LF : length (flatten3 v) = (3 * length v)%nat) by (clear; induction v as [|x v IH]; [reflexivity|]; change (flatten3 (x :: v)) with ([vx x; vy x; vz x] ++ flatten3 v); rewrite app_length, IH; cbn [length]; lia).
  destruct (percentile_ok L (flatten3 v) p) as (m & E).
  - destruct v; [contradiction|discriminate].
  - rewrite LF. apply INR_Z in LV. lia.
  - exact FP.
  - exact P.
  - rewrite E. cbn [bind]. destruct k as [|k]; [lia|]. eexists. split; [reflexivity|].
    set (ker := repeat _ (S k)). assert (NK : ker <> []) by discriminate.
    assert (NM : forall f : vec3 -> @T (F64 L), map f v <> []) by (intros f; destruct v; [contradiction|discriminate]).
    rewrite map_length, !combine_length, !correlate_same_length, !map_length by (exact NK || apply NM). lia.
Qed.
Lemma velocities_ok L (qs : list (@quat (F64 L))) : forall samples : list (@T (F64 L)), length qs = length samples -> allfin samples -> Forall (fun t : f64 => Rabs (V t) <= 10000000000) samples -> spaced (25 / 1000000) samples ->
  exists v, angular_velocities qs samples = Ok v /\ length v = (length qs - 1)%nat.
Proof.
  induction qs as [|q qs IH]; intros s LL FT BT SP; [now exists []|]. destruct qs as [|q' qs]; [now exists []|].
  destruct s as [|s0 [|s1 s]]; try discriminate LL. inversion FT as [|? ? F0 FT']; subst. inversion FT' as [|? ? F1 _]; subst. inversion BT as [|? ? B0 BT']; subst. inversion BT' as [|? ? B1 _]; subst.
  destruct (IH (s1 :: s)) as (v & E & LV); [cbn in *; lia|exact FT'|exact BT'|exact (spaced_tl _ _ _ SP)|].
  rewrite velocities_cons. cbn [index nth_error bind tl]. rewrite E.
  pose proof (SP 0%nat s0 s1 eq_refl eq_refl) as GAP. apply Rabs_le_inv in B0. apply Rabs_le_inv in B1. pose proof big_huge as BH.
  destruct (sub_ok s1 s0 F1 F0) as [FD ED]; [absle; lra|]. pose proof (diff_pos s0 s1 ltac:(lra)) as DP. rewrite <- ED in DP.
  destruct (of_Z_V 0 ltac:(lia)) as [Fz Vz].
  assert (C : ltb (Num:=F64 L) (n0 (N:=F64 L)) (sub (Num:=F64 L) s1 s0) = true).
  { change (Bltb zerof (Bminus mode_NE s1 s0) = true). apply ltb_V; [exact Fz|exact FD|lra]. }
  rewrite C. cbn [assert_ bind]. eexists. split; [reflexivity|]. cbn [length] in *. lia.
Qed.
Lemma norms_ok L (qs : list (@quat (F64 L))) (samples : list (@T (F64 L))) k (p : @T (F64 L)) : (2 <= length qs)%nat -> length qs = length samples -> INR (length qs - 1) <= 400000000000000 ->
  allfin samples -> Forall (fun t : f64 => Rabs (V t) <= 10000000000) samples -> spaced (25 / 1000000) samples -> (1 <= k)%nat -> fin (p : f64) -> 0 <= V p <= 100 ->
  exists out, compute_angular_velocity_norms qs samples k p = Ok out /\ length out = (length qs - 1)%nat.
Proof.
  intros L2 LL LB FT BT SP K FP P. destruct (velocities_ok L qs samples LL FT BT SP) as (v & EV & LV).
  unfold compute_angular_velocity_norms. destruct qs as [|q qs]; [cbn in L2; lia|]. set (Q := q :: qs) in *. rewrite EV. cbn [bind].
  destruct (filter_ok L v k p) as (f & EF & LF); [intros ->; cbn in LV; cbn in L2; lia|exact K|rewrite LV; exact LB|exact FP|exact P|].
  rewrite EF. cbn [bind]. rewrite (mapM_seq _ (fun i => vnorm (nth i f (mkV (n0 (N:=F64 L)) n0 n0)))).
  - cbn [bind]. rewrite map_length, seq_length, Nat.eqb_refl. cbn [assert_ bind]. eexists. split; [reflexivity|]. now rewrite map_length, seq_length.
  - intros i Hi. rewrite (index_nth f i (mkV (n0 (N:=F64 L)) n0 n0)) by lia. reflexivity.
Qed.
Lemma argmax_from_bound {N : Num} (l : list T) : forall bi b i, (bi < i)%nat -> (argmax_from bi b i l < i + length l)%nat.
Proof.
  induction l as [|x l IH]; intros bi b i H; cbn [argmax_from length]; [lia|]. destruct (ltb b x); [specialize (IH i x (S i))|specialize (IH bi b (S i))]; lia.
Qed.
Lemma argmax_ok {N : Num} (l : list T) : l <> [] -> exists i, argmax l = Ok i /\ (i < length l)%nat.
Proof. intros NE. destruct l as [|x l]; [contradiction|]. eexists. split; [reflexivity|]. pose proof (argmax_from_bound l 0 x 1 ltac:(lia)). cbn [length]. lia. Qed.

(** the offset from two signals is a finite number if the first time grid has at least two points *)
Lemma offset_ok L (tA sA tB sB : list (@T (F64 L))) : (2 <= length tA)%nat -> sA <> [] -> sB <> [] -> tB <> [] -> INR (length sA) <= 400000000000000 -> INR (length sB) <= 400000000000000 ->
  Forall (fun t : f64 => fin t /\ Rabs (V t) <= 10000000000) tA -> spaced (25 / 1000000) tA -> Forall (fun t : f64 => fin t /\ Rabs (V t) <= 10000000000) tB ->
  exists o, calculate_time_offset_from_signals tA sA tB sB = Ok o /\ fin (o : f64) /\ Rabs (V o) <= 100000000000000000000000000000.
Proof.
  intros L2 NA NB NT LA LB BA SA BB. unfold calculate_time_offset_from_signals.
  destruct (argmax_ok (correlate_full sB sA)) as (i & EI & LI).
  { intros E. pose proof (correlate_full_length sB sA NB NA) as LE. rewrite E in LE. destruct sA; [contradiction|]. destruct sB; [contradiction|]. cbn in LE. lia. }
  rewrite EI. cbn [bind]. rewrite correlate_full_length in LI by assumption.
  destruct tB as [|b0 tB]; [contradiction|]. destruct tA as [|a0 tA]; [cbn in L2; lia|]. cbn [index nth_error bind].
  destruct (mean_near L (25 / 1000000) (a0 :: tA) ltac:(lra) L2 BA SA) as (FM & K & N1 & E).
  set (dtA := mean (N:=F64 L) (diff (N:=F64 L) (a0 :: tA))) in *.
  assert (B0 : fin b0 /\ Rabs (V b0) <= 10000000000) by now inversion BB. assert (A0 : fin a0 /\ Rabs (V a0) <= 10000000000) by now inversion BA.
  assert (AL : Rabs (V (last (a0 :: tA) zerof)) <= 10000000000) by (rewrite Forall_forall in BA; apply (BA (last (a0 :: tA) zerof)), last_In; discriminate).
  destruct B0 as [Fb Bb]. destruct A0 as [Fa Ba]. cbn [hd] in *. apply Rabs_le_inv in Bb, Ba, AL. change (@T (F64 L)) with f64 in *.
  set (e := V (last (a0 :: tA) zerof) - V a0) in *. set (n := INR (length (a0 :: tA) - 1)) in *.
  assert (EB : e <= 20000000000) by (unfold e; lra). assert (NBd : n <= 800000000000000) by lra.
  assert (W : 0 <= e / n <= 20000000000).
  { assert (EN : e / n * n = e) by (field; lra). assert (0 <= e) by lra. split; [apply Rmult_le_reg_r with n; lra|]. apply Rmult_le_reg_r with n; [lra|]. rewrite EN. nra. }
  set (w := e / n) in *. assert (c0 : 0 <= 4 * u * n + 1 / 1000 <= 1) by (nums; lra).
  assert ((4 * u * n + 1 / 1000) * w <= 1 * w) by (apply Rmult_le_compat_r; lra). apply Rabs_le_inv in E.
  assert (DA : - 20000000000 <= V dtA <= 40000000000) by lra.
  set (z := (Z.of_nat i - Z.of_nat (length sA) + 1)%Z). apply (INR_Z _ 400000000000000) in LA. apply (INR_Z _ 400000000000000) in LB.
  assert (ZB : (Z.abs z <= 1000000000000000)%Z) by (unfold z; lia).
  destruct (lit_int L z ltac:(lia)) as [Fz Vz]. assert (ZR : Rabs (IZR z) <= 1000000000000000) by (rewrite <- abs_IZR; apply IZR_le; exact ZB).
  pose proof big_huge as BH.
  assert (PB : Rabs (V dtA * IZR z) <= 40000000000 * 1000000000000000).
  { rewrite Rabs_mult. apply Rmult_le_compat; [apply Rabs_pos|apply Rabs_pos|absle; lra|exact ZR]. }
  destruct (mul_ok dtA (lit (Num:=F64 L) z 0) FM Fz) as [F1 E1]; [rewrite Vz; lra|]. rewrite Vz in E1. pose proof (rnd_within _ _ PB) as R1. rewrite <- E1 in R1. apply Rabs_le_inv in PB.
  set (x1 := Bmult mode_NE dtA (lit (Num:=F64 L) z 0)) in *. assert (X1 : - 50000000000000000000000000 <= V x1 <= 50000000000000000000000000) by (nums; lra).
  destruct (add_ok x1 b0 F1 Fb) as [F2 E2]; [absle; lra|]. pose proof (rnd_within (V x1 + V b0) 60000000000000000000000000 ltac:(absle; lra)) as R2. rewrite <- E2 in R2.
  set (x2 := Bplus mode_NE x1 b0) in *. assert (X2 : - 70000000000000000000000000 <= V x2 <= 70000000000000000000000000) by (nums; lra).
  destruct (sub_ok x2 a0 F2 Fa) as [F3 E3]; [absle; lra|]. pose proof (rnd_within (V x2 - V a0) 80000000000000000000000000 ltac:(absle; lra)) as R3. rewrite <- E3 in R3.
  exists (Bminus mode_NE x2 a0). split; [reflexivity|]. split; [exact F3|]. absle; nums; lra.
Qed.

(** Two recordings that are long enough: estimating the offset does not raise and yields a finite number, whatever the
    motions, the elementary functions, the kernel sizes and the percentiles. *)
Theorem C71_time_offset : forall L (tA : list (@T (F64 L))) (qA : list (@quat (F64 L))) (tB : list (@T (F64 L))) (qB : list (@quat (F64 L))) (cfg : @filtering_config (F64 L)),
  stamps_ok tA -> stamps_ok tB -> length qA = length tA -> length qB = length tB -> unit_quats qA -> unit_quats qB -> long_enough tA tB ->
  (1 <= smoothing_kernel_size_A cfg)%nat -> (1 <= smoothing_kernel_size_B cfg)%nat ->
  fin (clipping_percentile_A cfg : f64) -> 0 <= V (clipping_percentile_A cfg) <= 100 -> fin (clipping_percentile_B cfg : f64) -> 0 <= V (clipping_percentile_B cfg) <= 100 ->
  exists o, calculate_time_offset tA qA tB qB cfg = Ok o /\ fin (o : f64) /\ Rabs (V o) <= 100000000000000000000000000000.
Proof.
  intros L tA qA tB qB cfg OA OB LA LB UA UB (A2 & B2 & H1 & H2 & H3 & H4) KA KB FPA PA FPB PB.
  destruct (mean_gap_near L tA A2 OA) as (FmA & MA & NA). destruct (mean_gap_near L tB B2 OB) as (FmB & MB & NB).
  assert (NEA : tA <> []) by (destruct tA; [cbn in A2; lia|discriminate]). assert (NEB : tB <> []) by (destruct tB; [cbn in B2; lia|discriminate]).
  pose proof (duration_near tA NEA OA ltac:(lra)) as DA. pose proof (duration_near tB NEB OB ltac:(lra)) as DB.
  unfold calculate_time_offset. change (@T (F64 L)) with f64 in *.
  set (mA := mean (N:=F64 L) (diff (N:=F64 L) tA)) in *. set (mB := mean (N:=F64 L) (diff (N:=F64 L) tB)) in *.
  assert (DT : exists dt : f64, (if leb (Num:=F64 L) mB mA then mA else mB) = dt /\ fin dt /\ (V dt <= 105 / 100 * mean_gap tA \/ V dt <= 105 / 100 * mean_gap tB) /\ 1 / 10000 <= V dt).
  { destruct (leb (Num:=F64 L) mB mA); eexists; (split; [reflexivity|]); (split; [assumption|]); (split; [first [left; lra|right; lra]|lra]). }
  destruct DT as (dt & EDT & FDT & MDT & PDT). change (@T (F64 L)) with f64 in *. rewrite EDT.
  assert (GA : IZR 2 * V dt <= V (Bminus mode_NE (last tA zerof) (hd zerof tA))) by (destruct MDT; lra).
  assert (GB : IZR 2 * V dt <= V (Bminus mode_NE (last tB zerof) (hd zerof tB))) by (destruct MDT; lra).
  destruct (C71_grid L tA qA dt 2 NEA OA LA UA FDT PDT ltac:(lia) GA) as (outA & sA & dA & EA & MdA & LoA & LsA & BdA & SpA & _ & NrA).
  destruct (C71_grid L tB qB dt 2 NEB OB LB UB FDT PDT ltac:(lia) GB) as (outB & sB & dB & EB & MdB & LoB & LsB & BdB & SpB & _ & NrB).
  change (@T (F64 L)) with f64 in *. rewrite EA. cbn [bind]. rewrite EB. cbn [bind].
  assert (SA : Forall (fun t : f64 => fin t /\ Rabs (V t) <= 10000000000) sA).
  { apply Forall_forall. intros s I. apply In_nth_error in I as (i & I). destruct (NrA i s I) as (F & R & _). split; [exact F|].
    destruct (stamps_hd tA OA NEA) as [_ X1]. destruct (stamps_last tA OA NEA) as [_ X2]. apply Rabs_le_inv in X1, X2. absle; lra. }
  assert (SB : Forall (fun t : f64 => fin t /\ Rabs (V t) <= 10000000000) sB).
  { apply Forall_forall. intros s I. apply In_nth_error in I as (i & I). destruct (NrB i s I) as (F & R & _). split; [exact F|].
    destruct (stamps_hd tB OB NEB) as [_ X1]. destruct (stamps_last tB OB NEB) as [_ X2]. apply Rabs_le_inv in X1, X2. absle; lra. }
  assert (P1 : forall l, Forall (fun t : f64 => fin t /\ Rabs (V t) <= 10000000000) l -> allfin l /\ Forall (fun t : f64 => Rabs (V t) <= 10000000000) l).
  { intros l H. split; (eapply Forall_impl; [|exact H]); intros t Ht; apply Ht. }
  destruct (P1 sA SA) as [FsA RsA]. destruct (P1 sB SB) as [FsB RsB].
  assert (LqA : (length outA - 1 = dA)%nat) by lia. assert (LqB : (length outB - 1 = dB)%nat) by lia.
  destruct (norms_ok L outA sA (smoothing_kernel_size_A cfg) (clipping_percentile_A cfg)) as (nA & EnA & LnA); [lia|exact (eq_trans LoA (eq_sym LsA))|rewrite LqA; exact BdA|exact FsA|exact RsA|exact SpA|exact KA|exact FPA|exact PA|].
  destruct (norms_ok L outB sB (smoothing_kernel_size_B cfg) (clipping_percentile_B cfg)) as (nB & EnB & LnB); [lia|exact (eq_trans LoB (eq_sym LsB))|rewrite LqB; exact BdB|exact FsB|exact RsB|exact SpB|exact KB|exact FPB|exact PB|].
  change (@T (F64 L)) with f64 in *. rewrite EnA. cbn [bind]. rewrite EnB. cbn [bind]. rewrite firstn_length, LsA.
  replace (Nat.min (length nA) (S dA)) with (S dA - 1)%nat by lia. rewrite Nat.eqb_refl. cbn [assert_ bind].
  assert (FN : forall k (P : f64 -> Prop) l, Forall P l -> Forall P (firstn k l)).
  { intros k P l H. rewrite Forall_forall in *. intros x I. apply H. revert I. clear. revert k. induction l as [|y l IH]; intros [|k] I; cbn in *; try contradiction. destruct I as [<-|I]; [now left|right; now apply (IH k)]. }
  apply offset_ok.
  - change (@T (F64 L)) with f64. rewrite firstn_length, LsA. lia.
  - intros ->. cbn in LnA. lia.
  - intros ->. cbn in LnB. lia.
  - destruct sB as [|s sB]; [discriminate LsB|]. destruct nB; [cbn in LnB; lia|]. discriminate.
  - change (@T (F64 L)) with f64. rewrite LnA, LqA. exact BdA.
  - change (@T (F64 L)) with f64. rewrite LnB, LqB. exact BdB.
  - apply FN. exact SA.
  - apply spaced_firstn. exact SpA.
  - apply FN. exact SB.
Qed.

(** A grid of two points has a single velocity: the mean of no differences is nan, and so is the offset. *)
Theorem C71_single_velocity_refuted : forall L (tA sA tB sB : list (@T (F64 L))) o,
  length tA = 1%nat -> calculate_time_offset_from_signals tA sA tB sB = Ok o -> isfin (Num:=F64 L) o = false /\ eqb (Num:=F64 L) o o = false.
Proof.
  intros L tA sA tB sB o L1 H. unfold calculate_time_offset_from_signals in H. destruct tA as [|a [|a' tA]]; try discriminate L1.
  destruct (argmax _) as [i|]; [|discriminate H]. cbn [bind] in H. destruct (index tB 0) as [b|]; [|discriminate H]. cbn [bind index nth_error] in H.
  apply (f_equal (fun r => match r with Ok x => x | Err _ => o end)) in H. rewrite <- H. clear.
  assert (E : mean (N:=F64 L) (diff (N:=F64 L) [a]) = B754_nan) by (vm_compute; reflexivity). rewrite E.
  set (z := lit (Num:=F64 L) _ 0). clearbody z.
  change (is_finite (Bminus mode_NE (Bplus mode_NE (Bmult mode_NE B754_nan z) b) a) = false /\ Beqb (Bminus mode_NE (Bplus mode_NE (Bmult mode_NE B754_nan z) b) a) (Bminus mode_NE (Bplus mode_NE (Bmult mode_NE B754_nan z) b) a) = false).
  assert (E1 : Bmult mode_NE (B754_nan : f64) z = B754_nan) by (destruct z; reflexivity). rewrite E1.
  assert (E2 : Bplus mode_NE (B754_nan : f64) b = B754_nan) by (destruct b; reflexivity). rewrite E2.
  assert (E3 : Bminus mode_NE (B754_nan : f64) a = B754_nan) by (destruct a; reflexivity). rewrite E3. split; reflexivity.
Qed.

(** ** Aligned poses *)
Lemma py_index_ok {A} (l : list A) i d : l <> [] -> (i < length l)%nat -> exists x, py_index l (Z.of_nat i - 1) = Ok x /\ In x l /\ (forall k, i = S k -> nth_error l k = Some x) /\ (i = 0%nat -> x = last l d).
Proof.
  intros NE I. destruct i as [|k].
  - change (Z.of_nat 0 - 1)%Z with (-1)%Z. rewrite (py_index_last l d NE). eexists. split; [reflexivity|]. split; [now apply last_In|]. split; [discriminate|reflexivity].
  - replace (Z.of_nat (S k) - 1)%Z with (Z.of_nat k) by lia. rewrite py_index_nat. destruct (nth_error l k) as [x|] eqn:E; [|apply nth_error_None in E; lia].
    rewrite (index_some _ _ _ E). exists x. split; [reflexivity|]. split; [now apply nth_error_In in E|]. split; [intros k' K; injection K as <-; exact E|discriminate].
Qed.
Lemma select_ok L (start : @T (F64 L)) (high : list (@T (F64 L))) : high <> [] -> allfin high -> sorted (map V high) -> fin (start : f64) ->
  forall low : list (@T (F64 L)), allfin low ->
  exists samples, select_samples start high low = Ok samples /\
    Forall (fun s : f64 => In s low /\ V start <= V s <= V (last high zerof)) samples.
Proof.
  intros NE FH SO FS. induction low as [|t low IH]; intros FL; [exists []; split; [reflexivity|apply Forall_nil]|].
  inversion FL as [|? ? FT FL']; subst. destruct (IH FL') as (samples & E & A). clear IH.
  assert (A' : Forall (fun s : f64 => In s (t :: low) /\ V start <= V s <= V (last high zerof)) samples).
  { eapply Forall_impl; [|exact A]. intros s [H1 H2]. split; [now right|exact H2]. }
  cbn [select_samples]. change (ltb (Num:=F64 L) t start) with (Bltb t start).
  destruct (Bltb t start) eqn:C; [exists samples; split; [exact E|exact A']|].
  assert (ST : V start <= V t).
  { destruct (Rle_lt_dec (V start) (V t)); [assumption|]. apply (proj2 (ltb_V t start FT FS)) in r. congruence. }
  destruct (bisect_V L high t FH FT SO) as (i & EB & LE & B & AB). rewrite EB. cbn [bind].
  destruct (Z.leb_spec (Z.of_nat (length high) - 1) (Z.of_nat i)) as [|LT]; [exists []; split; [reflexivity|apply Forall_nil]|].
  change (@T (F64 L)) with f64 in *.
  destruct (nth_error high i) as [r|] eqn:ER; [|apply nth_error_None in ER; lia]. rewrite (index_some _ _ _ ER). cbn [bind].
  pose proof (AB i r ltac:(lia) ER) as TR. pose proof (sorted_ends high r SO (nth_error_In _ _ ER)) as [_ RL].
  assert (KEEP : Forall (fun s : f64 => In s (t :: low) /\ V start <= V s <= V (last high zerof)) (t :: samples)).
  { apply Forall_cons; [|exact A']. split; [now left|lra]. }
  destruct (eqb (Num:=F64 L) t r); [rewrite E; cbn [bind]; exists (t :: samples); split; [reflexivity|exact KEEP]|].
  destruct (py_index_ok high i zerof NE ltac:(lia)) as (x & EX & _). rewrite EX. cbn [bind].
  destruct (ltb (Num:=F64 L) t x); [exists samples; split; [exact E|exact A']|].
  destruct (_ && _); [|exists samples; split; [exact E|exact A']]. rewrite E. cbn [bind]. exists (t :: samples). split; [reflexivity|exact KEEP].
Qed.
Lemma interp_ok {N : Num} x pts : pts <> [] -> exists y, interp (N:=N) x pts = Ok y.
Proof. intros NE. destruct pts as [|[x0 f0] rest]; [contradiction|]. cbn [interp]. destruct (ltb x x0); eexists; reflexivity. Qed.
Lemma column_ok {N : Num} (poses : list (@stamped N)) f samples : poses <> [] ->
  exists ys, mapM (fun s => interp s (map (fun p => (fst p, f (pos (snd p)))) poses)) samples = Ok ys /\ length ys = length samples.
Proof.
  intros NE. induction samples as [|s samples (ys & E & LY)]; [now exists []|]. cbn [mapM].
  match goal with |- context [interp s ?pts] => destruct (interp_ok s pts) as (y & EY) end; [destruct poses; [contradiction|discriminate]|].
  rewrite EY. cbn [bind]. rewrite E. cbn [bind]. exists (y :: ys). cbn [length]. now rewrite LY.
Qed.
Lemma interpolate_ok L (poses : list (@stamped (F64 L))) (samples : list (@T (F64 L))) : poses <> [] -> allfin (stamps poses) -> sorted (map V (stamps poses)) ->
  unit_quats (map (fun p => ori (snd p)) poses) -> fin (Bminus mode_NE (last (stamps poses) zerof) (hd zerof (stamps poses))) ->
  Forall (fun s : f64 => fin s /\ V (hd zerof (stamps poses)) <= V s <= V (last (stamps poses) zerof)) samples ->
  exists out, interpolate_poses_from_samples poses samples = Ok out /\ stamps out = samples.
Proof.
  intros NE FT SO UQ SP A. unfold interpolate_poses_from_samples.
  assert (NE' : stamps poses <> []) by (destruct poses; [contradiction|discriminate]).
  assert (LQ : length (map (fun p => ori (snd p)) poses) = length (stamps poses)) by (unfold stamps; now rewrite !map_length).
  destruct (resample_ok L (stamps poses) (map (fun p => ori (snd p)) poses) samples NE' FT SO LQ UQ SP A) as (qs & EQ & LQS). rewrite EQ. cbn [bind].
  destruct (column_ok poses vx samples NE) as (xs & EX & LX). rewrite EX. cbn [bind].
  destruct (column_ok poses vy samples NE) as (ys & EY & LY). rewrite EY. cbn [bind].
  destruct (column_ok poses vz samples NE) as (zs & EZ & LZ). rewrite EZ. cbn [bind].
  set (z := n0 (N:=F64 L)). set (zq := mkQ z z z z).
  rewrite (mapM_seq _ (fun i => (nth i samples z, mkPose (mkV (nth i xs z) (nth i ys z) (nth i zs z)) (nth i qs zq)))).
  - eexists. split; [reflexivity|]. unfold stamps. rewrite map_map. cbn [fst]. clear. induction samples as [|s samples IH]; [reflexivity|].
    cbn [length seq map nth]. f_equal. rewrite <- seq_shift, map_map. exact IH.
  - intros i Hi. rewrite (index_nth samples i z Hi), (index_nth xs i z), (index_nth ys i z), (index_nth zs i z), (index_nth qs i zq) by lia. reflexivity.
Qed.
Lemma allclose_same L (l : list (@T (F64 L))) : allfin l -> allclose (lit (Num:=F64 L) 1 (-8)) l l = true.
Proof.
  intros F. induction F as [|x l FX F IH]; [reflexivity|]. cbn [allclose]. rewrite IH, andb_true_r. destruct lit_8 as [F8 B8].
  apply isclose_same; [exact F8|change (lit (Num:=F64 L) 1 (-8)) with (f_lit 1 (-8)); lra|exact FX|exact FX|reflexivity].
Qed.

(** stamps within 1e10 s shifted by a finite offset *)
Lemma shift_ok (o : f64) (l : list f64) : fin o -> Rabs (V o) <= 100000000000000000000000000000 -> l <> [] -> allfin l -> Forall (fun t : f64 => Rabs (V t) <= 10000000000) l -> sorted (map V l) ->
  let l' := map (fun t => Bplus mode_NE t o) l in allfin l' /\ Forall (fun t : f64 => Rabs (V t) <= 1000000000000000000000000000000) l' /\ sorted (map V l').
Proof.
  intros FO BO NE FL BL SO. cbv zeta. pose proof big_huge as BH. assert (BO' := Rabs_le_inv _ _ BO).
  assert (K : forall t : f64, In t l -> fin (Bplus mode_NE t o) /\ V (Bplus mode_NE t o) = rnd (V t + V o) /\ Rabs (V (Bplus mode_NE t o)) <= 1000000000000000000000000000000).
  { intros t I. rewrite Forall_forall in FL, BL. pose proof (Rabs_le_inv _ _ (BL t I)) as B. destruct (add_ok t o (FL t I) FO) as [F E]; [absle; lra|]. split; [exact F|]. split; [exact E|]. rewrite E.
    pose proof (rnd_within (V t + V o) 200000000000000000000000000000 ltac:(absle; lra)). absle; nums; lra. }
  split; [|split].
  - apply Forall_forall. intros x I. apply in_map_iff in I as (t & <- & I). apply (K t I).
  - apply Forall_forall. intros x I. apply in_map_iff in I as (t & <- & I). apply (K t I).
  - intros i j a b IJ A B. rewrite map_map in A, B. unfold f64 in *.
    destruct (nth_error l i) as [ta|] eqn:EA; [|rewrite nth_error_map, EA in A; discriminate A]. rewrite nth_error_map, EA in A. injection A as <-.
    destruct (nth_error l j) as [tb|] eqn:EB; [|rewrite nth_error_map, EB in B; discriminate B]. rewrite nth_error_map, EB in B. injection B as <-.
    destruct (K ta (nth_error_In _ _ EA)) as (_ & -> & _). destruct (K tb (nth_error_In _ _ EB)) as (_ & -> & _). apply rnd_le.
    pose proof (SO i j (V ta) (V tb) IJ (map_nth_error V i l EA) (map_nth_error V j l EB)). lra.
Qed.

(** Aligning two recordings with sorted finite stamps by any finite offset does not raise.  Both results have the same
    stamps, and these are (shifted) stamps of one of the recordings. *)
Theorem C71_aligned : forall L (A B : list (@stamped (F64 L))) (o : @T (F64 L)),
  A <> [] -> B <> [] -> allfin (stamps A) -> allfin (stamps B) -> sorted (map V (stamps A)) -> sorted (map V (stamps B)) ->
  Forall (fun t : f64 => Rabs (V t) <= 10000000000) (stamps A) -> Forall (fun t : f64 => Rabs (V t) <= 10000000000) (stamps B) ->
  unit_quats (map (fun p => ori (snd p)) A) -> unit_quats (map (fun p => ori (snd p)) B) ->
  fin (o : f64) -> Rabs (V o) <= 100000000000000000000000000000 ->
  exists a b, compute_aligned_poses A B o = Ok (a, b) /\ stamps a = stamps b /\ length a = length b /\
    Forall (fun s : f64 => In s (stamps B) \/ exists t, In t (stamps A) /\ s = Bplus mode_NE t o) (stamps a).
Proof.
  intros L A B o NA NB FA FB SA SB BA BB UA UB FO BO.
  destruct (shift_ok o (stamps A) FO BO ltac:(destruct A; [contradiction|discriminate]) FA BA SA) as (FA' & BA' & SA').
  unfold compute_aligned_poses. cbv zeta. match goal with |- context [index (stamps ?l) 0] => set (sh := l) end.
  assert (EST : stamps sh = map (fun t => Bplus mode_NE t o) (stamps A)) by (unfold sh, stamps; now rewrite !map_map).
  rewrite <- EST in FA', BA', SA'.
  assert (NSH : sh <> []) by (unfold sh; destruct A; [contradiction|discriminate]).
  assert (NSA : stamps sh <> []) by (destruct sh; [contradiction|discriminate]). assert (NSB : stamps B <> []) by (destruct B; [contradiction|discriminate]).
  assert (UA' : unit_quats (map (fun p => ori (snd p)) sh)) by (unfold sh; rewrite map_map; exact UA).
  assert (E1 : index (stamps sh) 0 = Ok (hd zerof (stamps sh))) by (destruct (stamps sh); [contradiction|reflexivity]).
  assert (E2 : index (stamps B) 0 = Ok (hd zerof (stamps B))) by (destruct (stamps B); [contradiction|reflexivity]).
  rewrite E1. cbn [bind]. rewrite E2. cbn [bind]. set (hA := hd zerof (stamps sh)) in *. set (hB := hd zerof (stamps B)) in *.
  assert (FhA : fin hA) by (rewrite Forall_forall in FA'; apply FA'; now apply hd_In). assert (FhB : fin hB) by (rewrite Forall_forall in FB; apply FB; now apply hd_In).
  set (start := py_max (N:=F64 L) hA hB).
  assert (ST : fin (start : f64) /\ V hA <= V start /\ V hB <= V start).
  { unfold start, py_max. change (ltb (Num:=F64 L) hA hB) with (Bltb hA hB). destruct (Bltb hA hB) eqn:C.
    - apply ltb_V in C; [|assumption|assumption]. split; [exact FhB|lra].
    - split; [exact FhA|]. destruct (Rle_lt_dec (V hB) (V hA)); [lra|]. apply (proj2 (ltb_V hA hB FhA FhB)) in r. congruence. }
  destruct ST as (FS & S1 & S2).
  assert (SPAN : forall l : list f64, l <> [] -> allfin l -> Forall (fun t : f64 => Rabs (V t) <= 1000000000000000000000000000000) l -> fin (Bminus mode_NE (last l zerof) (hd zerof l))).
  { intros l NE F Bd. rewrite Forall_forall in F, Bd. pose proof (Rabs_le_inv _ _ (Bd _ (last_In l zerof NE))) as X1. pose proof (Rabs_le_inv _ _ (Bd _ (hd_In l zerof NE))) as X2.
    pose proof big_huge. apply sub_ok; [apply F, last_In, NE|apply F, hd_In, NE|absle; lra]. }
  assert (BB' : Forall (fun t : f64 => Rabs (V t) <= 1000000000000000000000000000000) (stamps B)) by (eapply Forall_impl; [|exact BB]; cbv beta; intros; lra).
  assert (K : forall samples : list (@T (F64 L)), Forall (fun s : f64 => fin s /\ (In s (stamps B) \/ In s (stamps sh)) /\ V start <= V s /\ V s <= V (last (stamps sh) zerof) /\ V s <= V (last (stamps B) zerof)) samples ->
    exists a b, (do aligned_A <- interpolate_poses_from_samples sh samples; do aligned_B <- interpolate_poses_from_samples B samples;
      assert (length aligned_A =? length aligned_B)%nat; assert allclose (lit 1 (-8)) (stamps aligned_A) (stamps aligned_B); Ok (aligned_A, aligned_B)) = Ok (a, b) /\
      stamps a = stamps b /\ length a = length b /\ Forall (fun s : f64 => In s (stamps B) \/ exists t, In t (stamps A) /\ s = Bplus mode_NE t o) (stamps a)).
  { intros samples H.
    destruct (interpolate_ok L sh samples NSH FA' SA' UA' (SPAN (stamps sh) NSA FA' BA')) as (a & EA & SaE).
    { eapply Forall_impl; [|exact H]. cbv beta. intros s (F & _ & X1 & X2 & X3). fold hA. split; [exact F|lra]. }
    destruct (interpolate_ok L B samples NB FB SB UB (SPAN (stamps B) NSB FB BB')) as (b & EB & SbE).
    { eapply Forall_impl; [|exact H]. cbv beta. intros s (F & _ & X1 & X2 & X3). fold hB. split; [exact F|lra]. }
    rewrite EA. cbn [bind]. rewrite EB. cbn [bind].
    assert (LL : length a = length b).
    { pose proof (f_equal (@length _) (eq_trans SaE (eq_sym SbE))) as X. unfold stamps in X. rewrite !map_length in X. exact X. }
    match goal with |- context [(?x =? ?y)%nat] => replace (x =? y)%nat with true by (symmetry; apply Nat.eqb_eq; exact LL) end. cbn [assert_ bind]. rewrite SaE, SbE, allclose_same by (eapply Forall_impl; [|exact H]; cbv beta; intros s Hs; apply Hs). cbn [assert_ bind].
    exists a, b. split; [reflexivity|]. rewrite SaE, SbE. split; [reflexivity|]. split; [exact LL|].
    eapply Forall_impl; [|exact H]. cbv beta. intros s (_ & [I|I] & _); [now left|right]. rewrite EST in I. apply in_map_iff in I as (t & <- & I). now exists t. }
  destruct (leb _ _).
  - destruct (select_ok L start (stamps B) NSB FB SB FS (stamps sh) FA') as (samples & ES & AS). rewrite ES. cbn [bind]. apply K.
    eapply Forall_impl; [|exact AS]. cbv beta. intros s (I & X). split; [rewrite Forall_forall in FA'; now apply FA'|]. split; [now right|]. destruct (sorted_ends (stamps sh) s SA' I) as [_ Y]. split; [exact (proj1 X)|]. split; [exact Y|exact (proj2 X)].
  - destruct (select_ok L start (stamps sh) NSA FA' SA' FS (stamps B) FB) as (samples & ES & AS). rewrite ES. cbn [bind]. apply K.
    eapply Forall_impl; [|exact AS]. cbv beta. intros s (I & X). split; [rewrite Forall_forall in FB; now apply FB|]. split; [now left|]. destruct (sorted_ends (stamps B) s SB I) as [_ Y]. split; [exact (proj1 X)|]. split; [exact (proj2 X)|exact Y].
Qed.

(** ** The alignment program *)
(** For two files whose rows have quaternions with a finite computed norm above 1e-8, stamps up to 1e10 s that are at
    least 0.2 ms apart, and that last at least three mean steps: the program does not raise, in both quaternion formats.
    The offset is finite, and the two results have equal length and equal stamps. *)
Definition good_rows {L} (rows : list (@stamped (F64 L))) : Prop :=
  stamps_ok (@stamps (F64 L) rows) /\
  Forall (fun r : @stamped (F64 L) => isfin (Num:=F64 L) (qnorm (ori (snd r))) = true /\ ltb (Num:=F64 L) (lit (Num:=F64 L) 1 (-8)) (qnorm (ori (snd r))) = true) rows.
Theorem C71_program : forall L (rows_B_H rows_W_E : list (@stamped (F64 L))) jpl,
  good_rows rows_B_H -> good_rows rows_W_E -> long_enough (@stamps (F64 L) rows_B_H) (@stamps (F64 L) rows_W_E) ->
  exists a b o, compute_aligned_poses_main rows_B_H rows_W_E jpl = Ok (a, b, o) /\ fin (o : f64) /\ stamps a = stamps b /\ length a = length b.
Proof.
  intros L rA rB jpl [OA GA] [OB GB] LE. assert (LE' := LE). destruct LE' as (A2 & B2 & _).
  assert (NA : rA <> []) by (destruct rA; [cbn in A2; lia|discriminate]). assert (NB : rB <> []) by (destruct rB; [cbn in B2; lia|discriminate]).
  destruct (C70_read L rA jpl NA GA) as (rA' & qA & EA & SA & RA & QA). destruct (C70_read L rB jpl NB GB) as (rB' & qB & EB & SB & RB & QB).
  unfold compute_aligned_poses_main. rewrite EA. cbn [bind]. rewrite EB. cbn [bind].
  assert (U : forall (X Y : Type) (P : X -> Y -> Prop) (Q : Y -> Prop) l k, Forall2 P l k -> (forall x y, P x y -> Q y) -> Forall Q k).
  { intros X Y P Q l k H I. induction H as [|x y l k Pxy H IH]; [apply Forall_nil|]. apply Forall_cons; [now apply (I x)|exact IH]. }
  assert (ST : forall r r' : list (@stamped (F64 L)), map (fun r => (fst r, pos (snd r))) r' = map (fun r => (fst r, pos (snd r))) r -> stamps r' = stamps r).
  { intros r r' H. apply (f_equal (map fst)) in H. rewrite !map_map in H. exact H. }
  apply ST in SA. apply ST in SB.
  destruct (C71_time_offset L (stamps rA) qA (stamps rB) qB default_filtering OA OB) as (o & EO & FO & BO).
  - unfold stamps. rewrite map_length. symmetry. exact (Forall2_len _ _ _ QA).
  - unfold stamps. rewrite map_length. symmetry. exact (Forall2_len _ _ _ QB).
  - refine (U _ _ _ _ _ _ QA _). intros x y (_ & _ & H). exact H.
  - refine (U _ _ _ _ _ _ QB _). intros x y (_ & _ & H). exact H.
  - exact LE.
  - cbn. lia.
  - cbn. lia.
  - vm_compute. reflexivity.
  - change (clipping_percentile_A default_filtering) with (f_lit 995 (-1)). destruct (of_Z_V 0 ltac:(lia)) as [F0 V0]. destruct (of_Z_V 100 ltac:(lia)) as [F1 V1]. rewrite <- V0, <- V1 at 1.
    split; apply leb_V; try assumption; vm_compute; reflexivity.
  - vm_compute. reflexivity.
  - change (clipping_percentile_B default_filtering) with (f_lit 99 0). destruct (lit_int L 99 ltac:(lia)) as [_ E]. change (lit (Num:=F64 L) 99 0) with (f_lit 99 0) in E. rewrite E. lra.
  - change (map fst rA) with (stamps rA). change (map fst rB) with (stamps rB). rewrite EO. cbn [bind].
    assert (P1 : forall l, stamps_ok l -> Forall (fun t : f64 => Rabs (V t) <= 10000000000) l) by (intros l [H _]; eapply Forall_impl; [|exact H]; intros t Ht; apply Ht).
    destruct (C71_aligned L rA' rB' o) as (a & b & EC & S1 & L1 & _).
    + intros ->. inversion RA. subst. contradiction.
    + intros ->. inversion RB. subst. contradiction.
    + rewrite SA. now apply stamps_fin.
    + rewrite SB. now apply stamps_fin.
    + rewrite SA. now apply stamps_sorted.
    + rewrite SB. now apply stamps_sorted.
    + rewrite SA. now apply P1.
    + rewrite SB. now apply P1.
    + unfold unit_quats. rewrite Forall_map. refine (U _ _ _ _ _ _ RA _). intros x y (_ & _ & H). exact H.
    + unfold unit_quats. rewrite Forall_map. refine (U _ _ _ _ _ _ RB _). intros x y (_ & _ & H). exact H.
    + exact FO.
    + exact BO.
    + rewrite EC. cbn [bind fst snd]. exists a, b, o. split; [reflexivity|]. split; [exact FO|]. split; [exact S1|exact L1].
Qed.

(** ** Example *)
Definition row71 (t : Z) : @stamped (F64 no_libm) :=
  (f_of_Z t, mkPose (N:=F64 no_libm) (mkV (N:=F64 no_libm) (f_of_Z t) (f_of_Z 1) (f_of_Z 0)) q70).
Definition rows71 : list (@stamped (F64 no_libm)) := map row71 [15; 16; 18; 19; 20; 22; 23]%Z.
Lemma seconds_ok zs : Forall (fun z => Z.abs z <= 10000000000)%Z zs -> (forall i a b, nth_error zs i = Some a -> nth_error zs (S i) = Some b -> (a < b)%Z) ->
  stamps_ok (map f_of_Z zs).
Proof.
  intros B G. assert (K : forall z, In z zs -> fin (f_of_Z z) /\ V (f_of_Z z) = IZR z) by (intros z I; rewrite Forall_forall in B; specialize (B z I); apply of_Z_V; lia). split.
  - apply Forall_forall. intros t I. apply in_map_iff in I as (z & <- & I). destruct (K z I) as [F ->]. split; [exact F|]. rewrite <- abs_IZR. apply IZR_le. rewrite Forall_forall in B. now apply B.
  - intros i a b A C. unfold f64 in *. rewrite nth_error_map in A, C. destruct (nth_error zs i) as [x|] eqn:EX; [|discriminate A]. destruct (nth_error zs (S i)) as [y|] eqn:EY; [|discriminate C].
    cbn [option_map] in A, C. assert (a = f_of_Z x) by congruence. assert (b = f_of_Z y) by congruence. subst.
    rewrite (proj2 (K x (nth_error_In _ _ EX))), (proj2 (K y (nth_error_In _ _ EY))). pose proof (G i x y EX EY) as GG. assert (x + 1 <= y)%Z by lia. apply IZR_le in H. rewrite plus_IZR in H. lra.
Qed.
Example C71_program_example : exists a b o, compute_aligned_poses_main rows71 rows71 true = Ok (a, b, o) /\ fin (o : f64) /\ stamps a = stamps b /\ length a = length b.
Proof.
  assert (ES : @stamps (F64 no_libm) rows71 = map f_of_Z [15; 16; 18; 19; 20; 22; 23]%Z) by reflexivity.
  assert (G : good_rows rows71).
  { split.
    - rewrite ES. apply seconds_ok; [repeat apply Forall_cons; try apply Forall_nil; lia|].
      intros i a b. do 7 (destruct i as [|i]; [intros A B; cbn in A, B; try discriminate B; injection A as <-; injection B as <-; lia|]). intros A. destruct i; discriminate A.
    - unfold rows71. rewrite Forall_map. apply Forall_forall. intros z _. split; vm_compute; reflexivity. }
  apply C71_program; [exact G|exact G|]. rewrite ES. unfold long_enough, mean_gap, duration. cbn [length map last hd Nat.sub].
  rewrite !(proj2 (of_Z_V 23 ltac:(lia))), !(proj2 (of_Z_V 15 ltac:(lia))). change (INR 6) with (1 + 1 + 1 + 1 + 1 + 1).
  split; [lia|]. split; [lia|]. split; [lra|]. split; [lra|]. split; lra.
Qed.
