(** * Property C107: what the time alignment does with any two recordings in order of time. *)

From Coq Require Import Reals ZArith Bool String Ascii List Lra Lia Psatz Permutation.
From Verif Require Import Num Py XReal XFacts Quat DualQuat TimeAlign CsvIo Cli Spec TimeSpec Embed
  QuatFacts QuatTrig QuatRot PropQuat ListFacts TimeFacts ResampleFacts PropTimeOffset PropResample PropAligned PropFilter PropOffsetPath PropCsv
  PropCli PropScript PropPipeline PropTwoSensors PropWhole.
Import ListNotations.
Local Open Scope R_scope.
Notation length := List.length.

(** ** Quaternions close to unit length, as interpolation returns them *)
Definition nearly_unit (q : rq) : Prop := Rabs (hnorm2 q - 1) <= 1 / 10000000000000000.
Lemma abs_range x e : Rabs x <= e -> - e <= x <= e.
Proof. split_Rabs; lra. Qed.
Lemma unit_nearly q : unitq q -> nearly_unit q.
Proof. unfold unitq, nearly_unit. intros ->. rewrite Rminus_diag_eq, Rabs_R0 by easy. lra. Qed.
Lemma inQ_inj (a b : rq) : Ok (inQ a) = Ok (inQ b) -> a = b.
Proof. destruct a as [[a b' c] w], b as [[a' b'' c'] w']. intros Q. cbn in Q. injection Q as -> -> -> ->. reflexivity. Qed.
Lemma resampled_nearly times qs s q : Forall unitq qs -> resampled times qs s q -> nearly_unit q.
Proof.
  intros U R. rewrite Forall_forall in U. destruct R as [r t q F N C|k tl tr ql qr q F TL B NL NR C SL].
  - apply unit_nearly, U. now apply nth_error_In in N.
  - apply nth_error_In in NL, NR. pose proof (U _ NL) as UL. pose proof (U _ NR) as UR.
    assert (T01 : 0 <= (s - tl) / (tr - tl) <= 1).
    { assert (0 < / (tr - tl)) by (apply Rinv_0_lt_compat; lra). unfold Rdiv. split; [apply Rmult_le_pos; lra|].
      apply (Rmult_le_reg_r (tr - tl)); [lra|]. rewrite Rmult_assoc, Rinv_l; lra. }
    rewrite slerp_in in SL by easy. apply inQ_inj in SL. subst q.
    destruct (Req_EM_T _ 0); [now apply unit_nearly|]. destruct (Req_EM_T _ 1); [now apply unit_nearly|].
    pose proof (near_start_dot ql qr) as ND. pose proof (near_start_unit ql qr UL) as NU. pose proof (unit_dot_bound ql qr UL UR) as BD.
    apply slerp_body_norm; try easy. split; [apply Rabs_pos|apply Rabs_le; lra].
Qed.

Lemma rate_fin q1 q2 t : nearly_unit q1 -> nearly_unit q2 -> t <> 0 ->
  exists v, angular_velocity_between_quaternions (inQ q1) (inQ q2) (Fin t) = inV v.
Proof.
  unfold nearly_unit. intros N1 N2 Ht. apply abs_range in N1, N2. unfold angular_velocity_between_quaternions.
  rewrite qinv_in, qmul_in by lra. cbn [qw inQ]. unfold n0; cbn [lit XR Rlit ltb xltb].
  set (e := hmul q1 (hinv q2)). set (d := pos_w e).
  assert (D : (if Rltb (qs e) 0 then qneg (inQ e) else inQ e) = inQ d).
  { unfold d, pos_w, Rltb. destruct (Rlt_dec _ _); [apply qneg_in|easy]. }
  cbn [T XR] in *. rewrite D.
  assert (ND : hnorm2 d = hnorm2 q1 / hnorm2 q2).
  { assert (E : hnorm2 e = hnorm2 q1 / hnorm2 q2).
    { unfold e. rewrite hnorm2_mul. unfold Rdiv. f_equal. unfold hinv. 
      assert (Z : hnorm2 q2 <> 0) by lra. set (n := hnorm2 q2) in *.
      replace (hnorm2 (hscale (/ n) (hconj q2))) with (/ n * / n * hnorm2 q2) by (destruct q2 as [[] ?]; specu; ring). fold n. field. easy. }
    unfold d, pos_w. destruct (Rlt_dec _ _); [rewrite hnorm2_neg|]; exact E. }
  assert (BN : hnorm2 d <= 1 + 4 / 10000000000000000).
  { rewrite ND. apply (Rmult_le_reg_r (hnorm2 q2)); [lra|]. unfold Rdiv. rewrite Rmult_assoc, Rinv_l by lra. nra. }
  assert (Bd : 0 <= qs d <= 1 + 1 / 1000000).
  { split; [unfold d, pos_w; destruct (Rlt_dec (qs e) 0); destruct e as [[] ?]; cbn in *; lra|].
    assert (qs d * qs d <= hnorm2 d) by (unfold hnorm2, hdot, dot3; nra). nra. }
  unfold nhalf. cbn [lit XR div]. rewrite xdiv_fin by easy.
  destruct (Rle_dec (Rabs (qs d - 1)) (1 / 1000000000000 + 1 / 100000)) as [Hd|Hd].
  - exists vzero. rewrite angle_axis_dead by easy. cbn [mul XR xmul inV vx vy vz v1 v2 v3].
    unfold inV, vzero; simpl. f_equal; f_equal; ring.
  - assert (qs d < 1).
    { destruct (Rlt_dec (qs d) 1); [easy|]. exfalso. apply Hd. apply Rabs_le. lra. }
    rewrite angle_axis_live by (try easy; lra). cbn [mul XR xmul inV vx vy vz v1 v2 v3 vscale].
    eexists (RV _ _ _). reflexivity.
Qed.
Lemma velocities_fin qs : forall s, Forall nearly_unit qs -> (length qs <= length s)%nat -> PropFilter.increasing s ->
  exists v, angular_velocities (N:=XR) (inQs qs) (map Fin s) = Ok (map inV v) /\ length v = (length qs - 1)%nat.
Proof.
  unfold inQs. induction qs as [|q qs IH]; intros s U L INC; [now exists []|]. destruct qs as [|q' qs]; [now exists []|].
  destruct s as [|s0 [|s1 s]]; cbn [List.length] in L; try lia.
  assert (LT : s0 < s1) by (now apply (INC 0%nat)).
  inversion U as [|? ? U1 U']; subst. inversion U' as [|? ? U2 _]; subst.
  cbn [map]. rewrite velocities_cons. cbn [index nth_error bind sub XR xsub]. unfold n0. cbn [lit ltb XR xltb].
  change (Rlit 0 0) with 0. rewrite assert_true by (apply Rltb_t; lra).
  cbn [tl]. change (inQ q' :: map inQ qs) with (map inQ (q' :: qs)). change (Fin s1 :: map Fin s) with (map Fin (s1 :: s)).
  destruct (IH (s1 :: s) U') as (v & E & LV); [cbn [List.length] in *; lia|intros i a b A B; now apply (INC (S i))|].
  change (@T XR) with xr in *. rewrite E. cbn [bind]. destruct (rate_fin q q' (s1 - s0) U1 U2 ltac:(lra)) as (r & R).
  exists (r :: v). split; [now rewrite R|]. cbn [List.length] in *. lia.
Qed.
(** one non-negative number per pair of samples, and an exception if there is only one sample *)
Lemma norms_fin qs s k p : Forall nearly_unit qs -> (2 <= length qs <= length s)%nat -> PropFilter.increasing s -> (1 <= k)%nat -> 0 <= p <= 100 ->
  exists norms, compute_angular_velocity_norms (inQs qs) (map Fin s) k (Fin p) = Ok (map Fin norms) /\ length norms = (length qs - 1)%nat.
Proof.
  intros U [L1 L2] INC K P. destruct (velocities_fin qs s U L2 INC) as (v & EV & LV).
  assert (NV : v <> []) by (intros E; rewrite E in LV; cbn in LV; lia).
  destruct (C43_filter v k p NV K P) as (m & PM & E).
  set (norms := map (fun i => len3 (smoothed m k v i)) (seq 0 (length v))). exists norms.
  assert (LN : length norms = (length qs - 1)%nat) by (unfold norms; now rewrite map_length, seq_length).
  assert (AT : forall i, (i < length qs - 1)%nat -> nth_error (map (smoothed m k v) (seq 0 (length v))) i = Some (smoothed m k v i)).
  { intros i Hi. rewrite nth_error_map, (nth_error_nth' _ 0%nat) by (rewrite seq_length; lia). rewrite seq_nth by lia. easy. }
  split; [|exact LN].
  unfold compute_angular_velocity_norms. unfold inQs at 1. destruct qs as [|q0 qs']; [cbn in L1; lia|]. cbn [map]. set (qs := q0 :: qs') in *.
  change (@T XR) with xr in *. rewrite EV. cbn [bind]. rewrite E. cbn [bind].
  unfold inQs. rewrite map_length. rewrite (mapM_seq _ (fun i => Fin (len3 (smoothed m k v i)))).
  + cbn [bind]. rewrite assert_true; [|rewrite map_length, seq_length; apply Nat.eqb_refl].
    unfold norms. now rewrite map_map, LV.
  + intros i Hi. rewrite index_map, (index_some _ _ _ (AT i Hi)). cbn [bind]. now rewrite vnorm_in.
Qed.
Lemma norms_one {N : Num} (q : @quat N) s k p : compute_angular_velocity_norms [q] s k p = Err IndexError.
Proof. reflexivity. Qed.

(** ** Resampling with any positive step *)
Definition duration (times : list R) : R := last times 0 - hd 0 times.
Definition sampling (times : list R) (n : nat) : list R := match n with O => [hd 0 times] | _ => grid (hd 0 times) (last times 0) n end.
Lemma sampling_length times n : length (sampling times n) = S n.
Proof. destruct n; [easy|]. unfold sampling, grid. now rewrite map_length, seq_length. Qed.
Lemma sorted_duration times : times <> [] -> sorted times -> 0 <= duration times.
Proof.
  intros NE SO. unfold duration. destruct times as [|t l]; [easy|]. pose proof (sorted_range (t :: l) 0 t SO eq_refl). lra.
Qed.
Lemma resample_any times qs dt : times <> [] -> sorted times -> length qs = length times -> Forall unitq qs -> 0 < dt ->
  exists n out, resample_quaternions (map Fin times) (inQs qs) (Fin dt) = Ok (inQs out, map Fin (sampling times n)) /\
    INR n * dt <= duration times < (INR n + 1) * dt /\ length out = S n /\ Forall nearly_unit out.
Proof.
  intros NE SO LQ UQ P. unfold resample_quaternions.
  assert (NE' : map Fin times <> []) by (destruct times; easy). change (@T XR) with xr.
  rewrite (py_index_last _ (Fin 0) NE'), last_map_fin by easy. cbn [bind].
  change 0%Z with (Z.of_nat 0). rewrite py_index_nat.
  replace (index (map Fin times) 0) with (Ok (Fin (hd 0 times))) by now destruct times.
  pose proof (sorted_duration times NE SO) as DP. cbn [bind sub XR xsub div]. change (last times 0 - hd 0 times) with (duration times).
  rewrite xdiv_fin by lra. unfold n1. cbn [lit add XR xadd]. change (Rlit 1 0) with 1.
  set (len := duration times) in *. assert (Q : 0 <= len / dt) by (apply Rmult_le_pos; [easy|left; now apply Rinv_0_lt_compat]).
  change (linspace (N:=XR) _ _ _) with (linspace (N:=XR) (Fin (hd 0 times)) (Fin (last times 0)) (Fin (len / dt + 1))).
  rewrite linspace_in by lra. cbn [bind].
  destruct (base_Int_part (len / dt + 1)) as [B1 B2]. set (z := Int_part (len / dt + 1)) in *.
  assert (Z1 : (1 <= z)%Z) by (apply Z.lt_succ_r; apply lt_IZR; rewrite succ_IZR; lra).
  destruct (Z.to_nat z) as [|n] eqn:E; [lia|]. exists n.
  assert (IN : INR n = IZR z - 1). { rewrite INR_IZR_INZ, <- minus_IZR. f_equal. lia. }
  assert (EL : len / dt * dt = len) by (unfold Rdiv; rewrite Rmult_assoc, Rinv_l by lra; lra).
  assert (BN : INR n * dt <= len < (INR n + 1) * dt).
  { rewrite IN. split; [rewrite <- EL; apply Rmult_le_compat_r; lra|rewrite <- EL at 1; apply Rmult_lt_compat_r; lra]. }
  replace (match S n with O => [] | S O => [hd 0 times] | S (S _ as n') => grid (hd 0 times) (last times 0) n' end) with (sampling times n) by now destruct n.
  assert (RG : Forall (fun s => hd 0 times <= s <= last times 0) (sampling times n)).
  { unfold len, duration in DP. destruct n as [|d]; [constructor; [lra|constructor]|]. cbn [sampling]. unfold grid. apply Forall_forall. intros y I. apply in_map_iff in I as (i & <- & I). apply in_seq in I.
    assert (PD : 0 < INR (S d)) by (apply lt_0_INR; lia). assert (LI : INR i <= INR (S d)) by (apply le_INR; lia). pose proof (pos_INR i) as PI'.
    set (h := (last times 0 - hd 0 times) / INR (S d)). assert (HP : 0 <= h) by (apply Rmult_le_pos; [easy|left; now apply Rinv_0_lt_compat]).
    assert (HE : INR (S d) * h = last times 0 - hd 0 times) by (unfold h; field; lra). split; nra. }
  destruct (C40_resample times qs (sampling times n) NE SO LQ UQ RG) as (out & EO & F). exists out. change (@T XR) with xr in *. rewrite EO. cbn [bind].
  split; [easy|]. split; [exact BN|]. split.
  - apply Forall2_len in F. rewrite sampling_length in F. lia.
  - clear - F UQ. induction F; constructor; [|easy]. now apply (resampled_nearly times qs x).
Qed.
Lemma sampling_increasing times n : 0 < duration times -> PropFilter.increasing (sampling times n).
Proof.
  intros D i a b. destruct n as [|n]; [cbn; destruct i as [|[|i]]; discriminate|].
  assert (P : 0 < duration times / INR (S n)) by (apply Rmult_lt_0_compat; [easy|apply Rinv_0_lt_compat, lt_0_INR; lia]).
  change (sampling times (S n)) with (ticks (hd 0 times) (duration times / INR (S n)) (S (S n))). intros A B.
  now apply (ticks_strict (hd 0 times) (duration times / INR (S n)) (S (S n)) i (S i)); [|lia|..].
Qed.
Lemma sampling_norms times n out k p : 0 < duration times -> Forall nearly_unit out -> length out = S (S n) -> (1 <= k)%nat -> 0 <= p <= 100 ->
  exists norms, compute_angular_velocity_norms (inQs out) (map Fin (sampling times (S n))) k (Fin p) = Ok (map Fin norms) /\ length norms = S n.
Proof.
  intros D U L K P. destruct (norms_fin out (sampling times (S n)) k p U) as (norms & E & LN); [rewrite sampling_length; lia|now apply sampling_increasing|easy|easy|].
  exists norms. split; [easy|lia].
Qed.

(** ** The time offset *)
Lemma nan_in : nan (N:=XR) = NaN.
Proof. unfold nan, n0. cbn [lit div XR]. change (Rlit 0 0) with 0. unfold xdiv. destruct (Req_EM_T 0 0); [|easy]. unfold inf_signed. repeat destruct (Rlt_dec _ _); try lra. reflexivity. Qed.
Lemma mean_nil : mean (N:=XR) [] = NaN.
Proof. unfold mean. cbn [List.length]. rewrite of_nat_fin. cbn. change (xdiv (Fin (Rlit 0 0)) (Fin 0)) with (nan (N:=XR)) || idtac. apply nan_in. Qed.
Lemma mean_short times : (length times <= 1)%nat -> mean (N:=XR) (diff (N:=XR) (map Fin times)) = NaN.
Proof. intros L. destruct times as [|t [|u l]]; [apply mean_nil|apply mean_nil|cbn in L; lia]. Qed.
Lemma resample_nan times qs : times <> [] -> resample_quaternions (N:=XR) (map Fin times) qs NaN = Err ValueError.
Proof.
  intros NE. unfold resample_quaternions. assert (NE' : map Fin times <> []) by (destruct times; easy). change (@T XR) with xr.
  rewrite (py_index_last _ (Fin 0) NE'), last_map_fin by easy. cbn [bind]. change 0%Z with (Z.of_nat 0). rewrite py_index_nat.
  replace (index (map Fin times) 0) with (Ok (Fin (hd 0 times))) by now destruct times. reflexivity.
Qed.

Lemma nan_leb x : leb (Num:=XR) NaN x = false.
Proof. reflexivity. Qed.
Lemma zero_zero : xdiv (Fin 0) (Fin 0) = NaN.
Proof. exact nan_in. Qed.
(** one sample of the hand: the mean step of the samples is nan *)
Lemma single_nan sA nA sB nB : nA <> [] -> nB <> [] -> (length sA = 1)%nat -> sB <> [] ->
  calculate_time_offset_from_signals (N:=XR) sA (map Fin nA) sB (map Fin nB) = Ok NaN.
Proof.
  intros NA NB L NS. unfold calculate_time_offset_from_signals. rewrite correlate_in by easy.
  destruct (argmax_spec (map (fun k => xcorr nA nB (Z.of_nat k - Z.of_nat (length nA) + 1)) (seq 0 (length nB + length nA - 1)))) as (i & v & E & _).
  { intros E. apply (f_equal (@List.length R)) in E. rewrite map_length, seq_length in E. destruct nA, nB; [easy|easy|easy|]. cbn in E. lia. }
  change (@T XR) with xr in *. rewrite E. cbn [bind]. destruct sA as [|a [|b sA]]; try discriminate L. destruct sB as [|b sB]; [easy|]. cbn [index nth_error bind diff].
  rewrite mean_nil. reflexivity.
Qed.

(** The outcome for two recordings of unit quaternions whose stamps do not decrease.  [dt] is the larger one of the two mean
    steps. *)
Theorem C107_offset : forall tA qA tB qB kA pA kB pB,
  sorted tA -> sorted tB -> length qA = length tA -> length qB = length tB -> Forall unitq qA -> Forall unitq qB ->
  (1 <= kA)%nat -> 0 <= pA <= 100 -> (1 <= kB)%nat -> 0 <= pB <= 100 ->
  let outcome := calculate_time_offset (map Fin tA) (inQs qA) (map Fin tB) (inQs qB) (mkFiltering (N:=XR) kA (Fin pA) kB (Fin pB)) in
  let dt := Rmax (mean_step tA) (mean_step tB) in
  (* no pose of the hand, or one; at most one of the eye *)
  (tA = [] -> outcome = Err IndexError) /\
  (tA <> [] -> (length tB <= 1)%nat -> outcome = Err ValueError) /\
  (length tA = 1%nat -> (2 <= length tB)%nat -> duration tB = 0 -> outcome = Err ValueError) /\
  (length tA = 1%nat -> (2 <= length tB)%nat -> 0 < duration tB -> outcome = Err IndexError) /\
  ((2 <= length tA)%nat -> (2 <= length tB)%nat ->
    (* no time passes *)
    (dt = 0 -> outcome = Err ValueError) /\
    (* one recording is shorter than the mean step of the other *)
    (0 < dt -> duration tA < dt \/ duration tB < dt -> outcome = Err IndexError) /\
    (* the recording of the hand is shorter than two steps: no exception, but the offset is nan *)
    (0 < dt -> dt <= duration tA < 2 * dt -> dt <= duration tB -> outcome = Ok NaN) /\
    (* otherwise there is an offset, which moves the recordings against each other by less than their lengths permit *)
    (0 < dt -> 2 * dt <= duration tA -> dt <= duration tB -> exists o, outcome = Ok (Fin o) /\
      hd 0 tB - last tA 0 < o < hd 0 tB - hd 0 tA + 3 / 2 * duration tB)).
Proof.
  intros tA qA tB qB kA pA kB pB SA SB LA LB UA UB KA PA KB PB outcome dt.
  assert (MS : forall t, (2 <= length t)%nat -> sorted t -> 0 <= duration t /\ mean_step t = duration t / INR (length t - 1) /\ 1 <= INR (length t - 1) /\ 0 <= mean_step t <= duration t).
  { clear. intros t L SO. assert (NE : t <> []) by (destruct t; [cbn in L; lia|easy]). pose proof (sorted_duration t NE SO) as D.
    assert (E : mean_step t = duration t / INR (length t - 1)) by reflexivity.
    assert (P : 1 <= INR (length t - 1)) by (change 1 with (INR 1); apply le_INR; lia). split; [easy|]. split; [easy|]. split; [easy|]. rewrite E.
    assert (K : duration t / INR (length t - 1) * INR (length t - 1) = duration t) by (field; lra).
    assert (0 <= duration t / INR (length t - 1)) by (apply Rmult_le_pos; [easy|left; apply Rinv_0_lt_compat; lra]). split; [easy|nra]. }
  assert (ZERO : forall t q, t <> [] -> duration t = 0 -> resample_quaternions (N:=XR) (map Fin t) q (Fin 0) = Err ValueError).
  { clear. intros t q NE D. unfold resample_quaternions. assert (NE' : map Fin t <> []) by (destruct t; easy). change (@T XR) with xr.
    rewrite (py_index_last _ (Fin 0) NE'), last_map_fin by easy. cbn [bind]. change 0%Z with (Z.of_nat 0). rewrite py_index_nat.
    replace (index (map Fin t) 0) with (Ok (Fin (hd 0 t))) by now destruct t. cbn [bind sub XR xsub div]. change (Z.of_nat 0) with 0%Z. change (last t 0 - hd 0 t) with (duration t). rewrite D.
    rewrite zero_zero. reflexivity. }
  split; [|split; [|split; [|split]]].
  - intros ->. reflexivity.
  - intros NE L. unfold outcome, calculate_time_offset. rewrite (mean_short tB L). change (@T XR) with xr in *.
    rewrite nan_leb. cbv iota.
    rewrite resample_nan by easy. reflexivity.
  - intros L1 L2 D. unfold outcome, calculate_time_offset. rewrite (mean_short tA) by lia. change (@T XR) with xr in *. rewrite (mean_step_in tB L2).
    cbn [leb XR xleb]. assert (NA : tA <> []) by (destruct tA; [cbn in L1; lia|easy]). destruct (MS tB L2 SB) as (_ & E & _). rewrite E, D. unfold Rdiv. rewrite Rmult_0_l.
    rewrite ZERO; [easy|easy|]. destruct tA as [|t [|u l]]; try discriminate L1. unfold duration. cbn. lra.
  - intros L1 L2 D. unfold outcome, calculate_time_offset. rewrite (mean_short tA) by lia. change (@T XR) with xr in *. rewrite (mean_step_in tB L2).
    cbn [leb XR xleb]. assert (NA : tA <> []) by (destruct tA; [cbn in L1; lia|easy]). assert (NB : tB <> []) by (destruct tB; [cbn in L2; lia|easy]).
    destruct (MS tB L2 SB) as (_ & E0 & G1 & _). assert (P : 0 < mean_step tB) by (rewrite E0; apply Rmult_lt_0_compat; [easy|apply Rinv_0_lt_compat; lra]).
    destruct (resample_any tA qA (mean_step tB) NA SA LA UA P) as (n & out & E & B & LO & U). change (@T XR) with xr in *. rewrite E. cbn [bind].
    assert (n = 0)%nat as ->.
    { destruct tA as [|t [|u l]]; try discriminate L1. unfold duration in B. cbn in B. destruct n; [easy|]. rewrite S_INR in B. pose proof (pos_INR n). nra. }
    destruct (resample_any tB qB (mean_step tB) NB SB LB UB P) as (m & outB & E' & _). change (@T XR) with xr in *. rewrite E'. cbn [bind].
    destruct out as [|q [|q' out]]; try discriminate LO. reflexivity.
  - intros L1 L2. assert (NA : tA <> []) by (destruct tA; [cbn in L1; lia|easy]). assert (NB : tB <> []) by (destruct tB; [cbn in L2; lia|easy]).
    destruct (MS tA L1 SA) as (DA & MA & NAP & MA1). destruct (MS tB L2 SB) as (DB & MB & NBP & MB1).
    assert (ED : (if leb (Num:=XR) (Fin (mean_step tB)) (Fin (mean_step tA)) then Fin (mean_step tA) else Fin (mean_step tB)) = Fin dt).
    { unfold dt, Rmax. cbn [leb XR xleb]. destruct (Rleb _ _) eqn:C; [apply Rleb_iff in C|apply Rleb_false in C];
        destruct (Rle_dec (mean_step tA) (mean_step tB)); f_equal; lra. }
    assert (EO : outcome = (do ra <- resample_quaternions (map Fin tA) (inQs qA) (Fin dt); let '(rA, samples_A) := ra in
      do rb <- resample_quaternions (map Fin tB) (inQs qB) (Fin dt); let '(rB, samples_B) := rb in
      do norms_A <- compute_angular_velocity_norms rA samples_A kA (Fin pA); do norms_B <- compute_angular_velocity_norms rB samples_B kB (Fin pB);
      let length_before := length samples_A in let samples_A := firstn (length norms_A) samples_A in let samples_B := firstn (length norms_B) samples_B in
      assert (length samples_A =? length_before - 1)%nat; calculate_time_offset_from_signals (N:=XR) samples_A norms_A samples_B norms_B)).
    { unfold outcome, calculate_time_offset. rewrite !mean_step_in by easy. change (@T XR) with xr in *. rewrite ED. reflexivity. }
    assert (PDA : 0 < dt -> dt <= duration tA -> 0 < duration tA) by (intros; lra). assert (PDB : 0 < dt -> dt <= duration tB -> 0 < duration tB) by (intros; lra).
    change (@T XR) with xr in *. rewrite EO. clear EO outcome. pose proof (Rmax_l (mean_step tA) (mean_step tB)) as ML. fold dt in ML. clearbody dt.
    split; [|split; [|split]].
    + intros Z. rewrite Z. rewrite ZERO; [reflexivity|easy|]. assert (mean_step tA <= 0) by lra.
      assert (K : mean_step tA * INR (length tA - 1) = duration tA) by (rewrite MA; field; lra). nra.
    + intros P SHORT. destruct (resample_any tA qA dt NA SA LA UA P) as (n & outA & EA & BA & LOA & UOA). destruct (resample_any tB qB dt NB SB LB UB P) as (m & outB & EB & BB & LOB & UOB).
      change (@T XR) with xr in *. rewrite EA. cbn [bind]. rewrite EB. cbn [bind].
      destruct n as [|n]; [destruct outA as [|q [|q' outA]]; try discriminate LOA; reflexivity|].
      assert (DAP : dt <= duration tA) by (rewrite S_INR in BA; pose proof (pos_INR n); nra).
      destruct (sampling_norms tA n outA kA pA (PDA P DAP) UOA LOA KA PA) as (nsA & ENA & LNA). change (@T XR) with xr in *. rewrite ENA. cbn [bind].
      destruct m as [|m]; [destruct outB as [|q [|q' outB]]; try discriminate LOB; reflexivity|].
      rewrite S_INR in BB. pose proof (pos_INR m). destruct SHORT; [lra|nra].
    + intros P DAR DBR. destruct (resample_any tA qA dt NA SA LA UA P) as (n & outA & EA & BA & LOA & UOA). destruct (resample_any tB qB dt NB SB LB UB P) as (m & outB & EB & BB & LOB & UOB).
      change (@T XR) with xr in *. rewrite EA. cbn [bind]. rewrite EB. cbn [bind].
      destruct n as [|n]; [cbn in BA; lra|]. destruct n as [|n]; [|rewrite !S_INR in BA; pose proof (pos_INR n); nra].
      destruct m as [|m]; [cbn in BB; lra|].
      destruct (sampling_norms tA 0 outA kA pA ltac:(lra) UOA LOA KA PA) as (nsA & ENA & LNA). destruct (sampling_norms tB m outB kB pB ltac:(lra) UOB LOB KB PB) as (nsB & ENB & LNB).
      change (@T XR) with xr in *. rewrite ENA. cbn [bind]. rewrite ENB. cbn [bind]. cbv zeta. rewrite !map_length, sampling_length, LNA, LNB.
      rewrite assert_true by (rewrite firstn_length, map_length, sampling_length; reflexivity).
      apply single_nan; [destruct nsA; easy|destruct nsB; easy|rewrite firstn_length, map_length, sampling_length; reflexivity|].
      cbn [sampling]. unfold grid. rewrite <- (cons_seq (S m)). cbn [map firstn]. easy.
    + intros P DAR DBR. destruct (resample_any tA qA dt NA SA LA UA P) as (n & outA & EA & BA & LOA & UOA). destruct (resample_any tB qB dt NB SB LB UB P) as (m & outB & EB & BB & LOB & UOB).
      change (@T XR) with xr in *. rewrite EA. cbn [bind]. rewrite EB. cbn [bind].
      destruct n as [|[|n]]; [cbn in BA; lra|cbn in BA; lra|]. destruct m as [|m]; [cbn in BB; lra|].
      destruct (sampling_norms tA (S n) outA kA pA ltac:(lra) UOA LOA KA PA) as (nsA & ENA & LNA). destruct (sampling_norms tB m outB kB pB ltac:(lra) UOB LOB KB PB) as (nsB & ENB & LNB).
      change (@T XR) with xr in *. rewrite ENA. cbn [bind]. rewrite ENB. cbn [bind]. cbv zeta. rewrite !map_length, sampling_length, LNA, LNB.
      rewrite assert_true by (rewrite firstn_length, map_length, sampling_length; apply Nat.eqb_eq; lia).
      rewrite !firstn_map. set (sA := firstn (S (S n)) (sampling tA (S (S n)))). set (sB := firstn (S m) (sampling tB (S m))).
      assert (LsA : length sA = S (S n)) by (unfold sA; rewrite firstn_length, sampling_length; lia).
      assert (LsB : length sB = S m) by (unfold sB; rewrite firstn_length, sampling_length; lia).
      destruct (C39_maximal_lag sA nsA sB nsB) as (k & LR & _ & E); [lia|destruct sB; easy|destruct nsA; easy|destruct nsB; easy|]. eexists. split; [exact E|]. clear E.
      set (h := duration tA / INR (S (S n))).
      assert (ET : sA = ticks (hd 0 tA) h (S (S n))).
      { unfold sA. cbn [sampling]. change (grid (hd 0 tA) (last tA 0) (S (S n))) with (ticks (hd 0 tA) h (S (S (S n)))). unfold ticks. rewrite firstn_map. f_equal.
        rewrite (seq_S (S (S n)) 0), firstn_app, seq_length, Nat.sub_diag, firstn_O, app_nil_r. rewrite firstn_all2; [easy|now rewrite seq_length]. }
      assert (HB : hd 0 sB = hd 0 tB). { unfold sB. cbn [sampling]. unfold grid. rewrite <- cons_seq. cbn [map firstn hd]. cbn [INR]. lra. }
      assert (HA : hd 0 sA = hd 0 tA). { rewrite ET. unfold ticks. rewrite <- cons_seq. cbn [map hd INR]. lra. }
      rewrite HB, HA, ET, ticks_mean by lia. unfold lag_range in LR. rewrite LNA, LNB in LR.
      assert (PN : 0 < INR (S (S n))) by (apply lt_0_INR; lia). assert (HE : INR (S (S n)) * h = duration tA) by (unfold h; field; lra).
      assert (HP : 0 < h) by nra. assert (H32 : h <= 3 / 2 * dt).
      { assert (2 <= INR (S (S n))) by (rewrite !S_INR; pose proof (pos_INR n); lra). nra. }
      destruct LR as [K1 K2]. apply IZR_lt in K1, K2. rewrite opp_IZR, <- INR_IZR_INZ in K1. rewrite <- INR_IZR_INZ in K2.
      replace (hd 0 tB - last tA 0) with (h * - INR (S (S n)) + hd 0 tB - hd 0 tA) by (rewrite <- Ropp_mult_distr_r, (Rmult_comm h), HE; unfold duration; ring).
      split; [nra|]. assert (h * IZR k < h * INR (S m)) by nra. assert (h * INR (S m) <= 3 / 2 * dt * INR (S m)) by (apply Rmult_le_compat_r; [apply pos_INR|lra]). nra.
Qed.

(** The three kinds of pairs of recordings. *)
Definition largest_step (tA tB : list R) : R := Rmax (mean_step tA) (mean_step tB).
Inductive refused (tA tB : list R) : exn -> Prop :=
| no_hand : tA = [] -> refused tA tB IndexError
| no_eye : tA <> [] -> (length tB <= 1)%nat -> refused tA tB ValueError
| one_hand_frozen : length tA = 1%nat -> (2 <= length tB)%nat -> duration tB = 0 -> refused tA tB ValueError
| one_hand : length tA = 1%nat -> (2 <= length tB)%nat -> 0 < duration tB -> refused tA tB IndexError
| frozen : (2 <= length tA)%nat -> (2 <= length tB)%nat -> largest_step tA tB = 0 -> refused tA tB ValueError
| short : (2 <= length tA)%nat -> (2 <= length tB)%nat -> 0 < largest_step tA tB ->
    duration tA < largest_step tA tB \/ duration tB < largest_step tA tB -> refused tA tB IndexError.
Definition useless (tA tB : list R) : Prop := (2 <= length tA)%nat /\ (2 <= length tB)%nat /\ 0 < largest_step tA tB /\
  largest_step tA tB <= duration tA < 2 * largest_step tA tB /\ largest_step tA tB <= duration tB.
Definition usable (tA tB : list R) : Prop := (2 <= length tA)%nat /\ (2 <= length tB)%nat /\ 0 < largest_step tA tB /\
  2 * largest_step tA tB <= duration tA /\ largest_step tA tB <= duration tB.
(** Every pair belongs to one of them. *)
Theorem C107_complete : forall tA tB, sorted tA -> sorted tB -> (exists e, refused tA tB e) \/ useless tA tB \/ usable tA tB.
Proof.
  intros tA tB SA SB. destruct (Nat.eq_dec (length tA) 0) as [Z|NZ]; [left; exists IndexError; apply no_hand; now destruct tA|].
  assert (NA : tA <> []) by now destruct tA. destruct (le_lt_dec (length tB) 1) as [L|L]; [left; exists ValueError; now apply no_eye|].
  assert (NB : tB <> []) by (destruct tB; [cbn in L; lia|easy]). pose proof (sorted_duration tB NB SB) as DB. pose proof (sorted_duration tA NA SA) as DA.
  assert (MP : forall t, 0 <= duration t -> (2 <= length t)%nat -> 0 <= mean_step t).
  { intros t D L'. unfold mean_step. apply Rmult_le_pos; [exact D|]. left. apply Rinv_0_lt_compat, lt_0_INR. lia. }
  destruct (Nat.eq_dec (length tA) 1) as [L1|L1].
  { left. destruct (Req_dec (duration tB) 0); [exists ValueError; now apply one_hand_frozen|exists IndexError; apply one_hand; [easy|easy|lra]]. }
  assert (LA : (2 <= length tA)%nat) by lia. assert (LB : (2 <= length tB)%nat) by lia.
  pose proof (MP tA DA LA) as PA. pose proof (Rmax_l (mean_step tA) (mean_step tB)) as ML. fold (largest_step tA tB) in ML.
  destruct (Req_dec (largest_step tA tB) 0) as [E|E]; [left; exists ValueError; now apply frozen|]. assert (P : 0 < largest_step tA tB) by lra.
  destruct (Rlt_dec (duration tA) (largest_step tA tB)) as [C1|C1]; [left; exists IndexError; apply short; auto|].
  destruct (Rlt_dec (duration tB) (largest_step tA tB)) as [C2|C2]; [left; exists IndexError; apply short; auto|].
  right. destruct (Rlt_dec (duration tA) (2 * largest_step tA tB)); [left|right]; (split; [easy|]; split; [easy|]; split; [easy|lra]).
Qed.
Lemma refused_offset tA qA tB qB kA pA kB pB e :
  sorted tA -> sorted tB -> length qA = length tA -> length qB = length tB -> Forall unitq qA -> Forall unitq qB ->
  (1 <= kA)%nat -> 0 <= pA <= 100 -> (1 <= kB)%nat -> 0 <= pB <= 100 -> refused tA tB e ->
  calculate_time_offset (map Fin tA) (inQs qA) (map Fin tB) (inQs qB) (mkFiltering (N:=XR) kA (Fin pA) kB (Fin pB)) = Err e.
Proof.
  intros SA SB LA LB UA UB KA PA KB PB R.
  destruct (C107_offset tA qA tB qB kA pA kB pB SA SB LA LB UA UB KA PA KB PB) as (H1 & H2 & H3 & H4 & H5).
  destruct R as [A|A B|A B C|A B C|A B C|A B C D]; [now apply H1|now apply H2|now apply H3|now apply H4| |]; destruct (H5 A B) as (G1 & G2 & _); [now apply G1|now apply G2].
Qed.

(** ** The program *)
(** With a nan offset nothing is aligned. *)
Lemma bisect_nan (high : list xr) x : forall fuel lo hi, Forall (fun y => y = NaN) high -> (hi <= length high)%nat -> (hi - lo <= fuel)%nat -> (lo <= hi)%nat ->
  bisect_loop (N:=XR) fuel high x lo hi = Ok lo.
Proof.
  induction fuel as [|fuel IH]; intros lo hi F L1 L2 L3; [easy|]. cbn [bisect_loop]. destruct (Nat.ltb_spec lo hi) as [C|C]; [|easy].
  set (mid := ((lo + hi) / 2)%nat). assert (M : (lo <= mid < hi)%nat) by (unfold mid; split; [apply Nat.div_le_lower_bound; lia|apply Nat.div_lt_upper_bound; lia]).
  destruct (nth_error high mid) as [y|] eqn:E; [|apply nth_error_None in E; lia]. unfold index. change (@T XR) with xr in *. rewrite E. cbn [bind].
  rewrite Forall_forall in F. rewrite (F y) by now apply nth_error_In in E. cbn [ltb XR xltb].
  apply IH; [now apply Forall_forall|lia|lia|lia].
Qed.
Lemma select_nan (high low : list xr) : Forall (fun y => y = NaN) high -> select_samples (N:=XR) NaN high low = Ok [].
Proof.
  intros F. induction low as [|t low IH]; [easy|]. cbn [select_samples]. replace (ltb (Num:=XR) t NaN) with false by now destruct t.
  unfold bisect_left. change (@T XR) with xr in *. rewrite bisect_nan by (easy || lia). cbn [bind].
  destruct (Z.leb_spec (Z.of_nat (length high) - 1) (Z.of_nat 0)) as [C|C]; [easy|].
  destruct high as [|y [|y' high]]; cbn [List.length] in C; [lia|lia|]. inversion F as [|? ? E F']; subst. cbn [index nth_error bind].
  replace (eqb (Num:=XR) t NaN) with false by now destruct t.
  assert (EL : py_index (NaN :: y' :: high) (Z.of_nat 0 - 1) = Ok NaN).
  { change (Z.of_nat 0 - 1)%Z with (-1)%Z. rewrite (py_index_last _ NaN) by discriminate. f_equal.
    assert (IL : In (last (NaN :: y' :: high) NaN) (NaN :: y' :: high)) by (destruct (exists_last (l := NaN :: y' :: high)) as (l & z & ->); [discriminate|]; rewrite last_last; apply in_or_app; right; now left).
    rewrite Forall_forall in F. now apply F. }
  change (@T XR) with xr in *. rewrite EL. cbn [bind]. replace (ltb (Num:=XR) t NaN) with false by now destruct t.
  replace (sub (Num:=XR) t NaN) with NaN by now destruct t. exact IH.
Qed.
Lemma align_nan (A B : list (@stamped XR)) : A <> [] -> B <> [] -> compute_aligned_poses A B NaN = Ok ([], []).
Proof.
  intros NA NB. unfold compute_aligned_poses. match goal with |- context [map ?f A] => set (sh := map f A) end. cbv zeta.
  assert (F : Forall (fun y => y = NaN) (stamps (N:=XR) sh)).
  { unfold stamps, sh. rewrite map_map. apply Forall_forall. intros y I. apply in_map_iff in I as (p & <- & _). cbn [fst add XR]. destruct (fst p); reflexivity. }
  assert (LS : stamps (N:=XR) sh <> []) by (unfold stamps, sh; destruct A; easy).
  assert (E0 : index (stamps (N:=XR) sh) 0 = Ok NaN) by (destruct (stamps (N:=XR) sh) as [|y l]; [easy|]; inversion F; subst; easy).
  change (@T XR) with xr in *. rewrite E0. cbn [bind]. destruct B as [|[b pb] B']; [easy|]. cbn [stamps map index nth_error bind fst].
  replace (py_max (N:=XR) NaN b) with NaN by (unfold py_max; destruct b; reflexivity).
  assert (MN : median (N:=XR) (diff (N:=XR) (stamps (N:=XR) sh)) = NaN).
  { destruct (stamps (N:=XR) sh) as [|y [|y' l]]; [easy|exact nan_in|]. inversion F as [|? ? E F']; subst. inversion F' as [|? ? E' F'']; subst.
    unfold median. cbn [diff existsb]. replace (isnan (N:=XR) (sub (Num:=XR) NaN NaN)) with true by reflexivity. cbn [orb]. exact nan_in. }
  change (@T XR) with xr in *. rewrite MN. set (dB := median _).
  replace (leb (Num:=XR) dB NaN) with false by now destruct dB.
  change (@stamped XR) with (xr * pose (N:=XR))%type in *. rewrite select_nan by exact F. cbn [bind]. reflexivity.
Qed.

(** bin/compute_aligned_poses.py on two pose files whose stamps do not decrease. *)
Theorem C107_program : forall rowsA rowsB, Forall readable rowsA -> Forall readable rowsB -> sorted (times_of rowsA) -> sorted (times_of rowsB) ->
  let outcome := compute_aligned_poses_main (inS rowsA) (inS rowsB) false in
  (rowsA = [] \/ rowsB = [] -> outcome = Err IndexError) /\
  (rowsB <> [] -> forall e, refused (times_of rowsA) (times_of rowsB) e -> outcome = Err e) /\
  (useless (times_of rowsA) (times_of rowsB) -> outcome = Ok ([], [], NaN)) /\
  (usable (times_of rowsA) (times_of rowsB) -> exists outA outB o, outcome = Ok (inS outA, inS outB, Fin o) /\ row_times outA = row_times outB /\
    hd 0 (times_of rowsB) - last (times_of rowsA) 0 < o < hd 0 (times_of rowsB) - hd 0 (times_of rowsA) + 3 / 2 * duration (times_of rowsB)).
Proof.
  intros rowsA rowsB RA RB SA SB outcome.
  assert (UQ : forall rows, Forall readable rows -> Forall unitq (row_quats (map unit_row rows))).
  { intros rows F. pose proof (quats_unit rows F) as Q. unfold row_quats, quats_of in *. rewrite map_map. exact Q. }
  assert (UT : forall rows : list line, row_times (map unit_row rows) = times_of rows).
  { intros rows. unfold row_times, times_of. rewrite map_map. now apply map_ext. }
  assert (LQ : forall rows : list line, length (quats_of rows) = length (times_of rows)) by (intros; unfold quats_of, times_of; now rewrite !map_length).
  assert (EO : rowsA <> [] -> rowsB <> [] -> outcome = (do o <- calculate_time_offset (map Fin (times_of rowsA)) (inQs (quats_of rowsA)) (map Fin (times_of rowsB)) (inQs (quats_of rowsB)) (mkFiltering (N:=XR) 25 (Fin (199/2)) 25 (Fin 99));
    do aligned <- compute_aligned_poses (inS (map unit_row rowsA)) (inS (map unit_row rowsB)) o; Ok (fst aligned, snd aligned, o))).
  { intros NA NB. unfold outcome, compute_aligned_poses_main. rewrite !read_rows by easy. cbn [bind]. change (@T XR) with xr in *. rewrite default_in. reflexivity. }
  pose proof (C107_offset (times_of rowsA) (quats_of rowsA) (times_of rowsB) (quats_of rowsB) 25 (199/2) 25 99 SA SB (LQ rowsA) (LQ rowsB) (quats_unit _ RA) (quats_unit _ RB) ltac:(lia) ltac:(lra) ltac:(lia) ltac:(lra)) as (_ & _ & _ & _ & OK).
  assert (NE : forall rows : list line, (2 <= length (times_of rows))%nat -> rows <> []) by (intros rows L ->; cbn in L; lia).
  assert (RE : rowsA = [] \/ rowsB = [] -> outcome = Err IndexError).
  { intros [-> | ->]; [reflexivity|]. unfold outcome, compute_aligned_poses_main. destruct rowsA as [|r rowsA]; reflexivity. }
  split; [exact RE|]. split; [|split].
  - intros NB e R. destruct rowsA as [|r0 rowsA'] eqn:ER.
    + rewrite RE by now left. destruct R as [A|A B|A B C|A B C|A B C|A B C D]; try easy; cbn in A; try lia; discriminate.
    + rewrite <- ER in *. rewrite EO by (try easy; now rewrite ER).
      rewrite (refused_offset _ _ _ _ _ _ _ _ e); try assumption; try lia; try lra; try (now apply quats_unit); try apply LQ. reflexivity.
  - intros (LA & LB & P & DA & DB). destruct (OK LA LB) as (_ & _ & O & _). rewrite EO by now apply NE. change (@T XR) with xr in *. rewrite O by assumption. cbn [bind].
    rewrite align_nan; [reflexivity| |]; [pose proof (NE rowsA LA) as G|pose proof (NE rowsB LB) as G]; [destruct rowsA|destruct rowsB]; easy.
  - intros (LA & LB & P & DA & DB). destruct (OK LA LB) as (_ & _ & _ & O). destruct (O P DA DB) as (o & E & BO). rewrite EO by now apply NE. change (@T XR) with xr in *. rewrite E. cbn [bind].
    destruct (C41_contract (map unit_row rowsA) (map unit_row rowsB) o) as (samples & outA & outB & EC & S1 & S2 & _).
    { pose proof (NE rowsA LA). now destruct rowsA. } { pose proof (NE rowsB LB). now destruct rowsB. } { now rewrite UT. } { now rewrite UT. } { now apply UQ. } { now apply UQ. }
    rewrite EC. cbn [bind fst snd]. exists outA, outB, o. split; [easy|]. split; [congruence|exact BO].
Qed.

(** ** The script *)
(** A refused pair: no file is written by the first step. *)
Theorem C107_refused : forall A B fs rowsA rowsB e, fs A = Some (table rowsA) -> fs B = Some (table rowsB) ->
  Forall readable rowsA -> Forall readable rowsB -> sorted (times_of rowsA) -> sorted (times_of rowsB) -> rowsB <> [] ->
  refused (times_of rowsA) (times_of rowsB) e -> compute_aligned_poses_py (N:=XR) (script_aligned_args A B) fs = (fs, Some e).
Proof.
  intros A B fs rowsA rowsB e FA FB RA RB SA SB NB R. destruct (C107_program rowsA rowsB RA RB SA SB) as (_ & H & _). specialize (H NB e R).
  unfold compute_aligned_poses_py. cbn [script_aligned_args quaternion_format poses_B_H_csv_file poses_W_E_csv_file out_B_H_csv_file out_W_E_csv_file time_offset_output_csv_file String.eqb Ascii.eqb Bool.eqb].
  rewrite (read_stamped_in _ _ _ FA), (read_stamped_in _ _ _ FB). cbn [bind]. change (@T XR) with xr in *. rewrite H.
  unfold compute_aligned_poses_main in H. destruct (read_time_stamped_poses (inS rowsA) false) as [y|e']; cbn [bind] in *; [reflexivity|]. injection H as ->. reflexivity.
Qed.
(** A useless pair: the first step succeeds and writes nan and empty pose files, the second step fails. *)
Theorem C107_useless : forall svd estimator fuel A B fs fs' e1 e2 ok rowsA rowsB, A <> B -> fs A = Some (table rowsA) -> fs B = Some (table rowsB) ->
  Forall readable rowsA -> Forall readable rowsB -> sorted (times_of rowsA) -> sorted (times_of rowsB) -> useless (times_of rowsA) (times_of rowsB) ->
  script svd estimator fuel A B fs = Done (Ok (fs', (e1, e2), ok)) ->
  e1 = None /\ e2 <> None /\ fs' "calibration.json"%string = fs "calibration.json"%string /\ fs' "time_offset.csv"%string = Some (Csv [[NaN]]).
Proof.
  intros svd estimator fuel A B fs fs' e1 e2 ok rowsA rowsB NAB FA FB RA RB SA SB US H. destruct (C107_program rowsA rowsB RA RB SA SB) as (_ & _ & M & _). specialize (M US).
  split; [|now apply (C106_few svd estimator fuel A B fs fs' e1 e2 ok _ _ _ _ _ NAB (read_stamped_in _ _ _ FA) (read_stamped_in _ _ _ FB) M); [cbn; lia|]].
  apply script_steps in H as (fs1 & fs2 & Al & _).
  unfold compute_aligned_poses_py in Al. cbn [script_aligned_args quaternion_format poses_B_H_csv_file poses_W_E_csv_file out_B_H_csv_file out_W_E_csv_file time_offset_output_csv_file String.eqb Ascii.eqb Bool.eqb] in Al.
  rewrite (read_stamped_in _ _ _ FA), (read_stamped_in _ _ _ FB) in Al. cbn [bind] in Al. change (@T XR) with xr in *. rewrite M in Al.
  unfold compute_aligned_poses_main in M. destruct (read_time_stamped_poses (inS rowsA) false) as [y|e']; cbn [bind] in *; [now injection Al as <- <-|discriminate M].
Qed.

(** ** Examples *)
Definition still (ts : list R) : list line := map (fun t => (t, (RV 0 0 0, hone))) ts.
Lemma still_readable ts : Forall readable (still ts).
Proof.
  apply Forall_map, Forall_forall. intros t _. unfold readable. cbn [snd]. assert (U : unitq hone) by (unfold unitq, hone; specu; lra).
  apply unit_hnorm in U. rewrite U. lra.
Qed.
Lemma still_times ts : times_of (still ts) = ts.
Proof. unfold times_of, still. rewrite map_map. apply map_id. Qed.
Lemma two_sorted a b : a <= b -> sorted [a; b].
Proof.
  intros L i j x y IJ X Y. destruct i as [|[|[|i]]], j as [|[|[|j]]]; try lia; cbn in X, Y; try discriminate; injection X as <-; injection Y as <-; lra.
Qed.
Lemma three_sorted a b c : a <= b <= c -> sorted [a; b; c].
Proof.
  intros L i j x y IJ X Y. destruct i as [|[|[|[|i]]]], j as [|[|[|[|j]]]]; try lia; cbn in X, Y; try discriminate; injection X as <-; injection Y as <-; lra.
Qed.
(** a fast hand and a slow eye *)
Example C107_refused_example : compute_aligned_poses_main (inS (still [0; 1/10; 2/10])) (inS (still [0; 1; 2])) false = Err IndexError.
Proof.
  destruct (C107_program (still [0; 1/10; 2/10]) (still [0; 1; 2])) as (_ & H & _); try apply still_readable; try (rewrite still_times; apply three_sorted; lra).
  apply H; [discriminate|]. rewrite !still_times. unfold mean_step. apply short; unfold largest_step, mean_step, duration; cbn [List.length last hd Nat.sub INR]; try lia.
  - apply (Rlt_le_trans _ ((2 - 0) / (1 + 1))); [lra|apply Rmax_r].
  - left. apply (Rlt_le_trans _ ((2 - 0) / (1 + 1))); [lra|apply Rmax_r].
Qed.
(** two poses of the hand *)
Example C107_useless_example : compute_aligned_poses_main (inS (still [0; 1])) (inS (still [0; 1; 2])) false = Ok ([], [], NaN).
Proof.
  destruct (C107_program (still [0; 1]) (still [0; 1; 2])) as (_ & _ & H & _); try apply still_readable; [rewrite still_times; apply two_sorted; lra|rewrite still_times; apply three_sorted; lra|].
  apply H. rewrite !still_times. unfold useless, largest_step, mean_step, duration. cbn [List.length last hd Nat.sub INR].
  rewrite Rmax_left by lra. repeat split; try lia; lra.
Qed.
Example C107_usable_example : exists outA outB o, compute_aligned_poses_main (inS (still [0; 1; 2])) (inS (still [5; 6])) false = Ok (inS outA, inS outB, Fin o) /\
  row_times outA = row_times outB /\ 3 < o < 13/2.
Proof.
  destruct (C107_program (still [0; 1; 2]) (still [5; 6])) as (_ & _ & _ & H); try apply still_readable; [rewrite still_times; apply three_sorted; lra|rewrite still_times; apply two_sorted; lra|].
  destruct H as (outA & outB & o & E & S & B).
  - rewrite !still_times. unfold usable, largest_step, mean_step, duration. cbn [List.length last hd Nat.sub INR]. rewrite Rmax_left by lra. repeat split; try lia; lra.
  - exists outA, outB, o. split; [easy|]. split; [easy|]. rewrite !still_times in B. unfold duration in B. cbn [last hd] in B. lra.
Qed.
