(** * Property C44: the CSV pose reader and the programs built on it. *)

From Coq Require Import Reals ZArith Bool List Lra Lia Psatz Permutation.
From Verif Require Import Num Py XReal XFacts Quat DualQuat TimeAlign CsvIo Spec TimeSpec Embed QuatFacts QuatTrig
  ListFacts TimeFacts ResampleFacts PropTimeOffset PropResample PropAligned PropFilter PropOffsetPath.
Import ListNotations.
Local Open Scope R_scope.

(** ** Every number system *)
(** As many poses, stamps and quaternions as rows; stamps and positions are those of the file. *)
Theorem C44_rows : forall (N : Num) (rows : list (stamped (N:=N))) jpl,
  (rows = [] -> read_time_stamped_poses rows jpl = Err IndexError) /\
  (rows <> [] -> exists poses times quats, read_time_stamped_poses rows jpl = Ok (poses, times, quats) /\
     times = map fst rows /\ length poses = length rows /\ length quats = length rows /\
     map fst poses = map fst rows /\ map (fun p => pos (snd p)) poses = map (fun p => pos (snd p)) rows).
Proof.
  intros N rows jpl. split; [intros ->; easy|]. intros NE. destruct rows as [|r rows]; [easy|].
  unfold read_time_stamped_poses. do 3 eexists. split; [reflexivity|]. split; [easy|].
  rewrite !map_length. split; [easy|]. split; [easy|]. rewrite !map_map. split; apply map_ext; intros [t p]; easy.
Qed.

(** The convention only affects the quaternion list: the array of poses is the same in both. *)
Theorem C44_poses_unconverted : forall (N : Num) (rows : list (stamped (N:=N))) poses times quats,
  read_time_stamped_poses rows true = Ok (poses, times, quats) ->
  quats = map (fun p => qconj (ori (snd p))) poses /\
  read_time_stamped_poses rows false = Ok (poses, times, map (fun p => ori (snd p)) poses).
Proof.
  intros N rows poses times quats H. destruct rows as [|r rows]; [discriminate H|].
  unfold read_time_stamped_poses in *. injection H as <- <- <-. split.
  - cbn [map]. rewrite !map_map. reflexivity.
  - cbn [map]. rewrite !map_map. reflexivity.
Qed.

(** compute_aligned_poses.py: whatever the convention asked for, the written arrays are the aligned
    poses of the UNCONVERTED input (the convention only reaches the time offset). *)
Theorem C44_written : forall (N : Num) (rows_B_H rows_W_E : list (stamped (N:=N))) jpl out_B_H out_W_E offset,
  compute_aligned_poses_main rows_B_H rows_W_E jpl = Ok (out_B_H, out_W_E, offset) ->
  exists poses_B_H times_B_H quats_B_H poses_W_E times_W_E quats_W_E,
    read_time_stamped_poses rows_B_H false = Ok (poses_B_H, times_B_H, quats_B_H) /\
    read_time_stamped_poses rows_W_E false = Ok (poses_W_E, times_W_E, quats_W_E) /\
    compute_aligned_poses poses_B_H poses_W_E offset = Ok (out_B_H, out_W_E) /\
    calculate_time_offset times_B_H (if jpl then map qconj quats_B_H else quats_B_H)
      times_W_E (if jpl then map qconj quats_W_E else quats_W_E) default_filtering = Ok offset.
Proof.
  intros N b w jpl ob ow off H. unfold compute_aligned_poses_main in H.
  apply bind_ok in H as ([[pb tb] qb] & RB & H). apply bind_ok in H as ([[pw tw] qw] & RW & H).
  apply bind_ok in H as (o & TO & H). apply bind_ok in H as ([ab aw] & CA & H). injection H as <- <- <-.
  cbn [fst snd]. destruct jpl.
  - apply C44_poses_unconverted in RB as [-> RB]. apply C44_poses_unconverted in RW as [-> RW].
    exists pb, tb, (map (fun p => ori (snd p)) pb), pw, tw, (map (fun p => ori (snd p)) pw).
    split; [exact RB|]. split; [exact RW|]. split; [exact CA|]. now rewrite !map_map.
  - exists pb, tb, qb, pw, tw, qw. easy.
Qed.

(** ** Exact arithmetic: normalisation *)
(** [q] scaled to unit length by a positive factor *)
Definition normalised (q q' : rq) : Prop := unitq q' /\ exists k, 0 < k /\ q' = hscale k q.
Lemma hnorm_pos q : q <> hzero -> 0 < hnorm q.
Proof.
  intros NZ. apply sqrt_lt_R0. destruct q as [[x y z] w]. unfold hnorm2, hdot, dot3. cbn [qv qs v1 v2 v3].
  destruct (Req_dec x 0) as [->|]; [|nra]. destruct (Req_dec y 0) as [->|]; [|nra]. destruct (Req_dec z 0) as [->|]; [|nra].
  destruct (Req_dec w 0) as [->|]; [|nra]. now destruct NZ.
Qed.
Lemma normalise_in t p q : q <> hzero ->
  exists q', normalise_row (N:=XR) (Fin t, inP p q) = (Fin t, inP p q') /\ normalised q q'.
Proof.
  intros NZ. exists (hscale (/ hnorm q) q). pose proof (hnorm_pos q NZ) as NP. split.
  - unfold normalise_row, inP. cbn [fst snd pos ori]. rewrite qnorm_in, qdivs_in by lra. reflexivity.
  - split; [|exists (/ hnorm q); split; [now apply Rinv_0_lt_compat|easy]].
    unfold unitq. replace (hnorm2 (hscale (/ hnorm q) q)) with (/ hnorm q * / hnorm q * hnorm2 q)
      by (unfold hnorm2, hdot, hscale, dot3, vscale; cbn [qv qs v1 v2 v3]; ring).
    assert (E : hnorm q * hnorm q = hnorm2 q) by (unfold hnorm; apply sqrt_sqrt, hnorm2_pos). rewrite <- E. field. lra.
Qed.
Lemma read_nonempty (N : Num) (rows : list (stamped (N:=N))) jpl : rows <> [] ->
  read_time_stamped_poses rows jpl = Ok (map normalise_row rows, map fst rows, map (read_quaternion jpl) (map normalise_row rows)).
Proof. now destruct rows. Qed.
Theorem C44_normalised : forall (rows : list row) jpl,
  rows <> [] -> Forall (fun q => q <> hzero) (row_quats rows) ->
  exists out quats,
    read_time_stamped_poses (inS rows) jpl = Ok (inS out, map Fin (row_times rows), map inQ quats) /\
    Forall2 (fun r o => fst o = fst r /\ fst (snd o) = fst (snd r) /\ normalised (snd (snd r)) (snd (snd o))) rows out /\
    quats = map (if jpl then hconj else fun q => q) (row_quats out) /\ Forall unitq quats.
Proof.
  intros rows jpl NE NZ.
  assert (G : exists out, map normalise_row (inS rows) = inS out /\
    Forall2 (fun r o => fst o = fst r /\ fst (snd o) = fst (snd r) /\ normalised (snd (snd r)) (snd (snd o))) rows out).
  { clear NE. unfold row_quats in NZ. induction rows as [|[t [p q]] rows IH]; [exists []; split; [easy|constructor]|]. inversion NZ as [|? ? Q NZ']; subst.
    destruct (IH NZ') as (out & E & F). destruct (normalise_in t p q Q) as (q' & E' & NQ).
    exists ((t, (p, q')) :: out). split; [|constructor; [easy|exact F]].
    cbn [inS map fst snd]. unfold inS in E. rewrite E. cbn [fst snd] in E'. rewrite E'. reflexivity. }
  destruct G as (out & E & F). exists out, (map (if jpl then hconj else fun q => q) (row_quats out)).
  split; [|split; [exact F|split; [easy|]]].
  - rewrite read_nonempty by (now destruct rows). rewrite E. f_equal. f_equal; [f_equal|].
    + unfold row_times, inS. now rewrite !map_map.
    + unfold row_quats, inS. rewrite !map_map. apply map_ext. intros [t [p q]]. cbn [fst snd]. unfold read_quaternion, inP. cbn [snd ori].
      destruct jpl; [|easy]. rewrite <- qconj_in. reflexivity.
  - apply Forall_forall. intros q I. apply in_map_iff in I as (q' & <- & I). apply in_map_iff in I as ([t [p q0]] & E0 & I).
    cbn [snd] in E0. subst q'. apply In_nth_error in I as (i & I).
    assert (U : unitq q0).
    { clear E NE NZ. revert i I. induction F as [|r o rows out (_ & _ & U & _) F IH]; intros [|i] I; try discriminate I.
      - injection I as ->. exact U. - now apply (IH i). }
    destruct jpl; [|exact U]. unfold unitq in *. rewrite <- U. unfold hnorm2, hdot, hconj, dot3, vscale. cbn [qv qs v1 v2 v3]. ring.
Qed.

(** A row with a zero quaternion is not rejected: it becomes four NaNs. *)
Theorem C44_zero : forall (rows : list row) jpl i t p,
  nth_error rows i = Some (t, (p, hzero)) ->
  exists poses times quats, read_time_stamped_poses (inS rows) jpl = Ok (poses, times, quats) /\
    nth_error poses i = Some (Fin t, mkPose (inV p) (mkQ (N:=XR) NaN NaN NaN NaN)) /\
    nth_error quats i = Some (mkQ (N:=XR) NaN NaN NaN NaN).
Proof.
  intros rows jpl i t p H. assert (NE : rows <> []) by (intros ->; destruct i; discriminate H).
  rewrite read_nonempty by (now destruct rows). do 3 eexists. split; [reflexivity|].
  assert (E : nth_error (map normalise_row (inS rows)) i = Some (Fin t, mkPose (inV p) (mkQ (N:=XR) NaN NaN NaN NaN))).
  { unfold inS, row in *. rewrite map_map, nth_error_map, H. cbn [option_map fst snd]. unfold normalise_row, inP. cbn [fst snd pos ori].
    rewrite qnorm_in. replace (hnorm hzero) with 0.
    - unfold qdivs, inQ, hzero, vzero. cbn [qv qs v1 v2 v3 qx qy qz qw div XR].
      replace (xdiv (Fin 0) (Fin 0)) with NaN; [easy|]. unfold xdiv. destruct (Req_EM_T 0 0); [|lra]. unfold inf_signed.
      repeat match goal with |- context [Rlt_dec ?a ?b] => destruct (Rlt_dec a b); [lra|] end; try easy.
    - unfold hnorm, hnorm2, hdot, hzero, vzero, dot3. cbn [qv qs v1 v2 v3]. replace (_ + _) with 0 by ring. now rewrite sqrt_0. }
  split; [exact E|].
  rewrite nth_error_map. change (@T XR) with xr in *. rewrite E. cbn [option_map]. unfold read_quaternion. cbn [snd ori].
  now destruct jpl.
Qed.

(** ** The promise of compute_aligned_poses.py fails for JPL input *)
(** Three poses at rest with the JPL quaternion (0, 0, 3/5, 4/5). *)
Definition qj : rq := RQ (RV 0 0 (3 / 5)) (4 / 5).
Definition rest : list row := map (fun i => (0 + INR i * 1, (vzero, qj))) (seq 0 3).
Lemma qj_unit : unitq qj.
Proof. unfold unitq, hnorm2, hdot, dot3, qj. cbn [qv qs v1 v2 v3]. lra. Qed.
Lemma still_norms q k p : unitq q -> (1 <= k)%nat -> 0 <= p <= 100 ->
  compute_angular_velocity_norms (inQs [q; q; q]) (map Fin (ticks 0 1 3)) k (Fin p) = Ok (map Fin [0; 0]).
Proof.
  intros U K P.
  destruct (C43_norms [q; q; q] (ticks 0 1 3) k p) as (m & norms & PM & E & LN & AT & B); try easy.
  { repeat constructor; easy. } { cbn. lia. } { apply ticks_increasing. lra. }
  rewrite E. do 2 f_equal.
  assert (RZ : forall dt, rate q q dt = vzero).
  { intros dt. unfold rate. assert (D : hmul q (hconj q) = hone).
    { unfold unitq, hnorm2, hdot, dot3 in U. destruct q as [[x y z] w]. cbn [qv qs v1 v2 v3] in U. clear - U. specu. f_equal; [f_equal; ring|]. lra. }
    rewrite D. unfold pos_w, hone. cbn [qs qv]. destruct (Rlt_dec 1 0); [lra|]. cbn [qs]. rewrite Rminus_diag_eq, Rabs_R0 by easy.
    destruct (Rle_dec 0 _); [easy|lra]. }
  assert (RS : rates [q; q; q] (ticks 0 1 3) = [vzero; vzero]) by (cbn [rates ticks seq map tl nth]; now rewrite !RZ).
  rewrite RS in *.
  assert (M0 : m = 0).
  { destruct PM as (s & i & w & PE & _ & W & _ & ->).
    assert (Z : forall j, nth j s 0 = 0).
    { intros j. destruct (Nat.lt_ge_cases j (length s)); [|now apply nth_overflow].
      assert (I : In (nth j s 0) s) by now apply nth_In. apply (Permutation_in _ (Permutation_sym PE)) in I. cbn in I. intuition lra. }
    rewrite !Z. ring. }
  subst m. rewrite Rabs_R0, Rmult_0_r in B. destruct norms as [|a [|b [|c norms]]]; try discriminate LN.
  inversion B as [|? ? B1 B']; subst. inversion B' as [|? ? B2 B'']; subst. repeat f_equal; lra.
Qed.
Lemma rest_offset q : unitq q ->
  calculate_time_offset (N:=XR) (map Fin (ticks 0 1 3)) (inQs [q; q; q]) (map Fin (ticks 0 1 3)) (inQs [q; q; q]) default_filtering = Ok (Fin (-1)).
Proof.
  intros U. unfold calculate_time_offset. rewrite !mean_step_in by (rewrite ticks_length; lia). rewrite !ticks_mean by lia.
  cbn [leb XR xleb]. rewrite Rleb_t by lra.
  pose proof (resample_ticks [q; q; q] 0 1) as R1. cbn [length] in R1. specialize (R1 ltac:(lia) ltac:(lra)).
  assert (FU : Forall unitq [q; q; q]) by (repeat constructor; easy). specialize (R1 FU).
  change (@T XR) with xr in *. rewrite R1. cbn [bind].
  unfold default_filtering. cbn [smoothing_kernel_size_A clipping_percentile_A smoothing_kernel_size_B clipping_percentile_B lit XR].
  change (Rlit 995 (-1)) with (995 / 10). change (Rlit 99 0) with 99.
  pose proof (still_norms q 25 (995 / 10) U ltac:(lia) ltac:(lra)) as N1. pose proof (still_norms q 25 99 U ltac:(lia) ltac:(lra)) as N2.
  change (@T XR) with xr in *. rewrite N1. cbn [bind]. rewrite N2. cbn [bind].
  rewrite !firstn_map, !map_length. cbn [length]. rewrite ticks_firstn by lia. rewrite !ticks_length.
  rewrite assert_true by easy.
  assert (T2 : ticks 0 1 2 <> []) by easy.
  destruct (C39_maximal_lag (ticks 0 1 2) [0; 0] (ticks 0 1 2) [0; 0]) as (l & LR & MX & EQ); try easy.
  change (@T XR) with xr in *. rewrite EQ. rewrite ticks_hd, ticks_mean by lia.
  assert (X0 : forall j, xcorr [0; 0] [0; 0] j = 0).
  { intros j. unfold xcorr. cbn [length seq map Rsum fold_right].
    assert (S0 : forall i, sig_at [0; 0] i = 0).
    { intros i. unfold sig_at. destruct (i <? 0)%Z; [easy|]. destruct (Z.to_nat i) as [|[|[|]]]; easy. }
    rewrite !S0. ring. }
  unfold lag_range in *. cbn [length] in *.
  assert (l = -1)%Z as ->.
  { destruct (Z.eq_dec l (-1)) as [|NE]; [easy|exfalso].
    destruct (MX (-1)%Z ltac:(lia)) as [_ M]. specialize (M ltac:(lia)). rewrite !X0 in M. lra. }
  do 2 f_equal. lra.
Qed.
Lemma rest_shape : row_times rest = ticks 0 1 3 /\ row_quats rest = [qj; qj; qj].
Proof. split; [unfold row_times, rest, ticks; now rewrite map_map|easy]. Qed.
Lemma rest_read jpl : read_time_stamped_poses (inS rest) jpl =
  Ok (inS rest, map Fin (ticks 0 1 3), inQs (map (if jpl then hconj else fun q => q) [qj; qj; qj])).
Proof.
  destruct (C44_normalised rest jpl) as (out & quats & E & F & -> & _); [easy| |].
  { destruct rest_shape as [_ ->]. assert (NZ : qj <> hzero) by (intros Q; injection Q; intros; lra). repeat constructor; easy. }
  assert (out = rest) as ->.
  { assert (NQ : forall q', normalised qj q' -> q' = qj).
    { intros q' (U & k & K & ->). unfold unitq, hnorm2, hdot, dot3, hscale, qj in U. cbn [qv qs v1 v2 v3 vscale] in U.
      assert (k = 1) by nra. subst k. unfold hscale, qj, vscale. cbn [qv qs v1 v2 v3]. f_equal; [f_equal; lra|lra]. }
    clear E. unfold rest in *. cbn [seq map] in *.
    inversion F as [|? [t1 [p1 q1]] ? ? (A1 & A2 & A3) F1]; subst. inversion F1 as [|? [t2 [p2 q2]] ? ? (B1 & B2 & B3) F2]; subst.
    inversion F2 as [|? [t3 [p3 q3]] ? ? (C1 & C2 & C3) F3]; subst. inversion F3; subst. cbn [fst snd] in *. subst.
    now rewrite (NQ q1), (NQ q2), (NQ q3). }
  destruct rest_shape as [RT RQ]. now rewrite RT, RQ in E.
Qed.
Theorem C44_hamilton_output_refuted :
  exists (rows : list row) (out_B_H out_W_E : list row) (o : R),
    Forall (fun q => q = qj /\ unitq q) (row_quats rows) /\
    compute_aligned_poses_main (inS rows) (inS rows) true = Ok (inS out_B_H, inS out_W_E, Fin o) /\
    out_B_H <> [] /\ out_W_E <> [] /\
    Forall (fun q => q = qj /\ q <> hconj qj) (row_quats out_B_H) /\
    Forall (fun q => q = qj /\ q <> hconj qj) (row_quats out_W_E).
Proof.
  assert (UC : unitq (hconj qj)) by (unfold unitq, hnorm2, hdot, dot3, qj, hconj, vscale; cbn [qv qs v1 v2 v3]; lra).
  destruct rest_shape as [RT RQ].
  assert (SH : row_times (shift_rows (-1) rest) = ticks (-1) 1 3).
  { unfold rest, shift_rows, row_times, ticks. rewrite !map_map. apply map_ext. intros. cbn [fst]. lra. }
  destruct (C41_contract rest rest (-1)) as (s & oA & oB & E & T1 & T2 & P1 & P2 & F1 & _); try easy.
  { rewrite RT. apply ticks_sorted. lra. } { rewrite RT. apply ticks_sorted. lra. }
  { rewrite RQ. repeat constructor; apply qj_unit. } { rewrite RQ. repeat constructor; apply qj_unit. }
  assert (GA : gaps (ticks (-1) 1 3) = gaps (ticks 0 1 3)).
  { unfold gaps, ticks. cbn [seq map tl combine fst snd]. f_equal; [lra|f_equal; lra]. }
  assert (LA : low_is_A (row_times (shift_rows (-1) rest)) (row_times rest)).
  { rewrite SH, RT. unfold low_is_A. rewrite GA.
    destruct (median_in (gaps (ticks 0 1 3))) as (m & _ & M); [apply gaps_cons; rewrite ticks_length; lia|]. exists m, m. repeat split; try easy. lra. }
  specialize (F1 ltac:(cbn; lia) ltac:(cbn; lia) LA). rewrite SH, RT in F1.
  rewrite !ticks_hd in F1 by lia. rewrite Rmax_right in F1 by lra.
  assert (I0 : s = [0; 1]).
  { eapply filtered_unique; [exact F1|]. unfold ticks at 2. cbn [seq map].
    replace (-1 + INR 0 * 1) with (-1) by (cbn; lra). replace (-1 + INR 1 * 1) with 0 by (cbn; lra). replace (-1 + INR 2 * 1) with 1 by (cbn; lra).
    apply filtered_drop; [intros [Q _]; lra|]. apply filtered_keep; [|apply filtered_keep; [|constructor]].
    - split; [lra|]. exists 0%nat, 0. split; [|split; [cbn; lia|now left]]. split; [cbn; f_equal; lra|]. split; [lra|intros; lia].
    - split; [lra|]. exists 1%nat, 1. split; [|split; [cbn; lia|now left]]. split; [cbn; f_equal; lra|]. split; [lra|].
      intros [|j] a L Q; [|lia]. injection Q as <-. cbn. lra. }
  rewrite I0 in T1, T2. clear I0 F1.
  assert (QJ : forall q, q = qj -> q = qj /\ q <> hconj qj).
  { intros q ->. split; [easy|]. unfold qj, hconj, vscale. intros Q. injection Q. cbn [v3]. intros. lra. }
  assert (GO : forall l out, row_quats l = [qj; qj; qj] -> Forall (on_path l) out ->
     (forall t, In t (row_times out) -> In t (row_times l)) -> (forall i j a b, (i < j)%nat -> nth_error (row_times l) i = Some a -> nth_error (row_times l) j = Some b -> a < b) ->
     Forall (fun q => q = qj /\ q <> hconj qj) (row_quats out)).
  { intros l out QL P IN ST. apply Forall_forall. intros q I. apply in_map_iff in I as ([t [p q']] & Q & I). cbn [snd] in Q. subst q'.
    assert (IT : In t (row_times l)) by (apply IN, in_map_iff; now exists (t, (p, q))).
    rewrite Forall_forall in P. destruct (P _ I) as (_ & _ & _ & RS). rewrite QL in RS.
    apply QJ. inversion RS as [r t' q' F N _|k tl tr ql qr q' (N1 & N2 & N3) N4 N5 _ _ _ _]; subst.
    - destruct r as [|[|[|[|]]]]; cbn in N; congruence.
    - exfalso. apply In_nth_error in IT as (i & IT). destruct (Nat.lt_ge_cases i (S k)) as [L|L].
      + pose proof (N3 i t L IT). lra.
      + destruct (Nat.eq_dec i (S k)) as [->|NE]; [rewrite N1 in IT; injection IT as ->; lra|].
        pose proof (ST (S k) i tr t ltac:(lia) N1 IT). lra. }
  exists rest, oA, oB, (-1). split; [rewrite RQ; repeat constructor; try apply qj_unit|].
  split; [|split; [intros ->; discriminate T1|split; [intros ->; discriminate T2|split]]].
  - unfold compute_aligned_poses_main. rewrite (rest_read true). cbn [bind]. cbn [map].
    pose proof (rest_offset _ UC) as RO. change (@T XR) with xr in *. rewrite RO. cbn [bind]. rewrite E. reflexivity.
  - apply (GO (shift_rows (-1) rest)); [easy|exact P1| |].
    + rewrite SH, T1. intros t [<-|[<-|[]]]; cbn; [right; left; lra|right; right; left; lra].
    + rewrite SH. intros. eapply (ticks_strict (-1) 1 3 i j); eauto. lra.
  - apply (GO rest); [easy|exact P2| |].
    + rewrite RT, T2. intros t [<-|[<-|[]]]; cbn; [left; lra|right; left; lra].
    + rewrite RT. intros. eapply (ticks_strict 0 1 3 i j); eauto. lra.
Qed.

(** Non-vacuity: a file of three rows that meets the hypotheses of C44_normalised. *)
Example C44_example : exists rows, rows <> [] /\ Forall (fun q => q <> hzero) (row_quats rows) /\
  ~ Forall unitq (row_quats rows).
Proof.
  exists [(0, (vzero, RQ (RV 0 0 3) 4)); (1, (vzero, hone))]. split; [easy|]. split.
  - repeat constructor; intros Q; injection Q; intros; lra.
  - intros H. inversion H as [|? ? U _]; subst. unfold unitq, hnorm2, hdot, dot3 in U. cbn in U. lra.
Qed.
