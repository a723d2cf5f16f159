(** * Property C68: the complete pipeline, from two recordings to the initial guess of the batch estimator. *)

From Coq Require Import Reals ZArith Bool String Ascii List Lra Lia Psatz Permutation.
From Verif Require Import Num Py XReal XFacts Quat DualQuat HandEye Ransac TimeAlign CsvIo Experiments Extrinsic Cli Spec TimeSpec Embed
  QuatFacts QuatTrig QuatRot DualFacts ScrewFacts ListFacts HandEyeFacts KernelFacts CalibFacts RansacFacts TimeFacts ResampleFacts
  PropTimeOffset PropResample PropAligned PropFilter PropOffsetPath PropCsv
  PropCalib PropEval PropPrefilter PropBaseline PropRansac PropSampling PropTermination PropDriver PropPerfect PropExtrinsic CalibExample PropComplete PropCli PropScript PropShort.
Import ListNotations.
Local Open Scope R_scope.

(** the unit quaternion in the direction of q *)
Definition unit_of (q : rq) : rq := hscale (/ hnorm q) q.
Definition times_of (rows : list line) : list R := map fst rows.
Definition quats_of (rows : list line) : list rq := map (fun r => unit_of (snd (snd r))) rows.

Lemma read_stamped_in fs p rows : fs p = Some (table rows) -> read_stamped fs p = Ok (inS rows).
Proof.
  intros E. unfold read_stamped. rewrite (read_table_in _ _ _ E). cbn [bind]. clear E.
  induction rows as [|(t & p0 & q) rows IH]; [easy|]. cbn [map mapM]. rewrite IH. cbn [numbers map stamped_of bind]. reflexivity.
Qed.
Lemma table_in (rows : list row) : Csv (map row_of (inS rows)) = table rows.
Proof.
  unfold table, inS. f_equal. rewrite map_map. apply map_ext. intros (t & [a b c] & [[i j k] w]). reflexivity.
Qed.
Definition unit_row (r : line) : line := (fst r, (fst (snd r), unit_of (snd (snd r)))).
Lemma read_rows rows : rows <> [] -> Forall readable rows ->
  read_time_stamped_poses (inS rows) false = Ok (inS (map unit_row rows), map Fin (times_of rows), inQs (quats_of rows)).
Proof.
  intros NE F. rewrite read_nonempty by now destruct rows.
  assert (E : map normalise_row (inS rows) = inS (map unit_row rows)).
  { clear NE. induction F as [|(t & p & q) rows R F IH]; [easy|]. cbn [inS map fst snd] in *. unfold inS in IH. rewrite IH. f_equal.
    unfold readable in R. cbn [snd] in R. unfold normalise_row, inP. cbn [fst snd pos ori]. rewrite qnorm_in, qdivs_in by lra. reflexivity. }
  rewrite E. f_equal. f_equal; [f_equal|].
  - unfold inS, times_of. now rewrite !map_map.
  - unfold inS, inQs, quats_of. rewrite !map_map. reflexivity.
Qed.
Lemma unit_of_unit q : 1 / 100000000 < hnorm q -> unitq (unit_of q).
Proof.
  intros H. unfold unitq, unit_of. replace (hnorm2 (hscale (/ hnorm q) q)) with (/ hnorm q * / hnorm q * hnorm2 q)
      by (unfold hnorm2, hdot, hscale, dot3, vscale; cbn [qv qs Spec.v1 v2 v3]; ring).
  assert (E : hnorm q * hnorm q = hnorm2 q) by (unfold hnorm; apply sqrt_sqrt, hnorm2_pos). rewrite <- E. field. lra.
Qed.
Lemma transform_unit_row r : readable r -> transform (unit_row r) = transform r.
Proof.
  unfold readable, transform, unit_row. cbn [fst snd]. intros H. apply unit_of_unit in H. pose proof (proj1 (unit_hnorm _) H) as E. unfold unit_of in *. rewrite E, Rinv_1.
  f_equal. destruct (hscale _ (snd (snd r))) as [[a b c] d]. unfold hscale, vscale. cbn [qv qs Spec.v1 v2 v3]. now rewrite !Rmult_1_l.
Qed.
Lemma removelast_map {A B} (f : A -> B) l : removelast (map f l) = map f (removelast l).
Proof. induction l as [|x l IH]; [easy|]. destruct l as [|y l]; [easy|]. change (f x :: removelast (map f (y :: l)) = f x :: map f (removelast (y :: l))). now rewrite IH. Qed.

(** The time alignment of two recordings that sample the same instants, when the estimated time offset is the true one:
    all poses but the last, on the eye's clock. *)
Lemma align_step rowsA rowsB o : Forall readable rowsA -> Forall readable rowsB -> (2 <= List.length rowsA)%nat ->
  map (fun t => t + o) (times_of rowsA) = times_of rowsB -> PropAligned.increasing (times_of rowsB) ->
  calculate_time_offset (map Fin (times_of rowsA)) (inQs (quats_of rowsA)) (map Fin (times_of rowsB)) (inQs (quats_of rowsB)) default_filtering = Ok (Fin o) ->
  compute_aligned_poses_main (inS rowsA) (inS rowsB) false =
    Ok (inS (removelast (shift_rows o (map unit_row rowsA))), inS (removelast (map unit_row rowsB)), Fin o).
Proof.
  intros FA FB L ET INC OFF.
  assert (LB : List.length rowsB = List.length rowsA) by (apply (f_equal (@List.length R)) in ET; unfold times_of in ET; now rewrite !map_length in ET).
  unfold compute_aligned_poses_main. rewrite !read_rows by (try easy; intros ->; cbn in *; lia). cbn [bind].
  change (@T XR) with xr in *. rewrite OFF. cbn [bind].
  assert (TU : forall rows, row_times (map unit_row rows) = times_of rows) by (intros; unfold row_times, times_of; now rewrite map_map).
  rewrite (C41_same_rows (map unit_row rowsA) (map unit_row rowsB) o).
  - reflexivity.
  - now rewrite map_length.
  - rewrite TU, <- ET. unfold row_times, shift_rows, times_of. now rewrite !map_map.
  - now rewrite TU.
  - unfold row_quats. rewrite map_map. apply Forall_forall. intros q I. apply in_map_iff in I as (r & <- & I). rewrite Forall_forall in FA. now apply unit_of_unit, FA.
  - unfold row_quats. rewrite map_map. apply Forall_forall. intros q I. apply in_map_iff in I as (r & <- & I). rewrite Forall_forall in FB. now apply unit_of_unit, FB.
Qed.

(** The complete script on noise-free recordings: if the time offset is estimated correctly, calibration.json holds
    exactly the true transform and time offset, and this is what the batch estimator starts from. *)
Theorem C68_exact : forall svd estimator A B fs (x : rdq) rowsA rowsB lf o,
  A <> B ->
  fs A = Some (table rowsA) -> fs B = Some (table rowsB) -> Forall readable rowsA -> Forall readable rowsB -> (11 <= List.length rowsA)%nat ->
  map (fun t => t + o) (times_of rowsA) = times_of rowsB -> PropAligned.increasing (times_of rowsB) ->
  calculate_time_offset (map Fin (times_of rowsA)) (inQs (quats_of rowsA)) (map Fin (times_of rowsB)) (inQs (quats_of rowsB)) default_filtering = Ok (Fin o) ->
  let ds := map transform (removelast rowsA) in
  let es := map transform (removelast rowsB) in
  unitdq x -> 0 < qs (dr x) -> perfect x (combine ds es) -> no_half_turn (combine ds es) -> rich (combine ds es) ->
  let l := combine (from_first ds) (from_first es) in
  filtered es_config (hands l) (eyes l) = Ok (hands lf, eyes lf) ->
  (forall m, exists r, svd m = Ok r) ->
  (forall k p, (k < List.length lf)%nat -> nth_error l k = Some p -> regular svd (trows (realign k p l))) ->
  exists fuel0, forall fuel, (fuel0 <= fuel)%nat -> exists fs' ok out,
    script svd estimator fuel A B fs = Done (Ok (fs', (None, None), ok)) /\
    fs' "calibration.json"%string = Some (Json (document o (trans_of x) (dr x))) /\
    (~ In A fixed_outputs -> ~ In B fixed_outputs -> A <> aligned_path B -> B <> aligned_path A ->
      estimator (fs A) (fs B) (Some (Json (document o (trans_of x) (dr x)))) = (out, ok)).
Proof.
  intros svd estimator A B fs x rowsA rowsB lf o NAB FA FB RA RB L11 ET INC OFF ds es U W P NH RI l FIL TOT REG.
  assert (LB : List.length rowsB = List.length rowsA) by (apply (f_equal (@List.length R)) in ET; unfold times_of in ET; now rewrite !map_length in ET).
  pose proof (align_step rowsA rowsB o RA RB ltac:(lia) ET INC OFF) as AL.
  set (outA := removelast (shift_rows o (map unit_row rowsA))) in *. set (outB := removelast (map unit_row rowsB)) in *.
  set (fs1 := put (put (put fs (aligned_path A) (table outA)) (aligned_path B) (table outB)) "time_offset.csv" (Csv (N:=XR) [[Fin o]])).
  assert (S1 : compute_aligned_poses_py (script_aligned_args A B) fs = (fs1, None)).
  { unfold compute_aligned_poses_py. cbn [script_aligned_args quaternion_format poses_B_H_csv_file poses_W_E_csv_file out_B_H_csv_file out_W_E_csv_file time_offset_output_csv_file String.eqb Ascii.eqb Bool.eqb].
    rewrite (read_stamped_in _ _ _ FA), (read_stamped_in _ _ _ FB). cbn [bind]. rewrite read_rows by (try easy; intros ->; cbn in *; lia). cbn [bind].
    rewrite AL. rewrite !table_in. reflexivity. }
  assert (F : forall a n, In n fixed_outputs -> aligned_path a <> n).
  { intros a n I. unfold fixed_outputs in I. cbn [In] in I. destruct I as [<-|[<-|[<-|[]]]]; now apply aligned_not_plain. }
  assert (G1 : fs1 (aligned_path A) = Some (table outA)).
  { unfold fs1. rewrite put_other by (apply F; cbn; tauto). rewrite put_other by (intros K; now apply aligned_inj in K). apply put_same. }
  assert (G2 : fs1 (aligned_path B) = Some (table outB)).
  { unfold fs1. rewrite put_other by (apply F; cbn; tauto). apply put_same. }
  assert (UR : forall rows, Forall readable rows -> Forall readable (map unit_row rows)).
  { intros rows FR. apply Forall_forall. intros r I. apply in_map_iff in I as (r0 & <- & I). rewrite Forall_forall in FR.
    unfold readable, unit_row. cbn [snd]. rewrite (proj1 (unit_hnorm _)) by now apply unit_of_unit, FR. lra. }
  assert (RL : forall rows : list line, incl (removelast rows) rows).
  { intros rows r. induction rows as [|y rows IH]; [easy|]. destruct rows as [|z rows]; [intros []|]. intros [->|I]; [now left|]. right. now apply IH. }
  assert (RA' : Forall readable outA).
  { unfold outA. apply Forall_forall. intros r I. apply RL in I. unfold shift_rows in I. apply in_map_iff in I as (r0 & <- & I). apply UR in RA. rewrite Forall_forall in RA. exact (RA r0 I). }
  assert (RB' : Forall readable outB).
  { unfold outB. apply Forall_forall. intros r I. apply RL in I. apply UR in RB. rewrite Forall_forall in RB. exact (RB r I). }
  assert (TA : map transform outA = ds).
  { unfold outA, ds, shift_rows. rewrite map_map, removelast_map, map_map. apply map_ext_in. intros r I. apply RL in I. rewrite Forall_forall in RA. exact (transform_unit_row r (RA r I)). }
  assert (TB : map transform outB = es).
  { unfold outB, es. rewrite removelast_map, map_map. apply map_ext_in. intros r I. apply RL in I. rewrite Forall_forall in RB. now apply transform_unit_row, RB. }
  assert (LE : forall rows : list line, List.length (removelast rows) = pred (List.length rows)).
  { intros rows. induction rows as [|y rows IH]; [easy|]. destruct rows as [|z rows]; [easy|]. change (S (List.length (removelast (z :: rows))) = pred (S (S (List.length rows)))). rewrite IH. cbn. lia. }
  assert (L1 : List.length ds = pred (List.length rowsA)) by (unfold ds; now rewrite map_length, LE).
  assert (L2 : List.length es = pred (List.length rowsA)) by (unfold es; now rewrite map_length, LE, LB).
  destruct (C66_exact svd (script_calibration_args A B) fs1 x ds es lf "time_offset.csv" "calibration.json" o) as (fuel0 & RUN); try assumption; try reflexivity; try discriminate.
  - rewrite <- TA. now apply (provides_direct fs1 _ _ (aligned_path A)).
  - rewrite <- TB. now apply (provides_direct fs1 _ _ (aligned_path B)).
  - now rewrite L1, L2.
  - rewrite L1. lia.
  - exists fuel0. intros fuel FU. specialize (RUN fuel FU). cbn [script_calibration_args extrinsics_output_csv_file] in RUN.
    set (fs2 := put fs1 "calibration.json" (Json (document o (trans_of x) (dr x)))) in *.
    destruct (script_estimate estimator A B fs2) as [fs' ok] eqn:SE.
    assert (H : script svd estimator fuel A B fs = Done (Ok (fs', (None, None), ok))) by (apply script_steps; exists fs1, fs2; easy).
    assert (J : fs' "calibration.json"%string = Some (Json (document o (trans_of x) (dr x)))).
    { rewrite (estimate_other _ _ _ _ _ _ _ _ SE) by discriminate. apply put_same. }
    destruct (estimator (fs A) (fs B) (Some (Json (document o (trans_of x) (dr x))))) as [out ok'] eqn:E. exists fs', ok, out. split; [easy|]. split; [easy|].
    intros IA IB NA NB. destruct (C67_status _ _ _ _ _ _ _ _ _ _ H IA IB NA NB) as (out' & E' & _). rewrite J, E in E'. now injection E' as -> ->.
Qed.

(** Non-vacuity of C68_exact: twelve samples, one per second, of the paths of [rows66] (with the last pose repeated), recorded
    with clocks that differ by a quarter of a second. *)
Definition rows68 : list (line * line) := rows66 ++ [lineB].
Definition hand68 : list line := combine (ticks 0 1 12) (map (fun p => snd (fst p)) rows68).
Definition eye68 : list line := combine (ticks (1/4) 1 12) (map (fun p => snd (snd p)) rows68).
Definition fs68 (A B : string) : files (N:=XR) := fun p =>
  if String.eqb p A then Some (table hand68) else if String.eqb p B then Some (table eye68) else None.
Definition hands68 : list rq := map (fun p => snd (snd (fst p))) rows68.
Definition eyes68 : list rq := map (fun p => snd (snd (snd p))) rows68.

Lemma units68 : Forall unitq hands68 /\ Forall unitq eyes68.
Proof.
  split; unfold hands68, eyes68, rows68, rows66; cbn [app map]; repeat apply Forall_cons; try apply Forall_nil;
    unfold lineA, lineB, lineI; cbn [fst snd]; unfold unitq; specu; lra.
Qed.
Lemma times68 : times_of hand68 = ticks 0 1 12 /\ times_of eye68 = ticks (1/4) 1 12.
Proof. split; apply map_fst_combine; rewrite ticks_length; reflexivity. Qed.
Lemma unit_of_self q : unitq q -> unit_of q = q.
Proof. intros U. unfold unit_of. rewrite (proj1 (unit_hnorm q) U), Rinv_1. destruct q as [[x y z] w]. apply rq_eq; specu; ring. Qed.
Lemma quats68 : quats_of hand68 = hands68 /\ quats_of eye68 = eyes68.
Proof.
  destruct units68 as [U1 U2].
  assert (G : forall (t : list R) (u : list (rv * rq)) qs, List.length t = List.length u -> map snd u = qs -> Forall unitq qs -> quats_of (combine t u) = qs).
  { clear. intros t u. revert t. induction u as [|x u IH]; intros [|y t] qs L E F; try discriminate L; cbn in E; subst; [easy|].
    cbn [combine quats_of map snd]. inversion F; subst. rewrite unit_of_self by easy. f_equal. apply IH; [now injection L|easy|easy]. }
  split; apply G; try easy; unfold hands68, eyes68; rewrite map_map; reflexivity.
Qed.
Lemma offset68 : calculate_time_offset (map Fin (ticks 0 1 12)) (inQs hands68) (map Fin (ticks (1/4) 1 12)) (inQs eyes68)
  (default_filtering (N:=XR)) = Ok (Fin (1/4)).
Proof.
  destruct units68 as [U1 U2].
  destruct (C69_same_length hands68 eyes68 0 (1/4) 1) as (mA & mB & PA & PB & H); try assumption; try reflexivity; try (cbn; lia); try lra.
  rewrite Rminus_0_r in H. change (List.length hands68) with 12%nat in *. change (List.length eyes68) with 12%nat in *. apply H; clear H.
  - set (I := hone) in *. set (A := RQ (RV (3/5) 0 0) (4/5)). set (B := RQ (RV 0 (4/5) 0) (3/5)).
    assert (UI : unitq I) by (unfold I, unitq; specu; lra). assert (UA : unitq A) by (unfold A, unitq; specu; lra). assert (UB : unitq B) by (unfold B, unitq; specu; lra).
    destruct (rate_step I A (RV (- 3/5) 0 0) (4/5) 1) as (c1 & C1 & R1); try lra. { unfold I, A. apply rq_eq; specu; ring || lra. }
    destruct (rate_step A B (RV (9/25) (- 16/25) (- 12/25)) (12/25) 1) as (c2 & C2 & R2); try lra. { unfold B, A. apply rq_eq; specu; lra. }
    assert (DT : forall i, 0 + INR (S i) * 1 - (0 + INR i * 1) = 1) by (intros i; rewrite S_INR; lra).
    assert (RA : rates hands68 (ticks 0 1 12) =
      [vzero; vzero; vscale c1 (RV (- 3/5) 0 0); vzero; vzero; vzero; vscale c2 (RV (9/25) (- 16/25) (- 12/25)); vzero; vzero; vzero; vzero]).
    { change hands68 with [I; I; I; A; A; A; A; B; B; B; B; B]. cbn [rates ticks seq map tl nth]. rewrite !DT, R1, R2, !rate_same by easy. reflexivity. }
    rewrite RA in *. unfold vscale in *. cbn [Spec.v1 v2 v3] in *.
    assert (M : 0 < mA).
    { apply (percentile_positive _ _ _ 0 1 (c2 * (9/25)) PA); try reflexivity; try discriminate; try lra; cbn; try lia; try lra; tauto. }
    intros E. apply (f_equal v3) in E. unfold clipped_sum in E. unfold vzero in E. cbn [v1 v2 v3 map Rsum fold_right] in E.
    rewrite Rmult_0_r, !clamp_zero in E by easy. pose proof (clamp_negative mA (c2 * (- 12/25)) M ltac:(lra)). lra.
  - set (I := hone) in *. set (A := RQ (RV (21/125) (-72/125) 0) (4/5)). set (B := RQ (RV (96/125) (28/125) 0) (3/5)).
    assert (UI : unitq I) by (unfold I, unitq; specu; lra). assert (UA : unitq A) by (unfold A, unitq; specu; lra). assert (UB : unitq B) by (unfold B, unitq; specu; lra).
    destruct (rate_step I A (RV (- 21/125) (72/125) 0) (4/5) 1) as (c1 & C1 & R1); try lra. { unfold I, A. apply rq_eq; specu; ring || lra. }
    destruct (rate_step A B (RV (- 321/625) (- 328/625) (- 12/25)) (12/25) 1) as (c2 & C2 & R2); try lra. { unfold B, A. apply rq_eq; specu; lra. }
    assert (DT : forall i, 1/4 + INR (S i) * 1 - (1/4 + INR i * 1) = 1) by (intros i; rewrite S_INR; lra).
    assert (RA : rates eyes68 (ticks (1/4) 1 12) =
      [vzero; vzero; vscale c1 (RV (- 21/125) (72/125) 0); vzero; vzero; vzero; vscale c2 (RV (- 321/625) (- 328/625) (- 12/25)); vzero; vzero; vzero; vzero]).
    { change eyes68 with [I; I; I; A; A; A; A; B; B; B; B; B]. cbn [rates ticks seq map tl nth]. rewrite !DT, R1, R2, !rate_same by easy. reflexivity. }
    rewrite RA in *. unfold vscale in *. cbn [Spec.v1 v2 v3] in *.
    assert (M : 0 < mB).
    { apply (percentile_positive _ _ _ 0 1 (c1 * (72/125)) PB); try reflexivity; try discriminate; try lra; cbn; try lia; try lra; tauto. }
    intros E. apply (f_equal v3) in E. unfold clipped_sum in E. unfold vzero in E. cbn [v1 v2 v3 map Rsum fold_right] in E.
    rewrite Rmult_0_r, !clamp_zero in E by easy. pose proof (clamp_negative mB (c2 * (- 12/25)) M ltac:(lra)). lra.
Qed.
Lemma readable68 : Forall readable hand68 /\ Forall readable eye68.
Proof.
  destruct units68 as [U1 U2].
  assert (G : forall (t : list R) (u : list (rv * rq)), Forall unitq (map snd u) -> Forall readable (combine t u)).
  { clear. intros t u F. apply Forall_forall. intros [y [v q]] I. apply in_combine_r in I. apply (in_map snd) in I. rewrite Forall_forall in F. specialize (F _ I).
    unfold readable. cbn [snd] in *. rewrite (proj1 (unit_hnorm q) F). lra. }
  split; apply G; rewrite map_map; assumption.
Qed.
Lemma poses68 : map transform (removelast hand68) = map fst l66 /\ map transform (removelast eye68) = map snd l66.
Proof.
  assert (M1 : map transform (map fst rows66) = map fst l66) by (rewrite <- lines66, !map_map; apply map_ext; easy).
  assert (M2 : map transform (map snd rows66) = map snd l66) by (rewrite <- lines66, !map_map; apply map_ext; easy).
  split; [rewrite <- M1|rewrite <- M2]; reflexivity.
Qed.
Lemma run68 estimator A B :
  A <> B -> exists fuel0, forall fuel, (fuel0 <= fuel)%nat -> exists fs' ok out,
    script svd66 estimator fuel A B (fs68 A B) = Done (Ok (fs', (None, None), ok)) /\
    fs' "calibration.json"%string = Some (Json (document (1/4) (trans_of x0) (dr x0))) /\
    (~ In A fixed_outputs -> ~ In B fixed_outputs -> A <> aligned_path B -> B <> aligned_path A ->
      estimator (fs68 A B A) (fs68 A B B) (Some (Json (document (1/4) (trans_of x0) (dr x0)))) = (out, ok)).
Proof.
  intros NAB. destruct times68 as [T1 T2]. destruct quats68 as [Q1 Q2]. destruct readable68 as [R1 R2]. destruct poses68 as [P1 P2]. destruct first66 as [F1 F2].
  assert (CB : combine (map fst l66) (map snd l66) = l66) by reflexivity.
  apply (C68_exact svd66 estimator A B (fs68 A B) x0 hand68 eye68 [pA; pB] (1/4)); try assumption.
  - unfold fs68. now rewrite String.eqb_refl.
  - unfold fs68. rewrite String.eqb_refl. destruct (String.eqb_spec B A); [congruence|easy].
  - cbn. lia.
  - rewrite T1, T2. unfold ticks. rewrite map_map. apply map_ext. intros; lra.
  - rewrite T2. intros i j s t IJ E1 E2. apply (ticks_strict (1/4) 1 12 i j s t); [lra|assumption..].
  - rewrite T1, T2, Q1, Q2. exact offset68.
  - apply x0_unit.
  - cbn; lra.
  - rewrite P1, P2, CB. exact perfect66.
  - rewrite P1, P2, CB. exact no_half_turn66.
  - rewrite P1, P2, CB. exact rich66.
  - rewrite P1, P2, F1, F2, CB. exact filtered66.
  - intros m. now eexists.
  - rewrite P1, P2, F1, F2, CB. intros k p K N. now apply regular66'.
Qed.
Example C68_example : forall estimator, exists fuel0, forall fuel, (fuel0 <= fuel)%nat -> exists fs' ok out,
  script svd66 estimator fuel "data/tango.csv" "data/vicon.csv" (fs68 "data/tango.csv" "data/vicon.csv") = Done (Ok (fs', (None, None), ok)) /\
  fs' "calibration.json"%string = Some (Json (document (1/4) (trans_of x0) (dr x0))) /\
  estimator (Some (table hand68)) (Some (table eye68)) (Some (Json (document (1/4) (trans_of x0) (dr x0)))) = (out, ok).
Proof.
  intros estimator. destruct (run68 estimator "data/tango.csv" "data/vicon.csv") as (fuel0 & H); [discriminate|]. exists fuel0. intros fuel FU.
  destruct (H fuel FU) as (fs' & ok & out & R & J & E). exists fs', ok, out. split; [exact R|]. split; [exact J|]. apply E; try discriminate;
    unfold fixed_outputs; cbn [In]; intros C; repeat (destruct C as [C|C]; [discriminate C|]); exact C.
Qed.
(** Non-vacuity of C67_overwritten: the hand recording is called like the aligned eye recording and is lost. *)
Example C67_overwritten_example : forall estimator, exists fuel0, forall fuel, (fuel0 <= fuel)%nat -> exists fs' e2 ok outB,
  script svd66 estimator fuel "aligned_eye.csv" "eye.csv" (fs68 "aligned_eye.csv" "eye.csv") = Done (Ok (fs', (None, e2), ok)) /\
  fs68 "aligned_eye.csv" "eye.csv" "aligned_eye.csv"%string = Some (table hand68) /\
  fs' "aligned_eye.csv"%string = Some (Csv (map columns outB)).
Proof.
  intros estimator. destruct (run68 estimator "aligned_eye.csv" "eye.csv") as (fuel0 & H); [discriminate|]. exists fuel0. intros fuel FU.
  destruct (H fuel FU) as (fs' & ok & out & R & J & E).
  destruct (C67_overwritten XR _ _ _ _ _ _ _ _ _ R) as (rowsA & rowsB & outA & outB & o & _ & _ & _ & F); [reflexivity|].
  exists fs', None, ok, outB. split; [exact R|]. split; [reflexivity|exact F].
Qed.
