(** * Property C70: quaternions in double precision. *)

From Coq Require Import Reals ZArith Bool List Lra Lia Psatz.
From Flocq Require Import Core BinarySingleNaN Plus_error.
From Verif Require Import Num Py Quat DualQuat TimeAlign CsvIo F64 Spec F64Facts FloatFacts.
Import ListNotations.
Local Open Scope R_scope.

(** ** Specification *)
(** the components of p and q differ by at most e *)
Definition close_to (e : R) (p q : rq) : Prop :=
  Rabs (v1 (qv p) - v1 (qv q)) <= e /\ Rabs (v2 (qv p) - v2 (qv q)) <= e /\
  Rabs (v3 (qv p) - v3 (qv q)) <= e /\ Rabs (qs p - qs q) <= e.
(** the exact unit quaternion in the direction of q *)
Definition direction (q : rq) : rq := hscale (/ hnorm q) q.

Lemma quotient_error x N h : 1 / 200000000 <= h -> Rabs (N - h) <= 2 / 1000000000000000 * h -> Rabs x <= h ->
  Rabs (x / N) <= 2 /\ Rabs (rnd (x / N) - / h * x) <= 3 / 1000000000000000.
Proof.
  intros HB D X. apply Rabs_le_inv in D.
  assert (N0 : 0 < N) by lra.
  assert (Q : Rabs (x / N) <= 100000000000001 / 100000000000000).
  { unfold Rdiv. rewrite Rabs_mult, (Rabs_pos_eq (/ N)) by (left; now apply Rinv_0_lt_compat).
    apply Rmult_le_reg_r with N; [easy|]. rewrite Rmult_assoc, Rinv_l, Rmult_1_r by lra. lra. }
  split; [lra|].
  pose proof (rnd_within _ _ Q) as R.
  assert (E : Rabs (x / N - / h * x) <= 21 / 10000000000000000).
  { replace (x / N - / h * x) with (x / N * (/ h * (h - N))) by (field; lra). rewrite (Rabs_mult (x / N)), (Rabs_mult (/ h)), (Rabs_minus_sym h N).
    rewrite (Rabs_pos_eq (/ h)) by (left; apply Rinv_0_lt_compat; lra).
    assert (D' : Rabs (N - h) <= 2 / 1000000000000000 * h) by (absle; lra).
    assert (H0 : 0 <= Rabs (x / N)) by apply Rabs_pos. assert (H1 : 0 <= Rabs (N - h)) by apply Rabs_pos.
    assert (A : / h * Rabs (N - h) <= 2 / 1000000000000000).
    { apply Rmult_le_reg_l with h; [lra|]. rewrite <- Rmult_assoc, Rinv_r, Rmult_1_l by lra. lra. }
    assert (A0 : 0 <= / h * Rabs (N - h)) by (apply Rmult_le_pos; [left; apply Rinv_0_lt_compat; lra|easy]).
    apply Rle_trans with (100000000000001 / 100000000000000 * (2 / 1000000000000000)); [apply Rmult_le_compat; lra|lra]. }
  apply Rabs_le_inv in E. absle; nums; lra.
Qed.
Lemma direction_unit q : 0 < hnorm q -> hnorm2 (direction q) = 1.
Proof.
  intros H. assert (P : hnorm q * hnorm q = hnorm2 q) by (apply sqrt_sqrt; destruct q as [[x y z] w]; unfold hnorm2, hdot, dot3; cbn; nra).
  unfold direction. set (h := hnorm q) in *. replace (hnorm2 (hscale (/ h) q)) with (/ h * / h * hnorm2 q) by (destruct q as [[x y z] w]; unfold hnorm2, hdot, dot3, hscale, vscale; cbn; ring).
  rewrite <- P. field. lra.
Qed.
(** small componentwise errors change the norm of a unit quaternion little *)
Lemma near_unit p q e : 0 <= e <= 1 / 1000 -> hnorm2 q = 1 -> close_to e p q -> Rabs (hnorm2 p - 1) <= 9 * e.
Proof.
  intros E U (A & B & C & D). assert (G := component_le q). unfold hnorm in G. rewrite U, sqrt_1 in G.
  destruct p as [[a b c] d], q as [[a' b' c'] d']. unfold hnorm2, hdot, dot3 in *. cbn [qv qs v1 v2 v3] in *. destruct G as (GA & GB & GC & GD).
  assert (K : forall x y, Rabs (x - y) <= e -> Rabs y <= 1 -> Rabs (x * x - y * y) <= e * (2 + e)).
  { intros x y H1 H2. replace (x * x - y * y) with ((x - y) * (x + y)) by ring. rewrite Rabs_mult.
    apply Rmult_le_compat; [apply Rabs_pos|apply Rabs_pos|easy|]. replace (x + y) with ((x - y) + 2 * y) by ring.
    eapply Rle_trans; [apply Rabs_triang|]. rewrite Rabs_mult, (Rabs_pos_eq 2) by lra. lra. }
  pose proof (K _ _ A GA) as KA. pose proof (K _ _ B GB) as KB. pose proof (K _ _ C GC) as KC. pose proof (K _ _ D GD) as KD. clear K.
  apply Rabs_le_inv in KA, KB, KC, KD. assert (e * e <= 1 / 1000 * e) by nra. absle; lra.
Qed.

(** a finite quaternion within 3e-15 of an exact unit quaternion passes the unit test *)
Lemma close_unit {L} (r : @quat (F64 L)) d : finq r -> hnorm2 d = 1 -> close_to (3 / 1000000000000000) (val r) d ->
  fin (qnorm r) /\ Rabs (V (qnorm r) - 1) <= 1 / 10000000000000 /\ is_unit_ r = true.
Proof.
  intros FF DU CC.
  pose proof (near_unit (val r) _ (3 / 1000000000000000) ltac:(lra) DU CC) as NU.
  assert (NU' := Rabs_le_inv _ _ NU).
  destruct (norm_near r FF ltac:(lra)) as (FD & FN & E).
  split; [exact FN|].
  assert (H1 : Rabs (hnorm (val r) - 1) <= 27 / 1000000000000000).
  { set (k := hnorm (val r)) in *. assert (K0 : 0 <= k) by apply sqrt_pos. assert (KK : k * k = hnorm2 (val r)) by (apply sqrt_sqrt; lra).
    assert (Rabs (k - 1) * 1 <= Rabs (k - 1) * (k + 1)) by (apply Rmult_le_compat_l; [apply Rabs_pos|lra]).
    rewrite <- (Rabs_pos_eq (k + 1)) in H by lra. rewrite <- Rabs_mult in H. replace ((k - 1) * (k + 1)) with (hnorm2 (val r) - 1) in H by (rewrite <- KK; ring). lra. }
  assert (H2 : Rabs (V (qnorm r) - 1) <= 1 / 10000000000000).
  { apply Rabs_le_inv in H1. apply Rabs_le_inv in E. absle; lra. }
  split; [exact H2|]. unfold is_unit_. destruct (of_Z_V 1 ltac:(lia)) as [F1 V1].
  assert (E1 : n1 (N:=F64 L) = f_of_Z 1) by reflexivity.
  apply isclose_near; [exact FN|rewrite E1; exact F1| |]; rewrite E1, V1; [absle; lra|lra].
Qed.

(** ** Normalisation *)
(** Whenever the computed norm is a finite number above the threshold 1e-8, dividing by it gives the exact direction up to
    3e-15 in each component, the norm computed from the result differs from 1 by at most 1e-13 and the result passes the
    unit test of slerp and lerp. *)
Theorem C70_divided : forall L (q : @quat (F64 L)),
  isfin (Num:=F64 L) (qnorm q) = true -> ltb (Num:=F64 L) (lit (Num:=F64 L) 1 (-8)) (qnorm q) = true ->
  let r := qdivs q (qnorm q) in
  finq r /\ close_to (3 / 1000000000000000) (val r) (direction (val q)) /\
  fin (qnorm r) /\ Rabs (V (qnorm r) - 1) <= 1 / 10000000000000 /\ is_unit_ r = true.
Proof.
  intros L q F G r. unfold r. clear r. change (fin (qnorm q)) in F.
  destruct (norm_error q F G) as (FQ & HB & D). destruct (component_le (val q)) as (x & y & z & w).
  set (h := hnorm (val q)) in *. set (N := V (qnorm q)) in *.
  assert (N0 : N <> 0) by (apply Rabs_le_inv in D; lra). pose proof big_huge as BH.
  assert (K : forall a : f64, fin a -> Rabs (V a) <= h -> fin (Bdiv mode_NE a (qnorm q)) /\ Rabs (V (Bdiv mode_NE a (qnorm q)) - / h * V a) <= 3 / 1000000000000000).
  { intros a FA HA. destruct (quotient_error (V a) N h HB D HA) as [Q R]. destruct (div_ok a (qnorm q) FA N0) as [FD ED]; [fold N; lra|].
    split; [exact FD|]. rewrite ED. exact R. }
  destruct FQ as (Fx & Fy & Fz & Fw). cbn [val qv qs v1 v2 v3] in x, y, z, w.
  destruct (K _ Fx x) as [Dx Ex]. destruct (K _ Fy y) as [Dy Ey]. destruct (K _ Fz z) as [Dz Ez]. destruct (K _ Fw w) as [Dw Ew]. clear K.
  assert (FF : finq (qdivs q (qnorm q))) by exact (conj Dx (conj Dy (conj Dz Dw))).
  assert (CC : close_to (3 / 1000000000000000) (val (qdivs q (qnorm q))) (direction (val q))) by exact (conj Ex (conj Ey (conj Ez Ew))).
  split; [exact FF|]. split; [exact CC|]. exact (close_unit _ _ FF (direction_unit (val q) ltac:(fold h; lra)) CC).
Qed.

(** so does [normalize], and normalising twice changes nothing beyond rounding *)
Theorem C70_normalize : forall L (q : @quat (F64 L)),
  isfin (Num:=F64 L) (qnorm q) = true -> ltb (Num:=F64 L) (lit (Num:=F64 L) 1 (-8)) (qnorm q) = true ->
  let r := qnormalize q in
  finq r /\ close_to (3 / 1000000000000000) (val r) (direction (val q)) /\
  fin (qnorm r) /\ Rabs (V (qnorm r) - 1) <= 1 / 10000000000000 /\ is_unit_ r = true.
Proof.
  intros L q F G. assert (EQ : qnormalize q = qdivs q (qnorm q)) by (unfold qnormalize; now rewrite G). rewrite EQ. now apply C70_divided.
Qed.

(** and so do the quaternions returned by the csv reader in both formats (the rows keep their stamps and positions) *)
Theorem C70_read : forall L (rows : list (@stamped (F64 L))) jpl, rows <> [] ->
  Forall (fun r => isfin (Num:=F64 L) (qnorm (ori (snd r))) = true /\ ltb (Num:=F64 L) (lit (Num:=F64 L) 1 (-8)) (qnorm (ori (snd r))) = true) rows ->
  exists rows' qs, read_time_stamped_poses rows jpl = Ok (rows', map fst rows, qs) /\
    map (fun r => (fst r, pos (snd r))) rows' = map (fun r => (fst r, pos (snd r))) rows /\
    Forall2 (fun r r' => let q := ori (snd r') in
      finq q /\ close_to (3 / 1000000000000000) (val q) (direction (val (ori (snd r)))) /\ is_unit_ q = true) rows rows' /\
    Forall2 (fun r q => let d := direction (val (ori (snd r))) in
      finq q /\ close_to (3 / 1000000000000000) (val q) (if jpl then hconj d else d) /\ is_unit_ q = true) rows qs.
Proof.
  intros L rows jpl NE A. exists (map normalise_row rows), (map (read_quaternion jpl) (map normalise_row rows)).
  split; [destruct rows; [contradiction|reflexivity]|]. split; [rewrite map_map; reflexivity|]. clear NE.
  split; induction A as [|[t [v q]] rows [F G] A IH]; cbn [map]; apply Forall2_nil || (apply Forall2_cons; [|exact IH]); clear IH A; cbn [snd ori] in *;
    destruct (C70_divided L q F G) as (FF & CC & _ & _ & U); cbn [normalise_row snd ori].
  - exact (conj FF (conj CC U)).
  - unfold read_quaternion. cbn [snd ori]. destruct jpl; [|exact (conj FF (conj CC U))].
    set (r := qdivs q (qnorm q)) in *. set (d := direction (val q)) in *.
    set (r' := mkQ (opp (qx r)) (opp (qy r)) (opp (qz r)) (qw r)).
    assert (FF' : finq r').
    { destruct FF as (a & b & c & e). split; [|split; [|split]]; [change (fin (Bopp (qx r)))|change (fin (Bopp (qy r)))|change (fin (Bopp (qz r)))|exact e]; rewrite opp_fin; assumption. }
    assert (DU : hnorm2 d = 1).
    { apply direction_unit. destruct (norm_error q F G) as (_ & HB & _). lra. }
    assert (CC' : close_to (3 / 1000000000000000) (val r') (hconj d)).
    { destruct CC as (a & b & c & e). cbn [val qv qs v1 v2 v3] in a, b, c, e.
      assert (K : forall (x : f64) y, Rabs (V x - y) <= 3 / 1000000000000000 -> Rabs (V (Bopp x) - -1 * y) <= 3 / 1000000000000000).
      { intros x y H. rewrite opp_V. replace (- V x - -1 * y) with (- (V x - y)) by ring. now rewrite Rabs_Ropp. }
      unfold hconj, vscale, close_to. cbn [qv qs v1 v2 v3]. split; [exact (K _ _ a)|]. split; [exact (K _ _ b)|]. split; [exact (K _ _ c)|exact e]. }
    split; [exact FF'|]. split; [exact CC'|]. refine (proj2 (proj2 (close_unit r' (hconj d) FF' _ CC'))).
    rewrite <- DU. destruct d as [[x y z] w]. unfold hnorm2, hdot, dot3. cbn. ring.
Qed.

(** ** slerp and lerp accept every pair of quaternions that pass the unit test *)
Theorem C70_accepted : forall (N : Num) (p q : @quat N) f,
  is_unit_ p = true -> is_unit_ q = true -> leb n0 f = true -> leb f n1 = true ->
  (exists r, quaternion_slerp p q f = Ok r) /\ (exists r, quaternion_lerp p q f = Ok r) /\ (exists r, quaternion_nlerp p q f = Ok r).
Proof.
  intros N p q f P Q F0 F1. unfold quaternion_nlerp, quaternion_slerp, quaternion_lerp. rewrite F0, F1, P, Q. cbn [andb assert_ bind].
  destruct (eqb f n0); [now repeat split; eexists|]. destruct (eqb f n1); [now repeat split; eexists|]. destruct (ltb _ _); now repeat split; eexists.
Qed.

(** ** The fraction (t - t_left) / (t_right - t_left) *)
Lemma diff_pos (a b : f64) : V a < V b -> 0 < rnd (V b - V a).
Proof.
  intros H. assert (0 <= rnd (V b - V a)) by (apply rnd_pos; lra).
  assert (rnd (V b - V a) <> 0); [|lra].
  unfold Rminus. change (SpecFloat.fexp 53 1024) with (FLT_exp (-1074) 53) in *.
  apply (round_plus_neq_0 radix2 (FLT_exp (-1074) 53)); try typeclasses eauto.
  - apply (generic_format_B2R 53 1024).
  - apply generic_format_opp. apply (generic_format_B2R 53 1024).
  - lra.
Qed.
Theorem C70_fraction : forall L (tl t tr : @T (F64 L)),
  fin (tl : f64) -> fin (t : f64) -> fin (tr : f64) -> leb tl t = true -> leb t tr = true -> ltb tl tr = true -> isfin (sub tr tl) = true ->
  let f := div (sub t tl) (sub tr tl) in leb n0 f = true /\ leb f n1 = true.
Proof.
  intros L tl t tr Fl Ft Fr H1 H2 H3 FS f.
  change (Bleb tl t = true) in H1. change (Bleb t tr = true) in H2. change (Bltb tl tr = true) in H3. change (fin (Bminus mode_NE tr tl)) in FS.
  apply leb_V in H1; [|exact Fl|exact Ft]. apply leb_V in H2; [|exact Ft|exact Fr]. apply ltb_V in H3; [|exact Fl|exact Fr].
  destruct (sub_fin tr tl FS) as (_ & _ & EB). pose proof (diff_pos tl tr H3) as BP. rewrite <- EB in BP.
  assert (A0 : 0 <= rnd (V t - V tl)) by (apply rnd_pos; lra).
  assert (A1 : rnd (V t - V tl) <= V (Bminus mode_NE tr tl)) by (rewrite EB; apply rnd_le; lra).
  assert (FA : fin (Bminus mode_NE t tl) /\ V (Bminus mode_NE t tl) = rnd (V t - V tl)).
  { pose proof (Bminus_correct 53 1024 f64_prec f64_emax mode_NE t tl Ft Fl) as C. rewrite Rlt_bool_true in C.
    - split; [exact (proj1 (proj2 C))|exact (proj1 C)].
    - rewrite Rabs_pos_eq by exact A0. eapply Rle_lt_trans; [exact A1|]. eapply Rle_lt_trans; [apply Rle_abs|apply V_bound]. }
  destruct FA as [FA EA]. rewrite <- EA in *. set (a := Bminus mode_NE t tl) in *. set (b := Bminus mode_NE tr tl) in *.
  assert (Q : 0 <= V a / V b <= 1).
  { split; [apply Rmult_le_pos; [exact A0|left; now apply Rinv_0_lt_compat]|]. apply Rmult_le_reg_r with (V b); [exact BP|]. unfold Rdiv. rewrite Rmult_assoc, Rinv_l, Rmult_1_r by lra. lra. }
  pose proof big_huge as BH. destruct (div_ok a b FA) as [FF EF]; [lra|rewrite Rabs_pos_eq; lra|].
  change f with (Bdiv mode_NE a b). change (n0 (N:=F64 L)) with (f_of_Z 0). change (n1 (N:=F64 L)) with (f_of_Z 1).
  destruct (of_Z_V 0 ltac:(lia)) as [F0 V0]. destruct (of_Z_V 1 ltac:(lia)) as [F1 V1].
  split; apply leb_V; try assumption; rewrite EF.
  - rewrite V0. now apply rnd_pos.
  - rewrite <- (rnd_self (f_of_Z 1)), V1. apply rnd_le. lra.
Qed.
(** Interpolation at any number of times between two different (finite) time stamps never raises. *)
Theorem C70_interpolate : forall L (p q : @quat (F64 L)) (tl tr : @T (F64 L)) times,
  is_unit_ p = true -> is_unit_ q = true -> fin (tl : f64) -> fin (tr : f64) -> ltb tl tr = true -> isfin (sub tr tl) = true ->
  Forall (fun t : @T (F64 L) => fin (t : f64) /\ leb tl t = true /\ leb t tr = true) times ->
  exists r, quaternions_interpolate p tl q tr times = Ok r /\ length r = length times.
Proof.
  intros L p q tl tr times P Q Fl Fr H3 FS A. unfold quaternions_interpolate.
  induction A as [|t times (Ft & H1 & H2) A (r & E & LR)]; [now exists []|]. cbn [mapM]. rewrite E.
  destruct (C70_fraction L tl t tr Fl Ft Fr H1 H2 H3 FS) as [F0 F1].
  destruct (C70_accepted (F64 L) p q _ P Q F0 F1) as ((x & EX) & _). rewrite EX. cbn [bind]. exists (x :: r). cbn. now rewrite LR.
Qed.

(** ** Examples and counterexamples *)
(** some libm: the constant zero *)
Definition no_libm : libm := Build_libm (fun _ => f_of_Z 0) (fun _ => f_of_Z 0) (fun _ => f_of_Z 0) (fun _ => f_of_Z 0) (fun _ _ => f_of_Z 0).
Definition q70 : @quat (F64 no_libm) := mkQ (N:=F64 no_libm) (f_of_Z 1) (f_of_Z (-2)) (f_lit 3 (-1)) (f_lit 7 (-3)).
Example C70_normalize_example : is_unit_ (qnormalize q70) = true.
Proof. now apply C70_normalize; vm_compute. Qed.
Example C70_interpolate_example :
  exists r, quaternions_interpolate (qnormalize q70) (f_lit 1 (-1)) (qnormalize q70) (f_lit 3 (-1)) [f_lit 1 (-1); f_lit 2 (-1); f_lit 3 (-1)] = Ok r /\ length r = 3%nat.
Proof.
  assert (U : is_unit_ (qnormalize q70) = true) by exact C70_normalize_example.
  apply (C70_interpolate no_libm); [exact U|exact U|vm_compute; reflexivity|vm_compute; reflexivity|vm_compute; reflexivity|vm_compute; reflexivity|].
  repeat apply Forall_cons; try apply Forall_nil; vm_compute; repeat split.
Qed.
(** The threshold is necessary from above, too: the norm of a quaternion with components around 1e200 overflows, the result
    of normalisation is the zero quaternion and slerp rejects it, for every libm. *)
Theorem C70_overflow_refuted : exists x : f64, fin x /\ forall L, let q := mkQ (N:=F64 L) x x x x in
  finq q /\ ltb (lit (Num:=F64 L) 1 (-8)) (qnorm q) = true /\ is_unit_ (qnormalize q) = false /\
  forall p f, quaternion_slerp (qnormalize q) p f = Err AssertionError.
Proof.
  exists (f_lit 1 200). split; [vm_compute; reflexivity|]. intros L q. split; [vm_compute; repeat split|]. split; [vm_compute; reflexivity|].
  assert (U : is_unit_ (qnormalize q) = false) by (vm_compute; reflexivity). split; [exact U|].
  intros p f. unfold quaternion_slerp. rewrite U. destruct (_ && _); reflexivity.
Qed.
