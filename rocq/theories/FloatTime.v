(** * Facts about the resampling of recordings in double precision. *)

From Coq Require Import Reals ZArith Bool List Lra Lia Psatz.
From Flocq Require Import Core BinarySingleNaN.
From Verif Require Import Num Py XReal XFacts Quat DualQuat TimeAlign F64 Spec TimeSpec ListFacts ResampleFacts F64Facts FloatFacts PropFloat.
Import ListNotations.
Local Open Scope R_scope.

Notation allfin l := (Forall (fun x : f64 => fin x) l).
Notation zerof := (f_of_Z 0).

(** ** Bisection compares only *)
Lemma bisect_loop_V L (l : list f64) (x : f64) : allfin l -> fin x -> forall fuel lo hi,
  bisect_loop (N:=F64 L) fuel l x lo hi = bisect_loop (N:=XR) fuel (map Fin (map V l)) (Fin (V x)) lo hi.
Proof.
  intros FL FX. induction fuel as [|fuel IH]; intros lo hi; [reflexivity|]. cbn [bisect_loop].
  destruct (lo <? hi)%nat; [|reflexivity]. rewrite !index_map. set (mid := ((lo + hi) / 2)%nat). clearbody mid.
  change (@T (F64 L)) with (binary_float 53 1024). unfold f64 in *. unfold index. destruct (nth_error l mid) as [m|] eqn:E; cbn [bind]; [|reflexivity].
  apply nth_error_In in E. rewrite Forall_forall in FL. specialize (FL m E).
  assert (C : ltb (Num:=F64 L) m x = ltb (Num:=XR) (Fin (V m)) (Fin (V x))).
  { cbn [ltb XR xltb]. change (ltb (Num:=F64 L) m x) with (Bltb m x). destruct (Bltb m x) eqn:B.
    - apply ltb_V in B; [|exact FL|exact FX]. symmetry. now apply Rltb_t.
    - destruct (Rltb (V m) (V x)) eqn:R; [|reflexivity]. apply Rltb_iff in R. apply (proj2 (ltb_V m x FL FX)) in R. congruence. }
  rewrite C. destruct (ltb (Num:=XR) _ _); apply IH.
Qed.
Lemma bisect_V L (l : list f64) (x : f64) : allfin l -> fin x -> sorted (map V l) ->
  exists i, bisect_left (N:=F64 L) l x = Ok i /\ (i <= length l)%nat /\
    (forall j a, (j < i)%nat -> nth_error l j = Some a -> V a < V x) /\
    (forall j a, (i <= j)%nat -> nth_error l j = Some a -> V x <= V a).
Proof.
  intros FL FX SO. destruct (bisect_spec (map V l) (V x) SO) as (i & E & LE & B & A). exists i.
  unfold bisect_left in *. rewrite !map_length in *. rewrite bisect_loop_V by assumption. split; [exact E|]. split; [exact LE|].
  split; intros j a J K; [apply (B j)|apply (A j)]; try exact J; exact (map_nth_error V j l K).
Qed.

(** ** Differences of stamps *)
Lemma diff_fin (a0 a b b0 : f64) : V a0 <= V a -> V a <= V b -> V b <= V b0 -> fin a -> fin b -> fin (Bminus mode_NE b0 a0) -> fin (Bminus mode_NE b a).
Proof.
  intros H1 H2 H3 FA FB FS. pose proof (Bminus_correct 53 1024 f64_prec f64_emax mode_NE b a FB FA) as C. rewrite Rlt_bool_true in C; [exact (proj1 (proj2 C))|].
  rewrite Rabs_pos_eq by (apply rnd_pos; lra). destruct (sub_fin b0 a0 FS) as (_ & _ & E).
  eapply Rle_lt_trans; [apply rnd_le with (b := V b0 - V a0); lra|]. rewrite <- E. eapply Rle_lt_trans; [apply Rle_abs|apply V_bound].
Qed.
Lemma lit_16 : fin (f_lit 1 (-16)) /\ 0 <= V (f_lit 1 (-16)) <= 1.
Proof.
  assert (F : fin (f_lit 1 (-16))) by (vm_compute; reflexivity). split; [exact F|].
  destruct (of_Z_V 0 ltac:(lia)) as [F0 V0]. destruct (of_Z_V 1 ltac:(lia)) as [F1 V1]. rewrite <- V0, <- V1 at 1.
  split; apply leb_V; try assumption; vm_compute; reflexivity.
Qed.
Lemma V_big (x : f64) : Rabs (V x) <= 2 * big.
Proof. left. eapply Rlt_le_trans; [apply V_bound|]. unfold big. change 1024%Z with (1 + 1023)%Z. rewrite bpow_plus. change (bpow radix2 1) with 2. lra. Qed.
(** equal finite numbers are close, whatever the (small) tolerance *)
Lemma isclose_same {L} (tol a b : @T (F64 L)) : fin (tol : f64) -> 0 <= V tol <= 1 -> fin (a : f64) -> fin (b : f64) -> V a = V b -> isclose (N:=F64 L) tol a b = true.
Proof.
  intros FT T0 FA FB E. unfold isclose, isclose_gen. change (isfin (Num:=F64 L) a) with (is_finite a). change (isfin (Num:=F64 L) b) with (is_finite b). rewrite FA, FB. cbn [andb].
  destruct lit_5 as [F5 B5]. pose proof big_huge as BH. pose proof (V_big b) as VB. pose proof (Rabs_pos (V b)) as VB0.
  change (Bleb (Babs (Bminus mode_NE a b)) (Bplus mode_NE tol (Bmult mode_NE (f_lit 1 (-5)) (Babs b))) = true).
  destruct (sub_ok a b FA FB) as [FS ES]; [rewrite E; replace (V b - V b) with 0 by ring; rewrite Rabs_R0; lra|].
  rewrite E in ES. replace (V b - V b) with 0 in ES by ring. rewrite rnd_0 in ES.
  assert (FAB : fin (Babs b)) by (rewrite abs_fin; exact FB).
  assert (P : 0 <= V (f_lit 1 (-5)) * Rabs (V b) <= big / 1000).
  { split; [apply Rmult_le_pos; lra|]. apply Rle_trans with (1 / 10000 * (2 * big)); [apply Rmult_le_compat; lra|lra]. }
  destruct (mul_ok (f_lit 1 (-5)) (Babs b) F5 FAB) as [FM EM]; [rewrite abs_V, Rabs_pos_eq; lra|]. rewrite abs_V in EM.
  assert (PM : 0 <= V (Bmult mode_NE (f_lit 1 (-5)) (Babs b)) <= big / 100).
  { rewrite EM. split; [apply rnd_pos; lra|]. pose proof (rnd_within _ (big / 1000) ltac:(rewrite Rabs_pos_eq; [exact (proj2 P)|exact (proj1 P)])). nums. lra. }
  destruct (add_ok tol (Bmult mode_NE (f_lit 1 (-5)) (Babs b)) FT FM) as [FP EP]; [rewrite Rabs_pos_eq; lra|].
  apply leb_V; [rewrite abs_fin; exact FS|exact FP|]. rewrite abs_V, ES, Rabs_R0, EP. apply rnd_pos. lra.
Qed.
Lemma map_hd_V (l : list f64) : hd 0 (map V l) = V (hd zerof l).
Proof. destruct l; [|reflexivity]. cbn. symmetry. apply (of_Z_V 0). lia. Qed.
Lemma map_last_V (l : list f64) : last (map V l) 0 = V (last l zerof).
Proof.
  induction l as [|x l IH]; [cbn; symmetry; apply (of_Z_V 0); lia|]. destruct l as [|y l]; [reflexivity|].
  change (last (map V (x :: y :: l)) 0) with (last (map V (y :: l)) 0). now rewrite IH.
Qed.
Lemma last_In {A} (l : list A) d : l <> [] -> In (last l d) l.
Proof.
  intros NE. induction l as [|x l IH]; [contradiction|]. destruct l as [|y l]; [now left|].
  right. change (last (x :: y :: l) d) with (last (y :: l) d). now apply IH.
Qed.
Lemma hd_In {A} (l : list A) d : l <> [] -> In (hd d l) l.
Proof. destruct l; [contradiction|]. now left. Qed.
Lemma sorted_ends (l : list f64) x : sorted (map V l) -> In x l -> V (hd zerof l) <= V x <= V (last l zerof).
Proof.
  intros SO I. apply In_nth_error in I as (i & I). assert (NE : l <> []) by (intros ->; destruct i; discriminate I).
  assert (I' : nth_error (map V l) i = Some (V x)) by exact (map_nth_error V i l I). split.
  - apply (SO 0%nat i); [lia| |exact I']. destruct l; [contradiction|reflexivity].
  - assert (LI : (i < length l)%nat) by (apply nth_error_Some; congruence).
    apply (SO i (length l - 1)%nat); [lia|exact I'|]. exact (map_nth_error V _ l (last_nth_error l zerof NE)).
Qed.

(** ** Resampling *)
Lemma resample_one_ok L (times : list (@T (F64 L))) (qs : list (@quat (F64 L))) (s : @T (F64 L)) :
  times <> [] -> allfin times -> sorted (map V times) -> length qs = length times -> Forall (fun q => is_unit_ q = true) qs ->
  fin (Bminus mode_NE (last times zerof) (hd zerof times)) -> fin (s : f64) -> V (hd zerof times) <= V s <= V (last times zerof) ->
  exists q, resample_one times qs s = Ok q.
Proof.
  intros NE FT SO LQ UQ SP FS [H1 H2]. unfold resample_one. change (@T (F64 L)) with f64 in *.
  assert (FL : fin (last times zerof)) by (rewrite Forall_forall in FT; apply FT, last_In, NE).
  assert (FH : fin (hd zerof times)) by (rewrite Forall_forall in FT; apply FT, hd_In, NE).
  rewrite (py_index_last times zerof NE). cbn [bind]. change (leb (Num:=F64 L) s (last times zerof)) with (Bleb s (last times zerof)). rewrite (proj2 (leb_V s _ FS FL) H2). cbn [assert_ bind].
  assert (E0 : py_index times 0 = Ok (hd zerof times)) by (destruct times; [contradiction|reflexivity]). rewrite E0. cbn [bind].
  change (leb (Num:=F64 L) (hd zerof times) s) with (Bleb (hd zerof times) s). rewrite (proj2 (leb_V _ s FH FS) H1). cbn [assert_ bind].
  destruct (bisect_V L times s FT FS SO) as (r & EB & LE & B & A). rewrite EB. cbn [bind].
  assert (LT : (r < length times)%nat).
  { destruct (Nat.lt_ge_cases r (length times)) as [|G]; [assumption|]. exfalso. assert (r = length times) by lia. subst r.
    assert (0 < length times)%nat by (destruct times; [contradiction|cbn; lia]).
    pose proof (B (length times - 1)%nat (last times zerof) ltac:(lia) (last_nth_error times zerof NE)). lra. }
  destruct (nth_error times r) as [tr|] eqn:ER; [|apply nth_error_None in ER; lia]. rewrite (index_some _ _ _ ER). cbn [bind].
  assert (FR : fin tr) by (rewrite Forall_forall in FT; apply FT; now apply nth_error_In in ER).
  destruct (nth_error qs r) as [qr|] eqn:EQ; [|apply nth_error_None in EQ; lia].
  destruct (isclose (N:=F64 L) _ s tr) eqn:C; [rewrite (index_some _ _ _ EQ); now exists qr|].
  destruct r as [|k].
  { exfalso. assert (tr = hd zerof times) by (destruct times; [contradiction|cbn in ER; now injection ER as ->]). subst tr.
    pose proof (A 0%nat _ ltac:(lia) ER). destruct lit_16 as [F16 B16].
    assert (C' : isclose (N:=F64 L) (f_lit 1 (-16)) s (hd zerof times) = true) by (apply isclose_same; [exact F16|exact B16|exact FS|exact FH|lra]).
    change (lit (Num:=F64 L) 1 (-16)) with (f_lit 1 (-16)) in C. congruence. }
  destruct (nth_error qs k) as [ql|] eqn:EL; [|apply nth_error_None in EL; lia]. rewrite (index_some _ _ _ EL). cbn [bind].
  destruct (nth_error times k) as [tl|] eqn:ET; [|apply nth_error_None in ET; lia]. rewrite (index_some _ _ _ ET). cbn [bind].
  rewrite (index_some _ _ _ EQ). cbn [bind].
  assert (FTL : fin tl) by (rewrite Forall_forall in FT; apply FT; now apply nth_error_In in ET).
  pose proof (B k tl ltac:(lia) ET) as LS. pose proof (A (S k) tr ltac:(lia) ER) as RS.
  pose proof (sorted_ends times tl SO (nth_error_In _ _ ET)) as [EL1 _]. pose proof (sorted_ends times tr SO (nth_error_In _ _ ER)) as [_ ER2].
  rewrite Forall_forall in UQ.
  destruct (C70_interpolate L ql qr tl tr [s]) as (l & EI & LL).
  - apply UQ. now apply nth_error_In in EL.
  - apply UQ. now apply nth_error_In in EQ.
  - exact FTL.
  - exact FR.
  - apply ltb_V; [exact FTL|exact FR|lra].
  - exact (diff_fin (hd zerof times) tl tr (last times zerof) EL1 ltac:(lra) ER2 FTL FR SP).
  - apply Forall_cons; [|apply Forall_nil]. split; [exact FS|]. split; apply leb_V; try assumption; lra.
  - change (@T (F64 L)) with f64 in *. rewrite EI. cbn [bind]. destruct l as [|x l]; [discriminate LL|]. now exists x.
Qed.
Lemma resample_ok L (times : list (@T (F64 L))) (qs : list (@quat (F64 L))) (samples : list (@T (F64 L))) :
  times <> [] -> allfin times -> sorted (map V times) -> length qs = length times -> Forall (fun q => is_unit_ q = true) qs ->
  fin (Bminus mode_NE (last times zerof) (hd zerof times)) -> Forall (fun s : f64 => fin s /\ V (hd zerof times) <= V s <= V (last times zerof)) samples ->
  exists out, resample_quaternions_from_samples times qs samples = Ok out /\ length out = length samples.
Proof.
  intros NE FT SO LQ UQ SP A. unfold resample_quaternions_from_samples. induction A as [|s samples [FS R] A (out & E & LO)]; [now exists []|].
  cbn [mapM]. destruct (resample_one_ok L times qs s NE FT SO LQ UQ SP FS R) as (q & EQ). rewrite EQ. cbn [bind]. rewrite E. cbn [bind].
  exists (q :: out). cbn [length]. now rewrite LO.
Qed.
