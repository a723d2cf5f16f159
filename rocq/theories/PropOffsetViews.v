(** * Property C82: what the figure of the time alignment shows. *)

From Coq Require Import String Reals ZArith Bool List Lra Lia Psatz.
From Verif Require Import Num Py XReal XFacts TimeAlign Spec TimeSpec TimeFacts ListFacts PropTimeOffset Views PropViews.
Import ListNotations.
Local Open Scope R_scope.

Lemma correlate_length {N : Num} (x y : list T) : x <> [] -> y <> [] -> length (correlate_full x y) = (length x + length y - 1)%nat.
Proof. intros X Y. destruct x; [easy|]. destruct y; [easy|]. unfold correlate_full. now rewrite map_length, seq_length. Qed.
Lemma lags_length {N : Num} (a b : list T) : length (lags a b) = (length a + length b - 1)%nat.
Proof. unfold lags. now rewrite map_length, seq_length. Qed.
Lemma curve_same {N : Num} {A} (x : list A) (y : list T) : length x = length y -> curve x y = Ok (combine x y).
Proof. intros E. unfold curve. rewrite E, Nat.eqb_refl. reflexivity. Qed.
Lemma curve_differ {N : Num} {A} (x : list A) (y : list T) : length x <> length y -> curve x y = Err ValueError.
Proof. intros E. unfold curve. now rewrite (proj2 (Nat.eqb_neq _ _) E). Qed.
Lemma map_snd_combine {A B} (x : list A) (y : list B) : length x = length y -> map snd (combine x y) = y.
Proof. revert y; induction x as [|a x IH]; intros [|b y] L; try discriminate L; [easy|]. cbn [combine map snd]. f_equal. apply IH. now injection L. Qed.
Lemma map_fst_combine {A B} (x : list A) (y : list B) : length x = length y -> map fst (combine x y) = x.
Proof. revert y; induction x as [|a x IH]; intros [|b y] L; try discriminate L; [easy|]. cbn [combine map fst]. f_equal. apply IH. now injection L. Qed.

(** Plotting adds no failure, does not change the offset, and shows the signals as they are over the
    correlation of all their lags. *)
Theorem C82_drawn : forall {N : Num} (times_A signal_A times_B signal_B : list T) (o : T),
  calculate_time_offset_from_signals times_A signal_A times_B signal_B = Ok o ->
  (length times_A = length signal_A -> length times_B = length signal_B ->
   exists fig, offset_with_plot times_A signal_A times_B signal_B = Ok (o, fig) /\
     map snd (before_A fig) = signal_A /\ map snd (before_B fig) = signal_B /\
     map snd (after_A fig) = signal_A /\ map snd (after_B fig) = signal_B /\
     map snd (correlation fig) = correlate_full signal_B signal_A /\
     (forall k, (k < length signal_A + length signal_B - 1)%nat ->
        nth_error (map fst (correlation fig)) k = Some (Z.of_nat k - Z.of_nat (length signal_A) + 1)%Z) /\
     length (correlation fig) = (length signal_A + length signal_B - 1)%nat) /\
  (length times_A <> length signal_A \/ length times_B <> length signal_B ->
   offset_with_plot times_A signal_A times_B signal_B = Err ValueError).
Proof.
  intros N tA a tB b o H. assert (H' := H). unfold calculate_time_offset_from_signals in H'.
  apply bind_ok in H' as (m & AM & H'). apply bind_ok in H' as (t0 & I1 & H'). apply bind_ok in H' as (s0 & I2 & _).
  assert (NB : tB <> []) by (intros ->; discriminate I1). assert (NA : tA <> []) by (intros ->; discriminate I2).
  assert (CN : correlate_full b a <> []) by (intros E; rewrite E in AM; discriminate AM).
  assert (Nb : b <> []) by (intros ->; easy). assert (Na : a <> []) by (intros ->; apply CN; now destruct b).
  destruct (amin_ok _ NA) as (mA & EA). destruct (amin_ok _ NB) as (mB & EB).
  destruct (amin_ok (map (fun t => add t o) tA) (map_nonempty _ _ NA)) as (mS & ES).
  assert (LC : length (lags a b) = length (correlate_full b a)) by (rewrite lags_length, correlate_length by easy; lia).
  unfold offset_with_plot. rewrite H. cbn [bind]. unfold plot_results. rewrite EA. cbn [bind]. rewrite EB. cbn [bind].
  split.
  - intros LA LB. rewrite (curve_same _ a) by now rewrite map_length. cbn [bind]. rewrite (curve_same _ b) by now rewrite map_length. cbn [bind].
    rewrite (curve_same _ (correlate_full b a)) by exact LC. cbn [bind]. rewrite ES. cbn [bind].
    rewrite (curve_same _ a) by now rewrite !map_length. cbn [bind]. rewrite (curve_same _ b) by now rewrite map_length. cbn [bind].
    eexists. split; [reflexivity|]. cbn [before_A before_B correlation after_A after_B].
    rewrite !map_snd_combine by (rewrite ?map_length; auto). repeat (split; [reflexivity|]). split.
    + intros k K. rewrite map_fst_combine by exact LC. unfold lags.
      rewrite nth_error_map, (nth_error_nth' _ 0%nat) by now rewrite seq_length. rewrite seq_nth by easy. reflexivity.
    + rewrite combine_length, <- LC, Nat.min_id. apply lags_length.
  - intros [D|D].
    + rewrite curve_differ by now rewrite map_length. reflexivity.
    + destruct (Nat.eq_dec (length tA) (length a)) as [LA|LA].
      * rewrite (curve_same _ a) by now rewrite map_length. cbn [bind]. now rewrite curve_differ by now rewrite map_length.
      * rewrite curve_differ by now rewrite map_length. reflexivity.
Qed.

(** ** In the reals *)
Lemma smaller_in a b : smaller (N:=XR) (Fin a) (Fin b) = Fin (Rmin a b).
Proof. unfold smaller. cbn [ltb XR xltb]. unfold Rltb, Rmin. destruct (Rlt_dec b a), (Rle_dec a b); try easy; f_equal; lra. Qed.
Lemma least_two A B x y : least A x -> least B y -> least (A ++ B) (Rmin x y).
Proof.
  intros [I1 M1] [I2 M2]. split.
  - unfold Rmin. destruct (Rle_dec x y); apply in_or_app; auto.
  - intros z Hz. apply in_app_or in Hz as [Hz|Hz]; [apply Rle_trans with x; [apply Rmin_l|auto]|apply Rle_trans with y; [apply Rmin_r|auto]].
Qed.
Lemma combine_map {A B C D} (f : A -> C) (g : B -> D) (x : list A) : forall y, combine (map f x) (map g y) = map (fun p => (f (fst p), g (snd p))) (combine x y).
Proof. induction x as [|a x IH]; intros [|b y]; cbn [map combine]; try reflexivity. f_equal. apply IH. Qed.

(** a curve through points of real coordinates *)
Definition points (l : list (R * R)) : list (xr * xr) := map (fun p => (Fin (fst p), Fin (snd p))) l.
(** Before: both signals over their own clocks, after: signal A over its clock plus the offset found;
    the earliest point of each panel is at 0.  The correlation panel has the value of the cross
    correlation over every lag, and the offset is that of its first highest point. *)
Theorem C82_panels : forall times_A a times_B b : list R,
  (2 <= length times_A)%nat -> length times_A = length a -> length times_B = length b -> b <> [] ->
  exists m o s s' fig, offset_with_plot (N:=XR) (map Fin times_A) (map Fin a) (map Fin times_B) (map Fin b) = Ok (Fin o, fig) /\
    o = mean_step times_A * IZR m + hd 0 times_B - hd 0 times_A /\
    before_A fig = points (combine (map (fun t => t - s) times_A) a) /\ before_B fig = points (combine (map (fun t => t - s) times_B) b) /\
    after_A fig = points (combine (map (fun t => t + o - s') times_A) a) /\ after_B fig = points (combine (map (fun t => t - s') times_B) b) /\
    least (times_A ++ times_B) s /\ least (map (fun t => t + o) times_A ++ times_B) s' /\
    (forall k c, In (k, c) (correlation fig) <-> lag_range a b k /\ c = Fin (xcorr a b k)) /\
    lag_range a b m /\ (forall k, lag_range a b k -> xcorr a b k <= xcorr a b m /\ ((k < m)%Z -> xcorr a b k < xcorr a b m)).
Proof.
  intros tA a tB b L2 LA LB NBb.
  assert (NA : a <> []) by (intros ->; cbn in LA; lia). assert (NTB : tB <> []) by (intros ->; destruct b; [easy|discriminate LB]).
  assert (NTA : tA <> []) by (intros ->; cbn in L2; lia).
  destruct (C39_maximal_lag tA a tB b L2 NTB NA NBb) as (m & MR & MX & E).
  set (o := mean_step tA * IZR m + hd 0 tB - hd 0 tA) in *.
  destruct (amin_in tA NTA) as (x & EA & LAx). destruct (amin_in tB NTB) as (y & EB & LBy).
  destruct (amin_in (map (fun t => t + o) tA) (map_nonempty _ _ NTA)) as (z & EZ & LZ).
  exists m, o, (Rmin x y), (Rmin z y).
  unfold offset_with_plot. rewrite E. cbn [bind]. unfold plot_results. rewrite EA. cbn [bind]. rewrite EB. cbn [bind].
  rewrite smaller_in. set (s := Rmin x y). set (s' := Rmin z y).
  assert (SUB : forall u l, map (fun t => sub (Num:=XR) t (Fin u)) (map Fin l) = map Fin (map (fun t => t - u) l)) by (intros; rewrite !map_map; reflexivity).
  assert (ADD : map (fun t => add (Num:=XR) t (Fin o)) (map Fin tA) = map Fin (map (fun t => t + o) tA)) by (rewrite !map_map; reflexivity).
  rewrite !SUB, !ADD.
  rewrite curve_same by (rewrite !map_length; auto). cbn [bind].
  rewrite curve_same by (rewrite !map_length; auto). cbn [bind].
  rewrite correlate_in by easy.
  match goal with |- context[curve (lags ?u ?v) (map Fin ?w)] => assert (LC : length (lags (N:=XR) u v) = length (map Fin w)) end.
  { rewrite lags_length, !map_length, seq_length. lia. }
  rewrite curve_same by exact LC. cbn [bind]. rewrite EZ. cbn [bind]. rewrite smaller_in. fold s'. rewrite !SUB.
  rewrite curve_same by (rewrite !map_length; auto). cbn [bind].
  rewrite curve_same by (rewrite !map_length; auto). cbn [bind].
  eexists. split; [reflexivity|]. cbn [before_A before_B correlation after_A after_B]. split; [reflexivity|].
  split; [unfold points; apply combine_map|]. split; [unfold points; apply combine_map|].
  split; [unfold points; rewrite !map_map; rewrite <- (map_map (fun t => t + o - s') Fin); apply combine_map|]. split; [unfold points; apply combine_map|].
  split; [now apply least_two|]. split; [now apply least_two|]. split; [|split; [exact MR|exact MX]].
  intros k c. unfold lags. rewrite !map_map, !map_length.
  set (n := (length a + length b - 1)%nat). replace (length b + length a - 1)%nat with n by (unfold n; lia).
  rewrite (combine_map (fun j => (Z.of_nat j - Z.of_nat (length a) + 1)%Z) (fun j => Fin (xcorr a b (Z.of_nat j - Z.of_nat (length a) + 1)))).
  assert (CC : forall l : list nat, combine l l = map (fun j => (j, j)) l) by (induction l as [|j l IH]; [reflexivity|cbn [combine map]; now rewrite IH]).
  rewrite CC, map_map. cbn [fst snd]. rewrite in_map_iff. unfold lag_range. split.
  - intros (j & EJ & IJ). apply in_seq in IJ. injection EJ as <- <-. split; [unfold n in IJ; lia|reflexivity].
  - intros [KR ->]. exists (Z.to_nat (k + Z.of_nat (length a) - 1)). split.
    + rewrite Z2Nat.id by lia. replace (k + Z.of_nat (length a) - 1 - Z.of_nat (length a) + 1)%Z with k by lia. reflexivity.
    + apply in_seq. unfold n. lia.
Qed.

(** If B is A delayed by k samples on the same regular clock, the two curves of the last panel
    coincide at every sample both have. *)
Theorem C82_overlay : forall (a b : list R) (t u step : R) (k : Z) (na nb : nat),
  let times_A := map (fun i => t + INR i * step) (seq 0 na) in
  let times_B := map (fun i => u + INR i * step) (seq 0 nb) in
  (2 <= na)%nat -> length a = na -> length b = nb -> 0 < step ->
  (exists i, sig_at a i <> 0) -> (forall i, sig_at b (i + k) = sig_at a i) ->
  exists o fig, offset_with_plot (N:=XR) (map Fin times_A) (map Fin a) (map Fin times_B) (map Fin b) = Ok (Fin o, fig) /\
    o = step * IZR k + u - t /\
    forall i j, (i < na)%nat -> (j < nb)%nat -> Z.of_nat j = (Z.of_nat i + k)%Z ->
      exists p, nth_error (after_A fig) i = Some p /\ nth_error (after_B fig) j = Some p.
Proof.
  intros a b t u step k na nb tA tB N2 La Lb ST NZ SH.
  assert (LA : length tA = na) by (unfold tA; now rewrite map_length, seq_length). assert (LB : length tB = nb) by (unfold tB; now rewrite map_length, seq_length).
  assert (NBb : b <> []).
  { intros ->. destruct NZ as (i & NZ). apply NZ. rewrite <- SH. unfold sig_at. destruct (i + k <? 0)%Z; [easy|]. now destruct (Z.to_nat (i + k)). }
  assert (NTB : tB <> []) by (intros E; apply NBb; rewrite E in LB; destruct b; [easy|cbn in *; lia]).
  destruct (C82_panels tA a tB b ltac:(lia) ltac:(lia) ltac:(lia) NBb) as (m & o & s & s' & fig & E & Eo & _ & _ & FA & FB & _).
  assert (C := C39_delayed_copy tA a tB b k 1 ltac:(lia) NTB ltac:(lra) NZ ltac:(intros i; rewrite SH; ring)).
  assert (EO : o = mean_step tA * IZR k + hd 0 tB - hd 0 tA).
  { unfold offset_with_plot in E. rewrite C in E. cbn [bind] in E. apply bind_ok in E as (fig' & _ & E). injection E as E _. now symmetry. }
  assert (NTH : forall (f : nat -> R) n i, (i < n)%nat -> nth_error (map f (seq 0 n)) i = Some (f i)).
  { intros f n i Hi. rewrite nth_error_map, (nth_error_nth' _ 0%nat) by now rewrite seq_length. rewrite seq_nth by easy. reflexivity. }
  assert (MS : mean_step tA = step).
  { unfold mean_step. rewrite LA. assert (HA : hd 0 tA = t).
    { unfold tA. destruct na; [lia|]. cbn [seq map hd INR]. ring. }
    assert (HL : last tA 0 = t + INR (na - 1) * step).
    { unfold tA. replace na with (na - 1 + 1)%nat at 1 by lia. rewrite seq_app, map_app. cbn [seq map Nat.add]. now rewrite last_last. }
    rewrite HA, HL. field. apply not_0_INR. lia. }
  assert (HA : hd 0 tA = t) by (unfold tA; destruct na; [lia|]; cbn [seq map hd INR]; ring).
  assert (HB : hd 0 tB = u) by (unfold tB in *; destruct nb; [easy|]; cbn [seq map hd INR]; ring).
  rewrite MS, HA, HB in EO. exists o, fig. split; [exact E|]. split; [exact EO|].
  intros i j Hi Hj IJ. exists (Fin (t + INR i * step + o - s'), Fin (nth i a 0)). rewrite FA, FB. unfold points.
  rewrite !nth_error_map.
  assert (COMB : forall (X Y : list R) n p q, nth_error X n = Some p -> nth_error Y n = Some q -> nth_error (combine X Y) n = Some (p, q)).
  { induction X as [|x X IH]; intros [|y Y] [|n] p q P Q; try discriminate; cbn [combine nth_error] in *; [congruence|now apply IH]. }
  rewrite (COMB _ _ i (t + INR i * step + o - s') (nth i a 0)).
  - split; [reflexivity|]. rewrite (COMB _ _ j (u + INR j * step - s') (nth j b 0)).
    + cbn [option_map fst snd]. assert (IZ : INR j = INR i + IZR k) by (rewrite !INR_IZR_INZ, IJ; apply plus_IZR).
      replace (nth j b 0) with (nth i a 0) by (rewrite <- !sig_nat, IJ; symmetry; apply SH).
      replace (u + INR j * step - s') with (t + INR i * step + o - s') by (rewrite EO, IZ; ring). reflexivity.
    + unfold tB. rewrite map_map. apply (NTH (fun i => u + INR i * step - s')). exact Hj.
    + apply nth_error_nth'. lia.
  - unfold tA. rewrite map_map. apply (NTH (fun i => t + INR i * step + o - s')). exact Hi.
  - apply nth_error_nth'. lia.
Qed.
Example C82_example :
  let a := [1; 3; 2] in let b := [0; 0; 1; 3; 2] in
  (exists i, sig_at a i <> 0) /\ (forall i, sig_at b (i + 2) = sig_at a i).
Proof.
  intros a b. split; [exists 0%Z; unfold a; cbn; lra|]. intros i. unfold sig_at, a, b.
  destruct (Z.ltb_spec i 0) as [I|I].
  - destruct (Z.ltb_spec (i + 2) 0); [reflexivity|]. assert (D : i = (-2)%Z \/ i = (-1)%Z) by lia. destruct D as [-> | ->]; reflexivity.
  - destruct (Z.ltb_spec (i + 2) 0); [lia|]. rewrite Z2Nat.inj_add by lia. change (Z.to_nat 2) with 2%nat.
    rewrite Nat.add_comm. reflexivity.
Qed.
