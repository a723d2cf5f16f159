(** * Property C41: the output contract of compute_aligned_poses. *)

From Coq Require Import Reals ZArith Bool List Lra Lia Psatz Permutation.
From Verif Require Import Num Py XReal XFacts Quat DualQuat TimeAlign Spec TimeSpec Embed QuatFacts QuatTrig
  ListFacts TimeFacts ResampleFacts PropTimeOffset PropResample.
Import ListNotations.
Local Open Scope R_scope.

(** time stamped poses (stamp, (position, orientation)) *)
Definition row : Type := R * (rv * rq).
Definition inS (l : list row) : list (stamped (N:=XR)) := map (fun p => (Fin (fst p), inP (fst (snd p)) (snd (snd p)))) l.
Definition row_times (l : list row) : list R := map fst l.
Definition row_quats (l : list row) : list rq := map (fun p => snd (snd p)) l.
Definition row_coord (f : rv -> R) (l : list row) : list (R * R) := map (fun p => (fst p, f (fst (snd p)))) l.
Definition shift_rows (o : R) (l : list row) : list row := map (fun p => (fst p + o, snd p)) l.

(** a row [r] that interpolates the path [l]: piecewise linear positions, resampled orientation *)
Definition on_path (l : list row) (r : row) : Prop :=
  let '(t, (p, q)) := r in
  linear_at (row_coord v1 l) t (v1 p) /\ linear_at (row_coord v2 l) t (v2 p) /\ linear_at (row_coord v3 l) t (v3 p) /\
  resampled (row_times l) (row_quats l) t q.

Lemma sorted_range l i x : sorted l -> nth_error l i = Some x -> hd 0 l <= x <= last l 0.
Proof.
  intros SO E. assert (NE : l <> []) by (intros ->; destruct i; discriminate). split.
  - destruct l as [|y l]; [easy|]. apply (SO 0%nat i); [lia|easy|easy].
  - assert (I : (i < length l)%nat) by (apply nth_error_Some; congruence).
    apply (SO i (length l - 1)%nat x); [lia|easy|]. now apply last_nth_error.
Qed.

(** one step of the sample selection *)
Lemma select_in start high : high <> [] -> sorted high -> hd 0 high <= start ->
  forall low, sorted low ->
  exists out, select_samples (N:=XR) (Fin start) (map Fin high) (map Fin low) = Ok (map Fin out) /\
    filtered_by (fun t => start <= t /\ matched high t) low out.
Proof.
  intros NE SH HS. induction low as [|t low IH]; intros SL.
  - exists []. split; [easy|constructor].
  - destruct (IH (sorted_tl _ _ SL)) as (out & E & F). cbn [map select_samples]. cbn [ltb XR xltb].
    destruct (Rltb t start) eqn:C; [apply Rltb_iff in C|apply Rltb_false in C].
    { exists out. split; [exact E|]. constructor; [lra|exact F]. }
    destruct (bisect_spec high t SH) as (i & EI & LI & BE & AF). change (@T XR) with xr in *. rewrite EI. cbn [bind].
    rewrite map_length. destruct (Z.leb_spec (Z.of_nat (length high) - 1) (Z.of_nat i)) as [BR|NB].
    + exists []. split; [easy|]. clear E F IH out.
      assert (NM : forall t', t <= t' -> ~ matched high t').
      { intros t' TT (j & b & (J1 & J2 & _) & J3 & _).
        assert (J4 : (j < i)%nat) by lia. pose proof (BE j b J4 J1). lra. }
      assert (G : forall l, Forall (fun y => t <= y) l -> filtered_by (fun t => start <= t /\ matched high t) l []).
      { clear - NM. induction l as [|y l IH]; intros F; [constructor|]. inversion F; subst. constructor; [|now apply IH].
        intros [_ M]. now apply (NM y). }
      apply G. constructor; [lra|]. now apply sorted_hd.
    + destruct (nth_error high i) as [tr|] eqn:ET; [|apply nth_error_None in ET; lia].
      rewrite index_map, (index_some _ _ _ ET). cbn [bind eqb XR xeqb].
      pose proof (AF i tr ltac:(lia) ET) as TR.
      assert (FF : first_from high t i tr) by (repeat split; easy).
      destruct (Reqb t tr) eqn:Q; [apply Reqb_iff in Q|apply Reqb_false in Q].
      * rewrite E. cbn [bind]. exists (t :: out). split; [easy|]. constructor; [|exact F]. split; [lra|].
        exists i, tr. split; [easy|]. split; [lia|]. left. easy.
      * destruct i as [|k].
        { exfalso. assert (hd 0 high = tr) by (destruct high; [easy|]; cbn in ET |- *; congruence). lra. }
        destruct (nth_error high k) as [ta|] eqn:EA; [|apply nth_error_None in EA; lia].
        replace (Z.of_nat (S k) - 1)%Z with (Z.of_nat k) by lia.
        rewrite py_index_nat, index_map, (index_some _ _ _ EA). cbn [bind ltb XR xltb].
        pose proof (BE k ta ltac:(lia) EA) as TA. rewrite (Rltb_f t ta) by lra.
        cbn [sub lit leb XR xsub xltb xleb]. change (Rlit 1 (-1)) with (1 / 10).
        assert (UN : forall j b, first_from high t j b -> j = S k /\ b = tr).
        { intros j b (J1 & J2 & J3). destruct FF as (F1 & F2 & F3).
          assert (j = S k). { destruct (Nat.lt_trichotomy j (S k)) as [L|[L|L]]; [|easy|].
            - pose proof (F3 j b L J1). lra. - pose proof (J3 (S k) tr L F1). lra. }
          subst. split; [easy|]. congruence. }
        destruct (Rltb (t - ta) (1 / 10)) eqn:C1; [apply Rltb_iff in C1|apply Rltb_false in C1];
          [destruct (Rleb (tr - t) (1 / 10)) eqn:C2; [apply Rleb_iff in C2|apply Rleb_false in C2]|]; cbn [andb].
        -- rewrite E. cbn [bind]. exists (t :: out). split; [easy|]. constructor; [|exact F]. split; [lra|].
           exists (S k), tr. split; [easy|]. split; [lia|]. right. exists k, ta. easy.
        -- exists out. split; [exact E|]. constructor; [|exact F].
           intros [_ (j & b & J1 & _ & [J2|(k' & a & J2 & J3 & J4 & J5)])]; destruct (UN j b J1) as [-> ->]; [lra|].
           lra.
        -- exists out. split; [exact E|]. constructor; [|exact F].
           intros [_ (j & b & J1 & _ & [J2|(k' & a & J2 & J3 & J4 & J5)])]; destruct (UN j b J1) as [-> ->]; [lra|].
           injection J2 as <-. rewrite EA in J3. injection J3 as <-. lra.
Qed.

Lemma mapM_seq {B} (f : nat -> res B) (g : nat -> B) n : (forall i, (i < n)%nat -> f i = Ok (g i)) ->
  mapM f (seq 0 n) = Ok (map g (seq 0 n)).
Proof.
  intros H. assert (K : forall m a, (a + m <= n)%nat -> mapM f (seq a m) = Ok (map g (seq a m))).
  { induction m as [|m IH]; intros a L; [easy|]. cbn [seq mapM map]. rewrite H by lia. cbn [bind]. now rewrite IH by lia. }
  apply K. lia.
Qed.
Lemma index_nth {A} (l : list A) i d : (i < length l)%nat -> index l i = Ok (nth i l d).
Proof. intros L. apply index_some. now apply nth_error_nth'. Qed.
Lemma column_in l (f : rv -> R) (g : vec3 (N:=XR) -> xr) samples :
  (forall v, g (inV v) = Fin (f v)) -> l <> [] -> sorted (row_times l) ->
  Forall (fun s => hd 0 (row_times l) <= s <= last (row_times l) 0) samples ->
  exists out, mapM (fun s => interp (N:=XR) s (map (fun p => (fst p, g (pos (snd p)))) (inS l))) (map Fin samples) = Ok (map Fin out) /\
    Forall2 (linear_at (row_coord f l)) samples out.
Proof.
  intros GF NE SO F.
  assert (E1 : map (fun p => (fst p, g (pos (snd p)))) (inS l) = map (fun p => (Fin (fst p), Fin (snd p))) (row_coord f l)).
  { unfold inS, row_coord. rewrite !map_map. apply map_ext. intros [t [p q]]. cbn [fst snd inP pos]. now rewrite GF. }
  rewrite E1.
  assert (E2 : map fst (row_coord f l) = row_times l) by (unfold row_coord, row_times; rewrite map_map; easy).
  induction F as [|s samples H F IH]; [now exists []|]. destruct IH as (out & O1 & O2).
  destruct (interp_in (row_coord f l) s) as (v & V1 & V2).
  { destruct l; easy. } { now rewrite E2. } { now rewrite E2. }
  exists (v :: out). split; [|now constructor]. cbn [map mapM]. change (@T XR) with xr in *. rewrite V1. cbn [bind]. now rewrite O1.
Qed.
Lemma Forall2_nth {A B} (P : A -> B -> Prop) l k da db : Forall2 P l k -> forall i, (i < length l)%nat -> P (nth i l da) (nth i k db).
Proof. intros F. induction F; intros [|i] L; cbn in *; try lia; auto. apply IHF. lia. Qed.

Lemma interpolate_in l samples : l <> [] -> sorted (row_times l) -> Forall unitq (row_quats l) ->
  Forall (fun s => hd 0 (row_times l) <= s <= last (row_times l) 0) samples ->
  exists out, interpolate_poses_from_samples (N:=XR) (inS l) (map Fin samples) = Ok (inS out) /\
    row_times out = samples /\ Forall (on_path l) out.
Proof.
  intros NE SO UQ F. unfold interpolate_poses_from_samples.
  assert (ET : stamps (inS l) = map Fin (row_times l)) by (unfold stamps, inS, row_times; now rewrite !map_map).
  assert (EQ : map (fun p => ori (snd p)) (inS l) = inQs (row_quats l)) by (unfold inQs, inS, row_quats; now rewrite !map_map).
  rewrite ET, EQ.
  destruct (C40_resample (row_times l) (row_quats l) samples) as (qs & Q1 & Q2); try easy.
  { unfold row_times. now destruct l. }
  { unfold row_times, row_quats. now rewrite !map_length. }
  rewrite Q1. cbn [bind].
  destruct (column_in l v1 vx samples ltac:(easy) NE SO F) as (xs & X1 & X2).
  destruct (column_in l v2 vy samples ltac:(easy) NE SO F) as (ys & Y1 & Y2).
  destruct (column_in l v3 vz samples ltac:(easy) NE SO F) as (zs & Z1 & Z2).
  change (@T XR) with xr in *. rewrite X1. cbn [bind]. rewrite Y1. cbn [bind]. rewrite Z1. cbn [bind].
  pose proof (Forall2_len _ _ _ X2) as LX. pose proof (Forall2_len _ _ _ Y2) as LY.
  pose proof (Forall2_len _ _ _ Z2) as LZ. pose proof (Forall2_len _ _ _ Q2) as LQ.
  set (g := fun i => (nth i samples 0, (RV (nth i xs 0) (nth i ys 0) (nth i zs 0), nth i qs hone)) : row).
  exists (map g (seq 0 (length samples))). split; [|split].
  - rewrite map_length. rewrite (mapM_seq _ (fun i => (Fin (fst (g i)), inP (fst (snd (g i))) (snd (snd (g i)))))).
    + unfold inS. now rewrite map_map.
    + intros i Hi. rewrite !index_map.
      rewrite (index_nth samples i 0) by lia. rewrite (index_nth xs i 0) by lia. rewrite (index_nth ys i 0) by lia.
      rewrite (index_nth zs i 0) by lia. unfold inQs. rewrite index_map. rewrite (index_nth qs i hone) by lia. reflexivity.
  - unfold row_times. rewrite map_map. cbn [g fst]. clear. apply nth_ext with (d := 0) (d' := 0); [now rewrite map_length, seq_length|].
    intros n Hn. rewrite map_length, seq_length in Hn.
    rewrite (nth_indep _ 0 (nth 0 samples 0)) by now rewrite map_length, seq_length.
    rewrite (map_nth (fun i => nth i samples 0)). now rewrite seq_nth.
  - apply Forall_forall. intros r I. apply in_map_iff in I as (i & <- & I). apply in_seq in I.
    unfold on_path, g. cbn [v1 v2 v3].
    split; [now apply (Forall2_nth _ _ _ 0 0 X2); lia|]. split; [now apply (Forall2_nth _ _ _ 0 0 Y2); lia|].
    split; [now apply (Forall2_nth _ _ _ 0 0 Z2); lia|]. now apply (Forall2_nth _ _ _ 0 hone Q2); lia.
Qed.

Lemma filtered_in {A} (P : A -> Prop) l out : filtered_by P l out -> forall x, In x out -> In x l /\ P x.
Proof. intros F. induction F; intros y I; [destruct I| |]; [destruct I as [<-|I]|]; cbn; firstorder. Qed.

(** The steps of the two inputs are compared by their medians; a path with a single stamp has no
    step and the second path is then taken as the low-rate one. *)
Definition low_is_A (tA tB : list R) : Prop :=
  exists mA mB, is_median (gaps tA) mA /\ is_median (gaps tB) mB /\ mB <= mA.
Lemma is_median_unique l m m' : is_median l m -> is_median l m' -> m = m'.
Proof.
  intros (s & P & SO & ->) (s' & P' & SO' & ->).
  assert (s = s') as ->; [|easy].
  assert (PP : Permutation s s') by now rewrite <- P, P'. clear - SO SO' PP.
  revert s' SO' PP. induction s as [|x s IH]; intros s' SO' PP; [now apply Permutation_nil in PP|].
  destruct s' as [|y s']; [now apply Permutation_sym, Permutation_nil in PP|].
  assert (XY : x = y).
  { pose proof (sorted_hd _ _ SO) as F. pose proof (sorted_hd _ _ SO') as F'. rewrite Forall_forall in F, F'.
    assert (I1 : In y (x :: s)) by (rewrite PP; now left). assert (I2 : In x (y :: s')) by (rewrite <- PP; now left).
    destruct I1 as [->|I1]; [easy|]. destruct I2 as [<-|I2]; [easy|]. specialize (F _ I1). specialize (F' _ I2). lra. }
  subst. f_equal. apply IH; [now apply sorted_tl in SO|now apply sorted_tl in SO'|now apply Permutation_cons_inv in PP].
Qed.
Lemma diff_gaps l : diff (N:=XR) (map Fin l) = map Fin (gaps l).
Proof. rewrite diff_in. unfold gaps. now destruct l. Qed.
Lemma gaps_nil l : (length l < 2)%nat -> gaps l = [].
Proof. destruct l as [|x [|y l]]; cbn; try easy; lia. Qed.
Lemma gaps_cons l : (2 <= length l)%nat -> gaps l <> [].
Proof. destruct l as [|x [|y l]]; cbn; try lia. easy. Qed.

Theorem C41_contract : forall (A B : list row) (o : R),
  A <> [] -> B <> [] -> sorted (row_times A) -> sorted (row_times B) ->
  Forall unitq (row_quats A) -> Forall unitq (row_quats B) ->
  let A' := shift_rows o A in
  let start := Rmax (hd 0 (row_times A')) (hd 0 (row_times B)) in
  exists samples outA outB,
    compute_aligned_poses (inS A) (inS B) (Fin o) = Ok (inS outA, inS outB) /\
    row_times outA = samples /\ row_times outB = samples /\
    Forall (on_path A') outA /\ Forall (on_path B) outB /\
    ((2 <= length A)%nat -> (2 <= length B)%nat -> low_is_A (row_times A') (row_times B) ->
       filtered_by (fun t => start <= t /\ matched (row_times B) t) (row_times A') samples) /\
    (~ low_is_A (row_times A') (row_times B) \/ (length A < 2)%nat \/ (length B < 2)%nat ->
       filtered_by (fun t => start <= t /\ matched (row_times A') t) (row_times B) samples).
Proof.
  intros A B o NA NB SA SB UA UB A' start.
  assert (NA' : A' <> []) by (unfold A', shift_rows; now destruct A).
  assert (SA' : sorted (row_times A')).
  { unfold A', shift_rows, row_times. rewrite map_map. cbn [fst]. rewrite <- (map_map fst (fun t => t + o)). now apply sorted_map_add. }
  assert (UA' : Forall unitq (row_quats A')) by (unfold A', shift_rows, row_quats in *; rewrite map_map; exact UA).
  assert (LA' : length A' = length A) by (unfold A', shift_rows; now rewrite map_length).
  unfold compute_aligned_poses.
  assert (ES : map (fun p => (add (fst p) (Fin o), snd p)) (inS A) = inS A').
  { unfold inS, A', shift_rows. rewrite !map_map. reflexivity. }
  change (@T XR) with xr in *. change (stamped (N:=XR)) with (xr * pose (N:=XR))%type in *.
  rewrite ES.
  assert (ST : forall l, stamps (inS l) = map Fin (row_times l)) by (intros; unfold stamps, inS, row_times; now rewrite !map_map).
  rewrite !ST.
  assert (NT : forall l : list row, l <> [] -> row_times l <> []) by (intros [|? ?]; easy).
  replace (index (map Fin (row_times A')) 0) with (Ok (Fin (hd 0 (row_times A'))))
    by (pose proof (NT A' NA'); now destruct (row_times A')).
  replace (index (map Fin (row_times B)) 0) with (Ok (Fin (hd 0 (row_times B))))
    by (pose proof (NT B NB); now destruct (row_times B)).
  cbn [bind].
  assert (EM : py_max (N:=XR) (Fin (hd 0 (row_times A'))) (Fin (hd 0 (row_times B))) = Fin start).
  { unfold py_max, start. cbn [ltb XR xltb]. unfold Rmax. destruct (Rltb _ _) eqn:C; [apply Rltb_iff in C|apply Rltb_false in C];
      destruct (Rle_dec _ _); f_equal; lra. }
  rewrite EM.
  assert (STA : hd 0 (row_times A') <= start) by apply Rmax_l. assert (STB : hd 0 (row_times B) <= start) by apply Rmax_r.
  (* the rest, for either choice of the low-rate path *)
  assert (FIN : forall low high : list row, low <> [] -> high <> [] -> sorted (row_times low) -> sorted (row_times high) ->
     hd 0 (row_times high) <= start -> hd 0 (row_times low) <= start ->
     (low = A' /\ high = B \/ low = B /\ high = A') ->
     exists samples outA outB,
       (do samples <- select_samples (N:=XR) (Fin start) (map Fin (row_times high)) (map Fin (row_times low));
        do aligned_A <- interpolate_poses_from_samples (N:=XR) (inS A') samples;
        do aligned_B <- interpolate_poses_from_samples (N:=XR) (inS B) samples;
        assert (length aligned_A =? length aligned_B)%nat;
        assert allclose (N:=XR) (lit (Num:=XR) 1 (-8)) (stamps aligned_A) (stamps aligned_B);
        Ok (aligned_A, aligned_B)) = Ok (inS outA, inS outB) /\
       row_times outA = samples /\ row_times outB = samples /\ Forall (on_path A') outA /\ Forall (on_path B) outB /\
       filtered_by (fun t => start <= t /\ matched (row_times high) t) (row_times low) samples).
  { intros low high NL NH SL SH HH HL CH.
    destruct (select_in start (row_times high) (NT _ NH) SH HH (row_times low) SL) as (samples & E & F).
    assert (RG : forall s, In s samples -> hd 0 (row_times low) <= s <= last (row_times low) 0 /\
                                        hd 0 (row_times high) <= s <= last (row_times high) 0).
    { intros s I. destruct (filtered_in _ _ _ F s I) as (I1 & I2 & (j & b & (J1 & J2 & _) & _)). split.
      - apply In_nth_error in I1 as (k & K). now apply (sorted_range _ k).
      - pose proof (sorted_range _ j b SH J1). lra. }
    assert (RA : Forall (fun s => hd 0 (row_times A') <= s <= last (row_times A') 0) samples).
    { apply Forall_forall. intros s I. destruct (RG s I). destruct CH as [[-> ->]|[-> ->]]; easy. }
    assert (RB : Forall (fun s => hd 0 (row_times B) <= s <= last (row_times B) 0) samples).
    { apply Forall_forall. intros s I. destruct (RG s I). destruct CH as [[-> ->]|[-> ->]]; easy. }
    destruct (interpolate_in A' samples NA' SA' UA' RA) as (outA & A1 & A2 & A3).
    destruct (interpolate_in B samples NB SB UB RB) as (outB & B1 & B2 & B3).
    exists samples, outA, outB. split; [|easy].
    rewrite E. cbn [bind]. rewrite A1. cbn [bind]. rewrite B1. cbn [bind].
    assert (LE : length (inS outA) = length (inS outB)).
    { unfold inS. rewrite !map_length. pose proof (f_equal (@length R) A2) as L1. pose proof (f_equal (@length R) B2) as L2.
      unfold row_times in L1, L2. rewrite map_length in L1, L2. congruence. }
    rewrite LE, Nat.eqb_refl. rewrite assert_true by easy. rewrite !ST, A2, B2. rewrite assert_true; [easy|].
    change (@lit XR 1 (-8)) with (Fin (1 / 100000000)). apply allclose_refl_fin. lra. }
  rewrite !diff_gaps.
  assert (MED : (exists mA mB, median (N:=XR) (map Fin (gaps (row_times A'))) = Fin mA /\ median (N:=XR) (map Fin (gaps (row_times B))) = Fin mB /\
                   is_median (gaps (row_times A')) mA /\ is_median (gaps (row_times B)) mB /\ (2 <= length A)%nat /\ (2 <= length B)%nat)
                \/ (leb (median (N:=XR) (map Fin (gaps (row_times B)))) (median (N:=XR) (map Fin (gaps (row_times A')))) = false /\
                    ((length A < 2)%nat \/ (length B < 2)%nat))).
  { assert (GL : forall l : list row, length (row_times l) = length l) by (intros; unfold row_times; apply map_length).
    assert (NN : median (N:=XR) (map Fin []) = NaN).
    { unfold median. cbn [map existsb sort fold_right length]. unfold nan, n0. cbn [lit div XR]. change (Rlit 0 0) with 0. cbn [xdiv].
      destruct (Req_EM_T 0 0); [|easy]. unfold inf_signed. destruct (Rlt_dec 0 0); [lra|]. destruct (Rlt_dec 0 0); [lra|easy]. }
    destruct (Nat.lt_ge_cases (length A) 2) as [LA|LA].
    - right. split; [|now left]. rewrite (gaps_nil (row_times A')) by (rewrite GL, LA'; easy). rewrite NN. 
      clear. generalize (median (N:=XR) (map Fin (gaps (row_times B)))). intros m. destruct m; reflexivity.
    - destruct (Nat.lt_ge_cases (length B) 2) as [LB|LB].
      + right. split; [|now right]. rewrite (gaps_nil (row_times B)) by (rewrite GL; easy). rewrite NN. reflexivity.
      + left. destruct (median_in (gaps (row_times A'))) as (mA & M1 & M2); [apply gaps_cons; now rewrite GL, LA'|].
        destruct (median_in (gaps (row_times B))) as (mB & M3 & M4); [apply gaps_cons; now rewrite GL|]. exists mA, mB. easy. }
  destruct MED as [(mA & mB & -> & -> & M1 & M2 & L1 & L2)|[-> SH]].
  - cbn [leb XR xleb]. destruct (Rleb mB mA) eqn:C; [apply Rleb_iff in C|apply Rleb_false in C].
    + destruct (FIN A' B NA' NB SA' SB STB STA (or_introl (conj eq_refl eq_refl))) as (s & oA & oB & E & T1 & T2 & P1 & P2 & F).
      exists s, oA, oB. split; [exact E|]. do 4 (split; [assumption|]). split; [intros; exact F|].
      intros [NL|[?|?]]; [|lia|lia]. destruct NL. now exists mA, mB.
    + destruct (FIN B A' NB NA' SB SA' STA STB (or_intror (conj eq_refl eq_refl))) as (s & oA & oB & E & T1 & T2 & P1 & P2 & F).
      exists s, oA, oB. split; [exact E|]. do 4 (split; [assumption|]). split; [|intros; exact F].
      intros _ _ (mA' & mB' & Q1 & Q2 & Q3). rewrite (is_median_unique _ _ _ Q1 M1), (is_median_unique _ _ _ Q2 M2) in Q3. lra.
  - destruct (FIN B A' NB NA' SB SA' STA STB (or_intror (conj eq_refl eq_refl))) as (s & oA & oB & E & T1 & T2 & P1 & P2 & F).
    exists s, oA, oB. split; [exact E|]. do 4 (split; [assumption|]). split; [intros; lia|intros; exact F].
Qed.

(** An empty path raises. *)
Theorem C41_empty : forall (N : Num) A B o, A = [] \/ B = [] ->
  compute_aligned_poses (N:=N) A B o = Err IndexError.
Proof.
  intros N A B o [->| ->]; unfold compute_aligned_poses; [reflexivity|].
  destruct A as [|p A]; reflexivity.
Qed.

Lemma filtered_unique {A} (P : A -> Prop) l k k' : filtered_by P l k -> filtered_by P l k' -> k = k'.
Proof.
  intros F. revert k'. induction F; intros k' G; inversion G; subst; try easy; f_equal; auto; contradiction.
Qed.

(** At its own stamps a path with strictly increasing stamps is reproduced. *)
Definition increasing (l : list R) : Prop :=
  forall i j a b, (i < j)%nat -> nth_error l i = Some a -> nth_error l j = Some b -> a < b.
Lemma increasing_index l i j a : increasing l -> nth_error l i = Some a -> nth_error l j = Some a -> i = j.
Proof.
  intros ST I J. destruct (Nat.lt_trichotomy i j) as [L|[L|L]]; [|easy|].
  - pose proof (ST i j a a L I J). lra. - pose proof (ST j i a a L J I). lra.
Qed.
Lemma linear_at_stamp pts i t f v : increasing (map fst pts) -> nth_error pts i = Some (t, f) -> linear_at pts t v -> v = f.
Proof.
  intros ST I [(t' & E & ->)|(j & tj & fj & tk & fk & E1 & E2 & R & ->)].
  - assert (i = length pts - 1)%nat as ->; [|congruence].
    apply (increasing_index (map fst pts) _ _ t' ST); rewrite nth_error_map; [now rewrite I|now rewrite E].
  - destruct (Nat.lt_trichotomy i j) as [L|[->|L]].
    + pose proof (ST i j t tj L) as H. rewrite !nth_error_map, I, E1 in H. specialize (H eq_refl eq_refl). lra.
    + rewrite I in E1. injection E1 as -> ->. replace (tj - tj) with 0 by ring. lra.
    + assert (S j <= i)%nat as L2 by lia. apply le_lt_eq_dec in L2 as [L2|<-].
      * pose proof (ST (S j) i tk t L2) as H. rewrite !nth_error_map, I, E2 in H. specialize (H eq_refl eq_refl). lra.
      * rewrite I in E2. injection E2 as -> ->. lra.
Qed.
Lemma on_path_stamp l i r r' : increasing (row_times l) -> nth_error l i = Some r -> on_path l r' -> fst r' = fst r -> r' = r.
Proof.
  destruct r as [t [p q]], r' as [t' [p' q']]. intros ST I (X & Y & Z & Q) E. cbn [fst] in E. subst t'. unfold row in *.
  assert (CO : forall (f : rv -> R) (h : R), linear_at (row_coord f l) t h -> h = f p).
  { intros f h H. apply (linear_at_stamp (row_coord f l) i t (f p) h); [|unfold row_coord; now rewrite nth_error_map, I|easy].
    unfold row_coord. rewrite map_map. cbn [fst]. exact ST. }
  apply CO in X, Y, Z.
  assert (TI : nth_error (row_times l) i = Some t) by (unfold row_times; now rewrite nth_error_map, I).
  assert (QI : nth_error (row_quats l) i = Some q) by (unfold row_quats; now rewrite nth_error_map, I).
  assert (UN : forall j b, first_from (row_times l) t j b -> j = i).
  { intros j b (J1 & J2 & J3). destruct (Nat.lt_trichotomy j i) as [L|[L|L]]; [|easy|].
    - pose proof (ST j i b t L J1 TI). lra. - pose proof (J3 i t L TI). lra. }
  assert (q' = q) as ->.
  { inversion Q as [r t0 q0 F E _|k tl0 tr ql qr q0 F K R _ _ _ _]; subst.
    - rewrite (UN _ _ F) in E. congruence.
    - pose proof (UN _ _ F) as <-. destruct F as [F _]. rewrite F in TI. injection TI as ->. lra. }
  destruct p as [a b c], p' as [a' b' c']. cbn in X, Y, Z. now subst.
Qed.

(** Two paths with the same (strictly increasing) stamps after the shift: every stamp but the last is
    used. *)
Theorem C41_same_stamps : forall (A B : list row) (o : R),
  (2 <= length A)%nat -> row_times (shift_rows o A) = row_times B ->
  (forall i j a b, (i < j)%nat -> nth_error (row_times B) i = Some a -> nth_error (row_times B) j = Some b -> a < b) ->
  Forall unitq (row_quats A) -> Forall unitq (row_quats B) ->
  exists outA outB, compute_aligned_poses (inS A) (inS B) (Fin o) = Ok (inS outA, inS outB) /\
    row_times outA = removelast (row_times B) /\ row_times outB = removelast (row_times B).
Proof.
  intros A B o LA ES ST UA UB.
  assert (LB : length B = length A).
  { pose proof (f_equal (@length R) ES) as L. unfold row_times, shift_rows in L. rewrite !map_length in L. easy. }
  assert (SB : sorted (row_times B)).
  { intros i j a b L E1 E2. destruct (Nat.eq_dec i j) as [->|NE]; [rewrite E1 in E2; injection E2 as ->; lra|].
    apply Rlt_le. apply (ST i j); [lia|easy|easy]. }
  assert (SA : sorted (row_times A)).
  { assert (E : row_times A = map (fun t => t + - o) (row_times B)).
    { rewrite <- ES. unfold row_times, shift_rows. rewrite !map_map. apply map_ext. intros. cbn. lra. }
    rewrite E. now apply sorted_map_add. }
  destruct (C41_contract A B o) as (s & oA & oB & E & T1 & T2 & _ & _ & F1 & F2); try easy.
  { intros ->; cbn in LA; lia. } { intros ->; cbn in LB; lia. }
  exists oA, oB. split; [exact E|].
  enough (s = removelast (row_times B)) as -> by easy.
  rewrite ES in F1, F2. rewrite Rmax_left in F1, F2 by lra.
  assert (F : filtered_by (fun t => hd 0 (row_times B) <= t /\ matched (row_times B) t) (row_times B) s).
  { destruct (median_in (gaps (row_times B))) as (m & _ & M).
    { apply gaps_cons. unfold row_times. rewrite map_length. rewrite <- LB in LA. exact LA. }
    apply F1; [exact LA|rewrite <- LB in LA; exact LA|]. exists m, m. repeat split; try easy. lra. }
  clear F1 F2. eapply filtered_unique; [exact F|].
  assert (LT : length (row_times B) = length A) by (unfold row_times; now rewrite map_length).
  assert (FR : forall i a, nth_error (row_times B) i = Some a -> first_from (row_times B) a i a).
  { intros i a I. split; [easy|]. split; [lra|]. intros j b J E'. now apply (ST j i). }
  assert (UN : forall i a j b, nth_error (row_times B) i = Some a -> first_from (row_times B) a j b -> j = i).
  { intros i a j b I (J1 & J2 & J3). destruct (Nat.lt_trichotomy j i) as [L|[L|L]]; [|easy|].
    - pose proof (ST j i b a L J1 I). lra. - pose proof (J3 i a L I). lra. }
  assert (NE : row_times B <> []) by (intros Q; rewrite Q in LT; cbn in LT; lia).
  set (P := fun t => hd 0 (row_times B) <= t /\ matched (row_times B) t).
  assert (PI : forall i a, nth_error (row_times B) i = Some a -> (S i < length (row_times B))%nat -> P a).
  { intros i a I L. split; [apply (sorted_range _ i _ SB I)|]. exists i, a. split; [now apply FR|]. split; [easy|]. now left. }
  assert (PL : ~ P (last (row_times B) 0)).
  { intros [_ (j & b & J1 & J2 & _)]. pose proof (UN _ _ _ _ (last_nth_error _ 0 NE) J1). lia. }
  assert (SP : row_times B = removelast (row_times B) ++ [last (row_times B) 0]) by now apply app_removelast_last.
  assert (FA : Forall P (removelast (row_times B))).
  { apply Forall_forall. intros x I. apply In_nth_error in I as (i & I).
    assert (L : (i < length (removelast (row_times B)))%nat) by (apply nth_error_Some; congruence).
    apply (PI i).
    - rewrite SP. now rewrite nth_error_app1.
    - rewrite SP, app_length. cbn. lia. }
  rewrite SP at 1. clear - FA PL. induction FA as [|x l H FA IH]; cbn [app]; [now repeat constructor|now constructor].
Qed.

(** Two recordings of a straight motion, at 10 Hz and 20 Hz; the second clock is 5 s ahead. *)
(** ... and the aligned poses are the input rows themselves. *)
Theorem C41_same_rows : forall (A B : list row) (o : R),
  (2 <= length A)%nat -> row_times (shift_rows o A) = row_times B -> increasing (row_times B) ->
  Forall unitq (row_quats A) -> Forall unitq (row_quats B) ->
  compute_aligned_poses (inS A) (inS B) (Fin o) = Ok (inS (removelast (shift_rows o A)), inS (removelast B)).
Proof.
  intros A B o LA ES ST UA UB.
  destruct (C41_same_stamps A B o LA ES ST UA UB) as (oA & oB & E & TA & TB).
  assert (LB : length B = length A).
  { pose proof (f_equal (@length R) ES) as L. unfold row_times, shift_rows in L. rewrite !map_length in L. easy. }
  assert (SB : sorted (row_times B)).
  { intros i j a b L E1 E2. destruct (Nat.eq_dec i j) as [->|NE]; [rewrite E1 in E2; injection E2 as ->; lra|].
    apply Rlt_le. apply (ST i j); [lia|easy|easy]. }
  assert (SA : sorted (row_times A)).
  { assert (Q : row_times A = map (fun t => t + - o) (row_times B)).
    { rewrite <- ES. unfold row_times, shift_rows. rewrite !map_map. apply map_ext. intros. cbn. lra. }
    rewrite Q. now apply sorted_map_add. }
  destruct (C41_contract A B o) as (s & oA' & oB' & E' & _ & _ & PA & PB & _ & _); try easy.
  { intros ->; cbn in LA; lia. } { intros ->; cbn in LB; lia. }
  assert (IJ : forall l l' : list row, inS l = inS l' -> l = l').
  { induction l as [|[t [p q]] l IH]; intros [|[t' [p' q']] l'] H; try discriminate H; [easy|].
    cbn [inS map fst snd] in H. injection H as H1 H2 H3 H4 H5 H6 H7 H8 H9. subst. f_equal; [|now apply IH].
    destruct p as [a b c], p' as [a' b' c'], q as [[d e f] g], q' as [[d' e' f'] g']. cbn in *. now subst. }
  rewrite E in E'. assert (EA : inS oA = inS oA') by congruence. assert (EB : inS oB = inS oB') by congruence.
  apply IJ in EA, EB. subst oA' oB'.
  assert (G : forall l out : list row, increasing (row_times l) -> Forall (on_path l) out -> row_times out = removelast (row_times l) -> out = removelast l).
  { intros l out STl F TO.
    assert (RL : forall l : list row, row_times (removelast l) = removelast (row_times l)).
    { clear. induction l as [|x l IH]; [easy|]. destruct l as [|y l]; [easy|]. cbn [removelast row_times map] in *. now rewrite <- IH. }
    rewrite <- RL in TO.
    assert (NX : forall i r, nth_error (removelast l) i = Some r -> nth_error l i = Some r).
    { intros i r H. assert (NE : l <> []) by (intros ->; destruct i; discriminate).
      rewrite (app_removelast_last r NE). rewrite nth_error_app1; [easy|]. apply nth_error_Some. congruence. }
    clear RL.
    assert (LEN : length out = length (removelast l)) by (apply (f_equal (@length R)) in TO; unfold row_times in TO; now rewrite !map_length in TO).
    apply (nth_ext _ _ (0, (vzero, hone)) (0, (vzero, hone)) LEN). intros n Hn.
    pose proof (nth_error_nth' out (0, (vzero, hone)) Hn) as N1.
    assert (Hn' : (n < length (removelast l))%nat) by (rewrite <- LEN; exact Hn).
    pose proof (nth_error_nth' (removelast l) (0, (vzero, hone)) Hn') as N2.
    apply (on_path_stamp l n); [exact STl|now apply NX| |].
    - rewrite Forall_forall in F. apply F. now apply nth_error_In in N1.
    - pose proof (f_equal (fun k => nth_error k n) TO) as H. cbn beta in H. unfold row_times, row in *. rewrite !nth_error_map, N1, N2 in H. now injection H. }
  assert (HA : oA = removelast (shift_rows o A)) by (apply G; rewrite ?ES; easy).
  assert (HB : oB = removelast B) by (apply G; easy).
  rewrite E, HA, HB. reflexivity.
Qed.

Definition slow : list row :=
  [(0, (RV 0 0 0, hone)); (1 / 10, (RV 1 0 0, hone)); (2 / 10, (RV 2 0 0, hone))].
Definition fast : list row :=
  [(5, (RV 0 0 0, hone)); (5 + 1 / 20, (RV 0 1 0, hone)); (5 + 2 / 20, (RV 0 2 0, hone)); (5 + 3 / 20, (RV 0 3 0, hone)); (5 + 4 / 20, (RV 0 4 0, hone))].
Ltac two l := intros [|[|[|[|[|i]]]]] [|[|[|[|[|j]]]]] a b L A B; try lia; cbn in A, B;
   try (destruct i; discriminate); try (destruct j; discriminate); try discriminate; injection A as <-; injection B as <-; lra.
Lemma hone_unit : unitq hone.
Proof. unfold unitq, hnorm2, hdot, dot3, hone, vzero; cbn; lra. Qed.
Lemma slow_fast_ok : sorted (row_times slow) /\ sorted (row_times fast) /\ Forall unitq (row_quats slow) /\ Forall unitq (row_quats fast).
Proof.
  split; [two slow|split; [two fast|]]. split; repeat constructor; apply hone_unit.
Qed.
Example C41_example : exists outA outB,
  compute_aligned_poses (inS slow) (inS fast) (Fin 5) = Ok (inS outA, inS outB) /\
  row_times outA = [5; 5 + 1 / 10] /\ row_times outB = [5; 5 + 1 / 10].
Proof.
  destruct slow_fast_ok as (S1 & S2 & U1 & U2).
  destruct (C41_contract slow fast 5) as (s & oA & oB & E & T1 & T2 & _ & _ & F1 & _); try easy.
  exists oA, oB. split; [exact E|]. enough (s = [5; 5 + 1 / 10]) as <- by easy.
  assert (LA : low_is_A (row_times (shift_rows 5 slow)) (row_times fast)).
  { exists (1 / 10), (1 / 20). split; [|split; [|lra]].
    - exists [1 / 10; 1 / 10]. cbn. split; [|split; [|lra]].
      + replace (1 / 10 + 5 - (0 + 5)) with (1 / 10) by lra. replace (2 / 10 + 5 - (1 / 10 + 5)) with (1 / 10) by lra. apply Permutation_refl.
      + intros [|[|i]] [|[|j]] a b L A B; try lia; cbn in A, B; try (destruct i; discriminate); try (destruct j; discriminate); injection A as <-; injection B as <-; lra.
    - exists [1 / 20; 1 / 20; 1 / 20; 1 / 20]. cbn. split; [|split; [|lra]].
      + replace (5 + 1 / 20 - 5) with (1 / 20) by lra. replace (5 + 2 / 20 - (5 + 1 / 20)) with (1 / 20) by lra.
        replace (5 + 3 / 20 - (5 + 2 / 20)) with (1 / 20) by lra. replace (5 + 4 / 20 - (5 + 3 / 20)) with (1 / 20) by lra. apply Permutation_refl.
      + intros [|[|[|[|i]]]] [|[|[|[|j]]]] a b L A B; try lia; cbn in A, B; try (destruct i; discriminate); try (destruct j; discriminate); injection A as <-; injection B as <-; lra. }
  specialize (F1 ltac:(cbn; lia) ltac:(cbn; lia) LA). eapply filtered_unique; [exact F1|].
  assert (ST : Rmax (hd 0 (row_times (shift_rows 5 slow))) (hd 0 (row_times fast)) = 5).
  { cbn. replace (0 + 5) with 5 by lra. unfold Rmax. destruct (Rle_dec 5 5); lra. }
  rewrite ST. cbn [shift_rows slow map row_times fst].
  replace (0 + 5) with 5 by lra. replace (1 / 10 + 5) with (5 + 1 / 10) by lra.
  constructor; [|constructor; [|constructor; [|constructor]]].
  - split; [lra|]. exists 0%nat, 5. split; [|split; [cbn; lia|now left]]. split; [easy|]. split; [lra|]. intros; lia.
  - split; [lra|]. exists 2%nat, (5 + 2 / 20). split; [|split; [cbn; lia|left; lra]]. split; [easy|]. split; [lra|].
    intros [|[|j]] a J A; try lia; cbn in A; injection A as <-; lra.
  - intros [_ (j & b & (J1 & J2 & _) & J3 & _)]. destruct j as [|[|[|[|j]]]]; cbn in J1, J3; try lia; injection J1 as <-; lra.
Qed.
(** the same path against itself loses its last stamp *)
Example C41_same_stamps_example : exists outA outB,
  compute_aligned_poses (inS slow) (inS slow) (Fin 0) = Ok (inS outA, inS outB) /\
  row_times outA = [0; 1 / 10] /\ row_times outB = [0; 1 / 10].
Proof.
  destruct slow_fast_ok as (S1 & S2 & U1 & U2). apply (C41_same_stamps slow slow 0); try easy; try (cbn; lia).
  - unfold row_times, shift_rows. rewrite map_map. apply map_ext. intros. cbn. lra.
  - two slow.
Qed.
