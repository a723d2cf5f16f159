(** * Properties C36 and C38: the alignment index and the early abort of RANSAC. *)

From Coq Require Import Reals ZArith Bool List Lra Lia.
From Verif Require Import Num Py XReal XFacts Quat DualQuat HandEye Ransac Spec Embed DualFacts
  ListFacts HandEyeFacts CalibFacts RansacFacts QuatFacts PropPrefilter PropBaseline PropRansac PropTermination.
Import ListNotations.

(** ** C36 *)
(** Without prefiltering the list that samples index is the list that is re-aligned: the origin of
    the re-aligned paths is the first sampled pair. *)
Theorem C36_no_prefilter : forall (N : Num) svd (cfg : config N) b_h w_e bf wf s dq rp ro n sv bad,
  prefilter_poses_enabled cfg = false -> filtered cfg b_h w_e = Ok (bf, wf) ->
  evaluate_sample svd cfg b_h w_e bf wf s = Ok (Evaluated dq rp ro n sv bad) ->
  exists i aligned_b aligned_w, nth_error s 0 = Some i /\
    align_paths_at_index b_h i = Ok aligned_b /\ align_paths_at_index w_e i = Ok aligned_w /\
    nth_error bf i = nth_error b_h i /\ nth_error wf i = nth_error w_e i.
Proof.
  intros N svd cfg b_h w_e bf wf s dq rp ro n sv bad P F H. unfold filtered in F. rewrite P in F. injection F as <- <-.
  destruct (C34_evaluated _ _ _ _ _ _ _ _ _ _ _ _ _ _ H) as (_ & _ & i & ab & aw & I1 & I2 & I3 & _).
  exists i, ab, aw. easy.
Qed.

(** The positions kept by [compress]. *)
Fixpoint positions (flags : list bool) (k : nat) : list nat :=
  match flags with
  | [] => []
  | true :: f => k :: positions f (S k)
  | false :: f => positions f (S k)
  end.
Lemma compress_positions {A} (l : list A) : forall flags, length flags = length l ->
  forall k i, nth_error (compress l flags) i =
    match nth_error (positions flags k) i with Some j => nth_error l (j - k) | None => None end /\
    (forall j, nth_error (positions flags k) i = Some j -> k <= j /\ j - k < length l /\ nth_error flags (j - k) = Some true).
Proof.
  induction l as [|x l IH]; intros [|b flags] L k i; try discriminate L.
  - cbn. now destruct i.
  - injection L as L. cbn [compress positions]. destruct b.
    + destruct i as [|i]; cbn [nth_error].
      * rewrite Nat.sub_diag. split; [easy|]. intros j H. injection H as <-. rewrite Nat.sub_diag. cbn. split; [lia|]. split; [lia|easy].
      * destruct (IH flags L (S k) i) as [E F]. split.
        { rewrite E. destruct (nth_error (positions flags (S k)) i) as [j|] eqn:P; [|easy]. destruct (F j eq_refl) as (G & _).
          replace (j - k) with (S (j - S k)) by lia. easy. }
        { intros j H. destruct (F j H) as (G1 & G2 & G3). replace (j - k) with (S (j - S k)) by lia. cbn. split; [lia|]. split; [lia|easy]. }
    + destruct (IH flags L (S k) i) as [E F]. split.
      * rewrite E. destruct (nth_error (positions flags (S k)) i) as [j|] eqn:P; [|easy]. destruct (F j eq_refl) as (G & _).
        replace (j - k) with (S (j - S k)) by lia. easy.
      * intros j H. destruct (F j H) as (G1 & G2 & G3). replace (j - k) with (S (j - S k)) by lia. cbn. split; [lia|]. split; [lia|easy].
Qed.
Lemma positions_sorted flags : forall k i j a b, i < j ->
  nth_error (positions flags k) i = Some a -> nth_error (positions flags k) j = Some b -> a < b.
Proof.
  induction flags as [|[] f IH]; intros k i j a b L A B; cbn [positions] in *; try (now destruct i).
  - destruct j as [|j]; [lia|]. destruct i as [|i].
    + injection A as <-. cbn in B. clear IH L.
      assert (G : forall f k j b, nth_error (positions f k) j = Some b -> k <= b).
      { clear. induction f as [|[] f IH]; intros k j b H; cbn in H; [now destruct j| |].
        - destruct j; [injection H as <-; lia|]. apply IH in H. lia.
        - apply IH in H. lia. }
      apply G in B. lia.
    + cbn in A, B. eapply (IH (S k) i j); eauto. lia.
  - eapply IH; eauto.
Qed.
Lemma positions_length flags k : length (positions flags k) = count_true flags.
Proof. revert k; induction flags as [|[] f IH]; intros k; cbn; congruence. Qed.
Lemma split_maps {A B} (l : list (A * B)) : split l = (map fst l, map snd l).
Proof. induction l as [|[a b] l IH]; [easy|]. cbn [split map fst snd]. now rewrite IH. Qed.
Lemma nth_error_combine {A B} : forall (l : list A) (k : list B), length k = length l -> forall i,
  option_map fst (nth_error (combine l k) i) = nth_error l i /\ option_map snd (nth_error (combine l k) i) = nth_error k i.
Proof.
  induction l as [|x l IH]; intros [|y k] L [|i]; try discriminate L; cbn; try easy. apply IH. now injection L.
Qed.

(** With prefiltering the samples index the filtered list, whose i-th pair is some later pair
    sigma(i) of the unfiltered list that is re-aligned at position i. *)
Theorem C36_prefilter : forall (N : Num) (cfg : config N) b_h w_e bf wf,
  length w_e = length b_h -> prefilter_poses_enabled cfg = true -> filtered cfg b_h w_e = Ok (bf, wf) ->
  exists sigma, length sigma = length wf /\ length bf = length wf /\
    (forall i j a b, i < j -> nth_error sigma i = Some a -> nth_error sigma j = Some b -> a < b) /\
    (forall i j, nth_error sigma i = Some j -> j < length b_h /\
       nth_error bf i = nth_error b_h j /\ nth_error wf i = nth_error w_e j) /\
    (forall b0 w0, nth_error b_h 0 = Some b0 -> nth_error w_e 0 = Some w0 ->
       leb (vnorm (axis_of b0)) (lit 1 (-12)) = true \/ leb (vnorm (axis_of w0)) (lit 1 (-12)) = true ->
       forall i j, nth_error sigma i = Some j -> i < j).
Proof.
  intros N cfg b_h w_e bf wf L P F. unfold filtered in F. rewrite P in F.
  apply bind_ok in F as (l & F & E). rewrite split_maps in E. injection E as <- <-.
  destruct (C29_prefilter N (prefilter_dot_product_threshold cfg) (combine b_h w_e)) as (keep & KL & K & R).
  rewrite F in R. destruct (Nat.leb 2 (count_true keep)); [|discriminate R]. injection R as ->.
  assert (LC : length (combine b_h w_e) = length b_h) by (rewrite combine_length; lia).
  assert (CL : length (compress (combine b_h w_e) keep) = count_true keep) by now apply compress_length.
  exists (positions keep 0). rewrite !map_length, positions_length, CL. split; [easy|]. split; [easy|]. split; [|split].
  - apply positions_sorted.
  - intros i j H. destruct (compress_positions (combine b_h w_e) keep KL 0 i) as [A B]. rewrite H in A.
    destruct (B j H) as (_ & B1 & _). rewrite Nat.sub_0_r in *. split; [lia|].
    rewrite !nth_error_map, A. apply nth_error_combine. lia.
  - intros b0 w0 H0 H1 D.
    assert (K0 : nth_error keep 0 <> Some true).
    { intros T. destruct (nth_error_combine b_h w_e L 0) as [C1 C2].
      destruct (nth_error (combine b_h w_e) 0) as [p|] eqn:EP; [|cbn [option_map] in C1; congruence].
      cbn [option_map] in C1, C2. rewrite H0 in C1. rewrite H1 in C2. injection C1 as <-. injection C2 as <-.
      apply (K 0 p EP) in T as (T1 & T2 & _). rewrite T1, T2 in D. now destruct D. }
    destruct keep as [|[] keep]; [|now destruct K0|].
    + intros i j H. now destruct i.
    + cbn [positions]. clear. intros i j H. revert i j H.
      assert (G : forall f k i j, nth_error (positions f k) i = Some j -> k + i <= j).
      { induction f as [|[] f IH]; intros k i j H; cbn in H; [now destruct i| |].
        - destruct i; [injection H as <-; lia|]. apply IH in H. lia.
        - apply IH in H. lia. }
      intros i j H. apply G in H. lia.
Qed.
(** Paths that start at the origin: the pair the paths are re-aligned at (position i of the
    unfiltered list) is never the sampled one (position j > i of it). *)
Theorem C36_origin : forall svd (cfg : config XR) b_h w_e bf wf s dq rp ro n sv bad,
  length w_e = length b_h -> prefilter_poses_enabled cfg = true -> filtered cfg b_h w_e = Ok (bf, wf) ->
  nth_error b_h 0 = Some (inD dqone) ->
  evaluate_sample svd cfg b_h w_e bf wf s = Ok (Evaluated dq rp ro n sv bad) ->
  exists i j aligned_b aligned_w, nth_error s 0 = Some i /\ i < j < length b_h /\
    align_paths_at_index b_h i = Ok aligned_b /\ align_paths_at_index w_e i = Ok aligned_w /\
    nth_error bf i = nth_error b_h j /\ nth_error wf i = nth_error w_e j.
Proof.
  intros svd cfg b_h w_e bf wf s dq rp ro n sv bad L P F H0 H.
  destruct (C36_prefilter _ cfg b_h w_e bf wf L P F) as (sigma & S1 & S2 & _ & S3 & S4).
  destruct (nth_error w_e 0) as [w0|] eqn:W0.
  2:{ apply nth_error_None in W0. assert (Q : nth_error b_h 0 <> None) by congruence. apply nth_error_Some in Q. lia. }
  specialize (S4 _ w0 H0 eq_refl (or_introl (C29_identity_dropped dqone (or_introl eq_refl)))).
  assert (IS : exists i, nth_error s 0 = Some i /\ i < length wf).
  { unfold evaluate_sample in H. apply bind_ok in H as (sw & SW & H).
    destruct (C34_evaluated _ _ _ _ _ _ _ _ _ _ _ _ _ _ (eq_trans (f_equal (fun x => bind x _) SW) H)) as (_ & _ & i & _ & _ & I & _).
    exists i. split; [easy|]. destruct s as [|i' s]; [discriminate I|]. injection I as ->. cbn [mapM] in SW.
    apply bind_ok in SW as (x & X & _). unfold index in X. destruct (nth_error wf i) eqn:E; [|discriminate X].
    apply nth_error_Some. congruence. }
  destruct IS as (i & I & IL).
  destruct (nth_error sigma i) as [j|] eqn:SI; [|apply nth_error_None in SI; lia].
  destruct (S3 i j SI) as (J1 & J2 & J3). specialize (S4 i j SI).
  destruct (C34_evaluated _ _ _ _ _ _ _ _ _ _ _ _ _ _ H) as (_ & _ & i' & ab & aw & I1 & I2 & I3 & _).
  rewrite I in I1. injection I1 as <-. exists i, j, ab, aw. easy.
Qed.

(** Three poses: the origin and half turns about x and y.  The filtered list starts with the
    second pose, so the sample [0] re-aligns the unfiltered paths at the origin instead. *)
Definition halfx : rdq := RD (RQ (RV 1 0 0) 0) hzero.
Definition halfy : rdq := RD (RQ (RV 0 1 0) 0) hzero.
Definition walk : list (rdq * rdq) := [(dqone, dqone); (halfx, halfx); (halfy, halfy)].
Definition walk_cfg : config XR :=
  mkConfig (N:=XR) false 1 true true (lit 975 (-3)) 1 (lit 1 (-2)) 20 true (lit 5 (-1)) (lit 99 (-2))
           ScalarPartEquality (lit 2 (-2)) (lit 1 0) true false (lit 4 (-2)).
Example C36_example : filtered walk_cfg (hands walk) (eyes walk) = Ok (hands (tl walk), eyes (tl walk)).
Proof.
  unfold filtered. cbn [prefilter_poses_enabled walk_cfg prefilter_dot_product_threshold].
  rewrite combine_hands_eyes.
  destruct (C29_prefilter XR (lit 975 (-3)) (map (fun p => (inD (fst p), inD (snd p))) walk)) as (keep & KL & K & R).
  assert (T90 : (1 / 1000000000000 < 2 * (acos 0 * (180 / PI)))%R).
  { rewrite acos_0. pose proof PI_RGT_0. replace (2 * (PI / 2 * (180 / PI)))%R with 180%R by (field; lra). lra. }
  assert (Ux : unitq (dr halfx)) by (unfold unitq, halfx; specu; ring).
  assert (Uy : unitq (dr halfy)) by (unfold unitq, halfy; specu; ring).
  assert (Nx : (qs (dr halfx) <> -1)%R) by (cbn; lra). assert (Ny : (qs (dr halfy) <> -1)%R) by (cbn; lra).
  destruct (C29_axes halfx halfy Ux T90 Nx Uy T90 Ny) as [Ax Dxy].
  destruct (C29_axes halfy halfx Uy T90 Ny Ux T90 Nx) as [Ay _].
  destruct keep as [|k0 [|k1 [|k2 [|]]]]; try discriminate KL.
  assert (E0 : k0 = false).
  { destruct k0; [|easy]. destruct (K 0 (inD dqone, inD dqone) eq_refl) as [K0 _]. specialize (K0 eq_refl).
    destruct K0 as [K0 _]. cbn [fst] in K0. rewrite C29_identity_dropped in K0 by now left. discriminate K0. }
  assert (E1 : k1 = true).
  { destruct (K 1 (inD halfx, inD halfx) eq_refl) as [_ K1]. cbn [nth_error] in K1.
    assert (Q : Some k1 = Some true); [|now injection Q]. apply K1. cbn [fst snd]. split; [easy|]. split; [easy|].
    intros [|i] q L _ KK; [|lia]. cbn in KK. congruence. }
  assert (E2 : k2 = true).
  { destruct (K 2 (inD halfy, inD halfy) eq_refl) as [_ K2]. cbn [nth_error] in K2.
    assert (Q : Some k2 = Some true); [|now injection Q]. apply K2. cbn [fst snd]. split; [easy|]. split; [easy|].
    intros [|[|i]] q L HQ KK; [cbn in KK; congruence| |lia]. cbn in HQ. injection HQ as <-. cbn [fst snd].
    rewrite Dxy. change (@lit XR 975 (-3)) with (Fin (975/1000)). cbn [ltb XR xltb].
    assert (Z : dot3 (qv (dr halfx)) (qv (dr halfy)) = 0%R) by (unfold halfx, halfy; specu; ring).
    rewrite Z. unfold Rdiv. rewrite !Rmult_0_l. rewrite !Rltb_f by lra. split; reflexivity. }
  subst. cbn [count_true Nat.leb] in R. rewrite R. reflexivity.
Qed.

(** ** C38 *)
(** A finished random run stopped at the first count k of evaluated samples with k > R (or at the
    iteration limit), where R is the bound the code computes. *)
Section Stop.
  Context {N : Num}.
  Context (svd : list dquat -> res (list T * list dquat)) (draw : nat -> list nat).
  Definition not_yet (cfg : config N) (e : nat) : Prop := forall k, 0 < k <= e -> early_abort cfg k = Ok false.
  Lemma account_stop cfg s v (st st' : @state N) stop : account cfg s v st = Ok (st', stop) ->
    (full_iterations st' = full_iterations st /\ stop = false) \/
    (full_iterations st' = S (full_iterations st) /\ early_abort cfg (full_iterations st') = Ok stop).
  Proof.
    destruct v; cbn [account]; intros A.
    - injection A as <- <-. now left.
    - injection A as <- <-. now left.
    - apply bind_ok in A as (x & X & A). injection A as <- <-. right. destruct (ltb _ _ && ltb _ _); easy.
  Qed.
  Lemma loop_stop cfg b_h w_e bf wf : enable_exhaustive_search cfg = false ->
    forall fuel st st', not_yet cfg (full_iterations st) -> full_iterations st <= ransac_max_number_iterations cfg ->
    ransac_loop svd draw fuel cfg b_h w_e bf wf st = Done (Ok st') ->
    not_yet cfg (pred (full_iterations st')) /\
    (full_iterations st' = ransac_max_number_iterations cfg \/
     full_iterations st' < ransac_max_number_iterations cfg /\ early_abort cfg (full_iterations st') = Ok true).
  Proof.
    intros X. induction fuel as [|fuel IH]; intros st st' NY B H; cbn [ransac_loop] in H; [discriminate H|].
    destruct (guard cfg (length wf) st) eqn:G; unfold guard in G; rewrite X in G.
    - apply Nat.ltb_lt in G. destruct (bind _ _) as [[st1 stop]|] eqn:E; [|discriminate H].
      apply bind_ok in E as (s & _ & E). apply bind_ok in E as (v & _ & E). apply account_stop in E. destruct stop.
      + injection H as <-. destruct E as [[_ E]|[E1 E2]]; [discriminate E|]. rewrite E1 in *. cbn [pred]. split; [easy|].
        destruct (Nat.eq_dec (S (full_iterations st)) (ransac_max_number_iterations cfg)); [now left|right; split; [lia|easy]].
      + apply IH in H; [easy| |destruct E as [[E _]|[E _]]; lia].
        destruct E as [[E _]|[E1 E2]]; [now rewrite E|]. intros k K. destruct (Nat.eq_dec k (full_iterations st1)) as [->|]; [easy|].
        apply NY. lia.
    - apply Nat.ltb_ge in G. injection H as <-. split; [intros k K; apply NY; lia|]. left. lia.
  Qed.
  Theorem C38_stop : forall (cfg : config N) fuel b_h w_e r, strict_order N ->
    enable_exhaustive_search cfg = false -> compute_RANSAC svd draw fuel cfg b_h w_e = Done (Ok r) ->
    exists bf wf h, filtered cfg b_h w_e = Ok (bf, wf) /\ history svd draw cfg b_h w_e bf wf h /\
      (forall k, 0 < k < evaluations h -> early_abort cfg k = Ok false) /\
      (evaluations h = ransac_max_number_iterations cfg \/
       evaluations h < ransac_max_number_iterations cfg /\ early_abort cfg (evaluations h) = Ok true) /\
      (ransac_enable_early_abort cfg = true -> 0 < evaluations h -> exists b, early_abort cfg (evaluations h) = Ok b).
  Proof.
    intros cfg fuel b_h w_e r SO X H. unfold compute_RANSAC in H.
    destruct (assert_ _) as [[]|]; cbn [bind] in H; [|discriminate H].
    destruct (assert_ _) as [[]|]; cbn [bind] in H; [|discriminate H].
    destruct (filtered cfg b_h w_e) as [[bf wf]|]; [|discriminate H].
    destruct (ransac_loop _ _ _ _ _ _ _ _ _) as [[st|]|] eqn:L; try discriminate H.
    destruct (loop_stop cfg b_h w_e bf wf X fuel initial_state st) as [S1 S2]; [intros k K; cbn in K; lia|cbn; lia|easy|].
    assert (L' := L). apply (loop_invariant svd draw cfg b_h w_e bf wf fuel []) in L' as (h & I & _);
      [|easy|apply invariant_initial|unfold in_bounds; rewrite X; cbn; lia].
    destruct I as (HI & _ & FI & _). exists bf, wf, h. cbn [app] in *. rewrite <- FI. split; [easy|]. split; [easy|].
    split; [intros k K; apply S1; lia|]. split; [easy|]. intros EA P.
    unfold early_abort. rewrite X, EA. cbn [negb andb].
    assert (RQ : exists q, required_iterations cfg = Ok q); [|destruct RQ as (q & ->); cbn; eauto].
    destruct S2 as [S2|[_ S2]].
    2:{ unfold early_abort in S2. rewrite X, EA in S2. cbn [negb andb] in S2. apply bind_ok in S2 as (q & -> & _). eauto. }
    clear - L P X EA. assert (P0 : 0 < full_iterations st - full_iterations (@initial_state N)) by (cbn; lia). clear P.
    revert L P0. generalize (@initial_state N). induction fuel as [|fuel IH]; intros s0 L P; cbn [ransac_loop] in L; [discriminate L|].
    destruct (guard cfg (length wf) s0); [|injection L as <-; lia].
    destruct (bind _ _) as [[st1 stop]|] eqn:E; [|discriminate L].
    apply bind_ok in E as (s & _ & E). apply bind_ok in E as (v & _ & E). apply account_stop in E.
    destruct E as [[E ->]|[E1 E2]].
    - apply (IH st1); [easy|lia].
    - unfold early_abort in E2. rewrite X, EA in E2. cbn [negb andb] in E2. apply bind_ok in E2 as (q & -> & _). eauto.
  Qed.
  (** If the bound cannot be computed, a run that may evaluate a sample never returns normally. *)
  Theorem C38_raises_run : forall (cfg : config N) fuel b_h w_e r e, strict_order N ->
    enable_exhaustive_search cfg = false -> ransac_enable_early_abort cfg = true ->
    0 < ransac_max_number_iterations cfg -> required_iterations cfg = Err e ->
    compute_RANSAC svd draw fuel cfg b_h w_e <> Done (Ok r).
  Proof.
    intros cfg fuel b_h w_e r e SO X EA M RQ H.
    destruct (C38_stop cfg fuel b_h w_e r SO X H) as (bf & wf & h & _ & _ & _ & S & K).
    assert (Z : forall k b, early_abort cfg k <> Ok b) by (intros k b; unfold early_abort; now rewrite X, EA, RQ).
    destruct S as [S|[_ S]]; [|now apply Z in S]. destruct K as (b & K); [easy|lia|now apply Z in K].
  Qed.
End Stop.

Local Open Scope R_scope.
Lemma powi_in x k : powi (N:=XR) (Fin x) k = Fin (x ^ k).
Proof. induction k as [|k IH]; [reflexivity|]. cbn [powi]. rewrite IH. reflexivity. Qed.
Lemma of_nat_in k : of_nat (N:=XR) k = Fin (INR k).
Proof. unfold of_nat. cbn [lit XR]. unfold Rlit. now rewrite INR_IZR_INZ. Qed.
Lemma math_log_in x : 0 < x -> math_log (N:=XR) (Fin x) = Ok (Fin (ln x)).
Proof.
  intros H. unfold math_log. change (@n0 XR) with (Fin 0). cbn [leb XR xleb lnn xln]. rewrite Rleb_f by easy.
  destruct (Rlt_dec 0 x); [easy|lra].
Qed.
Lemma pow_range o s : 0 < o < 1 -> (0 < s)%nat -> 0 < (1 - o) ^ s < 1.
Proof.
  intros O S. split; [apply pow_lt; lra|]. destruct s as [|s]; [lia|]. cbn [pow].
  assert (K : forall m, 0 < (1 - o) ^ m <= 1).
  { induction m as [|m IH]; cbn [pow]; [lra|]. split; [apply Rmult_lt_0_compat; lra|]. nra. }
  specialize (K s). nra.
Qed.
(** For probabilities strictly between 0 and 1: the abort fires exactly for counts above
    ln(1-p) / ln(1-(1-o)^s). *)
Theorem C38_bound : forall (cfg : config XR) p o k,
  ransac_success_probability_threshold cfg = Fin p -> ransac_outlier_probability cfg = Fin o ->
  0 < p < 1 -> 0 < o < 1 -> (0 < ransac_sample_size cfg)%nat ->
  enable_exhaustive_search cfg = false -> ransac_enable_early_abort cfg = true ->
  exists b, early_abort cfg k = Ok b /\
    (b = true <-> ln (1 - p) / ln (1 - (1 - o) ^ ransac_sample_size cfg) < INR k).
Proof.
  intros cfg p o k P O HP HO S X EA. unfold early_abort, required_iterations. rewrite X, EA, P, O. cbn [negb andb].
  change (@n1 XR) with (Fin 1). cbn [sub XR xsub]. rewrite powi_in. cbn [xsub].
  destruct (pow_range o (ransac_sample_size cfg) HO S).
  rewrite !math_log_in by lra. cbn [bind]. unfold float_div. change (@n0 XR) with (Fin 0). cbn [eqb XR xeqb div].
  assert (LN : ln (1 - (1 - o) ^ ransac_sample_size cfg) < 0) by (rewrite <- ln_1; apply ln_increasing; lra).
  rewrite Reqb_f by lra. rewrite xdiv_fin by lra. cbn [bind].
  eexists. split; [reflexivity|]. rewrite of_nat_in. cbn [ltb XR xltb]. apply Rltb_iff.
Qed.
(** Degenerate probabilities raise. *)
Theorem C38_raises : forall (cfg : config XR) p o,
  ransac_success_probability_threshold cfg = Fin p -> ransac_outlier_probability cfg = Fin o ->
  (0 < ransac_sample_size cfg)%nat ->
  (p = 1 -> required_iterations cfg = Err ValueError) /\
  (p < 1 -> o = 0 -> required_iterations cfg = Err ValueError) /\
  (p < 1 -> o = 1 -> required_iterations cfg = Err ZeroDivisionError).
Proof.
  intros cfg p o P O S. unfold required_iterations. rewrite P, O.
  change (@n1 XR) with (Fin 1). cbn [sub XR xsub]. rewrite powi_in. cbn [xsub].
  assert (LE : forall x, x <= 0 -> math_log (N:=XR) (Fin x) = Err ValueError).
  { intros x H. unfold math_log. change (@n0 XR) with (Fin 0). cbn [leb XR xleb]. now rewrite Rleb_t. }
  split; [|split].
  - intros ->. now rewrite LE by lra.
  - intros H ->. rewrite math_log_in by lra. cbn [bind]. rewrite LE; [easy|]. rewrite Rminus_0_r, pow1. lra.
  - intros H ->. rewrite math_log_in by lra. cbn [bind].
    replace ((1 - 1) ^ ransac_sample_size cfg) with 0 by (rewrite Rminus_diag_eq, pow_ne_zero by (easy || lia); easy).
    rewrite math_log_in by lra. cbn [bind]. unfold float_div. change (@n0 XR) with (Fin 0). cbn [eqb XR xeqb].
    rewrite Rminus_0_r, ln_1, Reqb_refl. reflexivity.
Qed.
(** The shipped defaults: p = 0.99, o = 0.5. *)
Lemma ratio_bounds a b k : 0 < a < 1 -> 0 < b < 1 -> b ^ S k < a < b ^ k -> INR k < ln a / ln b < INR (S k).
Proof.
  intros A B H.
  assert (LB : ln b < 0) by (rewrite <- ln_1; apply ln_increasing; lra).
  assert (PW : forall m, ln (b ^ m) = INR m * ln b).
  { induction m as [|m IH]; [cbn; rewrite ln_1; ring|]. rewrite S_INR. cbn [pow].
    rewrite ln_mult by (try apply pow_lt; lra). rewrite IH. ring. }
  assert (L1 : INR (S k) * ln b < ln a) by (rewrite <- PW; apply ln_increasing; [apply pow_lt; lra|lra]).
  assert (L2 : ln a < INR k * ln b) by (rewrite <- PW; apply ln_increasing; lra).
  split; apply Rmult_lt_reg_r with (- ln b); try lra; replace (ln a / ln b * - ln b) with (- ln a) by (field; lra); nra.
Qed.
Theorem C38_defaults : forall (cfg : config XR) k,
  ransac_success_probability_threshold cfg = lit 99 (-2) -> ransac_outlier_probability cfg = lit 5 (-1) ->
  enable_exhaustive_search cfg = false -> ransac_enable_early_abort cfg = true ->
  (ransac_sample_size cfg = 1%nat -> early_abort cfg k = Ok (Nat.leb 7 k)) /\
  (ransac_sample_size cfg = 3%nat -> early_abort cfg k = Ok (Nat.leb 35 k)).
Proof.
  intros cfg k P O X EA. change (lit 99 (-2)) with (Fin (99/100)) in P. change (lit 5 (-1)) with (Fin (5/10)) in O.
  assert (G : forall m R b, INR m < R < INR (S m) -> (b = true <-> R < INR k) -> b = Nat.leb (S m) k).
  { intros m R b HR HB. apply eq_true_iff_eq. rewrite HB, Nat.leb_le. split; intros H.
    - assert (INR m < INR k) by lra. apply INR_lt in H0. lia.
    - apply le_INR in H. lra. }
  split; intros S; destruct (C38_bound cfg _ _ k P O ltac:(lra) ltac:(lra) ltac:(lia) X EA) as (b & -> & HB); f_equal;
    rewrite S in HB.
  - apply (G 6%nat _ b) in HB; [easy|]. apply ratio_bounds; cbn [pow]; lra.
  - apply (G 34%nat _ b) in HB; [easy|].
    apply ratio_bounds; [lra|cbn [pow]; lra|]. replace (1 - (1 - 5/10)^3) with (7/8) by (cbn [pow]; field). cbn [pow]. lra.
Qed.
(** in particular not within the default 20 iterations *)
Example C38_example : early_abort (N:=XR) default_config 20 = Ok false.
Proof. destruct (C38_defaults default_config 20) as [_ H]; try reflexivity. now rewrite H. Qed.
