(** * Property C92: searching longer never makes the RANSAC result worse, and the exhaustive search is not beaten. *)

From Coq Require Import Reals ZArith Bool List Lra Lia Psatz.
From Verif Require Import Num Py XReal XFacts Quat DualQuat HandEye Ransac Experiments Spec Embed QuatFacts QuatTrig
  QuatRot PropQuat DualFacts ScrewFacts PropDual ListFacts HandEyeFacts KernelFacts CalibFacts RansacFacts CalibExample
  PropCalib PropEval PropPrefilter PropBaseline PropRansac PropSampling PropTermination PropPerfect PropComplete
  FloatQuat StabilityFacts PropStability PropNoRaise PropOutliers F64 F64Facts FloatFacts.
From Flocq Require Import Binary BinarySingleNaN.
From Coq Require Import Sorted.
Import ListNotations.

(** ** Specification *)
(** the configuration with another search: exhaustive or not, number of iterations, early abort *)
Definition with_search {N : Num} (x : bool) (m : nat) (e : bool) (c : config N) : config N :=
  mkConfig (use_baseline_approach c) (min_num_inliers c) x (prefilter_poses_enabled c)
    (prefilter_dot_product_threshold c) (ransac_sample_size c) (ransac_sample_rejection_tolerance c) m e
    (ransac_outlier_probability c) (ransac_success_probability_threshold c) (ransac_inlier_classification c)
    (ransac_position_error_threshold_m c) (ransac_orientation_error_threshold_deg c) (ransac_model_refinement c)
    (ransac_evaluate_refined_model_on_inliers_only c) (hand_eye_calibration_tolerance c).
(** the result r' has both errors smaller than the result r *)
Definition beats {N : Num} (r' r : @result N) : Prop :=
  exists p o p' o', rmse r = Some (p, o) /\ rmse r' = Some (p', o') /\ ltb p' p = true /\ ltb o' o = true.

(** ** Facts *)
Section More.
  Context {N : Num} (svd : list (@dquat N) -> res (list (@T N) * list (@dquat N))) (draw : nat -> list nat).
  Context (b_h w_e bf wf : list (@dquat N)).
  Lemma evaluate_search x m e (c : config N) s :
    evaluate_sample svd (with_search x m e c) b_h w_e bf wf s = evaluate_sample svd c b_h w_e bf wf s.
  Proof. reflexivity. Qed.
  Lemma filtered_search x m e (c : config N) : filtered (with_search x m e c) b_h w_e = filtered c b_h w_e.
  Proof. reflexivity. Qed.

  Definition kept (st st' : @state N) : Prop := best st' = best st /\ best_bad st' = best_bad st /\
    best_num_inliers st' = best_num_inliers st /\ best_rmse_position st' = best_rmse_position st /\
    best_rmse_orientation st' = best_rmse_orientation st.
  Definition improved (st st' : @state N) : Prop := best st' <> None /\
    ltb (best_rmse_position st') (best_rmse_position st) = true /\
    ltb (best_rmse_orientation st') (best_rmse_orientation st) = true.
  Definition later (st st' : @state N) : Prop := kept st st' \/ improved st st'.
  Lemma later_trans a b c : strict_order N -> later a b -> later b c -> later a c.
  Proof.
    intros [_ TR] [K|I] [K'|I'].
    - left. destruct K as (A1 & A2 & A3 & A4 & A5), K' as (B1 & B2 & B3 & B4 & B5). unfold kept. repeat split; congruence.
    - right. destruct K as (A1 & A2 & A3 & A4 & A5), I' as (B1 & B2 & B3). unfold improved. now rewrite <- A4, <- A5.
    - right. destruct K' as (A1 & A2 & A3 & A4 & A5), I as (B1 & B2 & B3). unfold improved. now rewrite A1, A4, A5.
    - right. destruct I as (A1 & A2 & A3), I' as (B1 & B2 & B3). split; [easy|]. split; eapply TR; eauto.
  Qed.
  Lemma account_later cfg s v st st' stop : account cfg s v st = Ok (st', stop) -> later st st'.
  Proof.
    intros A. destruct v; cbn [account] in A.
    - injection A as <- _. left. unfold kept. cbn. auto.
    - injection A as <- _. left. unfold kept. cbn. auto.
    - apply bind_ok in A as (b & _ & A). injection A as <- _. destruct (ltb _ _ && ltb _ _) eqn:B.
      + apply andb_true_iff in B as [B1 B2]. right. unfold improved. cbn. split; [discriminate|]. split; assumption.
      + left. unfold kept. cbn. auto.
  Qed.
  Lemma loop_later cfg fuel : strict_order N -> forall st st',
    ransac_loop svd draw fuel cfg b_h w_e bf wf st = Done (Ok st') -> later st st'.
  Proof.
    intros SO. induction fuel as [|fuel IH]; intros st st' H; cbn [ransac_loop] in H; [discriminate H|].
    destruct (guard cfg (length wf) st); [|injection H as <-; left; unfold kept; auto].
    destruct (do sample <- _; _) as [[st1 stop]|] eqn:E; [|discriminate H].
    apply bind_ok in E as (s & _ & E). apply bind_ok in E as (v & _ & E). apply account_later in E.
    destruct stop; [now injection H as <-|]. eapply later_trans; eauto.
  Qed.
  Lemma loop_longer cfg m e fuel : strict_order N ->
    ransac_max_number_iterations cfg <= m -> (e = true -> ransac_enable_early_abort cfg = true) ->
    forall fuel' st a b,
    ransac_loop svd draw fuel cfg b_h w_e bf wf st = Done (Ok a) ->
    ransac_loop svd draw fuel' (with_search (enable_exhaustive_search cfg) m e cfg) b_h w_e bf wf st = Done (Ok b) ->
    later a b.
  Proof.
    intros SO M EA. induction fuel as [|fuel IH]; intros fuel' st a b H H'; [discriminate H|].
    cbn [ransac_loop] in H. destruct (guard cfg (length wf) st) eqn:G.
    2:{ injection H as <-. now apply loop_later in H'. }
    destruct fuel' as [|fuel']; [discriminate H'|]. cbn [ransac_loop] in H'.
    assert (G' : guard (with_search (enable_exhaustive_search cfg) m e cfg) (length wf) st = true).
    { unfold guard in *. cbn [with_search enable_exhaustive_search ransac_sample_size ransac_max_number_iterations].
      destruct (enable_exhaustive_search cfg); [easy|]. apply Nat.ltb_lt in G. apply Nat.ltb_lt. lia. }
    rewrite G' in H'. change (sample_at draw (with_search (enable_exhaustive_search cfg) m e cfg)) with (sample_at draw cfg) in H'.
    destruct (sample_at draw cfg (length wf) (sample_number st)) as [s|]; [|discriminate H]. cbn [bind] in H, H'.
    rewrite evaluate_search in H'. destruct (evaluate_sample svd cfg b_h w_e bf wf s) as [v|]; [|discriminate H]. cbn [bind] in H, H'.
    destruct (account cfg s v st) as [[st1 stop]|] eqn:A; [|discriminate H].
    destruct (account (with_search (enable_exhaustive_search cfg) m e cfg) s v st) as [[st2 stop']|] eqn:A'; [|discriminate H'].
    assert (S12 : st2 = st1 /\ (stop' = true -> stop = true)).
    { destruct v; cbn [account] in A, A'.
      - injection A as <- <-. injection A' as <- <-. easy.
      - injection A as <- <-. injection A' as <- <-. easy.
      - apply bind_ok in A as (q & Q & A). apply bind_ok in A' as (q' & Q' & A'). injection A as <- <-. injection A' as <- <-. split; [easy|].
        intros ->. unfold early_abort in Q, Q'. cbn [with_search enable_exhaustive_search ransac_enable_early_abort] in Q'.
        destruct (negb (enable_exhaustive_search cfg)); cbn [andb] in Q, Q'; [|discriminate Q'].
        destruct e; [|discriminate Q']. rewrite (EA eq_refl) in Q.
        change (required_iterations (with_search (enable_exhaustive_search cfg) m true cfg)) with (required_iterations cfg) in Q'.
        destruct (required_iterations cfg); [|discriminate Q]. cbn [bind] in Q, Q'. congruence. }
    destruct S12 as [-> SS]. destruct stop.
    - injection H as <-. destruct stop'; [injection H' as <-; left; unfold kept; auto|]. now apply loop_later in H'.
    - destruct stop'; [now specialize (SS eq_refl)|]. eapply IH; eauto.
  Qed.
End More.

(** ** The theorems *)
(** With the same random numbers, more iterations or no early abort give either exactly the same result or a successful
    one with both errors smaller.  (For every scalar type whose comparison is a strict order, NaN included.) *)
Theorem C92_more : forall (N : Num) svd draw (cfg : config N) m e fuel fuel' (b_h w_e : list dquat) r r',
  strict_order N -> ransac_max_number_iterations cfg <= m -> (e = true -> ransac_enable_early_abort cfg = true) ->
  compute_RANSAC svd draw fuel cfg b_h w_e = Done (Ok r) ->
  compute_RANSAC svd draw fuel' (with_search (enable_exhaustive_search cfg) m e cfg) b_h w_e = Done (Ok r') ->
  r' = r \/ (success r' = true /\ beats r' r).
Proof.
  intros N svd draw cfg m e fuel fuel' b_h w_e r r' SO M EA H H'. unfold compute_RANSAC in H, H'.
  rewrite filtered_search in H'. change (ransac_sample_size (with_search (enable_exhaustive_search cfg) m e cfg)) with (ransac_sample_size cfg) in H'.
  destruct (assert_ (length w_e =? length b_h)) as [[]|]; cbn [bind] in H, H'; [|discriminate H].
  destruct (assert_ (ransac_sample_size cfg <? length w_e)) as [[]|]; cbn [bind] in H, H'; [|discriminate H].
  destruct (filtered cfg b_h w_e) as [[bf wf]|]; [|discriminate H].
  destruct (ransac_loop _ _ _ cfg _ _ _ _ _) as [[st|]|] eqn:L; try discriminate H. injection H as <-.
  destruct (ransac_loop _ _ _ (with_search _ _ _ _) _ _ _ _ _) as [[st'|]|] eqn:L'; try discriminate H'. injection H' as <-.
  destruct (loop_longer svd draw b_h w_e bf wf cfg m e fuel SO M EA fuel' _ _ _ L L') as [K|I].
  - left. destruct K as (A1 & A2 & A3 & A4 & A5). unfold ransac_result. now rewrite A1, A2, A3, A4, A5.
  - right. destruct I as (A1 & A2 & A3). unfold beats, ransac_result.
    destruct (best st') as [[[d' s'] sv']|]; [|easy]. split; [easy|].
    exists (best_rmse_position st), (best_rmse_orientation st), (best_rmse_position st'), (best_rmse_orientation st').
    destruct (best st) as [[[d s] sv]|]; cbn; auto.
Qed.

(** No sample of the sample size, taken in increasing order, has both errors smaller than the result of the exhaustive
    search; if any of them has finite errors the search succeeds. *)
Theorem C92_exhaustive : forall (N : Num) svd draw (cfg : config N) fuel (b_h w_e : list dquat) r s bf wf d p o n sv bad,
  strict_order N -> enable_exhaustive_search cfg = true ->
  compute_RANSAC svd draw fuel cfg b_h w_e = Done (Ok r) ->
  filtered cfg b_h w_e = Ok (bf, wf) -> subset (length wf) (ransac_sample_size cfg) s ->
  evaluate_sample svd cfg b_h w_e bf wf s = Ok (Evaluated d p o n sv bad) ->
  (exists rp ro, rmse r = Some (rp, ro) /\ ltb p rp && ltb o ro = false) /\
  (ltb p ninf = true -> ltb o ninf = true -> success r = true).
Proof.
  intros N svd draw cfg fuel b_h w_e r s bf wf d p o n sv bad SO X H F SS EV.
  destruct (C35_subsets (N:=N) draw cfg (length wf) X) as (ss & S1 & S2 & S3 & S4).
  assert (IH : forall h, history svd draw cfg b_h w_e bf wf h -> complete cfg wf h -> In (s, Evaluated d p o n sv bad) h).
  { intros h HH CO. apply S4 in SS. destruct (In_nth_error _ _ SS) as (i & NI).
    unfold complete in CO. rewrite X in CO. rewrite combinations_length, seq_length in CO.
    assert (LI : i < length h) by (rewrite CO, <- S3; apply nth_error_Some; congruence).
    destruct (nth_error h i) as [[s' v']|] eqn:NH; [|apply nth_error_None in NH; lia].
    destruct (HH _ _ _ NH) as [A B]. apply S1 in A. rewrite NI in A. injection A as ->.
    rewrite EV in B. injection B as <-. now apply nth_error_In in NH. }
  destruct (success r) eqn:SU.
  - destruct (C34_success N svd draw cfg fuel b_h w_e r SO H SU) as (bf' & wf' & h & s0 & dq & rp & ro & n' & sv' & bad' & F' & HH & CO & _ & -> & _ & _ & B).
    rewrite F in F'. injection F' as <- <-. split; [|easy]. exists rp, ro. split; [easy|]. eapply B. now apply IH.
  - destruct (C34_failure N svd draw cfg fuel b_h w_e r SO H SU) as (bf' & wf' & h & F' & HH & CO & -> & B).
    rewrite F in F'. injection F' as <- <-. specialize (B _ _ _ _ _ _ _ (IH h HH CO)). split; [exists ninf, ninf; easy|].
    intros P O. now rewrite P, O in B.
Qed.

(** In particular no random search over increasing samples beats it, whatever its length; in the case of sample size 1
    (the default of the exhaustive search) this is every random search. *)
Theorem C92_random : forall (N : Num) svd draw draw' (cfg : config N) m e fuel fuel' (b_h w_e : list dquat) r r' bf wf,
  strict_order N -> filtered cfg b_h w_e = Ok (bf, wf) ->
  (forall i, subset (length wf) (ransac_sample_size cfg) (draw' i)) ->
  compute_RANSAC svd draw fuel (with_search true m e cfg) b_h w_e = Done (Ok r) ->
  compute_RANSAC svd draw' fuel' (with_search false m e cfg) b_h w_e = Done (Ok r') ->
  ~ beats r' r /\ (success r' = true -> success r = true).
Proof.
  intros N svd draw draw' cfg m e fuel fuel' b_h w_e r r' bf wf SO F VD H H'.
  assert (K : success r' = true -> exists s d p o n sv bad, subset (length wf) (ransac_sample_size cfg) s /\
    evaluate_sample svd cfg b_h w_e bf wf s = Ok (Evaluated d p o n sv bad) /\ rmse r' = Some (p, o) /\ ltb p ninf = true /\ ltb o ninf = true).
  { intros SU. destruct (C34_success N svd draw' _ fuel' b_h w_e r' SO H' SU) as (bf' & wf' & h & s0 & dq & rp & ro & n' & sv' & bad' & F' & HH & CO & I & -> & P & O & _).
    rewrite filtered_search, F in F'. injection F' as <- <-. exists s0, dq, rp, ro, n', sv', bad'.
    apply In_nth_error in I as (i & I). destruct (HH _ _ _ I) as [A B]. rewrite evaluate_search in B. split; [|auto].
    unfold sample_at in A. cbn [with_search enable_exhaustive_search ransac_sample_size] in A. destruct (_ <? _); [discriminate A|]. injection A as <-. apply VD. }
  assert (KX : forall s d p o n sv bad, subset (length wf) (ransac_sample_size cfg) s ->
    evaluate_sample svd cfg b_h w_e bf wf s = Ok (Evaluated d p o n sv bad) ->
    (exists rp ro, rmse r = Some (rp, ro) /\ ltb p rp && ltb o ro = false) /\ (ltb p ninf = true -> ltb o ninf = true -> success r = true)).
  { intros s d p o n sv bad SS EV. eapply (C92_exhaustive N svd draw (with_search true m e cfg)); eauto. }
  assert (SUC : success r' = true -> success r = true).
  { intros SU. destruct (K SU) as (s & d & p & o & n & sv & bad & SS & EV & _ & P & O). now destruct (KX _ _ _ _ _ _ _ SS EV) as [_ ->]. }
  split; [|exact SUC]. intros (p & o & p' & o' & R & R' & P & O). destruct (success r') eqn:SU.
  - destruct (K eq_refl) as (s & d & p2 & o2 & n & sv & bad & SS & EV & R2 & _). rewrite R' in R2. injection R2 as <- <-.
    destruct (KX _ _ _ _ _ _ _ SS EV) as [(rp & ro & RR & B) _]. rewrite R in RR. injection RR as <- <-. rewrite P, O in B. discriminate B.
  - destruct (C34_failure N svd draw' _ fuel' b_h w_e r' SO H' SU) as (bf' & wf' & h & _ & _ & _ & E & _).
    rewrite E in R'. injection R' as <- <-. destruct (success r) eqn:SR.
    + destruct (C34_success N svd draw _ fuel b_h w_e r SO H SR) as (? & ? & ? & ? & ? & rp & ro & ? & ? & ? & _ & _ & _ & _ & -> & A & _).
      injection R as <- <-. destruct SO as [IR TR]. pose proof (TR _ _ _ P A) as Z. rewrite IR in Z. discriminate Z.
    + destruct (C34_failure N svd draw _ fuel b_h w_e r SO H SR) as (? & ? & ? & _ & _ & _ & -> & _).
      injection R as <- <-. destruct SO as [IR _]. rewrite IR in P. discriminate P.
Qed.

(** singletons are increasing samples *)
Theorem C92_singletons : forall n s, length s = 1 -> (forall j, In j s -> j < n) -> subset n 1 s.
Proof.
  intros n [|j [|? ?]] L B; try discriminate L. split; [easy|]. split; [repeat constructor|]. constructor; [apply B; now left|constructor].
Qed.

(** doubles are ordered strictly, NaN included *)
Theorem C92_doubles : forall L, strict_order (F64 L).
Proof.
  intros L. split.
  - intros x. change (Bltb x x = false). destruct (is_finite x) eqn:F.
    + destruct (Bltb x x) eqn:B; [|easy]. apply (ltb_V x x F F) in B. lra.
    + destruct x as [s|s| |s m e b]; try discriminate F; [now destruct s|easy].
  - intros x y z A B. change (Bltb x y = true) in A. change (Bltb y z = true) in B. change (Bltb x z = true).
    destruct (is_finite x) eqn:FX, (is_finite y) eqn:FY, (is_finite z) eqn:FZ;
      [apply (ltb_V x y FX FY) in A; apply (ltb_V y z FY FZ) in B; apply (ltb_V x z FX FZ); lra|..].
    all: clear - A B FX FY FZ;
      destruct x as [[]|[]| |[] ? ? ?]; try discriminate FX; try discriminate A;
      destruct y as [[]|[]| |[] ? ? ?]; try discriminate FY; try discriminate A; try discriminate B;
      destruct z as [[]|[]| |[] ? ? ?]; try discriminate FZ; try discriminate B; reflexivity.
Qed.

(** ** Non-vacuity: the recording of the example of C84, with an outlier, searched for longer and exhaustively *)
Local Open Scope R_scope.
Definition svd92 := svd_const (v0 (3/5) (4/5)).
Lemma real92 : real_vectors svd92.
Proof. intros m s v H. unfold svd92, svd_const in H. exists (v0 (3/5) (4/5)). congruence. Qed.
Lemma unit92 : Forall unit_pair l84.
Proof. eapply Forall_impl; [|exact l84_unit]. intros p [[A _] [B _]]. split; easy. Qed.
Lemma runnable92 x m e : runnable (with_search x m e cfg84) (length l84) (length l84).
Proof.
  constructor; try discriminate; try (cbn; lia); try (eexists; split; [apply lit_fin|cbn [Rlit]; lra]).
  intros _ _. exists (99/100), (5/10). split; [reflexivity|]. split; [reflexivity|]. lra.
Qed.
Lemma random92 m e : exists r,
  compute_RANSAC svd92 (fun _ => [0%nat]) (S m) (with_search false m e cfg84) (hands l84) (eyes l84) = Done (Ok r).
Proof.
  destruct C84_sample_example as (sv & bad & EV).
  destruct (compute_RANSAC svd92 (fun _ => [0%nat]) (S m) (with_search false m e cfg84) (hands l84) (eyes l84)) as [[r|x]|] eqn:H.
  - now exists r.
  - exfalso. eapply (C83_never_raises svd92 (fun _ => [0%nat]) (with_search false m e cfg84) l84 (hands l84) (eyes l84) (S m) x); try exact H;
      [exact real92|exact unit92|reflexivity|unfold eyes; rewrite map_length; apply runnable92|].
    intros _ i. split; [easy|]. intros j [<-|[]]. cbn. lia.
  - exfalso. destruct (C35_random_running svd92 (fun _ => [0%nat]) (with_search false m e cfg84) (S m) (hands l84) (eyes l84) XR_strict_order eq_refl H) as (bf & wf & h & F & HH & LH & EB).
    change (filtered (with_search false m e cfg84) (hands l84) (eyes l84)) with (@Ok (list (@dquat XR) * list (@dquat XR)) (hands l84, eyes l84)) in F. injection F as <- <-.
    assert (ALL : evaluations h = length h).
    { unfold evaluations. f_equal. assert (A : forall sv', In sv' h -> is_evaluated sv' = true).
      { intros [s v] I. apply In_nth_error in I as (i & NI). destruct (HH _ _ _ NI) as [SA E]. cbn in SA. injection SA as <-.
        pose proof (eq_trans (eq_sym EV) E) as EE. injection EE as <-. reflexivity. }
      clear - A. induction h as [|a h IH]; [easy|]. cbn [filter]. rewrite A by now left. f_equal. apply IH. intros; apply A; now right. }
    rewrite ALL, LH in EB. cbn in EB. lia.
Qed.
Example C92_example : exists r r' rx,
  compute_RANSAC svd92 (fun _ => [0%nat]) 21 cfg84 (hands l84) (eyes l84) = Done (Ok r) /\
  compute_RANSAC svd92 (fun _ => [0%nat]) 101 (with_search false 100 false cfg84) (hands l84) (eyes l84) = Done (Ok r') /\
  compute_RANSAC svd92 (fun _ => []) 5 (with_search true 20 true cfg84) (hands l84) (eyes l84) = Done (Ok rx) /\
  subset (length l84) (ransac_sample_size cfg84) [0%nat] /\
  filtered cfg84 (hands l84) (eyes l84) = Ok (hands l84, eyes l84).
Proof.
  destruct (random92 20 true) as (r & R). destruct (random92 100 false) as (r' & R').
  destruct (C83_exhaustive svd92 (fun _ => []) (with_search true 20 true cfg84) l84 (hands l84) (eyes l84)) as (rx & X);
    [exact real92|exact unit92|reflexivity|unfold eyes; rewrite map_length; apply runnable92|reflexivity|].
  exists r, r', rx. split; [exact R|]. split; [exact R'|]. split; [apply X; cbn; lia|]. split; [|reflexivity].
  split; [reflexivity|]. split; [repeat constructor|]. constructor; [cbn; lia|constructor].
Qed.
