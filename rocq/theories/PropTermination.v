(** * Property C35: how long the RANSAC loop runs. *)

From Coq Require Import Reals ZArith Bool List Lra Lia Sorted.
From Verif Require Import Num Py XReal XFacts Quat DualQuat HandEye Ransac Spec Embed DualFacts
  ListFacts HandEyeFacts CalibFacts RansacFacts QuatFacts PropBaseline PropRansac.
Import ListNotations.

(** ** The samples of the exhaustive search *)

(** binomial coefficients by Pascal's rule *)
Fixpoint binomial (n k : nat) : nat :=
  match n, k with
  | _, O => 1
  | O, S _ => 0
  | S n', S k' => binomial n' k' + binomial n' (S k')
  end.
(** a k-subset of {0..n-1}, listed in increasing order *)
Definition subset (n k : nat) (s : list nat) : Prop :=
  length s = k /\ StronglySorted lt s /\ Forall (fun i => i < n) s.

Lemma nth_error_ext_all {A} : forall l k : list A, (forall i, nth_error l i = nth_error k i) -> l = k.
Proof.
  induction l as [|x l IH]; intros [|y k] H; try easy; try (specialize (H 0); discriminate H).
  pose proof (H 0) as H0. injection H0 as ->. f_equal. apply IH. intros i. exact (H (S i)).
Qed.
Lemma nth_error_ext_len {A} (l k : list A) : length l = length k ->
  (forall i, i < length l -> nth_error l i = nth_error k i) -> l = k.
Proof.
  intros L H. apply nth_error_ext_all. intros i. destruct (lt_dec i (length l)); [now apply H|].
  assert (E1 : nth_error l i = None) by (apply nth_error_None; lia).
  assert (E2 : nth_error k i = None) by (apply nth_error_None; lia). congruence.
Qed.
Lemma combinations_length {A} (l : list A) k : length (combinations l k) = binomial (length l) k.
Proof.
  revert k; induction l as [|x l IH]; intros [|k]; try easy.
  cbn [combinations length binomial]. now rewrite app_length, map_length, !IH.
Qed.
Lemma combinations_in k : forall l s, StronglySorted lt l ->
  (In s (combinations l k) <-> length s = k /\ StronglySorted lt s /\ incl s l).
Proof.
  intros l; revert k; induction l as [|x l IH]; intros [|k] s SL.
  - cbn. split; [intros [<-|[]]; repeat split; [constructor|easy]|intros (L & _); destruct s; [now left|discriminate L]].
  - cbn. split; [easy|]. intros (L & _ & I). destruct s as [|y s]; [discriminate L|]. destruct (I y); now left.
  - cbn. split; [intros [<-|[]]; repeat split; [constructor|easy]|intros (L & _); destruct s; [now left|discriminate L]].
  - cbn [combinations]. apply StronglySorted_inv in SL as [SL FL]. rewrite in_app_iff, in_map_iff, IH by easy. split.
    + intros [(s' & <- & H)|(L & SS & I)].
      * apply IH in H as (L & SS & I); [|easy]. split; [simpl; lia|]. split.
        { constructor; [easy|]. rewrite Forall_forall in *. intros y Hy. now apply FL, I. }
        intros y [<-|Hy]; [now left|right; now apply I].
      * split; [easy|]. split; [easy|]. intros y Hy. right. now apply I.
    + intros (L & SS & I). destruct s as [|y s]; [discriminate L|]. apply StronglySorted_inv in SS as [SS FS].
      assert (OUT : forall z, In z s -> In z l).
      { intros z Hz. destruct (I z) as [EZ|]; [now right| |easy]. rewrite Forall_forall in FS, FL.
        specialize (FS z Hz). destruct (I y) as [EY|Hy]; [now left|lia|]. specialize (FL y Hy). lia. }
      destruct (I y) as [->|Hy]; [now left| |].
      * left. exists s. split; [easy|]. apply IH; [easy|]. split; [simpl in L; lia|]. split; easy.
      * right. split; [easy|]. split; [now constructor|]. intros z [<-|Hz]; auto.
Qed.
Lemma combinations_nodup k : forall l, StronglySorted lt l -> NoDup (combinations l k).
Proof.
  intros l; revert k; induction l as [|x l IH]; intros [|k] SL.
  - repeat constructor. easy.
  - constructor.
  - repeat constructor. easy.
  - cbn [combinations]. apply StronglySorted_inv in SL as [SL FL].
    assert (AP : forall (a b : list (list nat)), NoDup a -> NoDup b -> (forall y, In y a -> ~ In y b) -> NoDup (a ++ b)).
    { clear. intros a b Ha Hb D. induction a as [|y a IH]; [easy|]. cbn [app]. inversion Ha; subst. constructor.
      - rewrite in_app_iff. intros [K|K]; [easy|]. eapply D; [now left|easy].
      - apply IH; [easy|]. intros z Hz. apply D. now right. }
    apply AP; [|now apply IH|].
    + specialize (IH k SL). clear - IH. induction IH as [|y m H _ IH']; cbn [map]; constructor; [|easy].
      intros K. apply in_map_iff in K as (z & E & K). injection E as ->. easy.
    + intros s K1 K2. apply in_map_iff in K1 as (s' & <- & _). apply combinations_in in K2 as (_ & _ & I); [|easy].
      rewrite Forall_forall in FL. specialize (FL x (I x ltac:(now left))). lia.
Qed.
Lemma seq_sorted n : forall a, StronglySorted lt (seq a n).
Proof.
  induction n as [|n IH]; intros a; cbn [seq]; constructor; [apply IH|].
  apply Forall_forall. intros y Hy. apply in_seq in Hy. lia.
Qed.

Section Any.
  Context {N : Num}.
  Context (svd : list dquat -> res (list T * list dquat)) (draw : nat -> list nat).

  (** Exhaustive mode draws every k-subset of the (filtered) indices exactly once. *)
  Theorem C35_subsets : forall (cfg : config N) n, enable_exhaustive_search cfg = true ->
    exists l, (forall i s, sample_at draw cfg n i = Ok s <-> nth_error l i = Some s) /\
      NoDup l /\ length l = binomial n (ransac_sample_size cfg) /\
      (forall s, In s l <-> subset n (ransac_sample_size cfg) s).
  Proof.
    intros cfg n X. exists (combinations (seq 0 n) (ransac_sample_size cfg)). split; [|split; [|split]].
    - intros i s. unfold sample_at, index. rewrite X. destruct (nth_error _ i); split; intros H; inversion H; easy.
    - apply combinations_nodup, seq_sorted.
    - now rewrite combinations_length, seq_length.
    - intros s. rewrite combinations_in by apply seq_sorted. unfold subset.
      split; intros (L & SS & I); split; try easy; split; try easy.
      + apply Forall_forall. intros i Hi. specialize (I i Hi). apply in_seq in I. lia.
      + intros i Hi. rewrite Forall_forall in I. specialize (I i Hi). apply in_seq. lia.
  Qed.

  Lemma account_number cfg s v (st st' : @state N) stop : account cfg s v st = Ok (st', stop) ->
    sample_number st' = S (sample_number st).
  Proof.
    destruct v; cbn [account]; intros A.
    - now injection A as <- <-.
    - now injection A as <- <-.
    - apply bind_ok in A as (? & _ & A). injection A as <- <-. now destruct (ltb _ _ && ltb _ _).
  Qed.
  Lemma exhaustive_fuel cfg b_h w_e bf wf : enable_exhaustive_search cfg = true ->
    forall fuel st, binomial (length wf) (ransac_sample_size cfg) < fuel + sample_number st -> fuel <> 0 ->
    ransac_loop svd draw fuel cfg b_h w_e bf wf st <> OutOfFuel.
  Proof.
    intros X. induction fuel as [|fuel IH]; intros st L NZ; [easy|]. cbn [ransac_loop].
    destruct (guard cfg (length wf) st) eqn:G; [|easy].
    destruct (bind _ _) as [[st1 stop]|] eqn:E; [|easy].
    destruct stop; [easy|]. apply bind_ok in E as (s & _ & E). apply bind_ok in E as (v & _ & E).
    apply account_number in E. unfold guard in G. rewrite X in G. apply Nat.ltb_lt in G.
    rewrite combinations_length, seq_length in G.
    apply IH; lia.
  Qed.
  (** Exhaustive mode always terminates ... *)
  Theorem C35_exhaustive_terminates : forall (cfg : config N) fuel b_h w_e, enable_exhaustive_search cfg = true ->
    (forall bf wf, filtered cfg b_h w_e = Ok (bf, wf) -> binomial (length wf) (ransac_sample_size cfg) < fuel) ->
    compute_RANSAC svd draw fuel cfg b_h w_e <> OutOfFuel.
  Proof.
    intros cfg fuel b_h w_e X F. unfold compute_RANSAC.
    destruct (assert_ _) as [[]|]; cbn [bind]; [|easy].
    destruct (assert_ _) as [[]|]; cbn [bind]; [|easy].
    destruct (filtered cfg b_h w_e) as [[bf wf]|]; [|easy]. specialize (F bf wf eq_refl).
    destruct (ransac_loop _ _ _ _ _ _ _ _ _) as [[st|]|] eqn:L; try easy.
    exfalso. revert L. apply exhaustive_fuel; cbn; try easy; lia.
  Qed.
  (** ... after drawing exactly the C(n,k) subsets, each once, in a fixed order. *)
  Theorem C35_exhaustive_visits : forall (cfg : config N) fuel b_h w_e r, strict_order N ->
    enable_exhaustive_search cfg = true -> compute_RANSAC svd draw fuel cfg b_h w_e = Done (Ok r) ->
    exists bf wf h, filtered cfg b_h w_e = Ok (bf, wf) /\ history svd draw cfg b_h w_e bf wf h /\
      length h = binomial (length wf) (ransac_sample_size cfg) /\ NoDup (map fst h) /\
      (forall s, In s (map fst h) <-> subset (length wf) (ransac_sample_size cfg) s).
  Proof.
    intros cfg fuel b_h w_e r SO X H.
    assert (K : exists bf wf h, filtered cfg b_h w_e = Ok (bf, wf) /\ history svd draw cfg b_h w_e bf wf h /\ complete cfg wf h).
    { destruct (success r) eqn:SU.
      - destruct (C34_success _ svd draw cfg fuel b_h w_e r SO H SU) as (bf & wf & h & K). exists bf, wf, h.
        destruct K as (? & ? & ? & ? & ? & ? & ? & K1 & K2 & K3 & _). easy.
      - destruct (C34_failure _ svd draw cfg fuel b_h w_e r SO H SU) as (bf & wf & h & K1 & K2 & K3 & _).
        now exists bf, wf, h. }
    destruct K as (bf & wf & h & F & HI & C). exists bf, wf, h. split; [easy|]. split; [easy|].
    unfold complete in C. rewrite X in C.
    assert (E : map fst h = combinations (seq 0 (length wf)) (ransac_sample_size cfg)).
    { apply nth_error_ext_len; [now rewrite map_length|]. intros i Hi. rewrite map_length in Hi.
      destruct (nth_error h i) as [[s v]|] eqn:E; [|now apply nth_error_None in E; lia].
      destruct (HI i s v E) as [A _]. unfold sample_at in A. rewrite X in A. unfold index in A.
      rewrite nth_error_map, E. cbn. destruct (nth_error (combinations _ _) i); [now inversion A|discriminate A]. }
    rewrite C. rewrite combinations_length, seq_length. split; [easy|]. rewrite E.
    destruct (C35_subsets cfg (length wf) X) as (l & L1 & L2 & _ & L4).
    assert (EL : l = combinations (seq 0 (length wf)) (ransac_sample_size cfg)).
    { apply nth_error_ext_all. intros i. specialize (L1 i). unfold sample_at, index in L1. rewrite X in L1.
      destruct (nth_error (combinations _ _) i) as [s|].
      - now apply L1.
      - destruct (nth_error l i) as [s|]; [|easy]. specialize (L1 s). destruct L1 as [_ L1]. discriminate (L1 eq_refl). }
    rewrite <- EL. easy.
  Qed.

  (** The amount of fuel never changes a finished result. *)
  Theorem C35_fuel_irrelevant : forall (cfg : config N) fuel more b_h w_e r,
    compute_RANSAC svd draw fuel cfg b_h w_e = Done r ->
    compute_RANSAC svd draw (fuel + more) cfg b_h w_e = Done r.
  Proof.
    intros cfg fuel more b_h w_e r. unfold compute_RANSAC.
    destruct (assert_ _) as [[]|]; cbn [bind]; [|easy].
    destruct (assert_ _) as [[]|]; cbn [bind]; [|easy].
    destruct (filtered cfg b_h w_e) as [[bf wf]|]; [|easy].
    assert (M : forall fuel st r, ransac_loop svd draw fuel cfg b_h w_e bf wf st = Done r ->
                  ransac_loop svd draw (fuel + more) cfg b_h w_e bf wf st = Done r).
    { clear. induction fuel as [|fuel IH]; intros st r H; [discriminate H|]. cbn [plus ransac_loop] in *.
      destruct (guard cfg (length wf) st); [|easy]. destruct (bind _ _) as [[st1 []]|]; auto. }
    destruct (ransac_loop svd draw fuel _ _ _ _ _ _) as [x|] eqn:L; [|easy]. now rewrite (M _ _ _ L).
  Qed.

  (** Random mode: at any time at most ransac_max_number_iterations samples have been evaluated.
      A run that is still going after [fuel] draws has evaluated at most that many of them. *)
  Lemma loop_running cfg b_h w_e bf wf : strict_order N -> enable_exhaustive_search cfg = false ->
    forall fuel h st, invariant svd draw cfg b_h w_e bf wf h st -> in_bounds cfg wf st ->
    ransac_loop svd draw fuel cfg b_h w_e bf wf st = OutOfFuel ->
    exists h', history svd draw cfg b_h w_e bf wf (h ++ h') /\ length h' = fuel /\
               evaluations (h ++ h') <= ransac_max_number_iterations cfg.
  Proof.
    intros SO X. induction fuel as [|fuel IH]; intros h st I IB H; cbn [ransac_loop] in H.
    - exists []. rewrite app_nil_r. unfold in_bounds in IB. rewrite X in IB. destruct I as (I1 & I2 & I3 & _).
      split; [easy|]. split; [easy|]. lia.
    - destruct (guard cfg (length wf) st) eqn:G; [|discriminate H].
      destruct (sample_at draw cfg (length wf) (sample_number st)) as [s|] eqn:S; cbn [bind] in H; [|discriminate H].
      destruct (evaluate_sample svd cfg b_h w_e bf wf s) as [v|] eqn:E; cbn [bind] in H; [|discriminate H].
      destruct (account cfg s v st) as [[st1 stop]|] eqn:A; [|discriminate H].
      pose proof (invariant_step _ _ _ _ _ _ _ _ _ _ _ _ _ SO I S E A) as I1.
      destruct (account_bounds cfg wf _ _ _ _ _ A G) as [IB1 _]. destruct stop; [discriminate H|].
      destruct (IH _ _ I1 IB1 H) as (h' & K1 & K2 & K3). exists ((s, v) :: h').
      rewrite <- app_assoc in K1, K3. cbn [app] in K1, K3. split; [easy|]. split; [simpl; lia|easy].
  Qed.
  Theorem C35_random_running : forall (cfg : config N) fuel b_h w_e, strict_order N ->
    enable_exhaustive_search cfg = false -> compute_RANSAC svd draw fuel cfg b_h w_e = OutOfFuel ->
    exists bf wf h, filtered cfg b_h w_e = Ok (bf, wf) /\ history svd draw cfg b_h w_e bf wf h /\
      length h = fuel /\ evaluations h <= ransac_max_number_iterations cfg.
  Proof.
    intros cfg fuel b_h w_e SO X H. unfold compute_RANSAC in H.
    destruct (assert_ _) as [[]|]; cbn [bind] in H; [|discriminate H].
    destruct (assert_ _) as [[]|]; cbn [bind] in H; [|discriminate H].
    destruct (filtered cfg b_h w_e) as [[bf wf]|]; [|discriminate H].
    destruct (ransac_loop _ _ _ _ _ _ _ _ _) as [[st|]|] eqn:L; try discriminate H.
    apply (loop_running cfg b_h w_e bf wf SO X fuel []) in L as (h & K);
      [|apply invariant_initial|unfold in_bounds; rewrite X; cbn; lia].
    now exists bf, wf, h.
  Qed.
  (** A finished run has evaluated at most ransac_max_number_iterations samples. *)
  Theorem C35_random_finished : forall (cfg : config N) fuel b_h w_e r, strict_order N ->
    enable_exhaustive_search cfg = false -> compute_RANSAC svd draw fuel cfg b_h w_e = Done (Ok r) ->
    exists bf wf h, filtered cfg b_h w_e = Ok (bf, wf) /\ history svd draw cfg b_h w_e bf wf h /\
      evaluations h <= ransac_max_number_iterations cfg /\
      (ransac_enable_early_abort cfg = false -> evaluations h = ransac_max_number_iterations cfg).
  Proof.
    intros cfg fuel b_h w_e r SO X H.
    assert (K : exists bf wf h, filtered cfg b_h w_e = Ok (bf, wf) /\ history svd draw cfg b_h w_e bf wf h /\ complete cfg wf h).
    { destruct (success r) eqn:SU.
      - destruct (C34_success _ svd draw cfg fuel b_h w_e r SO H SU) as (bf & wf & h & K). exists bf, wf, h.
        destruct K as (? & ? & ? & ? & ? & ? & ? & K1 & K2 & K3 & _). easy.
      - destruct (C34_failure _ svd draw cfg fuel b_h w_e r SO H SU) as (bf & wf & h & K1 & K2 & K3 & _).
        now exists bf, wf, h. }
    destruct K as (bf & wf & h & F & HI & C). exists bf, wf, h. split; [easy|]. split; [easy|].
    unfold complete in C. rewrite X in C. destruct C as [C|(C & _ & C')]; (split; [lia|]); intros; [easy|congruence].
  Qed.
  (** If no sample is ever evaluated the loop does not terminate, whatever the iteration limit. *)
  Theorem C35_random_diverges : forall (cfg : config N) b_h w_e bf wf,
    enable_exhaustive_search cfg = false -> 0 < ransac_max_number_iterations cfg ->
    length w_e = length b_h -> ransac_sample_size cfg < length w_e -> filtered cfg b_h w_e = Ok (bf, wf) ->
    ransac_sample_size cfg <= length wf ->
    (forall i, evaluate_sample svd cfg b_h w_e bf wf (draw i) = Ok Prerejected \/
               evaluate_sample svd cfg b_h w_e bf wf (draw i) = Ok Rejected) ->
    forall fuel, compute_RANSAC svd draw fuel cfg b_h w_e = OutOfFuel.
  Proof.
    intros cfg b_h w_e bf wf X M L1 L2 F K H fuel. unfold compute_RANSAC.
    apply Nat.eqb_eq in L1. apply Nat.ltb_lt in L2. rewrite L1, L2, F. cbn [assert_ bind].
    assert (G : forall fuel st, full_iterations st = 0 -> ransac_loop svd draw fuel cfg b_h w_e bf wf st = OutOfFuel).
    { clear fuel. induction fuel as [|fuel IH]; intros st FI; [easy|]. cbn [ransac_loop].
      unfold guard, sample_at. rewrite X, FI. apply Nat.ltb_lt in M. rewrite M. apply Nat.ltb_ge in K. rewrite K. cbn [bind].
      destruct (H (sample_number st)) as [-> | ->]; cbn [bind account]; apply IH; easy. }
    now rewrite G.
  Qed.
End Any.

(** ** Non-termination on concrete data: three poses, hands at rest, eyes turned by +a, 0, -a.
    With a sample size of 2 every pair is rejected, for every random stream and every limit. *)
Local Open Scope R_scope.
Definition stuck : list (rdq * rdq) := [(dqone, turned 1); (dqone, dqone); (dqone, turned (-1))].
Definition stuck_cfg (max : nat) : config XR :=
  mkConfig (N:=XR) true 2 false false (lit 975 (-3)) 2 (lit 1 (-2)) max true (lit 5 (-1)) (lit 99 (-2))
           ScalarPartEquality (lit 2 (-2)) (lit 1 0) true false (lit 4 (-2)).
Lemma stuck_pair max svd i j w1 w2 : nth_error stuck i = Some (dqone, w1) -> nth_error stuck j = Some (dqone, w2) ->
  unitdq w1 -> unitdq w2 -> dd w1 = hzero -> dd w2 = hzero -> 0 <= hdot (dr w1) (dr w2) <= 9/10 ->
  evaluate_sample svd (stuck_cfg max) (hands stuck) (eyes stuck) (hands stuck) (eyes stuck) [i; j] = Ok Prerejected.
Proof.
  intros Hi Hj U1 U2 D1 D2 HD. unfold evaluate_sample.
  assert (S1 : mapM (index (eyes stuck)) [i; j] = Ok (eyes [(dqone, w1); (dqone, w2)])).
  { cbn [mapM]. unfold eyes. rewrite !index_map. now rewrite (index_some _ _ _ Hi), (index_some _ _ _ Hj). }
  assert (S2 : mapM (index (hands stuck)) [i; j] = Ok (hands [(dqone, w1); (dqone, w2)])).
  { cbn [mapM]. unfold hands. rewrite !index_map. now rewrite (index_some _ _ _ Hi), (index_some _ _ _ Hj). }
  rewrite S1, S2. cbn [bind]. cbn [ransac_sample_size stuck_cfg]. change (length (eyes [(dqone, w1); (dqone, w2)])) with 2%nat.
  cbn [Nat.eqb assert_ bind Nat.ltb Nat.leb].
  rewrite (align_hands _ 0 (dqone, w1)), (align_eyes _ 0 (dqone, w1)) by (try reflexivity; cbn [fst snd]; apply unitdq_tiny; auto using unitdq_one).
  cbn [bind]. cbn [ransac_sample_rejection_tolerance stuck_cfg]. change (@lit XR 1 (-2)) with (Fin (1/100)).
  unfold realign, rotl, hands, eyes. cbn [map skipn firstn app fst snd good_sample].
  rewrite !scalar_parts_closeb by lra. cbn [bind].
  assert (P11 : 0 <= qs (dr (dqmul (dqinv w1) w1))) by (rewrite dqmul_inv_l by (now apply unitdq_n2); cbn; lra).
  assert (EQ : qs (dr (dqmul (dqinv w1) w2)) = hdot (dr w1) (dr w2)) by (rewrite unitdq_inv_conj by easy; destruct w1, w2; specu; ring).
  rewrite (turned_close w1 w1), (turned_close w1 w2) by (auto; rewrite EQ; lra).
  assert (H11 : hdot (dr w1) (dr w1) = 1) by (destruct U1 as [U1 _]; exact U1).
  rewrite (Rleb_t (Rabs (hdot (dr w1) (dr w1) - 1))) by (rewrite H11; unfold Rminus; rewrite Rplus_opp_r, Rabs_R0; lra).
  rewrite (Rleb_f (Rabs (hdot (dr w1) (dr w2) - 1))) by (rewrite Rabs_left1; lra).
  reflexivity.
Qed.
Theorem C35_diverges_example : forall svd draw max, (0 < max)%nat ->
  (forall i, length (draw i) = 2%nat /\ NoDup (draw i) /\ Forall (fun j => j < 3)%nat (draw i)) ->
  forall fuel, compute_RANSAC svd draw fuel (stuck_cfg max) (hands stuck) (eyes stuck) = OutOfFuel.
Proof.
  intros svd draw max M D. apply (C35_random_diverges svd draw (stuck_cfg max) _ _ (hands stuck) (eyes stuck)); try easy.
  - cbn [ransac_sample_size stuck_cfg]. change (length (eyes stuck)) with 3%nat. lia.
  - cbn [ransac_sample_size stuck_cfg]. change (length (eyes stuck)) with 3%nat. lia.
  - intros k. left. destruct (D k) as (L & ND & F). destruct (draw k) as [|i [|j [|]]]; try discriminate L.
    inversion ND as [|? ? NI _]; subst. inversion F as [|? ? I F']; subst. inversion F' as [|? ? J _]; subst.
    assert (U1 := turned_unit 1 ltac:(lra)). assert (U2 := turned_unit (-1) ltac:(lra)). assert (U0 := unitdq_one).
    destruct i as [|[|[|i]]]; [| | |lia]; destruct j as [|[|[|j]]]; try lia; try (now destruct NI; left).
    all: eapply stuck_pair; [reflexivity|reflexivity|try assumption..]; try reflexivity; unfold turned; specu; lra.
Qed.
