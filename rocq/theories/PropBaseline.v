(** * Property C33: the BASELINE driver. *)

From Coq Require Import Reals ZArith Bool List Lra Lia.
From Verif Require Import Num Py XReal XFacts Quat DualQuat HandEye Ransac Spec Embed DualFacts
  ListFacts HandEyeFacts CalibFacts RansacFacts QuatFacts.
Import ListNotations.

Section Any.
  Context {N : Num}.
  Context (svd : list dquat -> res (list T * list dquat)).

  (** What an inlier set is: the pairs of the two paths, re-aligned at j, whose scalar parts agree
      up to 1e-2. *)
  Theorem C33_inliers : forall (bf wf : list dquat) j l,
    baseline_inliers bf wf j = Ok l ->
    exists b_al w_al flags,
      align_paths_at_index bf j = Ok b_al /\ align_paths_at_index wf j = Ok w_al /\
      length flags = length w_al /\ l = compress (combine b_al w_al) flags /\
      forall i w, nth_error w_al i = Some w -> exists b f, nth_error b_al i = Some b /\
        nth_error flags i = Some f /\ scalar_parts_close (lit 1 (-2)) w b = Ok f.
  Proof.
    intros bf wf j l H. unfold baseline_inliers in H.
    apply bind_ok in H as (w_al & W & H). apply bind_ok in H as (b_al & B & H).
    apply bind_ok in H as (flags & F & H). injection H as <-.
    exists b_al, w_al, flags. unfold scalar_flags in F.
    split; [easy|]. split; [easy|]. split; [now apply for_pairs_length in F|]. split; [easy|].
    intros i w Hi. destruct (for_pairs_short _ _ _ _ F i w Hi) as (b & f & Hb & E & Hf). now exists b, f.
  Qed.

  Lemma baseline_best_some bf wf todo j num best l : best <> None ->
    baseline_best bf wf todo j num best = Ok l -> l <> None.
  Proof.
    revert j num best; induction todo as [|todo IH]; intros j num best NB H; cbn [baseline_best] in H.
    - now injection H as <-.
    - apply bind_ok in H as (inls & _ & H). destruct (_ <? _)%Z; eapply IH; try exact H; easy.
  Qed.
  Lemma baseline_best_spec bf wf (l : nat -> list (dquat * dquat)) todo j num best :
    (forall i, j <= i < j + todo -> baseline_inliers bf wf i = Ok (l i)) ->
    exists b, baseline_best bf wf todo j num best = Ok b /\
      (best = None -> (b <> None <-> exists i, j <= i < j + todo /\ (num < Z.of_nat (length (l i)))%Z)).
  Proof.
    revert j num best; induction todo as [|todo IH]; intros j num best H; cbn [baseline_best].
    - exists best. split; [easy|]. intros ->. split; [easy|]. intros (i & Hi & _). lia.
    - rewrite H by lia. cbn [bind]. cbv zeta.
      destruct (num <? Z.of_nat (length (l j)))%Z eqn:E.
      + apply Z.ltb_lt in E.
        destruct (IH (S j) (Z.of_nat (length (l j))) (Some (j, l j))) as (b & B & _); [intros; apply H; lia|].
        exists b. split; [easy|]. intros _. split; [|intros _; now apply baseline_best_some in B].
        intros _. exists j. split; [lia|easy].
      + apply Z.ltb_ge in E. destruct (IH (S j) num best) as (b & B & P); [intros; apply H; lia|].
        exists b. split; [easy|]. intros Hb. rewrite P by easy. split; intros (i & Hi & L); exists i.
        * split; [lia|easy].
        * split; [|easy]. destruct (Nat.eq_dec i j) as [->|]; [lia|lia].
  Qed.

  (** Exhaustive search never returns a result, whatever the input. *)
  Theorem C33_exhaustive_never_returns : forall (cfg : config N) (b_h w_e : list dquat),
    enable_exhaustive_search cfg = true -> exists e, snd (compute_BASELINE svd cfg b_h w_e) = Err e.
  Proof.
    intros cfg b_h w_e X. unfold compute_BASELINE. destruct (negb _); [now eexists|].
    destruct (match_signs b_h w_e) as [w' s]. cbn [snd].
    destruct (filtered cfg b_h w') as [[bf wf]|e]; cbn [bind]; [|now eexists].
    unfold baseline_select. rewrite X. destruct (baseline_best _ _ _ _ _ _) as [[b|]|e]; cbn [bind]; now eexists.
  Qed.
  (** Which exception: NameError as soon as some start index has enough inliers. *)
  Theorem C33_exhaustive_exception : forall (cfg : config N) (b_h w_e bf wf : list dquat) l,
    enable_exhaustive_search cfg = true -> length w_e = length b_h ->
    filtered cfg b_h (fst (match_signs b_h w_e)) = Ok (bf, wf) ->
    (forall j, j < length wf -> baseline_inliers bf wf j = Ok (l j)) ->
    ((exists j, j < length wf /\ min_num_inliers cfg <= length (l j)) ->
       snd (compute_BASELINE svd cfg b_h w_e) = Err NameError) /\
    ((forall j, j < length wf -> length (l j) < min_num_inliers cfg) ->
       snd (compute_BASELINE svd cfg b_h w_e) = Err AssertionError).
  Proof.
    intros cfg b_h w_e bf wf l X L F H. unfold compute_BASELINE. rewrite L, Nat.eqb_refl. cbn [negb].
    destruct (match_signs b_h w_e) as [w' s]. cbn [fst snd] in *. rewrite F. cbn [bind].
    unfold baseline_select. rewrite X.
    destruct (baseline_best_spec bf wf l (length wf) 0 (Z.of_nat (min_num_inliers cfg) - 1) None)
      as (b & -> & P); [intros; apply H; lia|]. specialize (P eq_refl). cbn [bind]. split.
    - intros (j & J1 & J2). destruct b; [easy|]. exfalso. apply P; [|easy]. exists j. lia.
    - intros A. destruct b; [|easy]. exfalso.
      destruct P as [P _]. destruct P as (j & J1 & J2); [easy|]. specialize (A j ltac:(lia)). lia.
  Qed.

  Lemma baseline_first_ok (cfg : config N) bf wf todo j0 j l :
    baseline_first cfg bf wf todo j0 = Ok (j, l) ->
    j0 <= j < j0 + todo /\ baseline_inliers bf wf j = Ok l /\ min_num_inliers cfg < length l /\
    forall i, j0 <= i < j -> exists l', baseline_inliers bf wf i = Ok l' /\ length l' <= min_num_inliers cfg.
  Proof.
    revert j0; induction todo as [|todo IH]; intros j0 H; cbn [baseline_first] in H; [discriminate H|].
    apply bind_ok in H as (inls & I & H). destruct (_ <? _)%nat eqn:E.
    - apply Nat.ltb_lt in E. injection H as -> ->. split; [lia|]. split; [easy|]. split; [easy|]. intros; lia.
    - apply Nat.ltb_ge in E. apply assert_ok in H as [_ H]. apply IH in H as (H1 & H2 & H3 & H4).
      split; [lia|]. split; [easy|]. split; [easy|]. intros i Hi.
      destruct (Nat.eq_dec i j0) as [->|]; [now exists inls|]. apply H4. lia.
  Qed.
  Lemma baseline_first_find (cfg : config N) bf wf todo j0 j l :
    j0 <= j < j0 + todo -> j < length wf -> baseline_inliers bf wf j = Ok l -> min_num_inliers cfg < length l ->
    (forall i, j0 <= i < j -> exists l', baseline_inliers bf wf i = Ok l' /\ length l' <= min_num_inliers cfg) ->
    baseline_first cfg bf wf todo j0 = Ok (j, l).
  Proof.
    revert j0; induction todo as [|todo IH]; intros j0 J JW B M H; [lia|]. cbn [baseline_first].
    destruct (Nat.eq_dec j0 j) as [->|NE].
    - rewrite B. cbn [bind]. apply Nat.ltb_lt in M. now rewrite M.
    - destruct (H j0 ltac:(lia)) as (l' & -> & L'). cbn [bind]. apply Nat.ltb_ge in L'. rewrite L'.
      rewrite assert_true by (apply Nat.ltb_lt; lia). apply IH; auto; [lia|]. intros; apply H; lia.
  Qed.
  Lemma baseline_first_none (cfg : config N) bf wf todo j0 :
    0 < todo -> j0 + todo = length wf ->
    (forall i, j0 <= i < j0 + todo -> exists l', baseline_inliers bf wf i = Ok l' /\ length l' <= min_num_inliers cfg) ->
    baseline_first cfg bf wf todo j0 = Err AssertionError.
  Proof.
    revert j0; induction todo as [|todo IH]; intros j0 P E H; [lia|]. cbn [baseline_first].
    destruct (H j0 ltac:(lia)) as (l' & -> & L'). cbn [bind]. apply Nat.ltb_ge in L'. rewrite L'.
    destruct todo as [|todo].
    - rewrite assert_false; [easy|]. apply Nat.ltb_ge. lia.
    - rewrite assert_true by (apply Nat.ltb_lt; lia). apply IH; [lia|lia|]. intros; apply H; lia.
  Qed.

  (** Non-exhaustive mode: a returned result comes from the first start index with more than
      min_num_inliers inliers. *)
  Theorem C33_selects_first : forall (cfg : config N) (b_h w_e : list dquat) r,
    enable_exhaustive_search cfg = false -> snd (compute_BASELINE svd cfg b_h w_e) = Ok r ->
    length w_e = length b_h /\
    exists bf wf j l, filtered cfg b_h (fst (match_signs b_h w_e)) = Ok (bf, wf) /\
      num_poses_after_filtering r = length wf /\
      j < length wf /\ baseline_inliers bf wf j = Ok l /\ min_num_inliers cfg < length l /\ j < length l /\
      (forall i, i < j -> exists l', baseline_inliers bf wf i = Ok l' /\ length l' <= min_num_inliers cfg) /\
      match snd (calibrate_normalized svd cfg (map fst l) (map snd l)) with
      | Ok (dq, sv, bad) => success r = true /\ dq_H_E r = Some (fst (to_pose dq)) /\
          num_inliers r = Some (length l) /\ singular_values r = Some sv /\ bad_singular r = Some bad /\
          exists b_al w_al b' pb pw rp ro flags,
            (if ransac_evaluate_refined_model_on_inliers_only cfg
             then b_al = map fst l /\ w_al = fst (calibrate_normalized svd cfg (map fst l) (map snd l))
             else align_paths_at_index b_h j = Ok b_al /\
                  align_paths_at_index (fst (match_signs b_h w_e)) j = Ok w_al) /\
            get_aligned_poses b_al w_al dq = Ok (b', pb, pw) /\
            evaluate_alignment cfg pb pw = Ok (rp, ro, flags) /\ rmse r = Some (rp, ro)
      | Err _ => success r = false /\ dq_H_E r = None /\ rmse r = None /\ num_inliers r = None /\
          singular_values r = None /\ bad_singular r = None
      end.
  Proof.
    intros cfg b_h w_e r X H. unfold compute_BASELINE in H.
    destruct (length w_e =? length b_h)%nat eqn:L; cbn [negb] in H; [|discriminate H].
    apply Nat.eqb_eq in L. split; [easy|].
    destruct (match_signs b_h w_e) as [w' s]. cbn [fst snd] in *.
    apply bind_ok in H as ([bf wf] & F & H). apply bind_ok in H as ([j l] & B & H).
    unfold baseline_select in B. rewrite X in B. apply baseline_first_ok in B as (B1 & B2 & B3 & B4).
    destruct (split l) as [inl_b inl_w] eqn:SP.
    assert (E1 : inl_b = map fst l /\ inl_w = map snd l).
    { clear - SP. revert inl_b inl_w SP. induction l as [|[b w] l IH]; cbn [split map]; intros; [now inversion SP|].
      destruct (split l) as [x y]. destruct (IH x y eq_refl) as [-> ->]. inversion SP; subst. easy. }
    destruct E1 as [-> ->].
    apply bind_ok in H as (a1 & A1 & H). apply bind_ok in H as (a2 & A2 & H).
    exists bf, wf, j, l. split; [easy|].
    assert (JL : j < length l).
    { unfold align_paths_at_index in A1. apply bind_ok in A1 as (d & D & _). unfold index in D.
      destruct (nth_error (map fst l) j) eqn:E; [|discriminate D].
      assert (Q : nth_error (map fst l) j <> None) by congruence. apply nth_error_Some in Q. now rewrite map_length in Q. }
    destruct (calibrate_normalized svd cfg (map fst l) (map snd l)) as [inl_w' [[[dq sv] bad]|e]]; cbn [snd].
    - apply bind_ok in H as ([[q1 q2] q3] & G & H). apply bind_ok in H as ([[rp ro] fl] & EV & H).
      injection H as <-. cbn. split; [easy|]. split; [lia|]. split; [easy|]. split; [easy|]. split; [easy|].
      split; [intros; apply B4; lia|]. split; [easy|]. split; [easy|]. split; [easy|]. split; [easy|]. split; [easy|].
      destruct (ransac_evaluate_refined_model_on_inliers_only cfg).
      + exists (map fst l), inl_w', q1, q2, q3, rp, ro, fl. easy.
      + apply bind_ok in G as (b_al & G1 & G). apply bind_ok in G as (w_al & G2 & G).
        exists b_al, w_al, q1, q2, q3, rp, ro, fl. easy.
    - injection H as <-. cbn. split; [easy|]. split; [lia|]. split; [easy|]. split; [easy|]. split; [easy|].
      split; [intros; apply B4; lia|]. repeat split; easy.
  Qed.

  (** No start index with more than min_num_inliers inliers: AssertionError. *)
  Theorem C33_too_few_inliers : forall (cfg : config N) (b_h w_e bf wf : list dquat),
    enable_exhaustive_search cfg = false -> length w_e = length b_h ->
    filtered cfg b_h (fst (match_signs b_h w_e)) = Ok (bf, wf) -> wf <> [] ->
    (forall i, i < length wf -> exists l', baseline_inliers bf wf i = Ok l' /\ length l' <= min_num_inliers cfg) ->
    snd (compute_BASELINE svd cfg b_h w_e) = Err AssertionError.
  Proof.
    intros cfg b_h w_e bf wf X L F NE H. unfold compute_BASELINE. rewrite L, Nat.eqb_refl. cbn [negb].
    destruct (match_signs b_h w_e) as [w' s]. cbn [fst snd] in *. rewrite F. cbn [bind].
    unfold baseline_select. rewrite X. rewrite baseline_first_none; [easy| |lia|].
    - destruct wf; [easy|simpl; lia].
    - intros. apply H. lia.
  Qed.
  (** The start index is applied a second time, to the (shorter) list of inliers. *)
  Theorem C33_index_error : forall (cfg : config N) (b_h w_e bf wf : list dquat) j l,
    enable_exhaustive_search cfg = false -> length w_e = length b_h ->
    filtered cfg b_h (fst (match_signs b_h w_e)) = Ok (bf, wf) ->
    j < length wf -> baseline_inliers bf wf j = Ok l -> min_num_inliers cfg < length l ->
    (forall i, i < j -> exists l', baseline_inliers bf wf i = Ok l' /\ length l' <= min_num_inliers cfg) ->
    length l <= j -> snd (compute_BASELINE svd cfg b_h w_e) = Err IndexError.
  Proof.
    intros cfg b_h w_e bf wf j l X L F JW B M H LJ. unfold compute_BASELINE. rewrite L, Nat.eqb_refl. cbn [negb].
    destruct (match_signs b_h w_e) as [w' s]. cbn [fst snd] in *. rewrite F. cbn [bind].
    unfold baseline_select. rewrite X.
    rewrite (baseline_first_find cfg bf wf (length wf) 0 j l); auto; [|lia|intros; apply H; lia]. cbn [bind].
    destruct (split l) as [inl_b inl_w] eqn:SP.
    assert (E1 : length inl_b = length l) by (pose proof (split_length_l l) as Q; now rewrite SP in Q).
    unfold align_paths_at_index at 1. rewrite index_none by lia. reflexivity.
  Qed.
  (** Paths of different length are rejected; the only effect on the arguments is the sign
      matching of the eye poses: one is negated exactly if the scalar parts of its rotation and of
      the hand pose's have strictly opposite signs. *)
  Theorem C33_effects : forall (cfg : config N) (b_h w_e : list dquat),
    (length w_e <> length b_h -> compute_BASELINE svd cfg b_h w_e = (w_e, Err AssertionError)) /\
    (length w_e = length b_h -> length (fst (compute_BASELINE svd cfg b_h w_e)) = length w_e /\
       forall i b w, nth_error b_h i = Some b -> nth_error w_e i = Some w ->
         let opposite := ltb (qw (rot w)) n0 && ltb n0 (qw (rot b)) || ltb n0 (qw (rot w)) && ltb (qw (rot b)) n0 in
         nth_error (fst (compute_BASELINE svd cfg b_h w_e)) i =
           Some (if opposite then mkDQ (qneg (rot w)) (qneg (dual w)) else w)).
  Proof.
    intros cfg b_h w_e. unfold compute_BASELINE. split; intros L.
    - apply Nat.eqb_neq in L. now rewrite L.
    - apply Nat.eqb_eq in L. rewrite L. cbn [negb].
      pose proof (match_signs_length b_h w_e) as ML. pose proof (match_signs_nth b_h w_e) as MN.
      destruct (match_signs b_h w_e) as [w' s]. cbn [fst] in *. split; [exact ML|].
      intros i b w Hb Hw. rewrite (MN i w Hw), Hb. reflexivity.
  Qed.
End Any.

(** ** Non-vacuity *)
Local Open Scope R_scope.
Definition turned (s : R) : rdq := RD (RQ (RV 0 0 (s * (3/5))) (4/5)) hzero.
(** eyes turned by +a, 0, -a, -a; hands at rest *)
Definition spread : list (rdq * rdq) :=
  [(dqone, turned 1); (dqone, dqone); (dqone, turned (-1)); (dqone, turned (-1))].
Definition base_cfg (exhaustive : bool) (m : nat) : config XR :=
  mkConfig (N:=XR) true m exhaustive false (lit 975 (-3)) 3 (lit 1 (-2)) 20 true (lit 5 (-1)) (lit 99 (-2))
           ScalarPartEquality (lit 2 (-2)) (lit 1 0) true false (lit 4 (-2)).
Lemma turned_unit s : s * s = 1 -> unitdq (turned s).
Proof. intros H. split; unfold turned; specu; [|ring]. replace (s * (3/5) * (s * (3/5))) with (s * s * (9/25)) by field. rewrite H. field. Qed.
Lemma match_spread : fst (match_signs (hands spread) (eyes spread)) = eyes spread.
Proof.
  rewrite match_signs_in. cbn [fst]. f_equal. unfold spread, rmatch, turned. cbn [map fst snd dqone dr hone qs].
  repeat (destruct (Rlt_dec _ _); [exfalso; lra|]). reflexivity.
Qed.
Lemma turned_close a b : unitdq a -> 0 <= qs (dr (dqmul (dqinv a) b)) -> dd a = hzero -> dd b = hzero ->
  closeb (1/100) (rflip (dqmul (dqinv a) b)) (rflip (dqmul (dqinv dqone) dqone)) =
  Rleb (Rabs (hdot (dr a) (dr b) - 1)) (1/100 + 1/100000).
Proof.
  intros U P Da Db. rewrite dqmul_inv_l by now apply unitdq_n2, unitdq_one. rewrite rflip_one, rflip_id by easy.
  rewrite unitdq_inv_conj in * by easy. destruct a as [a a'], b as [b b']. cbn [dd dr] in *. subst.
  unfold closeb. apply eq_true_iff_eq. rewrite andb_true_iff, !Rleb_iff. specu.
  replace (qs a * qs b - _)%R with (hdot a b) by (specu; ring).
  match goal with |- _ /\ Rabs ?x <= _ <-> _ => replace x with 0 by ring end.
  rewrite Rabs_R0, Rabs_R1. specu. split; [intros [H _]; lra|]. intros H. split; lra.
Qed.
Lemma spread_unit : Forall (fun p => unitdq (fst p) /\ unitdq (snd p)) spread.
Proof.
  unfold spread. repeat (apply Forall_cons; [split; [apply unitdq_one|]; cbn [snd]; try apply unitdq_one; apply turned_unit; lra|]).
  apply Forall_nil.
Qed.
Lemma spread_counts : exists l0 l1 l2,
  baseline_inliers (hands spread) (eyes spread) 0 = Ok l0 /\ length l0 = 1%nat /\
  baseline_inliers (hands spread) (eyes spread) 1 = Ok l1 /\ length l1 = 1%nat /\
  baseline_inliers (hands spread) (eyes spread) 2 = Ok l2 /\ length l2 = 2%nat.
Proof.
  assert (TT : forall k p, nth_error spread k = Some p -> tiny < hnorm (dr (fst p)) /\ tiny < hnorm (dr (snd p))).
  { intros k p H. apply nth_error_In in H. pose proof spread_unit as U. rewrite Forall_forall in U.
    destruct (U p H). split; now apply unitdq_tiny. }
  do 3 eexists.
  split; [apply baseline_inliers_in with (p0 := (dqone, turned 1)); [reflexivity| |]; apply (TT 0%nat); reflexivity|].
  split.
  2: split; [apply baseline_inliers_in with (p0 := (dqone, dqone)); [reflexivity| |]; apply (TT 1%nat); reflexivity|].
  2: split.
  3: split; [apply baseline_inliers_in with (p0 := (dqone, turned (-1))); [reflexivity| |]; apply (TT 2%nat); reflexivity|].
  all: rewrite map_length; unfold realign, spread, rotl; cbn [map skipn firstn app filter fst snd];
    repeat match goal with |- context [closeb _ (rflip (dqmul (dqinv ?a) ?b)) _] =>
      rewrite (turned_close a b); [|first [apply unitdq_one|apply turned_unit; lra]
        |rewrite unitdq_inv_conj by (first [apply unitdq_one|apply turned_unit; lra]); unfold turned; specu; lra|reflexivity|reflexivity] end;
    unfold turned; specu;
    repeat match goal with |- context [Rleb ?a ?b] =>
    first [rewrite (Rleb_t a b) by (unfold Rabs; destruct (Rcase_abs _); lra)
          |rewrite (Rleb_f a b) by (unfold Rabs; destruct (Rcase_abs _); lra)] end; reflexivity.
Qed.
(** hypotheses of C33_index_error (min_num_inliers = 1), C33_too_few_inliers (2) *)
Example C33_example_index_error svd :
  snd (compute_BASELINE svd (base_cfg false 1) (hands spread) (eyes spread)) = Err IndexError.
Proof.
  destruct spread_counts as (l0 & l1 & l2 & E0 & L0 & E1 & L1 & E2 & L2).
  apply (C33_index_error svd (base_cfg false 1) _ _ (hands spread) (eyes spread) 2 l2); try easy.
  - rewrite match_spread. reflexivity.
  - unfold eyes, spread; cbn [map length]; lia.
  - cbn [min_num_inliers base_cfg]. lia.
  - intros [|[|i]] H; [exists l0|exists l1|lia]; (split; [easy|cbn [min_num_inliers base_cfg]; lia]).
  - lia.
Qed.
(** the first start index: more than min_num_inliers = 0 inliers; the calibration itself may fail *)
Example C33_example_selects : exists r,
  snd (compute_BASELINE (fun _ => Err LinAlgError) (base_cfg false 0) (hands spread) (eyes spread)) = Ok r.
Proof.
  assert (E0 : baseline_inliers (hands spread) (eyes spread) 0 = Ok [(inD dqone, inD dqone)]).
  { pose proof (turned_unit 1 ltac:(lra)) as U.
    rewrite (baseline_inliers_in spread 0 (dqone, turned 1)) by (try reflexivity; cbn [fst snd]; apply unitdq_tiny; auto using unitdq_one).
    unfold realign, spread, rotl; cbn [map skipn firstn app filter fst snd].
    repeat match goal with |- context [closeb _ (rflip (dqmul (dqinv ?a) ?b)) _] =>
      rewrite (turned_close a b); [|apply turned_unit; lra
        |rewrite unitdq_inv_conj by (apply turned_unit; lra); unfold turned; specu; lra|reflexivity|reflexivity] end.
    rewrite !dqmul_inv_l by (apply unitdq_n2; auto using unitdq_one). rewrite rflip_one.
    unfold turned; specu.
    repeat match goal with |- context [Rleb ?a ?b] =>
    first [rewrite (Rleb_t a b) by (unfold Rabs; destruct (Rcase_abs _); lra)
          |rewrite (Rleb_f a b) by (unfold Rabs; destruct (Rcase_abs _); lra)] end. reflexivity. }
  unfold compute_BASELINE. rewrite match_signs_in. cbn [snd].
  change (negb (length (eyes (map rmatch spread)) =? length (hands spread))%nat) with false.
  change (negb (length (eyes spread) =? length (hands spread))%nat) with false. cbv iota. cbn [snd].
  replace (eyes (map rmatch spread)) with (eyes spread) by (rewrite <- match_spread, match_signs_in; reflexivity).
  unfold filtered. cbn [prefilter_poses_enabled base_cfg bind]. unfold baseline_select.
  cbn [enable_exhaustive_search base_cfg].
  change (length (eyes spread)) with 4%nat. cbn [baseline_first]. rewrite E0. cbn [bind].
  cbn [min_num_inliers base_cfg length Nat.ltb Nat.leb bind split].
  assert (A : align_paths_at_index [inD dqone] 0 = Ok [inD dqone]).
  { change [inD dqone] with (map inD [dqone]). rewrite (align_in [dqone] 0 dqone) by (try easy; apply unitdq_tiny, unitdq_one).
    unfold rotl; cbn [map skipn firstn app]. rewrite dqmul_inv_l by now apply unitdq_n2, unitdq_one. now rewrite rflip_one. }
  rewrite A. cbn [bind]. unfold calibrate_normalized, compute_hand_eye_calibration. cbn [index nth_error bind].
  rewrite is_origin_one. cbn [bind assert_ match_signs].
  assert (C : forall t b w, exists e, calibrate (N:=XR) (fun _ => Err LinAlgError) t b w = Err e).
  { intros t b w. unfold calibrate. destruct (scalar_gate _ _ _); cbn [bind]; [|now eexists].
    unfold setup_t_matrix. destruct (for_pairs _ _ _); cbn [bind]; now eexists. }
  match goal with |- context [calibrate ?f ?t ?b ?w] => destruct (C t b w) as (e & ->) end. cbn [bind]. now eexists.
Qed.
