(** * Properties C48 and C49: checking calibrations. *)

From Coq Require Import Reals ZArith Bool List Lra Lia Psatz.
From Verif Require Import Num Py XReal XFacts Quat DualQuat HandEye TimeAlign Extrinsic Verification Spec Embed
  ListFacts QuatFacts QuatTrig DualFacts HandEyeFacts PropQuat PropDual CalibFacts PropEval TimeSpec TimeFacts ResampleFacts PropAligned PropExtrinsic.
Import ListNotations.
Local Open Scope R_scope.

(** ** C48: the pairs of [n] sensors in the order of itertools.combinations *)
Definition pairs_from (n i : nat) : list (nat * nat) := map (fun j => (i, j)) (seq (S i) (n - S i)).
Definition pairs (n : nat) : list (nat * nat) := flat_map (pairs_from n) (seq 0 n).

Lemma pairs_block n i : (i < n)%nat -> flat_map (pairs_from n) (seq i (n - i)) = pairs_from n i ++ flat_map (pairs_from n) (seq (S i) (n - S i)).
Proof. intros L. replace (n - i)%nat with (S (n - S i)) by lia. reflexivity. Qed.
Lemma pairs_from_length n i : length (pairs_from n i) = (n - S i)%nat.
Proof. unfold pairs_from. now rewrite map_length, seq_length. Qed.
Lemma pairs_from_hd n i rest : (S i < n)%nat -> exists rest', pairs_from n i ++ rest = (i, S i) :: rest'.
Proof. intros L. unfold pairs_from. replace (n - S i)%nat with (S (n - S (S i))) by lia. cbn [seq map app]. now eexists. Qed.
Lemma skipn_add {A} k : forall (l : list A) m, skipn m (skipn k l) = skipn (k + m) l.
Proof. induction k; intros [|x l] m; cbn [skipn Nat.add]; try easy. now rewrite skipn_nil. Qed.
Lemma index_skipn {A} (l : list A) k x r : skipn k l = x :: r -> index l k = Ok x.
Proof.
  intros E. unfold index. enough (nth_error l k = Some x) as -> by easy.
  rewrite <- (firstn_skipn k l) at 1. rewrite nth_error_app2 by apply firstn_le_length.
  assert (length (firstn k l) = k) as ->; [|rewrite Nat.sub_diag, E; easy].
  apply firstn_length_le. destruct (le_lt_dec k (length l)); [easy|]. rewrite skipn_all2 in E by lia. easy.
Qed.
Lemma middle_spec {A} n (g : nat * nat -> A) : forall k i idx,
  (i + k + 2 = n)%nat -> skipn idx (map g (pairs n)) = map g (flat_map (pairs_from n) (seq i (n - i))) ->
  chain_middle (map g (pairs n)) (Z.of_nat n) k (Z.of_nat i) (Z.of_nat idx) = Ok (map (fun i => g (i, S i)) (seq (S i) k)).
Proof.
  induction k as [|k IH]; intros i idx EQ SK; [easy|].
  cbn [chain_middle]. replace (Z.of_nat idx + (Z.of_nat n - Z.of_nat i - 1))%Z with (Z.of_nat (idx + (n - S i))) by lia.
  assert (SK' : skipn (idx + (n - S i)) (map g (pairs n)) = map g (flat_map (pairs_from n) (seq (S i) (n - S i)))).
  { rewrite <- skipn_add, SK, pairs_block by lia. rewrite map_app, skipn_app.
    rewrite map_length, pairs_from_length, Nat.sub_diag. rewrite skipn_all2 by (rewrite map_length, pairs_from_length; lia). easy. }
  rewrite py_index_nat.
  assert (E2 := SK'). rewrite pairs_block in E2 by lia.
  destruct (pairs_from_hd n (S i) (flat_map (pairs_from n) (seq (S (S i)) (n - S (S i)))) ltac:(lia)) as (r' & HD).
  rewrite HD in E2. cbn [map] in E2. rewrite (index_skipn _ _ _ _ E2). cbn [bind].
  replace (Z.of_nat i + 1)%Z with (Z.of_nat (S i)) by lia. rewrite IH; [easy|lia|exact SK'].
Qed.
Lemma chain_last l : forall a, l <> [] -> unitdq a -> Forall unitdq l ->
  exists P, P = dqmul a (dqprod l) /\ unitdq P /\
    length (chain_poses (N:=XR) (inD a) (map inD l)) = length l /\
    forall d, last (chain_poses (N:=XR) (inD a) (map inD l)) d = inP (trans_of P) (pos_w (dr P)).
Proof.
  induction l as [|c l IH]; intros a NE UA F; [easy|]. inversion F as [|? ? UC F']; subst.
  assert (UM : unitdq (dqmul a c)) by now apply unitdq_mul.
  eexists. split; [reflexivity|]. cbn [dqprod fold_right]. rewrite <- dqmul_assoc.
  cbn [map chain_poses]. rewrite dmul_in, to_pose_unit by easy. cbn [length].
  destruct l as [|c2 l].
  - cbn [fold_right chain_poses map length last]. rewrite dqmul_1_r. split; [exact UM|]. split; [easy|]. intros d. reflexivity.
  - destruct (IH (dqmul a c)) as (P & -> & UP & LL & LA); [discriminate|exact UM|exact F'|]. split; [exact UP|]. split; [now f_equal|].
    intros d. refine (eq_trans _ (LA d)). clear. set (ps := chain_poses _ _). assert (ps <> []) by (unfold ps; cbn [map chain_poses]; destruct (to_pose _); discriminate).
    clearbody ps. destruct ps; [contradiction|reflexivity].
Qed.

(** Which calibrations are used, for every number of sensors: those of neighbours and of (0, n-1).
    [P] is the transform around the loop; its pose is compared with the identity. *)
Theorem C48_loop : forall (n : nat) (f : nat -> nat -> rdq), (2 <= n)%nat ->
  (forall i j, (i < j < n)%nat -> unitdq (f i j)) ->
  let P := dqmul (dqprod (map (fun i => f i (S i)) (seq 0 (n - 1)))) (dqinv (f O (n - 1)%nat)) in
  unitdq P /\
  exists deg, compute_loop_error (N:=XR) (map (fun p => inD (f (fst p) (snd p))) (pairs n)) (Z.of_nat n) =
      Ok (Fin (len3 (trans_of P)), Fin deg) /\
    0 <= deg <= 180 /\ Rabs (deg - geodesic hone (dr P)) < 1 / 10000 * (180 / PI) /\
    (~ elementwise_close hone (canon (dr P)) -> deg = geodesic hone (dr P)) /\
    (elementwise_close hone (canon (dr P)) -> deg = 0).
Proof.
  intros n f N2 U P.
  set (g := fun p : nat * nat => inD (f (fst p) (snd p))).
  set (links := map (fun i => f i (S i)) (seq 0 (n - 1))).
  assert (UL : Forall unitdq links).
  { unfold links. apply Forall_map, Forall_forall. intros i I. apply in_seq in I. apply U. lia. }
  assert (UI : unitdq (f O (n - 1)%nat)) by (apply U; lia).
  assert (UP : unitdq P). { apply unitdq_mul; [now apply dqprod_unit|now apply unitdq_inv]. }
  split; [exact UP|].
  assert (PB : pairs n = flat_map (pairs_from n) (seq 0 (n - 0))) by (now rewrite Nat.sub_0_r).
  assert (S0 : skipn 0 (map g (pairs n)) = map g (flat_map (pairs_from n) (seq 0 (n - 0)))) by (now rewrite PB).
  assert (I0 : py_index (map g (pairs n)) 0 = Ok (g (O, 1%nat))).
  { change 0%Z with (Z.of_nat 0). rewrite py_index_nat. rewrite pairs_block in S0 by lia.
    destruct (pairs_from_hd n 0 (flat_map (pairs_from n) (seq 1 (n - 1))) ltac:(lia)) as (r & E). rewrite E in S0. cbn [map] in S0.
    exact (index_skipn _ _ _ _ S0). }
  assert (IL : py_index (map g (pairs n)) (Z.of_nat n - 2) = Ok (g (O, n - 1)%nat)).
  { replace (Z.of_nat n - 2)%Z with (Z.of_nat (n - 2)) by lia. rewrite py_index_nat. unfold index.
    rewrite PB, pairs_block, map_app by lia. rewrite nth_error_app1 by (rewrite map_length, pairs_from_length; lia).
    rewrite nth_error_map. unfold pairs_from. rewrite nth_error_map.
    rewrite (nth_error_nth' _ 0%nat) by (rewrite seq_length; lia). rewrite seq_nth by lia. cbn [option_map].
    replace (1 + (n - 2))%nat with (n - 1)%nat by lia. easy. }
  unfold compute_loop_error. fold g. rewrite I0. cbn [bind].
  replace (Z.to_nat (Z.of_nat n - 2)) with (n - 2)%nat by lia.
  change 0%Z with (Z.of_nat 0) at 1 2. rewrite (middle_spec n g (n - 2) 0 0 ltac:(lia) S0). cbn [bind].
  rewrite IL. cbn [bind]. unfold g at 1. cbn [fst snd]. rewrite dinv_big by now apply unitdq_tiny. cbn [bind].
  rewrite !app_length, map_length, seq_length. cbn [length]. rewrite assert_true by (apply Z.eqb_eq; lia).
  assert (EC : [didentity; g (O, 1%nat)] ++ map (fun i => g (i, S i)) (seq 1 (n - 2)) ++ [inD (dqinv (f O (n - 1)%nat))] =
               map inD (dqone :: links ++ [dqinv (f O (n - 1)%nat)])).
  { unfold links. replace (n - 1)%nat with (S (n - 2)) at 2 by lia. cbn [seq map app]. rewrite map_app, !map_map. rewrite didentity_in. unfold g. reflexivity. }
  rewrite EC.
  destruct (chain_last (dqone :: links ++ [dqinv (f O (n - 1)%nat)]) dqone) as (P' & EP & _ & LN & LA); [easy|apply unitdq_one| |].
  { constructor; [apply unitdq_one|]. apply Forall_app. split; [easy|]. constructor; [now apply unitdq_inv|constructor]. }
  rewrite !didentity_in. set (ps := chain_poses (inD dqone) _) in *.
  assert (NE : ps <> []) by (intros E; rewrite E in LN; discriminate LN).
  assert (P0 : py_index ps 0 = Ok (inP vzero hone)).
  { unfold ps. cbn [map chain_poses]. rewrite dmul_in, dqmul_1_l, to_pose_unit by apply unitdq_one. unfold py_index, index. cbn. do 2 f_equal.
    - unfold inV, trans_of, dqone, hmul, hconj, hzero, hone, vzero, vscale, dot3, cross3, vadd. cbn. f_equal; f_equal; ring.
    - f_equal. unfold pos_w. destruct (Rlt_dec _ 0) as [L|]; [cbn in L; lra|easy]. }
  rewrite P0. cbn [bind]. rewrite (py_index_last _ (inP vzero hone) NE). cbn [bind]. rewrite LA.
  assert (PP : P' = P).
  { rewrite EP. cbn [dqprod fold_right]. rewrite !dqmul_1_l. fold (dqprod (links ++ [dqinv (f O (n - 1)%nat)])). unfold P. fold links.
    clear. induction links as [|a l IH]; cbn [app dqprod fold_right]; [now rewrite dqmul_1_l, dqmul_1_r|].
    unfold dqprod in IH. rewrite IH. now rewrite dqmul_assoc. }
  rewrite PP.
  assert (UW : unitq (pos_w (dr P))). { unfold pos_w. destruct (Rlt_dec (qs (dr P)) 0); [unfold unitq; rewrite hnorm2_neg|]; apply UP. }
  assert (H1 : hnorm hone = 1). { unfold hnorm. replace (hnorm2 hone) with 1 by (unfold hnorm2, hdot, dot3, hone, vzero; cbn; ring). apply sqrt_1. }
  assert (HW : hnorm (pos_w (dr P)) = 1) by (unfold hnorm; rewrite UW; apply sqrt_1).
  assert (HP : hnorm (dr P) = 1) by now apply unitdq_norm.
  assert (CW : canon (pos_w (dr P)) = canon (dr P)).
  { unfold canon. rewrite HW, HP. unfold pos_w. destruct (Rlt_dec (qs (dr P)) 0) as [L|L].
    - unfold hscale, hneg, vscale. cbn [qs qv v1 v2 v3]. destruct (Rlt_dec (/ 1 * - qs (dr P)) 0); [lra|].
      destruct (Rlt_dec (/ 1 * qs (dr P)) 0); [|lra]. f_equal; [f_equal|]; field.
    - easy. }
  assert (C1 : canon hone = hone).
  { unfold canon. rewrite H1. unfold hscale, hone, vzero, vscale. cbn [qs qv v1 v2 v3]. destruct (Rlt_dec (/ 1 * 1) 0); [lra|]. f_equal; [f_equal|]; field. }
  destruct (C30_pose_error vzero (trans_of P) hone (pos_w (dr P))) as (d & E & B & FAR & NEAR & AP); [rewrite H1; lra|rewrite HW; lra|].
  exists d. rewrite E. unfold geodesic in *. rewrite CW, C1 in *. split; [|split; [exact B|split; [exact AP|split; [exact FAR|exact NEAR]]]].
  do 3 f_equal. unfold len3. f_equal. unfold dot3, vsub, vzero. cbn [v1 v2 v3]. ring.
Qed.

Lemma tele_prod (X : nat -> rdq) : (forall i, unitdq (X i)) -> forall k i,
  dqprod (map (fun i => dqmul (dqinv (X i)) (X (S i))) (seq i k)) = dqmul (dqinv (X i)) (X (i + k)%nat).
Proof.
  intros U. induction k as [|k IH]; intros i; cbn [seq map dqprod fold_right].
  - rewrite Nat.add_0_r, dqmul_inv_l; [easy|now apply unitdq_n2].
  - fold (dqprod (map (fun i => dqmul (dqinv (X i)) (X (S i))) (seq (S i) k))). rewrite IH.
    rewrite dqmul_assoc, <- (dqmul_assoc (X (S i))), dqmul_inv_r, dqmul_1_l by now apply unitdq_n2. do 2 f_equal. lia.
Qed.
(** Consistent calibrations close the loop exactly. *)
Theorem C48_consistent : forall (n : nat) (X : nat -> rdq), (2 <= n)%nat -> (forall i, unitdq (X i)) ->
  compute_loop_error (N:=XR) (map (fun p => inD (dqmul (dqinv (X (fst p))) (X (snd p)))) (pairs n)) (Z.of_nat n) = Ok (Fin 0, Fin 0).
Proof.
  intros n X N2 U. destruct (C48_loop n (fun i j => dqmul (dqinv (X i)) (X j)) N2) as [UP (d & E & B & AP & FAR & NEAR)].
  { intros i j _. apply unitdq_mul; [apply unitdq_inv|]; apply U. }
  cbn beta in E. rewrite E. clear E.
  assert (PE : dqmul (dqprod (map (fun i => dqmul (dqinv (X i)) (X (S i))) (seq 0 (n - 1)))) (dqinv (dqmul (dqinv (X 0%nat)) (X (n - 1)%nat))) = dqone).
  { rewrite tele_prod by easy. cbn [Nat.add]. apply dqmul_inv_r, unitdq_n2. apply unitdq_mul; [apply unitdq_inv|]; apply U. }
  cbn beta in AP, FAR, NEAR. rewrite PE in *.
  assert (H1 : hnorm hone = 1). { unfold hnorm. replace (hnorm2 hone) with 1 by (unfold hnorm2, hdot, dot3, hone, vzero; cbn; ring). apply sqrt_1. }
  assert (T0 : trans_of dqone = vzero) by (unfold trans_of, dqone, hmul, hconj, hzero, hone, vzero, vscale, dot3, cross3, vadd; cbn; f_equal; ring).
  assert (L0 : len3 (trans_of dqone) = 0) by (rewrite T0; unfold len3, dot3, vzero; cbn [v1 v2 v3]; replace (0 * 0 + 0 * 0 + 0 * 0) with 0 by ring; apply sqrt_0).
  rewrite L0. do 2 f_equal. f_equal.
  assert (C1 : canon hone = hone).
  { unfold canon. rewrite H1. unfold hscale, hone, vzero, vscale. cbn [qs qv v1 v2 v3]. destruct (Rlt_dec (/ 1 * 1) 0); [lra|]. f_equal; [f_equal|]; field. }
  assert (G0 : geodesic hone (dr dqone) = 0).
  { unfold geodesic. cbn [dqone dr]. rewrite C1. replace (hdot hone hone) with 1 by (unfold hdot, dot3, hone, vzero; cbn; ring).
    rewrite Rabs_R1, acos_1. ring. }
  destruct (close_dec hone (canon (dr dqone))) as [C|C].
  - now apply NEAR.
  - rewrite FAR by easy. exact G0.
Qed.
(** With fewer than two sensors there is no loop. *)
Theorem C48_too_few : forall (N : Num) (results : list dquat) (n : Z), (n < 2)%Z ->
  exists e, compute_loop_error results n = Err e.
Proof.
  intros N rs n L. destruct (compute_loop_error rs n) as [r|e] eqn:E; [|eauto]. exfalso.
  unfold compute_loop_error in E. apply bind_ok in E as (a & _ & E). apply bind_ok in E as (m & M & E).
  replace (Z.to_nat (n - 2)) with O in M by lia. cbn in M. injection M as <-.
  apply bind_ok in E as (l & _ & E). apply bind_ok in E as (li & _ & E). apply assert_ok in E as [E _].
  apply Z.eqb_eq in E. cbn in E. lia.
Qed.
(** the order of the list matters: four sensors *)
Example C48_pairs : pairs 4 = [(0, 1); (0, 2); (0, 3); (1, 2); (1, 3); (2, 3)]%nat.
Proof. reflexivity. Qed.
Example C48_example : exists X : nat -> rdq, (forall i, unitdq (X i)) /\ X 0%nat <> X 1%nat.
Proof.
  set (q := RQ (RV 0 0 (3 / 5)) (4 / 5)). assert (U : unitq q) by (unfold unitq, hnorm2, hdot, dot3, q; cbn [qv qs v1 v2 v3]; lra).
  exists (fun i => dq_of q (RV (INR i) 0 0)). split; [intros; now apply dq_of_unit|]. intros E.
  apply (f_equal trans_of) in E. rewrite !trans_dq_of in E by easy. injection E. cbn. lra.
Qed.

(** ** C49 *)
Theorem C49_empty : forall (N : Num) A B dq o (cfg : config N), A = [] \/ B = [] ->
  evaluate_calibration A B dq o cfg = Err AssertionError.
Proof. intros N A B dq o cfg [->| ->]; unfold evaluate_calibration; [easy|]. destruct (0 <? length A)%nat; easy. Qed.
(** for every number type: the count never exceeds the number of matched poses, and without matched
    poses the errors are infinite and no pose is an inlier *)
Theorem C49_count : forall (N : Num) A B dq o (cfg : config N) rp ro k,
  evaluate_calibration A B dq o cfg = Ok (rp, ro, k) ->
  exists a b, compute_aligned_poses A B o = Ok (a, b) /\ length a = length b /\ (k <= length a)%nat /\
    (a = [] -> rp = ninf /\ ro = ninf /\ k = O).
Proof.
  intros N A B dq o cfg rp ro k H. unfold evaluate_calibration in H.
  apply assert_ok in H as [_ H]. apply assert_ok in H as [_ H]. apply bind_ok in H as ([a b] & E & H).
  apply assert_ok in H as [L H]. apply Nat.eqb_eq in L. exists a, b. split; [exact E|]. split; [exact L|].
  destruct (Nat.eqb_spec (length a) 0) as [Z|Z].
  - injection H as <- <- <-. split; [lia|easy].
  - apply assert_ok in H as [_ H]. apply bind_ok in H as (ab & AB & H). apply bind_ok in H as (aw & AW & H).
    apply bind_ok in H as ([[h pb] pw] & G & H). apply bind_ok in H as ([[e1 e2] fl] & EV & H).
    apply (f_equal (fun r => match r with Ok (_, _, n) => n | Err _ => O end)) in H. subst k.
    split; [|intros ->; now destruct Z].
    destruct (C31_flags _ _ _ _ _ _ EV) as (LF & _ & _).
    assert (LP : length pb = length a).
    { unfold get_aligned_poses in G. apply assert_ok in G as [_ G]. do 4 (apply bind_ok in G as (? & _ & G)).
      apply (f_equal (fun r => match r with Ok (_, d, _) => length d | Err _ => O end)) in G. rewrite <- G, map_length.
      unfold align_paths_at_index in AB. apply bind_ok in AB as (? & _ & AB). apply bind_ok in AB as (i & _ & AB).
      apply bind_ok in AB as (? & _ & AB). apply assert_ok in AB as [_ AB].
      apply (f_equal (fun r => match r with Ok d => length d | Err _ => O end)) in AB. rewrite <- AB.
      now rewrite app_length, Nat.add_comm, <- app_length, firstn_skipn, !map_length. }
    rewrite <- LP, <- LF. clear. unfold count_true. induction fl as [|[] fl IH]; cbn in *; lia.
Qed.

(** any calibration on real data: both errors are finite *)
Lemma aligned_total x l : unitdq x -> l <> [] -> Forall (fun p => unitdq (fst p) /\ unitdq (snd p)) l ->
  exists ph pe, get_aligned_poses (hands l) (eyes l) (inD x) = Ok (hands l, poses ph, poses pe) /\
    length ph = length l /\ length pe = length l /\ Forall good_pose ph /\ Forall good_pose pe.
Proof.
  intros Ux NE H.
  set (y := if Rlt_dec (qs (dr (dqinv x))) 0 then dqneg (dqinv x) else dqinv x).
  assert (Ui : unitdq (dqinv x)) by now apply unitdq_inv.
  assert (Uy : unitdq y) by (unfold y; destruct (Rlt_dec _ _); auto using unitdq_neg).
  assert (Ey : bind (dinv (inD x)) (fun d => enforce_positive_w (dnormalize d)) = Ok (inD y)).
  { rewrite dinv_big by now apply unitdq_tiny. cbn [bind]. rewrite dnormalize_unit by easy.
    rewrite enforce_in by now apply unitdq_tiny. reflexivity. }
  clearbody y.
  set (g := fun b v : rdq => let u := dqmul v y in if Rlt_dec (qs (dr u) * qs (dr b)) 0 then dqneg u else u).
  assert (FP : for_pairs (fun b v => let w_h := dnormalize (dmul v (inD y)) in
                Ok (if opposite_signs w_h b then dneg w_h else w_h)) (hands l) (eyes l)
             = Ok (map (fun p => inD (g (fst p) (snd p))) l)).
  { apply (for_pairs_in _ (fun b v => inD (g b v))). intros p I. rewrite Forall_forall in H.
    destruct (H p I) as (U1 & U2). rewrite dmul_in, dnormalize_unit by auto using unitdq_mul.
    cbv zeta. f_equal. unfold g. cbv zeta.
    pose proof (opposite_in (dqmul (snd p) y) (fst p)) as O.
    destruct (opposite_signs _ _), (Rlt_dec _ _) as [R|R]; try easy.
    - apply dneg_in.
    - destruct R. now apply O.
    - apply O in R. discriminate R. }
  assert (UG : forall p, In p l -> unitdq (g (fst p) (snd p))).
  { intros p I. rewrite Forall_forall in H. destruct (H p I) as (U1 & U2). unfold g. destruct (Rlt_dec _ _); auto using unitdq_neg, unitdq_mul. }
  set (m := map (fun p => g (fst p) (snd p)) l).
  destruct l as [|p0 l']; [easy|]. set (l := p0 :: l') in *.
  set (g0 := g (fst p0) (snd p0)).
  assert (M0 : nth_error m 0 = Some g0) by reflexivity.
  assert (U0 : unitdq g0) by (apply UG; now left).
  set (z := fun p : rdq * rdq => rflip (dqmul (dqinv g0) (g (fst p) (snd p)))).
  assert (UZ : forall p, In p l -> unitdq (z p)).
  { intros p I. apply rflip_unit, unitdq_mul; [now apply unitdq_inv|now apply UG]. }
  assert (AL : align_paths_at_index (map (fun p => inD (g (fst p) (snd p))) l) 0 = Ok (map (fun p => inD (z p)) l)).
  { replace (map (fun p => inD (g (fst p) (snd p))) l) with (map inD m) by (unfold m; now rewrite map_map).
    rewrite (align_in m 0 _ M0) by now apply unitdq_tiny. rewrite rotl_0. f_equal. unfold m, z. rewrite !map_map. reflexivity. }
  exists (map (fun p => (trans_of (fst p), pos_w (dr (fst p)))) l), (map (fun p => (trans_of (z p), pos_w (dr (z p)))) l).
  split; [|rewrite !map_length; split; [easy|split; [easy|]]].
  - unfold get_aligned_poses. rewrite assert_true by (unfold hands, eyes; rewrite !map_length; apply Nat.eqb_refl).
    destruct (dinv (inD x)) as [d|]; [|discriminate Ey]. cbn [bind] in Ey. cbn [bind]. rewrite Ey. cbn [bind].
    cbv zeta in FP. rewrite FP. cbn [bind]. rewrite AL. cbn [bind]. unfold hands, poses. rewrite !map_map. cbn [fst snd].
    assert (TP : forall p, In p l -> to_pose (inD (fst p)) = (inD (fst p), inP (trans_of (fst p)) (pos_w (dr (fst p))))).
    { intros p I. rewrite Forall_forall in H. apply to_pose_unit, (H p I). }
    assert (TZ : forall p, In p l -> to_pose (inD (z p)) = (inD (z p), inP (trans_of (z p)) (pos_w (dr (z p))))).
    { intros p I. apply to_pose_unit. now apply UZ. }
    f_equal. f_equal; [f_equal|]; apply map_ext_in; intros p I; rewrite ?TP, ?TZ by easy; reflexivity.
  - assert (GP : forall a, unitdq a -> good_pose (trans_of a, pos_w (dr a))).
    { intros a U. unfold good_pose. cbn [snd]. assert (hnorm (pos_w (dr a)) = 1) as ->; [|lra].
      unfold hnorm. replace (hnorm2 (pos_w (dr a))) with 1; [apply sqrt_1|]. unfold pos_w. destruct (Rlt_dec _ _); [rewrite hnorm2_neg|]; symmetry; apply U. }
    rewrite Forall_forall in H. split; apply Forall_map, Forall_forall; intros p I; apply GP; [apply (H p I)|now apply UZ].
Qed.
Lemma align_unit l p : nth_error l 0 = Some p -> Forall unitdq l ->
  exists r, align_paths_at_index (map inD l) 0 = Ok (map inD r) /\ Forall unitdq r /\ length r = length l /\
    r = map (fun x => rflip (dqmul (dqinv p) x)) l.
Proof.
  intros E F. rewrite Forall_forall in F. assert (U : unitdq p) by (apply F; now apply nth_error_In in E).
  exists (map (fun x => rflip (dqmul (dqinv p) x)) l). rewrite (align_in _ _ _ E) by now apply unitdq_tiny. rewrite rotl_0.
  split; [easy|]. split; [|split; [now rewrite map_length|easy]]. apply Forall_map, Forall_forall. intros x I.
  apply rflip_unit, unitdq_mul; [now apply unitdq_inv|now apply F].
Qed.
Lemma combine_hands (a b : list rdq) : length a = length b -> map inD a = hands (combine a b) /\ map inD b = eyes (combine a b).
Proof.
  unfold hands, eyes. revert b; induction a as [|x a IH]; intros [|y b] L; try discriminate L; [easy|].
  cbn [combine map fst snd]. destruct (IH b ltac:(injection L; easy)) as [-> ->]. easy.
Qed.

(** the transform of a row *)
Definition row_dq (r : row) : rdq := dq_of (snd (snd r)) (fst (snd r)).
(** noise-free recordings: the same motion seen by the hand and, through [x], by the eye, in a world
    frame that differs by [w]; dual quaternion signs are arbitrary *)
Definition noise_free (w x : rdq) (a b : row) : Prop :=
  row_dq b = dqmul (dqmul w (row_dq a)) x \/ row_dq b = dqneg (dqmul (dqmul w (row_dq a)) x).
Definition same_motion (w x : rdq) (A B : list row) : Prop := Forall2 (noise_free w x) A B.

Lemma Forall2_removelast {X Y} (P : X -> Y -> Prop) l k : Forall2 P l k -> Forall2 P (removelast l) (removelast k).
Proof.
  intros F. induction F as [|x y l k H F IH]; [constructor|]. cbn [removelast]. inversion F; subst; [constructor|]. now constructor.
Qed.
Lemma Forall2_map_l {X Y Z} (P : Z -> Y -> Prop) (f : X -> Z) l k : Forall2 (fun x y => P (f x) y) l k -> Forall2 P (map f l) k.
Proof. intros F. induction F; cbn; constructor; auto. Qed.
Lemma Forall_removelast {X} (P : X -> Prop) l : Forall P l -> Forall P (removelast l).
Proof. intros F. induction F as [|x l H F IH]; [constructor|]. cbn [removelast]. destruct l; [constructor|now constructor]. Qed.
Lemma rows_dq l : Forall unitq (row_quats l) -> map (fun p => from_pose_vector (N:=XR) (snd p)) (inS l) = map inD (map row_dq l) /\ Forall unitdq (map row_dq l).
Proof.
  intros F. unfold row_quats in F. rewrite Forall_map in F. split.
  - unfold inS. rewrite !map_map. apply map_ext_in. intros [t [p q]] I. rewrite Forall_forall in F. specialize (F _ I). cbn [fst snd] in F |- *.
    unfold from_pose_vector. cbn [inP pos ori]. unfold row_dq. cbn [fst snd]. now apply from_pose_unit.
  - apply Forall_map. eapply Forall_impl; [|exact F]. intros [t [p q]] U. cbn in U |- *. now apply dq_of_unit.
Qed.
Lemma inS_length (l : list row) : length (inS l) = length l.
Proof. apply map_length. Qed.
Lemma pm_rflip a : rflip a = a \/ rflip a = dqneg a.
Proof. unfold rflip. destruct (Rlt_dec _ _); auto. Qed.

Theorem C49_perfect : forall (cfg : config XR) (tp to : R) (w x : rdq) (A B : list row) (o : R),
  (2 <= length A)%nat -> row_times (shift_rows o A) = row_times B -> increasing (row_times B) ->
  Forall unitq (row_quats A) -> Forall unitq (row_quats B) -> unitdq w -> unitdq x -> same_motion w x A B ->
  ransac_position_error_threshold_m cfg = Fin tp -> ransac_orientation_error_threshold_deg cfg = Fin to -> 0 < tp -> 0 < to ->
  evaluate_calibration (inS A) (inS B) (inD x) (Fin o) cfg = Ok (Fin 0, Fin 0, (length A - 1)%nat).
Proof.
  intros cfg tp to w x A B o LA ES ST UA UB Uw Ux SM TP TO TP0 TO0.
  assert (LB : length B = length A) by (symmetry; now apply Forall2_len in SM).
  unfold evaluate_calibration.
  rewrite assert_true by (rewrite inS_length; apply Nat.ltb_lt; lia).
  rewrite assert_true by (rewrite inS_length; apply Nat.ltb_lt; lia).
  rewrite (C41_same_rows A B o LA ES ST UA UB). cbn [bind].
  set (A1 := removelast (shift_rows o A)). set (B1 := removelast B).
  assert (SM1 : Forall2 (noise_free w x) A1 B1).
  { apply Forall2_removelast. unfold shift_rows. now apply Forall2_map_l. }
  assert (RLen : forall l : list row, length (removelast l) = (length l - 1)%nat).
  { clear. induction l as [|a l IH]; [easy|]. destruct l as [|b l]; [easy|]. cbn [removelast length] in *. lia. }
  assert (L1 : length A1 = (length A - 1)%nat) by (unfold A1; rewrite RLen; unfold shift_rows; f_equal; apply map_length).
  assert (L2 : length B1 = (length A - 1)%nat) by (unfold B1; rewrite RLen; lia).
  assert (UA1 : Forall unitq (row_quats A1)).
  { unfold row_quats in *. rewrite Forall_map in *. apply Forall_removelast. unfold shift_rows. rewrite Forall_map. exact UA. }
  assert (UB1 : Forall unitq (row_quats B1)).
  { unfold row_quats in *. rewrite Forall_map in *. now apply Forall_removelast. }
  destruct (rows_dq A1 UA1) as [EA UDA]. destruct (rows_dq B1 UB1) as [EB UDB].
  rewrite !inS_length, L1, L2. rewrite assert_true by apply Nat.eqb_refl.
  destruct (Nat.eqb_spec (length A - 1) 0) as [Z|_]; [lia|].
  rewrite EA, EB. rewrite !(map_length inD), !(map_length row_dq), L1, L2. rewrite assert_true by apply Nat.eqb_refl.
  destruct A1 as [|a0 A1']; [cbn in L1; lia|]. destruct B1 as [|b0 B1']; [cbn in L2; lia|].
  destruct (align_unit (map row_dq (a0 :: A1')) (row_dq a0) eq_refl UDA) as (ra & AA & UR & LRA & DRA).
  destruct (align_unit (map row_dq (b0 :: B1')) (row_dq b0) eq_refl UDB) as (rb & AB & URB & LRB & DRB).
  rewrite AA, AB. cbn [bind]. rewrite (map_length row_dq) in LRA, LRB.
  destruct (combine_hands ra rb ltac:(lia)) as [CH CE]. set (l := combine ra rb) in *. rewrite CH, CE.
  assert (LL : length l = (length A - 1)%nat) by (unfold l; rewrite combine_length; lia).
  inversion SM1 as [|? ? ? ? N0 SM2]; subst.
  assert (U0 : unitdq (row_dq a0)) by now inversion UDA. assert (V0 : unitdq (row_dq b0)) by now inversion UDB.
  assert (REL : forall a b, unitdq (row_dq a) -> unitdq (row_dq b) -> noise_free w x a b ->
     consistent_up_to_sign x (rflip (dqmul (dqinv (row_dq a0)) (row_dq a)), rflip (dqmul (dqinv (row_dq b0)) (row_dq b)))).
  { intros a b Ua Ub NF. unfold consistent_up_to_sign. cbn [fst snd].
    set (da := dqmul (dqinv (row_dq a0)) (row_dq a)).
    assert (DB : dqmul (dqinv (row_dq b0)) (row_dq b) = dqmul (dqmul (dqinv x) da) x \/ dqmul (dqinv (row_dq b0)) (row_dq b) = dqneg (dqmul (dqmul (dqinv x) da) x)).
    { set (p0 := dqmul (dqmul w (row_dq a0)) x). assert (Up : unitdq p0) by (unfold p0; auto using unitdq_mul).
      assert (I0 : dqinv (row_dq b0) = dqinv p0 \/ dqinv (row_dq b0) = dqneg (dqinv p0)) by now apply pm_inv.
      apply (pm_trans _ (dqmul (dqinv p0) (dqmul (dqmul w (row_dq a)) x))); [now apply pm_mul|]. left.
      assert (CANC : forall u v, dqmul p0 u = dqmul p0 v -> u = v).
      { intros u v E. apply (f_equal (dqmul (dqinv p0))) in E. now rewrite <- !dqmul_assoc, dqmul_inv_l, !dqmul_1_l in E by now apply unitdq_n2. }
      apply CANC. rewrite <- dqmul_assoc, dqmul_inv_r, dqmul_1_l by now apply unitdq_n2.
      unfold p0, da. rewrite !dqmul_assoc. do 1 f_equal.
      rewrite <- (dqmul_assoc x (dqinv x)), dqmul_inv_r, dqmul_1_l by now apply unitdq_n2.
      rewrite <- (dqmul_assoc (row_dq a0) (dqinv (row_dq a0))), dqmul_inv_r, dqmul_1_l by now apply unitdq_n2. easy. }
    apply (pm_trans _ (dqmul da x)); [apply pm_mul; [apply pm_rflip|now left]|].
    apply pm_sym. apply (pm_trans _ (dqmul x (dqmul (dqmul (dqinv x) da) x))).
    - apply pm_mul; [now left|]. eapply pm_trans; [apply pm_rflip|exact DB].
    - left. rewrite dqmul_assoc, <- (dqmul_assoc x (dqinv x)), dqmul_inv_r, dqmul_1_l by now apply unitdq_n2. easy. }
  assert (F : Forall (fun p => unitdq (fst p) /\ unitdq (snd p) /\ consistent_up_to_sign x p) l).
  { assert (GEN : forall As Bs, Forall2 (noise_free w x) As Bs -> Forall unitdq (map row_dq As) -> Forall unitdq (map row_dq Bs) ->
      Forall (fun p => unitdq (fst p) /\ unitdq (snd p) /\ consistent_up_to_sign x p)
        (combine (map (fun x => rflip (dqmul (dqinv (row_dq a0)) x)) (map row_dq As)) (map (fun x => rflip (dqmul (dqinv (row_dq b0)) x)) (map row_dq Bs)))).
    { intros As Bs F2. induction F2 as [|a b As Bs H F2 IH]; intros F3 F4; [constructor|].
      inversion F3; inversion F4; subst. cbn [map combine]. constructor; [|now apply IH]. cbn [fst snd].
      split; [auto using rflip_unit, unitdq_mul, unitdq_inv|]. split; [auto using rflip_unit, unitdq_mul, unitdq_inv|]. now apply REL. }
    unfold l. now apply GEN. }
  assert (HD : exists v rest, l = (dqone, v) :: rest).
  { unfold l. cbn [map combine]. rewrite dqmul_inv_l, rflip_one by now apply unitdq_n2. eauto. }
  destruct (C32_zero_error cfg tp to x l Ux F HD TP TO) as (h & ph & pe & fl & E1 & E2 & E3 & E4).
  rewrite E1. cbn [bind]. rewrite E2. cbn [bind]. do 2 f_equal.
  specialize (E4 TP0 TO0). rewrite <- LL, <- E3. clear - E4. unfold count_true.
  induction E4 as [|f fl H F IH]; [easy|]. subst f. cbn in *. now rewrite IH.
Qed.

(** Any unit calibration on any sorted recordings: without matched poses both errors are infinite,
    with matched poses both are finite. *)
Lemma on_path_norm l t p q : Forall unitq (row_quats l) -> on_path l (t, (p, q)) -> 1 / 2 < hnorm q.
Proof.
  intros F (_ & _ & _ & R). rewrite Forall_forall in F.
  assert (H : 1 / 2 < hnorm2 q).
  { inversion R as [r t0 q0 FF E _|k tl0 tr ql qr q0 FF K RR E1 E2 _ E3]; subst.
    - apply nth_error_In in E. apply F in E. unfold unitq in E. lra.
    - apply nth_error_In in E1, E2. destruct (C07_slerp_norm ql qr ((t - tl0) / (tr - tl0)) (F _ E1) (F _ E2)) as (r & S1 & S2).
      { split; [apply Rmult_le_pos; [lra|left; apply Rinv_0_lt_compat; lra]|].
        apply (Rmult_le_reg_r (tr - tl0)); [lra|]. unfold Rdiv. rewrite Rmult_assoc, Rinv_l by lra. lra. }
      rewrite S1 in E3. assert (inQ r = inQ q) as EQ by congruence. assert (r = q) as -> by (destruct r as [[a b c] d], q as [[a' b' c'] d']; cbn in EQ; now injection EQ as -> -> -> ->).
      unfold Rabs in S2. destruct (Rcase_abs (hnorm2 q - 1)); lra. }
  unfold hnorm. replace (1 / 2) with (sqrt (1 / 2 * (1 / 2))) by (apply sqrt_square; lra). apply sqrt_lt_1_alt. lra.
Qed.
Theorem C49_finite : forall (cfg : config XR) (tp to : R) (x : rdq) (A B : list row) (o : R),
  A <> [] -> B <> [] -> sorted (row_times A) -> sorted (row_times B) ->
  Forall unitq (row_quats A) -> Forall unitq (row_quats B) -> unitdq x ->
  ransac_position_error_threshold_m cfg = Fin tp -> ransac_orientation_error_threshold_deg cfg = Fin to ->
  exists outA outB, compute_aligned_poses (inS A) (inS B) (Fin o) = Ok (inS outA, inS outB) /\
    (outA = [] -> evaluate_calibration (inS A) (inS B) (inD x) (Fin o) cfg = Ok (PInf, PInf, O)) /\
    (outA <> [] -> exists rp ro k, evaluate_calibration (inS A) (inS B) (inD x) (Fin o) cfg = Ok (Fin rp, Fin ro, k) /\
        0 <= rp /\ 0 <= ro /\ (k <= length outA)%nat).
Proof.
  intros cfg tp to x A B o NA NB SA SB UA UB Ux TP TO.
  destruct (C41_contract A B o NA NB SA SB UA UB) as (s & oA & oB & E & T1 & T2 & PA & PB & _ & _).
  exists oA, oB. split; [exact E|].
  assert (LL : length oA = length oB).
  { pose proof (f_equal (@length R) T1) as H1. pose proof (f_equal (@length R) T2) as H2. unfold row_times, row in *. rewrite map_length in H1, H2. congruence. }
  assert (G : forall l out, Forall unitq (row_quats l) -> Forall (on_path l) out ->
     exists ds, map (fun p => from_pose_vector (N:=XR) (snd p)) (inS out) = map inD ds /\ Forall unitdq ds /\ length ds = length out).
  { intros l out U F. exists (map (fun r : row => dq_of (hscale (/ hnorm (snd (snd r))) (snd (snd r))) (fst (snd r))) out).
    rewrite Forall_forall in F.
    assert (HN : forall r, In r out -> 1 / 2 < hnorm (snd (snd r))) by (intros [t [p q]] I; apply (on_path_norm l t p q U); now apply F).
    split; [|split; [|apply map_length]].
    - unfold inS. rewrite !map_map. apply map_ext_in. intros [t [p q]] I. specialize (HN _ I). cbn [fst snd] in HN |- *.
      unfold from_pose_vector. cbn [inP pos ori]. now rewrite from_pose_in by lra.
    - apply Forall_map, Forall_forall. intros r I. specialize (HN _ I). apply dq_of_unit. apply hnormalize_unit. lra. }
  unfold evaluate_calibration. rewrite !inS_length.
  rewrite assert_true by (destruct A; [easy|reflexivity]). rewrite assert_true by (destruct B; [easy|reflexivity]).
  rewrite E. cbn [bind]. rewrite !inS_length, <- LL. rewrite assert_true by apply Nat.eqb_refl. split.
  - intros ->. reflexivity.
  - intros NE. destruct (Nat.eqb_spec (length oA) 0) as [Z|_]; [destruct oA; [easy|discriminate Z]|].
    assert (UA' : Forall unitq (row_quats (shift_rows o A))) by (unfold row_quats, shift_rows in *; now rewrite map_map).
    destruct (G _ _ UA' PA) as (da & -> & Uda & La). destruct (G _ _ UB PB) as (db & -> & Udb & Lb).
    rewrite !(map_length inD), La, Lb, <- LL. rewrite assert_true by apply Nat.eqb_refl.
    destruct da as [|a0 da]; [destruct oA; [easy|discriminate La]|]. destruct db as [|b0 db]; [destruct oB; [destruct oA; easy|discriminate Lb]|].
    destruct (align_unit (a0 :: da) a0 eq_refl Uda) as (ra & EA & Ura & Lra & _). destruct (align_unit (b0 :: db) b0 eq_refl Udb) as (rb & EB & Urb & Lrb & _).
    rewrite EA, EB. cbn [bind]. destruct (combine_hands ra rb ltac:(lia)) as [-> ->].
    destruct (aligned_total x (combine ra rb) Ux) as (ph & pe & E1 & L1 & L2 & G1 & G2).
    { intros Q. apply (f_equal (@length _)) in Q. rewrite combine_length, Lra, Lrb in Q. cbn in Q. lia. }
    { rewrite Forall_forall in Ura, Urb. apply Forall_forall. intros [u v] I. split; [apply Ura; now apply in_combine_l in I|apply Urb; now apply in_combine_r in I]. }
    rewrite E1. cbn [bind].
    assert (LC : length (combine ra rb) = length oA) by (rewrite combine_length, Lra, Lrb, La, Lb, <- LL; lia).
    destruct (C31_evaluate cfg tp to ph pe ltac:(lia)) as (es & fl & _ & EV & F2 & PE & LE); try easy.
    { intros ->. cbn in L1. destruct oA; [easy|]. cbn in LC. lia. }
    rewrite EV. cbn [bind]. exists (rms (map fst es)), (rms (map snd es)), (count_true fl). split; [easy|].
    split; [apply sqrt_pos|]. split; [apply sqrt_pos|].
    apply Forall2_len in F2. rewrite <- LC, <- L1, <- LE, F2. clear. unfold count_true. induction fl as [|[] fl IH]; cbn in *; lia.
Qed.

(** The hypotheses of C49_perfect are met by the eye path derived from any hand path. *)
Definition seen (w x : rdq) (o : R) (a : row) : row :=
  let P := dqmul (dqmul w (row_dq a)) x in (fst a + o, (trans_of P, dr P)).
Example C49_example : let q := RQ (RV 0 0 (3 / 5)) (4 / 5) in
  let x := dq_of q (RV 1 2 3) in let w := dq_of (hmul q q) (RV 0 5 0) in
  let A := [(0, (RV 0 0 0, hone)); (1 / 10, (RV 1 0 0, q)); (3 / 10, (RV 2 0 1, hmul q q))] in
  let B := map (seen w x (1 / 2)) A in
  (2 <= length A)%nat /\ row_times (shift_rows (1 / 2) A) = row_times B /\ increasing (row_times B) /\
  Forall unitq (row_quats A) /\ Forall unitq (row_quats B) /\ unitdq w /\ unitdq x /\ same_motion w x A B.
Proof.
  intros q x w A B.
  assert (U : unitq q) by (unfold unitq, hnorm2, hdot, dot3, q; cbn [qv qs v1 v2 v3]; lra).
  assert (U2 : unitq (hmul q q)) by (unfold unitq; rewrite hnorm2_mul, U; lra).
  assert (UX : unitdq x) by now apply dq_of_unit. assert (UW : unitdq w) by now apply dq_of_unit.
  assert (UA : Forall unitq (row_quats A)) by (repeat (apply Forall_cons || apply Forall_nil); cbn [fst snd]; try easy; apply hone_unit).
  assert (UP : forall a, In a A -> unitdq (dqmul (dqmul w (row_dq a)) x)).
  { intros a I. apply unitdq_mul; [|easy]. apply unitdq_mul; [easy|]. apply dq_of_unit. unfold row_quats in UA. rewrite Forall_map, Forall_forall in UA. now apply UA. }
  split; [cbn; lia|]. split; [unfold B, row_times, shift_rows; rewrite !map_map; reflexivity|].
  split. { unfold B, row_times. rewrite map_map. unfold A. cbn [map seen fst]. clear. two slow. }
  split; [exact UA|]. split.
  { unfold B, row_quats. rewrite map_map. apply Forall_map, Forall_forall. intros a I. apply (UP a I). }
  split; [easy|]. split; [easy|]. unfold same_motion, B. clear - UP. induction A as [|a A IH]; [constructor|]. constructor.
  - left. unfold row_dq at 1. cbn [seen snd fst]. apply dq_of_trans. apply UP. now left.
  - apply IH. intros b I. apply UP. now right.
Qed.
