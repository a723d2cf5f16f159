(** * Facts about bisection, interpolation and resampling over the reals. *)

From Coq Require Import Reals ZArith Bool List Lra Lia Psatz Permutation.
From Verif Require Import Num Py XReal XFacts Quat DualQuat TimeAlign Spec TimeSpec Embed QuatFacts QuatTrig ListFacts TimeFacts.
Import ListNotations.
Local Open Scope R_scope.

(** ** Sorted lists *)
Lemma sorted_tl x l : sorted (x :: l) -> sorted l.
Proof. intros H i j a b L A B. apply (H (S i) (S j)); [lia|easy|easy]. Qed.
Lemma sorted_hd x l : sorted (x :: l) -> Forall (fun y => x <= y) l.
Proof.
  intros H. apply Forall_forall. intros y I. apply In_nth_error in I as (j & J).
  apply (H 0%nat (S j)); [lia|easy|easy].
Qed.
Lemma sorted_cons x l : Forall (fun y => x <= y) l -> sorted l -> sorted (x :: l).
Proof.
  intros F H [|i] [|j] a b L A B; try lia; cbn in *.
  - injection A as <-. injection B as <-. lra.
  - injection A as <-. rewrite Forall_forall in F. apply F. now apply nth_error_In in B.
  - apply (H i j); [lia|easy|easy].
Qed.
Lemma sorted_map_add c l : sorted l -> sorted (map (fun x => x + c) l).
Proof.
  intros H i j a b L A B. rewrite nth_error_map in A, B.
  destruct (nth_error l i) as [a'|] eqn:EA; [|discriminate]. destruct (nth_error l j) as [b'|] eqn:EB; [|discriminate].
  cbn in A, B. injection A as <-. injection B as <-. pose proof (H i j a' b' L EA EB). lra.
Qed.

(** ** Bisection *)
Lemma bisect_loop_spec l x : sorted l -> forall fuel lo hi,
  (hi <= lo + fuel)%nat -> (lo <= hi)%nat -> (hi <= length l)%nat ->
  (forall j a, (j < lo)%nat -> nth_error l j = Some a -> a < x) ->
  (forall j a, (hi <= j)%nat -> nth_error l j = Some a -> x <= a) ->
  exists i, bisect_loop (N:=XR) fuel (map Fin l) (Fin x) lo hi = Ok i /\ (i <= length l)%nat /\
    (forall j a, (j < i)%nat -> nth_error l j = Some a -> a < x) /\
    (forall j a, (i <= j)%nat -> nth_error l j = Some a -> x <= a).
Proof.
  intros SO. induction fuel as [|fuel IH]; intros lo hi F L H B A; cbn [bisect_loop].
  - assert (lo = hi) by lia. subst. exists hi. repeat split; try easy.
  - destruct (Nat.ltb_spec lo hi) as [LT|GE].
    + set (mid := ((lo + hi) / 2)%nat).
      assert (M : (lo <= mid < hi)%nat).
      { unfold mid. pose proof (Nat.div_mod_eq (lo + hi) 2). pose proof (Nat.mod_upper_bound (lo + hi) 2). lia. }
      destruct (nth_error l mid) as [m|] eqn:EM; [|apply nth_error_None in EM; lia].
      rewrite index_map, (index_some _ _ _ EM). cbn [bind ltb XR xltb].
      destruct (Rltb m x) eqn:C; [apply Rltb_iff in C|apply Rltb_false in C].
      * apply IH; try lia; [|easy]. intros j a J E. pose proof (SO j mid a m ltac:(lia) E EM). lra.
      * apply IH; try lia; [easy|]. intros j a J E. pose proof (SO mid j m a ltac:(lia) EM E). lra.
    + assert (lo = hi) by lia. subst. exists hi. repeat split; try easy.
Qed.
Lemma bisect_spec l x : sorted l -> exists i, bisect_left (N:=XR) (map Fin l) (Fin x) = Ok i /\ (i <= length l)%nat /\
    (forall j a, (j < i)%nat -> nth_error l j = Some a -> a < x) /\
    (forall j a, (i <= j)%nat -> nth_error l j = Some a -> x <= a).
Proof.
  intros SO. unfold bisect_left. rewrite map_length. apply bisect_loop_spec; try easy; try lia.
  intros j a J E. assert (nth_error l j <> None) by congruence. apply nth_error_Some in H. lia.
Qed.

(** ** Last element by a negative index *)
Lemma py_index_last {A} (l : list A) d : l <> [] -> py_index l (-1) = Ok (last l d).
Proof.
  intros NE. unfold py_index. destruct (Z.ltb_spec (-1) 0); [|lia].
  assert (L : (0 < length l)%nat) by (destruct l; [easy|cbn; lia]).
  destruct (Z.ltb_spec (-1 + Z.of_nat (length l)) 0); [lia|].
  replace (Z.to_nat (-1 + Z.of_nat (length l))) with (length l - 1)%nat by lia.
  apply index_some. clear - NE. induction l as [|x l IH]; [easy|].
  destruct l as [|y l]; [easy|]. cbn [length]. cbn [length] in IH. rewrite Nat.sub_succ, Nat.sub_0_r in *.
  cbn [nth_error]. now apply IH.
Qed.
Lemma py_index_nil {A} i : py_index (@nil A) i = Err IndexError.
Proof.
  unfold py_index, index. destruct (Z.ltb_spec i 0).
  - destruct (Z.ltb_spec (i + Z.of_nat (length (@nil A))) 0); [easy|cbn in *; lia].
  - now destruct (Z.to_nat i).
Qed.
Lemma py_index_nat {A} (l : list A) i : py_index l (Z.of_nat i) = index l i.
Proof. unfold py_index. destruct (Z.ltb_spec (Z.of_nat i) 0); [lia|]. now rewrite Nat2Z.id. Qed.
Lemma last_map_fin l d : l <> [] -> last (map Fin l) (Fin d) = Fin (last l d).
Proof.
  induction l as [|x l IH]; [easy|]. intros _. destruct l as [|y l]; [easy|].
  change (last (map Fin (x :: y :: l)) (Fin d)) with (last (map Fin (y :: l)) (Fin d)). now rewrite IH.
Qed.
Lemma last_nth_error {A} (l : list A) d : l <> [] -> nth_error l (length l - 1) = Some (last l d).
Proof.
  induction l as [|x l IH]; [easy|]. intros _. destruct l as [|y l]; [easy|].
  cbn [length]. cbn [length] in IH. rewrite Nat.sub_succ, Nat.sub_0_r in *. cbn [nth_error]. now apply IH.
Qed.

(** ** Resampling one quaternion *)
Definition inQs (l : list rq) := map inQ l.
(** the quaternion [q] that resampling assigns to time [s] *)
Inductive resampled (times : list R) (qs : list rq) (s : R) : rq -> Prop :=
| resampled_snap r t q : first_from times s r t -> nth_error qs r = Some q ->
    t - s <= 1 / 10000000000000000 + 1 / 100000 * Rabs t ->
    resampled times qs s q
| resampled_slerp k tl tr ql qr q : first_from times s (S k) tr -> nth_error times k = Some tl -> tl < s < tr ->
    nth_error qs k = Some ql -> nth_error qs (S k) = Some qr ->
    1 / 10000000000000000 + 1 / 100000 * Rabs tr < tr - s ->
    quaternion_slerp (inQ ql) (inQ qr) (Fin ((s - tl) / (tr - tl))) = Ok (inQ q) ->
    resampled times qs s q.

Lemma resample_in times qs s : times <> [] -> sorted times -> length qs = length times -> Forall unitq qs ->
  hd 0 times <= s <= last times 0 ->
  exists q, resample_one (N:=XR) (map Fin times) (inQs qs) (Fin s) = Ok (inQ q) /\ resampled times qs s q.
Proof.
  intros NE SO LQ UQ [H1 H2]. unfold resample_one. change (@T XR) with xr.
  assert (NE' : map Fin times <> []) by (destruct times; easy).
  rewrite (py_index_last _ (Fin 0) NE'), last_map_fin by easy. cbn [bind leb XR xleb].
  rewrite assert_true by now apply Rleb_t.
  change 0%Z with (Z.of_nat 0). rewrite py_index_nat.
  replace (index (map Fin times) 0) with (Ok (Fin (hd 0 times))) by now destruct times. cbn [bind].
  rewrite assert_true by now apply Rleb_t.
  destruct (bisect_spec times s SO) as (i & E & LI & BE & AF). rewrite E. cbn [bind].
  pose proof (last_nth_error times 0 NE) as LL.
  assert (I : (i < length times)%nat).
  { destruct (Nat.lt_ge_cases i (length times)) as [|G]; [easy|]. exfalso.
    pose proof (BE (length times - 1)%nat (last times 0) ltac:(destruct times; [easy|cbn in *; lia]) LL). lra. }
  destruct (nth_error times i) as [tr|] eqn:ET; [|apply nth_error_None in ET; lia].
  rewrite index_map, (index_some _ _ _ ET). cbn [bind].
  pose proof (AF i tr ltac:(lia) ET) as ST.
  assert (FF : first_from times s i tr) by (repeat split; easy).
  change (@lit XR 1 (-16)) with (Fin (1 / 10000000000000000)). rewrite isclose_fin.
  rewrite Rabs_left1 by lra. replace (- (s - tr)) with (tr - s) by ring.
  destruct (nth_error qs i) as [qr|] eqn:EQ; [|apply nth_error_None in EQ; lia].
  destruct (Rleb (tr - s) _) eqn:C; [apply Rleb_iff in C|apply Rleb_false in C].
  - exists qr. unfold inQs. rewrite index_map, (index_some _ _ _ EQ). split; [easy|]. now apply (resampled_snap _ _ _ i tr).
  - destruct i as [|k].
    { exfalso. assert (hd 0 times = tr) by (destruct times; [easy|]; cbn in ET |- *; congruence).
      pose proof (Rabs_pos tr). lra. }
    destruct (nth_error times k) as [tl0|] eqn:ETL; [|apply nth_error_None in ETL; lia].
    destruct (nth_error qs k) as [ql|] eqn:EQL; [|apply nth_error_None in EQL; lia].
    unfold inQs. rewrite !index_map, (index_some _ _ _ EQL), (index_some _ _ _ ETL), (index_some _ _ _ EQ). cbn [bind].
    pose proof (BE k tl0 ltac:(lia) ETL) as SL. assert (SR : s < tr) by (pose proof (Rabs_pos tr); lra).
    unfold quaternions_interpolate. cbn [mapM sub div XR xsub].
    rewrite xdiv_fin by lra.
    assert (FR : 0 <= (s - tl0) / (tr - tl0) <= 1).
    { split; [apply Rmult_le_pos; [lra|apply Rlt_le, Rinv_0_lt_compat; lra]|].
      apply (Rmult_le_reg_r (tr - tl0)); [lra|]. unfold Rdiv. rewrite Rmult_assoc, Rinv_l by lra. lra. }
    rewrite Forall_forall in UQ.
    assert (U1 : unitq ql) by (apply UQ; now apply nth_error_In in EQL).
    assert (U2 : unitq qr) by (apply UQ; now apply nth_error_In in EQ).
    pose proof (slerp_in ql qr _ U1 U2 FR) as SE. rewrite SE. cbn [bind index nth_error].
    eexists. split; [reflexivity|]. eapply (resampled_slerp _ _ _ k tl0 tr ql qr); try eassumption. easy.
Qed.

(** ** Linear interpolation *)
(** [v] is the value at [s] of the piecewise linear function through the points (t_i, f_i): either
    [s] is the last stamp, or [s] lies between two consecutive stamps *)
Definition linear_at (pts : list (R * R)) (s v : R) : Prop :=
  (exists t, nth_error pts (length pts - 1) = Some (t, v) /\ s = t) \/
  (exists j tj fj tk fk, nth_error pts j = Some (tj, fj) /\ nth_error pts (S j) = Some (tk, fk) /\
     tj <= s < tk /\ v = fj + (fk - fj) / (tk - tj) * (s - tj)).
Lemma interp_from_spec s : forall rest xj fj, xj <= s -> sorted (map fst ((xj, fj) :: rest)) ->
  s <= last (map fst ((xj, fj) :: rest)) 0 ->
  exists v, interp_from (N:=XR) (Fin s) (Fin xj) (Fin fj) (map (fun p => (Fin (fst p), Fin (snd p))) rest) = Fin v /\
    linear_at ((xj, fj) :: rest) s v.
Proof.
  induction rest as [|[xk fk] rest IH]; intros xj fj L SO LA; cbn [map interp_from fst snd].
  - exists fj. split; [easy|]. left. exists xj. cbn in *. split; [easy|lra].
  - cbn [leb XR xleb]. destruct (Rleb xk s) eqn:C; [apply Rleb_iff in C|apply Rleb_false in C].
    + destruct (IH xk fk C) as (v & V1 & V2).
      { cbn [map fst] in SO |- *. now apply sorted_tl in SO. }
      { exact LA. }
      exists v. split; [exact V1|]. destruct V2 as [(t & T1 & T2)|(j & tj & fj' & tk & fk' & J1 & J2 & J3)].
      * left. exists t. split; [|easy]. cbn [length] in T1 |- *. rewrite Nat.sub_succ, Nat.sub_0_r in *. cbn [nth_error]. exact T1.
      * right. exists (S j), tj, fj', tk, fk'. easy.
    + cbn [sub XR xsub div mul add]. rewrite xdiv_fin by lra. cbn [xmul xadd].
      eexists. split; [reflexivity|]. right. exists 0%nat, xj, fj, xk, fk. repeat split; try easy. lra.
Qed.
Lemma interp_in pts s : pts <> [] -> sorted (map fst pts) -> hd 0 (map fst pts) <= s <= last (map fst pts) 0 ->
  exists v, interp (N:=XR) (Fin s) (map (fun p => (Fin (fst p), Fin (snd p))) pts) = Ok (Fin v) /\ linear_at pts s v.
Proof.
  destruct pts as [|[x0 f0] rest]; [easy|]. intros _ SO [H1 H2]. cbn [map interp fst snd hd] in *.
  cbn [ltb XR xltb]. rewrite Rltb_f by lra. destruct (interp_from_spec s rest x0 f0 H1 SO H2) as (v & V1 & V2).
  exists v. split; [|easy]. now rewrite V1.
Qed.
(** with strictly increasing stamps the value is determined *)
Lemma linear_at_nodes pts s v j t f : linear_at pts s v -> nth_error pts j = Some (t, f) ->
  (forall i k a b, (i < k)%nat -> nth_error (map fst pts) i = Some a -> nth_error (map fst pts) k = Some b -> a < b) ->
  s = t -> v = f.
Proof.
  intros LA J INC ->. 
  assert (AT : forall i a b, nth_error pts i = Some (a, b) -> nth_error (map fst pts) i = Some a).
  { intros i a b E. now rewrite nth_error_map, E. }
  assert (UN : forall i a b, nth_error pts i = Some (a, b) -> a = t -> i = j).
  { intros i a b E Q. destruct (Nat.lt_trichotomy i j) as [L|[L|L]]; [|easy|].
    - pose proof (INC i j a t L (AT _ _ _ E) (AT _ _ _ J)). lra.
    - pose proof (INC j i t a L (AT _ _ _ J) (AT _ _ _ E)). lra. }
  destruct LA as [(t' & T1 & T2)|(i & ti & fi & tk & fk & J1 & J2 & J3 & ->)].
  - pose proof (UN _ _ _ T1 (eq_sym T2)) as E. rewrite E, J in T1. congruence.
  - destruct (Req_dec ti t) as [E|NE].
    + pose proof (UN _ _ _ J1 E) as Q. rewrite Q, J in J1. injection J1 as -> ->. replace (ti - ti) with 0 by ring. ring.
    + exfalso. destruct (Nat.lt_trichotomy i j) as [L|[L|L]].
      * destruct (Nat.eq_dec j (S i)) as [->|NJ]; [rewrite J in J2; injection J2 as -> ->; lra|].
        pose proof (INC (S i) j tk t ltac:(lia) (AT _ _ _ J2) (AT _ _ _ J)). lra.
      * subst. rewrite J in J1. injection J1 as -> ->. lra.
      * pose proof (INC j i t ti L (AT _ _ _ J) (AT _ _ _ J1)). lra.
Qed.

(** ** Median *)
Lemma insert_in x l : insert (N:=XR) (Fin x) (map Fin l) =
  map Fin ((fix ins l := match l with [] => [x] | y :: l' => if Rlt_dec y x then y :: ins l' else x :: l end) l).
Proof.
  induction l as [|y l IH]; [easy|]. cbn [map insert]. cbn [ltb XR xltb]. unfold Rltb. destruct (Rlt_dec y x); [|easy].
  cbn [map]. f_equal. exact IH.
Qed.
Lemma sort_in l : exists s, sort (N:=XR) (map Fin l) = map Fin s /\ Permutation l s /\ sorted s.
Proof.
  induction l as [|x l (s & E & P & SO)].
  - exists []. repeat split; try easy. intros [|i] j a b _ A; discriminate.
  - unfold sort in *. cbn [map fold_right]. rewrite E, insert_in.
    set (ins := fix ins l := match l with [] => [x] | y :: l' => if Rlt_dec y x then y :: ins l' else x :: l end).
    exists (ins s). split; [easy|].
    assert (K : forall s, sorted s -> Permutation (x :: s) (ins s) /\ sorted (ins s) /\ (forall z, z <= x -> Forall (fun y => z <= y) s -> Forall (fun y => z <= y) (ins s))).
    { clear. induction s as [|y s IH]; intros SO.
      - cbn. repeat split; [apply Permutation_refl| |]; [|intros; constructor; easy].
        intros [|i] [|j] a b _ A B; try (destruct i; discriminate); try (destruct j; discriminate). cbn in *. injection A as <-; injection B as <-; lra.
      - cbn [ins]. fold ins. destruct (Rlt_dec y x) as [L|L].
        + destruct (IH (sorted_tl _ _ SO)) as (I1 & I2 & I3). split; [|split].
          * rewrite perm_swap. now constructor.
          * apply sorted_cons; [|easy]. apply I3; [lra|now apply sorted_hd].
          * intros z Z F. inversion F; subst. constructor; [easy|]. now apply I3.
        + split; [apply Permutation_refl|]. split.
          * apply sorted_cons; [|easy]. constructor; [lra|]. pose proof (sorted_hd _ _ SO) as F.
            eapply Forall_impl; [|exact F]. cbn. intros; lra.
          * intros z Z F. constructor; easy. }
    destruct (K s SO) as (K1 & K2 & _). split; [|easy]. now rewrite <- K1, P.
Qed.
Lemma existsb_isnan l : existsb (isnan (N:=XR)) (map Fin l) = false.
Proof. induction l; cbn [map existsb]; [easy|]. rewrite IHl. unfold isnan. cbn [eqb XR xeqb]. now rewrite Reqb_refl. Qed.
Lemma median_in l : l <> [] -> exists m, median (N:=XR) (map Fin l) = Fin m /\ is_median l m.
Proof.
  intros NE. unfold median. rewrite existsb_isnan. destruct (sort_in l) as (s & E & P & SO). rewrite E, map_length.
  assert (LS : (0 < length s)%nat).
  { rewrite <- (Permutation_length P). destruct l; [easy|cbn; lia]. }
  assert (NT : forall i, (i < length s)%nat -> nth i (map Fin s) (nan (N:=XR)) = Fin (nth i s 0)).
  { intros i Hi. rewrite (nth_indep _ _ (Fin 0)) by now rewrite map_length. now rewrite (map_nth Fin). }
  destruct (length s) as [|n] eqn:LN; [lia|]. set (k := S n) in *.
  assert (D : (k / 2 < k)%nat) by (apply Nat.div_lt; lia).
  exists ((nth ((k - 1) / 2) s 0 + nth (k / 2) s 0) / 2). split; [|exists s; rewrite LN; easy].
  destruct (Nat.odd k) eqn:O.
  - assert (EQ : ((k - 1) / 2 = k / 2)%nat).
    { apply Nat.odd_spec in O as (q & ->). replace (2 * q + 1 - 1)%nat with (q * 2)%nat by lia.
      rewrite Nat.div_mul by lia. rewrite Nat.mul_comm, Nat.div_add_l by lia. cbn. lia. }
    rewrite EQ, NT by lia. unfold mean. change [Fin (nth (k / 2) s 0)] with (map Fin [nth (k / 2) s 0]).
    rewrite sumn_fin, of_nat_fin. cbn [div XR map length]. rewrite xdiv_fin by (simpl; lra). f_equal. cbn. field.
  - assert (EQ : ((k - 1) / 2 = k / 2 - 1)%nat).
    { assert (EV : Nat.even k = true) by (unfold Nat.odd in O; now destruct (Nat.even k)).
      apply Nat.even_spec in EV as (q & ->). rewrite (Nat.mul_comm 2 q), Nat.div_mul by lia.
      destruct q as [|q]; [easy|]. replace (S q * 2 - 1)%nat with (q * 2 + 1)%nat by lia. rewrite Nat.div_add_l by lia. cbn. lia. }
    rewrite EQ. assert (G : (k / 2 - 1 < k)%nat) by lia. rewrite !NT by lia. unfold mean.
    change [Fin (nth (k / 2 - 1) s 0); Fin (nth (k / 2) s 0)] with (map Fin [nth (k / 2 - 1) s 0; nth (k / 2) s 0]).
    rewrite sumn_fin, of_nat_fin. cbn [div XR map length]. rewrite xdiv_fin by (simpl; lra). f_equal. cbn. field.
Qed.
