(** * Property C58: the data-drop tool. *)

From Coq Require Import ZArith QArith List Bool Arith Lia Lqa.
From Verif Require Import Py Tools.
Import ListNotations.
Local Open Scope nat_scope.
Local Open Scope list_scope.

(** ** Specification: what is left of a list when some of its indices are dropped *)
Definition numbered {A} (l : list A) : list (nat * A) := combine (seq 0 (length l)) l.
Definition without {A} (dropped : nat -> bool) (l : list A) : list A := map snd (filter (fun p => negb (dropped (fst p))) (numbered l)).
Definition blanked {A} (dropped : nat -> bool) (l : list A) : list (option A) := map (fun p => if dropped (fst p) then None else Some (snd p)) (numbered l).
Definition number_of (dropped : nat -> bool) (n : nat) : nat := length (filter dropped (seq 0 n)).
Definition integral (q : Q) : Prop := exists z, (q == inject_Z z)%Q.
(** the numbers of points the percentages stand for *)
Definition points {A} (percentage : Q) (data : list A) : Q := (percentage / 100 * nat_Q (length data))%Q.

(** ** Deleting from the back *)
Lemma combine_snoc {A B} (a : list A) (b : list B) x y : length a = length b -> combine (a ++ [x]) (b ++ [y]) = combine a b ++ [(x, y)].
Proof. revert b. induction a as [|u a IH]; intros [|v b] L; try discriminate; [easy|]. cbn. f_equal. apply IH. now injection L. Qed.
Lemma numbered_snoc {A} (l : list A) x : numbered (l ++ [x]) = numbered l ++ [(length l, x)].
Proof. unfold numbered. rewrite app_length. cbn [length]. rewrite Nat.add_1_r, seq_S. apply combine_snoc. apply seq_length. Qed.
Lemma without_snoc {A} d (l : list A) x : without d (l ++ [x]) = without d l ++ if d (length l) then [] else [x].
Proof. unfold without. rewrite numbered_snoc, filter_app, map_app. cbn. now destruct (d (length l)). Qed.
Lemma blanked_snoc {A} d (l : list A) x : blanked d (l ++ [x]) = blanked d l ++ [if d (length l) then None else Some x].
Proof. unfold blanked. now rewrite numbered_snoc, map_app. Qed.
Lemma drop_indices_S k d : drop_indices (S k) d = if d k then k :: drop_indices k d else drop_indices k d.
Proof. unfold drop_indices. rewrite seq_S, filter_app, rev_app_distr. cbn. now destruct (d k). Qed.
Lemma remove_at_mid {A} (a : list A) x b : remove_at (a ++ x :: b) (length a) = a ++ b.
Proof. induction a; cbn; congruence. Qed.
Lemma update_mid {A} (a : list A) x b v : update (a ++ x :: b) (length a) v = a ++ v :: b.
Proof. induction a; cbn; congruence. Qed.
Lemma delete_all_spec {A} d : forall k (a b : list A), length a = k -> delete_all (a ++ b) (drop_indices k d) = without d a ++ b.
Proof.
  induction k as [|k IH]; intros a b L.
  - destruct a; [easy|discriminate].
  - destruct (exists_last (l := a)) as (a' & x & ->); [now intros ->|]. rewrite app_length in L. cbn in L.
    assert (L' : length a' = k) by lia. rewrite without_snoc, L', drop_indices_S. rewrite <- app_assoc. cbn [app]. destruct (d k) eqn:D.
    + unfold delete_all. cbn [fold_left]. assert (RM : remove_at (a' ++ x :: b) k = a' ++ b) by (rewrite <- L'; apply remove_at_mid). rewrite RM. fold (delete_all (a' ++ b) (drop_indices k d)). rewrite IH by easy. now rewrite app_nil_r.
    + rewrite IH by easy. now rewrite <- app_assoc.
Qed.
Lemma none_all_spec {A} d : forall k (a : list A) b, length a = k ->
  fold_left (fun l i => update l i None) (drop_indices k d) (map Some a ++ b) = blanked d a ++ b.
Proof.
  induction k as [|k IH]; intros a b L.
  - destruct a; [easy|discriminate].
  - destruct (exists_last (l := a)) as (a' & x & ->); [now intros ->|]. rewrite app_length in L. cbn in L.
    assert (L' : length a' = k) by lia. rewrite blanked_snoc, L', drop_indices_S, map_app, <- !app_assoc. cbn [map app]. destruct (d k) eqn:D.
    + cbn [fold_left]. assert (UM : update (map Some a' ++ Some x :: b) k None = map Some a' ++ None :: b).
      { assert (LM : length (map Some a') = k) by now rewrite map_length. rewrite <- LM. apply update_mid. }
      rewrite UM. now apply IH.
    + now apply IH.
Qed.

(** ** Numbers *)
Lemma as_integer_Some q z : as_integer q = Some z <-> (q == inject_Z z)%Q.
Proof.
  destruct q as [a b]. unfold as_integer, Qeq, inject_Z. cbn [Qnum Qden]. assert (B : (0 < Zpos b)%Z) by lia. split.
  - destruct (Z.eqb_spec (a mod Zpos b) 0) as [E|]; [|discriminate]. intros [= <-]. assert (D := Z_div_mod_eq_full a (Zpos b)). lia.
  - intros E. assert (E' : a = (z * Zpos b)%Z) by lia. subst a. rewrite Z.mod_mul, Z.div_mul by lia. easy.
Qed.
Lemma as_integer_None q : as_integer q = None <-> ~ integral q.
Proof.
  split.
  - intros E [z H]. apply as_integer_Some in H. congruence.
  - intros N. destruct (as_integer q) as [z|] eqn:E; [|easy]. apply as_integer_Some in E. destruct N. now exists z.
Qed.
Local Open Scope Q_scope.
Lemma Qmin_py_cases a b : (b < a /\ Qmin_py a b = b) \/ (a <= b /\ Qmin_py a b = a).
Proof.
  unfold Qmin_py, Qlt_bool. destruct (Qle_bool a b) eqn:E; cbn.
  - right. now apply Qle_bool_iff in E.
  - left. split; [|easy]. apply Qnot_le_lt. intros H. apply Qle_bool_iff in H. congruence.
Qed.
Lemma nat_Q_le a b : nat_Q a <= nat_Q b <-> (a <= b)%nat.
Proof. unfold nat_Q. rewrite <- Zle_Qle. lia. Qed.
Lemma nat_Q_lt a b : nat_Q a < nat_Q b <-> (a < b)%nat.
Proof. unfold nat_Q. rewrite <- Zlt_Qlt. lia. Qed.
Lemma nat_Q_plus a b : nat_Q (a + b) == nat_Q a + nat_Q b.
Proof. unfold nat_Q. rewrite Nat2Z.inj_add. now rewrite inject_Z_plus. Qed.
Lemma inject_minus a b : inject_Z a - inject_Z b == inject_Z (a - b).
Proof. unfold Qminus, Z.sub. now rewrite inject_Z_plus, inject_Z_opp. Qed.

(** ** The invariant of the loop *)
Local Open Scope nat_scope.
Lemma number_of_S d n : number_of d (S n) = number_of d n + if d n then 1 else 0.
Proof. unfold number_of. rewrite seq_S, filter_app, app_length. cbn [filter Nat.add]. now destruct (d n). Qed.
Lemma count_range d a b n : number_of (add_range d a b) n <= number_of d n + (Nat.min n b - a).
Proof.
  induction n as [|n IH]; [easy|]. rewrite !number_of_S. unfold add_range at 2.
  destruct (Nat.leb_spec a n), (Nat.ltb_spec n b), (d n); cbn [andb orb]; lia.
Qed.
Definition last_kept (n : nat) (d : nat -> bool) : Prop := forall i, n - 1 <= i -> d i = false.
Lemma add_range_last n d s z : last_kept n d -> last_kept n (add_range d s (Nat.min (s + z) (n - 1))).
Proof. intros L i Li. unfold add_range. rewrite (L i Li), orb_false_r. apply andb_false_iff. right. apply Nat.ltb_ge. lia. Qed.
Lemma last_kept_count n d : last_kept n d -> number_of d n <= n - 1.
Proof.
  intros L. destruct n as [|n]; [easy|]. rewrite number_of_S, (L n) by lia.
  assert (H : number_of d n <= n); [|lia]. clear L. induction n as [|n IH]; [easy|]. rewrite number_of_S. destruct (d n); lia.
Qed.
Lemma loop_invariant n overall max_single d r : drop_loop n overall max_single d r ->
  last_kept n d -> (nat_Q (number_of d n) <= overall)%Q ->
  forall d', r = Ok d' -> last_kept n d' /\ (nat_Q (number_of d' n) == overall)%Q.
Proof.
  induction 1 as [d ND|d Lt Ra|d z start size r Lt AI Ls Lz R IH]; intros LK LE d' E; [|discriminate|].
  - injection E as <-. split; [easy|]. apply Qle_antisym; [easy|]. apply Qnot_lt_le. exact ND.
  - apply IH; [now apply add_range_last| |easy]. apply as_integer_Some in AI.
    apply (Qle_trans _ (nat_Q (number_of d n + size))).
    + apply nat_Q_le. eapply Nat.le_trans; [apply count_range|]. lia.
    + rewrite nat_Q_plus. change (dropped_count n d) with (number_of d n) in *.
      assert (Z1 : (nat_Q size <= overall - nat_Q (number_of d n))%Q).
      { apply (Qle_trans _ (inject_Z z)); [unfold nat_Q; rewrite <- Zle_Qle; exact Lz|]. rewrite <- AI.
        destruct (Qmin_py_cases (overall - nat_Q (number_of d n)) max_single) as [[X ->]|[X ->]]; [now apply Qlt_le_weak|apply Qle_refl]. }
      lra.
Qed.
Lemma number_none n : number_of (fun _ => false) n = 0.
Proof. unfold number_of. induction (seq 0 n); [easy|exact IHl]. Qed.
Lemma loop_result n overall max_single d' : (0 <= overall)%Q -> drop_loop n overall max_single (fun _ => false) (Ok d') ->
  last_kept n d' /\ (nat_Q (number_of d' n) == overall)%Q.
Proof. intros P H. apply (loop_invariant _ _ _ _ _ H); [easy| |easy]. now rewrite number_none. Qed.
Lemma nat_Q_nonneg k : (0 <= nat_Q k)%Q.
Proof. unfold nat_Q. change 0%Q with (inject_Z 0). rewrite <- Zle_Qle. lia. Qed.

(** If it returns, exactly the requested number of points is gone, the rest is unchanged and in
    order, and the last point is still there. *)
Theorem C58_result : forall A (data : list A) overall max kept holed, introduce_data_drops data overall max (Ok (kept, holed)) ->
  exists dropped, (nat_Q (number_of dropped (length data)) == points overall data)%Q /\
    (forall i, length data - 1 <= i -> dropped i = false) /\ kept = without dropped data /\ holed = blanked dropped data.
Proof.
  intros A data overall max kept holed H. inversion H as [| | |d Lt DL EQ]; subst. exists d.
  change (dropped_count (length data) d) with (number_of d (length data)) in EQ.
  assert (P : (0 <= points overall data)%Q) by (unfold points; rewrite <- EQ; apply nat_Q_nonneg).
  destruct (loop_result _ _ _ _ P DL) as [LK _]. split; [exact EQ|]. split; [exact LK|]. split.
  - rewrite <- (app_nil_r data) at 1. rewrite (delete_all_spec d (length data) data []) by easy. now rewrite app_nil_r.
  - unfold none_all. rewrite <- (app_nil_r (map Some data)). rewrite (none_all_spec d (length data) data []) by easy. now rewrite app_nil_r.
Qed.
(** The remaining points: so many, each at its place in the old order. *)
Lemma without_length {A} d (l : list A) : length (without d l) + number_of d (length l) = length l.
Proof.
  induction l as [|x l IH] using rev_ind; [easy|]. rewrite without_snoc, !app_length. cbn [length]. rewrite Nat.add_1_r, number_of_S. destruct (d (length l)); cbn; lia.
Qed.
Theorem C58_remaining : forall A (data : list A) overall max kept holed, introduce_data_drops data overall max (Ok (kept, holed)) ->
  (nat_Q (length kept) == nat_Q (length data) - points overall data)%Q /\ length holed = length data /\
  (data <> [] -> exists init x, data = init ++ [x] /\ exists kept' holed', kept = kept' ++ [x] /\ holed = holed' ++ [Some x]).
Proof.
  intros A data overall max kept holed H. destruct (C58_result _ _ _ _ _ _ H) as (d & C & L & -> & ->). split; [|split].
  - rewrite <- C. assert (E := nat_Q_plus (length (without d data)) (number_of d (length data))). rewrite without_length in E. lra.
  - unfold blanked, numbered. rewrite map_length, combine_length, seq_length. lia.
  - intros NE. destruct (exists_last NE) as (init & x & ->). exists init, x. split; [easy|]. rewrite without_snoc, blanked_snoc.
    rewrite L by (rewrite app_length; cbn; lia). now eexists _, _.
Qed.

(** Percentages out of order, like the defaults, always violate the assertion. *)
Theorem C58_assertion : forall A (data : list A) overall max, (overall <= max)%Q ->
  introduce_data_drops data overall max (Err AssertionError) /\
  forall r, introduce_data_drops data overall max r -> r = Err AssertionError.
Proof.
  intros A data overall max LE. assert (N : ~ (max < overall)%Q) by (intros X; apply (Qlt_irrefl max); eapply Qlt_le_trans; eassumption).
  split; [now constructor|]. intros r H. inversion H; subst; easy || contradiction.
Qed.
(** the class attributes of DataDropConfig, test_tools.py:7-8 *)
Theorem C58_defaults : forall A (data : list A) r, introduce_data_drops data 20 20 r -> r = Err AssertionError.
Proof. intros A data r. now apply C58_assertion. Qed.

Lemma points_nonneg {A} p (data : list A) : (0 <= p)%Q -> (0 <= points p data)%Q.
Proof.
  intros P. unfold points. apply Qmult_le_0_compat; [|apply nat_Q_nonneg]. unfold Qdiv. apply Qmult_le_0_compat; [exact P|easy].
Qed.
Lemma points_lt {A} p q (data : list A) : (p < q)%Q -> data <> [] -> (points p data < points q data)%Q.
Proof.
  intros L NE. unfold points, Qdiv. apply Qmult_lt_compat_r.
  - change 0%Q with (nat_Q 0). apply nat_Q_lt. destruct data; [easy|cbn; lia].
  - now apply Qmult_lt_compat_r.
Qed.
(** A request for a number of points that is not an integer never succeeds. *)
Theorem C58_fractional_overall : forall A (data : list A) overall max, ~ integral (points overall data) ->
  forall res, ~ introduce_data_drops data overall max (Ok res).
Proof.
  intros A data overall max NI [kept holed] H. destruct (C58_result _ _ _ _ _ _ H) as (d & C & _). apply NI. exists (Z.of_nat (number_of d (length data))). now rewrite <- C.
Qed.
(** With a fractional number of points per drop it always raises ValueError. *)
Theorem C58_fractional_max : forall A (data : list A) overall max, (max < overall)%Q -> (0 < overall)%Q -> data <> [] ->
  ~ integral (points max data) ->
  introduce_data_drops data overall max (Err ValueError) /\ forall r, introduce_data_drops data overall max r -> r = Err ValueError.
Proof.
  intros A data overall max Lt P NE NI. set (n := length data).
  assert (PO : (nat_Q (dropped_count n (fun _ => false)) < points overall data)%Q).
  { change (dropped_count n (fun _ => false)) with (number_of (fun _ => false) n). rewrite number_none. change (nat_Q 0) with 0%Q.
    assert (X := points_lt 0 overall data P NE). unfold points at 1 in X. eapply Qle_lt_trans; [|exact X]. unfold Qdiv. ring_simplify. apply Qle_refl. }
  assert (LT := points_lt _ _ data Lt NE).
  assert (AI : as_integer (Qmin_py (points overall data - nat_Q (dropped_count n (fun _ => false))) (points max data)) = None).
  { apply as_integer_None. intros [z Z]. apply NI. exists z. destruct (Qmin_py_cases (points overall data - nat_Q (dropped_count n (fun _ => false))) (points max data)) as [[X E]|[X E]]; rewrite E in Z; [easy|].
    exfalso. change (dropped_count n (fun _ => false)) with (number_of (fun _ => false) n) in X. rewrite number_none in X. change (nat_Q 0) with 0%Q in X.
    apply (Qlt_irrefl (points max data)). eapply Qlt_le_trans; [exact LT|]. eapply Qle_trans; [|exact X]. unfold Qminus. rewrite Qplus_0_r. apply Qle_refl. }
  assert (DL : forall r, drop_loop n (points overall data) (points max data) (fun _ => false) r -> r = Err ValueError).
  { intros r H. inversion H as [|? L R|? z ? ? ? L AZ]; subst; [contradiction|easy|]. rewrite AI in AZ. discriminate. }
  split.
  - apply id_loop_raises; [easy|]. apply dl_raise; [exact PO|]. left. exact AI.
  - intros r H. inversion H as [|e L D|d L D|d L D]; subst; [contradiction| | |]; apply DL in D; congruence.
Qed.

(** Whole numbers of points never raise. *)
Theorem C58_never_raises : forall A (data : list A) overall max, (max < overall)%Q -> (0 <= max)%Q ->
  integral (points overall data) -> integral (points max data) ->
  forall e, ~ introduce_data_drops data overall max (Err e).
Proof.
  intros A data overall max Lt P [o EO] [m EM] e H.
  assert (PO : (0 <= points overall data)%Q) by (apply points_nonneg; eapply Qle_trans; [exact P|now apply Qlt_le_weak]).
  assert (PM := points_nonneg _ data P).
  assert (DL : forall d r, drop_loop (length data) (points overall data) (points max data) d r -> forall e, r <> Err e).
  { induction 1 as [d ND|d L [N|(z & Z & Lz)]|d z start size r L AI Ls Lz R IH]; intros e'; try easy.
    - exfalso. apply as_integer_None in N. apply N. destruct (Qmin_py_cases (points overall data - nat_Q (dropped_count (length data) d)) (points max data)) as [[_ ->]|[_ ->]].
      + now exists m.
      + exists (o - Z.of_nat (dropped_count (length data) d))%Z. rewrite EO. unfold nat_Q. apply inject_minus.
    - exfalso. apply as_integer_Some in Z. assert (NZ : (inject_Z z < 0)%Q) by (change 0%Q with (inject_Z 0); now rewrite <- Zlt_Qlt).
      rewrite <- Z in NZ. destruct (Qmin_py_cases (points overall data - nat_Q (dropped_count (length data) d)) (points max data)) as [[_ E]|[_ E]]; rewrite E in NZ.
      + apply (Qlt_irrefl 0). now eapply Qle_lt_trans; [exact PM|].
      + apply (Qlt_irrefl 0). eapply Qlt_trans; [|exact NZ]. apply (Qplus_lt_l _ _ (nat_Q (dropped_count (length data) d))). ring_simplify. exact L. }
  inversion H as [N|e' L D|d L D NE|]; subst; [contradiction|now apply (DL _ _ D e)|].
  apply NE. exact (proj2 (loop_result _ _ _ _ PO D)).
Qed.
(** More points than all but the last: it never returns. *)
Theorem C58_too_many : forall A (data : list A) overall max, data <> [] -> (nat_Q (length data - 1) < points overall data)%Q ->
  forall res, ~ introduce_data_drops data overall max (Ok res).
Proof.
  intros A data overall max NE L [kept holed] H. destruct (C58_result _ _ _ _ _ _ H) as (d & C & LK & _).
  rewrite <- C in L. apply nat_Q_lt in L. assert (X := last_kept_count _ _ LK). lia.
Qed.
(** In particular a request for all points: no random history ends. *)
Theorem C58_all_points : forall A (data : list A) max, data <> [] -> (0 <= max)%Q -> (max < 100)%Q -> integral (points max data) ->
  forall r, ~ introduce_data_drops data 100 max r.
Proof.
  intros A data max NE P L I. assert (E : (points 100 data == nat_Q (length data))%Q) by (unfold points; field).
  intros [res|e] H.
  - refine (C58_too_many A data 100 max NE _ res H). rewrite E. apply nat_Q_lt. destruct data; [easy|cbn; lia].
  - refine (C58_never_raises A data 100 max L P _ I e H). exists (Z.of_nat (length data)). exact E.
Qed.
(** Everything else can succeed. *)
Lemma count_below c n : c <= n -> number_of (fun i => i <? c) n = c.
Proof.
  revert c. induction n as [|n IH]; intros c L; [cbn; lia|]. rewrite number_of_S. destruct (Nat.ltb_spec n c).
  - assert (c = S n) by lia. subst c. clear -IH. assert (G : forall m k, m <= k -> number_of (fun i => i <? k) m = m).
    { induction m as [|m IHm]; intros k Lk; [easy|]. rewrite number_of_S, IHm by lia. destruct (Nat.ltb_spec m k); lia. }
    rewrite G by lia. lia.
  - rewrite IH by lia. lia.
Qed.
Lemma number_ext d d' n : (forall i, d i = d' i) -> number_of d n = number_of d' n.
Proof. intros E. induction n as [|n IH]; [easy|]. now rewrite !number_of_S, IH, E. Qed.
Lemma loop_finishes n k overall max_single : k <= n - 1 -> (overall == nat_Q k)%Q -> (1 <= max_single)%Q -> integral max_single ->
  forall j c d, k = c + j -> (forall i, d i = (i <? c)) -> exists d', drop_loop n overall max_single d (Ok d').
Proof.
  intros Lk EO P1 [m EM]. induction j as [|j IH]; intros c d E D.
  - exists d. apply dl_done. change (dropped_count n d) with (number_of d n). rewrite (number_ext d _ n D), count_below, EO by lia.
    intros X. apply nat_Q_lt in X. lia.
  - assert (C : dropped_count n d = c) by (change (dropped_count n d) with (number_of d n); rewrite (number_ext d _ n D), count_below; lia).
    destruct (IH (S c) (add_range d c (Nat.min (c + 1) (n - 1)))) as (d' & R); [lia| |].
    { intros i. unfold add_range. rewrite D. rewrite Nat.min_l by lia. destruct (Nat.leb_spec c i), (Nat.ltb_spec i (c + 1)), (Nat.ltb_spec i c), (Nat.ltb_spec i (S c)); cbn; lia || easy. }
    assert (Lt : (nat_Q (dropped_count n d) < overall)%Q) by (rewrite C, EO; apply nat_Q_lt; lia).
    exists d'. destruct (Qmin_py_cases (overall - nat_Q (dropped_count n d)) max_single) as [[X MI]|[X MI]].
    + apply (dl_draw n overall max_single d m c 1); [exact Lt| |lia| |exact R].
      * rewrite MI. now apply as_integer_Some.
      * rewrite EM in P1. change 1%Q with (inject_Z 1) in P1. rewrite <- Zle_Qle in P1. exact P1.
    + apply (dl_draw n overall max_single d (Z.of_nat k - Z.of_nat c) c 1); [exact Lt| |lia|lia|exact R].
      rewrite MI. apply as_integer_Some. rewrite C, EO. apply inject_minus.
Qed.
Theorem C58_can_succeed : forall A (data : list A) overall max, (max < overall)%Q -> (1 <= points max data)%Q ->
  integral (points overall data) -> integral (points max data) -> (points overall data <= nat_Q (length data - 1))%Q ->
  exists res, introduce_data_drops data overall max (Ok res).
Proof.
  intros A data overall max Lt P1 [o EO] IM LE.
  assert (NE : data <> []).
  { intros ->. unfold points in P1. cbn [length] in P1. change (nat_Q 0) with 0%Q in P1. rewrite Qmult_0_r in P1. now apply (Qle_not_lt _ _ P1). }
  assert (PO : (0 < points overall data)%Q).
  { eapply Qlt_trans; [|apply (points_lt _ _ data Lt NE)]. eapply Qlt_le_trans; [|exact P1]. reflexivity. }
  assert (EO' : (points overall data == nat_Q (Z.to_nat o))%Q).
  { rewrite EO. unfold nat_Q. rewrite Z2Nat.id; [easy|]. rewrite EO in PO. change 0%Q with (inject_Z 0) in PO. rewrite <- Zlt_Qlt in PO. lia. }
  destruct (loop_finishes (length data) (Z.to_nat o) (points overall data) (points max data)) with (j := Z.to_nat o) (c := 0) (d := fun _ : nat => false) as (d & DL); try easy.
  { rewrite EO' in LE. now apply nat_Q_le in LE. }
  eexists. apply (id_done data overall max d Lt DL).
  exact (proj2 (loop_result _ _ _ _ (Qlt_le_weak _ _ PO) DL)).
Qed.
(** For example one fifth of ten points in drops of one. *)
Example C58_example : exists (data : list nat) overall max, (max < overall)%Q /\ (1 <= points max data)%Q /\
  integral (points overall data) /\ integral (points max data) /\ (points overall data <= nat_Q (length data - 1))%Q /\
  exists res, introduce_data_drops data overall max (Ok res).
Proof.
  exists (seq 0 10), 20%Q, 10%Q. assert (H : (10 < 20)%Q) by reflexivity.
  assert (I1 : integral (points 20 (seq 0 10))) by (exists 2%Z; reflexivity). assert (I2 : integral (points 10 (seq 0 10))) by (exists 1%Z; reflexivity).
  assert (P : (1 <= points 10 (seq 0 10))%Q) by discriminate. assert (Q : (points 20 (seq 0 10) <= nat_Q (length (seq 0 10) - 1))%Q) by discriminate.
  repeat (split; [assumption|]). now apply C58_can_succeed.
Qed.
Example C58_example_fractional : introduce_data_drops (seq 0 10) 20 15 (Err ValueError).
Proof.
  apply C58_fractional_max; [reflexivity|reflexivity|discriminate|]. apply as_integer_None. reflexivity.
Qed.
Example C58_example_all : forall r, ~ introduce_data_drops (seq 0 10) 100 10 r.
Proof. apply C58_all_points; [discriminate|discriminate|reflexivity|]. exists 1%Z. reflexivity. Qed.
