(** * Property C64: concurrent creation of a directory. *)

From Coq Require Import List Arith Lia Bool.
From Verif Require Import Race.
Import ListNotations.

(** *** specification *)
(** n calls that have not started, when the levels up to [existing] exist *)
Definition fresh (existing n : nat) : nat * list position := (existing, repeat Started n).
Definition is_started (p : position) : bool := match p with Started => true | _ => false end.
Definition is_raised (p : position) : bool := match p with Raised => true | _ => false end.
Definition is_returned (p : position) : bool := match p with Returned => true | _ => false end.
Definition number (f : position -> bool) (ps : list position) : nat := length (filter f ps).
Definition finished (s : nat * list position) : Prop := Forall (fun p => p = Returned \/ p = Raised) (snd s).

(** *** one step *)
Lemma set_nth_length {A} (l : list A) : forall i x, length (set_nth l i x) = length l.
Proof. induction l as [|y l IH]; intros [|i] x; cbn; congruence. Qed.
Lemma nth_set_same {A} (l : list A) : forall i x y, nth_error l i = Some y -> nth_error (set_nth l i x) i = Some x.
Proof. induction l as [|z l IH]; intros [|i] x y H; try easy. cbn in *. eauto. Qed.
Lemma nth_set_other {A} (l : list A) : forall i j x, i <> j -> nth_error (set_nth l i x) j = nth_error l j.
Proof. induction l as [|z l IH]; intros [|i] [|j] x H; try easy. cbn. apply IH. congruence. Qed.
Lemma set_nth_same {A} (l : list A) : forall i x, nth_error l i = Some x -> set_nth l i x = l.
Proof. induction l as [|z l IH]; intros [|i] x H; try easy; cbn in *; [congruence|]. f_equal. auto. Qed.
Definition b2n (b : bool) : nat := if b then 1 else 0.
Lemma number_set f l : forall i x y, nth_error l i = Some y -> number f (set_nth l i x) + b2n (f y) = number f l + b2n (f x).
Proof.
  unfold number. induction l as [|z l IH]; intros [|i] x y H; try easy; cbn [nth_error] in H; cbn [set_nth filter].
  - injection H as ->. destruct (f x), (f y); cbn; lia.
  - specialize (IH i x y H). destruct (f z); cbn [length]; lia.
Qed.
Lemma execute_snoc d s m i : execute d s (m ++ [i]) = advance d (execute d s m) i.
Proof. unfold execute. now rewrite fold_left_app. Qed.
Lemma execute_app d s m m' : execute d s (m ++ m') = execute d (execute d s m) m'.
Proof. unfold execute. now rewrite fold_left_app. Qed.

(** what holds in every reachable state *)
Definition valid (d ex0 : nat) (s : nat * list position) : Prop :=
  ex0 <= fst s /\ fst s <= Nat.max ex0 d /\
  (forall p, In p (snd s) -> match p with
     | Started => True
     | Descending l => 1 <= l <= d
     | Making l => 1 <= l <= d /\ pred l <= fst s
     | Returned => d <= fst s
     | Raised => d <= fst s
     end) /\
  (fst s < d -> number is_raised (snd s) = 0).
Lemma in_set_nth {A} (l : list A) : forall i x y, In y (set_nth l i x) -> y = x \/ In y l.
Proof. induction l as [|z l IH]; intros [|i] x y H; cbn in *; try tauto. - destruct H as [<-|H]; auto. - destruct H as [<-|H]; auto. destruct (IH _ _ _ H); auto. Qed.
Lemma step_mono d ex p : ex <= fst (step d ex p).
Proof. destruct p as [|l|l| |]; cbn [step]; try easy; [destruct (d <=? ex); easy|destruct (pred l <=? ex); easy|destruct (Nat.leb_spec l ex); cbn; lia]. Qed.
Lemma valid_step d ex0 s i : valid d ex0 s -> valid d ex0 (advance d s i).
Proof.
  intros V. assert (V' := V). destruct V as (L1 & L2 & P & R). unfold advance. destruct (nth_error (snd s) i) as [p|] eqn:NP; [|exact V'].
  assert (PP := P p (nth_error_In _ _ NP)). assert (MO := step_mono d (fst s) p). destruct (step d (fst s) p) as [ex p'] eqn:ST. cbn [fst] in MO.
  assert (B : ex <= Nat.max ex0 d /\ match p' with Started => True | Descending l => 1 <= l <= d | Making l => 1 <= l <= d /\ pred l <= ex | Returned => d <= ex | Raised => d <= ex end).
  { destruct p as [|l|l| |]; cbn [step] in ST.
    - destruct (Nat.leb_spec d (fst s)); injection ST as <- <-; lia.
    - destruct (Nat.leb_spec (pred l) (fst s)); injection ST as <- <-; lia.
    - destruct (Nat.leb_spec l (fst s)); destruct (Nat.eqb_spec l d); injection ST as <- <-; lia.
    - injection ST as <- <-. lia.
    - injection ST as <- <-. lia. }
  destruct B as [B1 B2]. split; [cbn; lia|]. split; [cbn; lia|]. cbn [fst snd]. split.
  - intros q I. apply in_set_nth in I as [->|I]; [exact B2|]. specialize (P q I). destruct q; lia.
  - intros L. specialize (R ltac:(lia)). assert (N := number_set is_raised (snd s) i p' p NP). rewrite R in N.
    assert (is_raised p' = false). { destruct p'; try easy. lia. } rewrite H in N. cbn in N. lia.
Qed.
Lemma valid_fresh d ex n : valid d ex (fresh ex n).
Proof.
  split; [easy|]. split; [cbn; lia|]. cbn [fresh fst snd]. split.
  - intros p I. apply repeat_spec in I as ->. exact I.
  - intros _. clear. unfold number. induction n; cbn; auto.
Qed.
Lemma valid_execute d ex n m : valid d ex (execute d (fresh ex n) m).
Proof. induction m as [|i m IH] using rev_ind; [apply valid_fresh|]. rewrite execute_snoc. now apply valid_step. Qed.
Lemma execute_length d m : forall s, length (snd (execute d s m)) = length (snd s).
Proof.
  induction m as [|i m IH] using rev_ind; intros s; [easy|]. rewrite execute_snoc. unfold advance. destruct (nth_error _ i) as [p|]; [|apply IH].
  destruct (step _ _ p) as [ex p']. cbn [snd]. now rewrite set_nth_length.
Qed.

Lemma number_none f ps : (forall p, In p ps -> f p = false) -> number f ps = 0.
Proof. unfold number. induction ps as [|p ps IH]; intros H; [easy|]. cbn [filter]. rewrite (H p) by now left. apply IH. intros; apply H; now right. Qed.

(** If the directory exists, nobody raises. *)
Theorem C64_exists : forall d ex n m, d <= ex -> number is_raised (snd (execute d (fresh ex n) m)) = 0.
Proof.
  intros d ex n m L.
  assert (I : fst (execute d (fresh ex n) m) = ex /\ forall p, In p (snd (execute d (fresh ex n) m)) -> p = Started \/ p = Returned).
  { induction m as [|i m IH] using rev_ind; [split; [easy|]; intros p H; apply repeat_spec in H; now left|]. rewrite execute_snoc. destruct IH as [E P].
    unfold advance. destruct (nth_error _ i) as [p|] eqn:NP; [|now split]. rewrite E. apply nth_error_In in NP. destruct (P p NP) as [->| ->]; cbn [step fst snd].
    - apply Nat.leb_le in L. rewrite L. cbn [fst snd]. split; [easy|]. intros q H. apply in_set_nth in H as [->|H]; auto.
    - split; [easy|]. intros q H. apply in_set_nth in H as [->|H]; auto. }
  destruct I as [_ P]. apply number_none. intros p H. destruct (P p H) as [-> | ->]; reflexivity.
Qed.

(** Otherwise, of the calls that looked before the directory appeared all but one raise NameError. *)
Lemma after d ex0 m : forall s, valid d ex0 s -> d <= fst s ->
  let s' := execute d s m in
  d <= fst s' /\ number is_returned (snd s) + number is_started (snd s) = number is_returned (snd s') + number is_started (snd s').
Proof.
  induction m as [|i m IH]; intros s V L; [easy|]. cbn [execute fold_left]. fold (execute d (advance d s i) m).
  assert (V' := valid_step d ex0 s i V). assert (K : d <= fst (advance d s i) /\ number is_returned (snd s) + number is_started (snd s) =
    number is_returned (snd (advance d s i)) + number is_started (snd (advance d s i))).
  { unfold advance. destruct (nth_error (snd s) i) as [p|] eqn:NP; [|easy]. assert (P := proj1 (proj2 (proj2 V)) p (nth_error_In _ _ NP)).
    destruct (step d (fst s) p) as [ex p'] eqn:ST. cbn [fst snd].
    assert (N1 := number_set is_returned (snd s) i p' p NP). assert (N2 := number_set is_started (snd s) i p' p NP).
    destruct p as [|l|l| |]; cbn [step] in ST.
    - apply Nat.leb_le in L as L'. rewrite L' in ST. injection ST as <- <-. cbn in N1, N2. lia.
    - destruct (pred l <=? fst s); injection ST as <- <-; cbn in N1, N2; lia.
    - replace (l <=? fst s) with true in ST by (symmetry; apply Nat.leb_le; lia). destruct (l =? d); injection ST as <- <-; cbn in N1, N2; lia.
    - injection ST as <- <-. cbn in N1, N2. lia.
    - injection ST as <- <-. cbn in N1, N2. lia. }
  destruct K as [K1 K2]. destruct (IH _ V' K1) as [J1 J2]. split; [exact J1|]. lia.
Qed.
Lemma number_total f g ps : (forall p, In p ps -> f p = negb (g p)) -> number f ps + number g ps = length ps.
Proof.
  unfold number. induction ps as [|p ps IH]; intros H; [easy|]. cbn [filter length]. specialize (IH ltac:(intros; apply H; now right)).
  rewrite (H p (or_introl eq_refl)). destruct (g p); cbn [negb length]; lia.
Qed.
Theorem C64_count : forall d ex n before i after_,
  let s := execute d (fresh ex n) before in
  fst s < d -> d <= fst (execute d s [i]) -> finished (execute d s (i :: after_)) ->
  number is_raised (snd (execute d s (i :: after_))) + 1 + number is_started (snd s) = n.
Proof.
  intros d ex n before i after_ s L1 L2 F.
  assert (V : valid d ex s) by apply valid_execute. assert (LN : length (snd s) = n) by (unfold s; rewrite execute_length; apply repeat_length).
  assert (V1 := valid_step d ex s i V). change (execute d s [i]) with (advance d s i) in L2.
  change (execute d s (i :: after_)) with (execute d (advance d s i) after_) in *.
  destruct (after d ex after_ _ V1 L2) as [_ A]. set (s' := execute d (advance d s i) after_) in *.
  (* no call has returned before the directory exists *)
  assert (R0 : number is_returned (snd s) = 0). { apply number_none. intros p I. assert (P := proj1 (proj2 (proj2 V)) p I). destruct p; try easy. lia. }
  (* the call that makes it returns *)
  assert (R1 : number is_returned (snd (advance d s i)) = 1 /\ number is_started (snd (advance d s i)) = number is_started (snd s)).
  { unfold advance in *. destruct (nth_error (snd s) i) as [p|] eqn:NP; [|lia]. assert (P := proj1 (proj2 (proj2 V)) p (nth_error_In _ _ NP)).
    destruct (step d (fst s) p) as [e p'] eqn:ST. cbn [fst snd] in *.
    assert (N1 := number_set is_returned (snd s) i p' p NP). assert (N2 := number_set is_started (snd s) i p' p NP).
    destruct p as [|l|l| |]; cbn [step] in ST.
    - destruct (Nat.leb_spec d (fst s)); injection ST as <- <-; lia.
    - destruct (pred l <=? fst s); injection ST as <- <-; lia.
    - destruct (Nat.leb_spec l (fst s)); [injection ST as <- <-; lia|]. destruct (Nat.eqb_spec l d); injection ST as <- <-; cbn in N1, N2; lia.
    - injection ST as <- <-; lia.
    - injection ST as <- <-; lia. }
  assert (S0 : number is_started (snd s') = 0). { apply number_none. intros p I. unfold finished in F. rewrite Forall_forall in F. destruct (F p I) as [-> | ->]; reflexivity. }
  assert (T : number is_raised (snd s') + number is_returned (snd s') = n).
  { rewrite number_total. - unfold s'. rewrite execute_length. unfold advance. destruct (nth_error (snd s) i); [|exact LN]. destruct (step _ _ _). cbn [snd]. now rewrite set_nth_length.
    - intros p I. unfold finished in F. rewrite Forall_forall in F. destruct (F p I) as [-> | ->]; reflexivity. }
  lia.
Qed.
(** So at least one call returns, and the directory exists. *)
Lemma appears d m : forall s, fst s < d -> d <= fst (execute d s m) -> exists before i after_, m = before ++ i :: after_ /\ fst (execute d s before) < d /\ d <= fst (execute d (execute d s before) [i]).
Proof.
  induction m as [|i m IH]; intros s L H; [cbn in H; lia|]. change (execute d s (i :: m)) with (execute d (advance d s i) m) in H.
  destruct (le_lt_dec d (fst (advance d s i))) as [G|G]; [exists [], i, m; easy|].
  destruct (IH _ G H) as (b & j & a & -> & B1 & B2). exists (i :: b), j, a. easy.
Qed.
Theorem C64_finished : forall d ex n m, 1 <= n -> finished (execute d (fresh ex n) m) ->
  d <= fst (execute d (fresh ex n) m) /\ number is_raised (snd (execute d (fresh ex n) m)) < n.
Proof.
  intros d ex n m N F. assert (V := valid_execute d ex n m). assert (D : d <= fst (execute d (fresh ex n) m)).
  { assert (LN := execute_length d m (fresh ex n)). cbn [fresh snd] in LN. rewrite repeat_length in LN.
    destruct (snd (execute d (fresh ex n) m)) as [|p l] eqn:E; [cbn in LN; lia|]. assert (P := proj1 (proj2 (proj2 V)) p). rewrite E in P. specialize (P (or_introl eq_refl)).
    unfold finished in F. rewrite E in F. inversion F as [|? ? [->| ->]]; subst; exact P. }
  split; [exact D|]. destruct (le_lt_dec d ex) as [L|L]; [rewrite C64_exists by easy; lia|].
  destruct (appears d m (fresh ex n) L D) as (b & i & a & -> & B1 & B2). rewrite execute_app in *.
  assert (C := C64_count d ex n b i a B1 B2 F). cbv zeta in C. lia.
Qed.

(** Every call finishes after at most 2 * depth + 1 of its own system calls. *)
Definition left_ (d : nat) (p : position) : nat :=
  match p with Started => 2 * d + 1 | Descending l => d + l | Making l => S d - l | _ => 0 end.
Lemma progress_each d ex n m : forall i p, nth_error (snd (execute d (fresh ex n) m)) i = Some p ->
  left_ d p = 0 \/ left_ d p + count_occ Nat.eq_dec m i <= 2 * d + 1.
Proof.
  induction m as [|j m IH] using rev_ind; intros i p NP.
  - right. cbn in NP. apply nth_error_In, repeat_spec in NP as ->. cbn. lia.
  - rewrite execute_snoc in NP. rewrite count_occ_app. cbn [count_occ]. assert (V := valid_execute d ex n m). set (s := execute d (fresh ex n) m) in *. unfold advance in NP.
    destruct (nth_error (snd s) j) as [q|] eqn:NQ.
    2:{ specialize (IH i p NP). destruct (Nat.eq_dec j i) as [->|NE]; [congruence|lia]. }
    destruct (step d (fst s) q) as [e q'] eqn:ST. cbn [snd] in NP. destruct (Nat.eq_dec j i) as [->|NE].
    + rewrite (nth_set_same _ _ _ _ NQ) in NP. injection NP as ->. specialize (IH i q NQ). assert (P := proj1 (proj2 (proj2 V)) q (nth_error_In _ _ NQ)).
      destruct q as [|l|l| |]; cbn [step left_] in *.
      * destruct (Nat.leb_spec d (fst s)); injection ST as <- <-; cbn [left_]; lia.
      * destruct (pred l <=? fst s) eqn:E; [|apply Nat.leb_gt in E]; injection ST as <- <-; cbn [left_]; lia.
      * destruct (l <=? fst s); destruct (l =? d); injection ST as <- <-; cbn [left_]; lia.
      * injection ST as <- <-. now left.
      * injection ST as <- <-. now left.
    + rewrite nth_set_other in NP by easy. specialize (IH i p NP). lia.
Qed.
Lemma progress_one d ex n m i p : nth_error (snd (execute d (fresh ex n) m)) i = Some p -> 2 * d + 1 <= count_occ Nat.eq_dec m i -> p = Returned \/ p = Raised.
Proof.
  intros NP H. assert (V := valid_execute d ex n m). assert (P := proj1 (proj2 (proj2 V)) p (nth_error_In _ _ NP)).
  assert (G := progress_each d ex n m i p NP). destruct p as [|l|l| |]; cbn [left_] in G; auto; lia.
Qed.
Theorem C64_progress : forall d ex n m, (forall i, i < n -> 2 * d + 1 <= count_occ Nat.eq_dec m i) -> finished (execute d (fresh ex n) m).
Proof.
  intros d ex n m H. unfold finished. apply Forall_forall. intros p I. apply In_nth_error in I as (i & NP). apply (progress_one d ex n m i p NP), H.
  assert (LN := execute_length d m (fresh ex n)). cbn [fresh snd] in LN. rewrite repeat_length in LN. rewrite <- LN. apply nth_error_Some. congruence.
Qed.

(** All but one may raise: everybody looks before anybody makes the directory. *)
Lemma advance_at d ex l p l' : advance d (ex, l ++ p :: l') (length l) = (fst (step d ex p), l ++ snd (step d ex p) :: l').
Proof.
  unfold advance. cbn [fst snd]. rewrite nth_error_app2, Nat.sub_diag by lia. cbn [nth_error]. destruct (step d ex p) as [e q]. cbn [fst snd]. f_equal.
  induction l as [|x l IH]; [easy|]. cbn. now rewrite IH.
Qed.
Theorem C64_worst : forall d ex n, ex < d -> 1 <= n -> exists m, finished (execute d (fresh ex n) m) /\
  number is_raised (snd (execute d (fresh ex n) m)) = n - 1.
Proof.
  intros d ex n L N.
  (* everybody looks *)
  assert (LOOK : execute d (fresh ex n) (seq 0 n) = (ex, repeat (Descending d) n)).
  { assert (G : forall k j, execute d (ex, repeat (Descending d) j ++ repeat Started k) (seq j k) = (ex, repeat (Descending d) (j + k))).
    { induction k as [|k IH]; intros j; [cbn; now rewrite app_nil_r, Nat.add_0_r|]. cbn [seq execute fold_left repeat].
      assert (E := advance_at d ex (repeat (Descending d) j) Started (repeat Started k)). rewrite repeat_length in E. cbn [repeat] in *. rewrite E. clear E. cbn [step].
      replace (d <=? ex) with false by (symmetry; apply Nat.leb_gt; lia). cbn [fst snd].
      replace (repeat (Descending d) j ++ Descending d :: repeat Started k) with (repeat (Descending d) (S j) ++ repeat Started k)
        by (cbn [repeat]; now rewrite repeat_cons, <- app_assoc). rewrite <- plus_n_Sm. apply (IH (S j)). }
    exact (G n 0). }
  set (rest := concat (map (fun i => repeat i (2 * d + 1)) (seq 0 n))).
  assert (FIN : finished (execute d (fresh ex n) (seq 0 n ++ rest))).
  { apply C64_progress. intros i Li. rewrite count_occ_app.
    assert (2 * d + 1 <= count_occ Nat.eq_dec rest i); [|lia]. unfold rest.
    assert (G : forall l, In i l -> 2 * d + 1 <= count_occ Nat.eq_dec (concat (map (fun i => repeat i (2 * d + 1)) l)) i).
    { induction l as [|x l IH]; intros I; [easy|]. cbn [map concat]. rewrite count_occ_app. destruct I as [->|I]; [rewrite count_occ_repeat_eq by easy; lia|]. specialize (IH I). lia. }
    apply G, in_seq. lia. }
  exists (seq 0 n ++ rest). split; [exact FIN|].
  assert (D := proj1 (C64_finished d ex n _ N FIN)).
  assert (D' : d <= fst (execute d (ex, repeat (Descending d) n) rest)) by (rewrite <- LOOK, <- execute_app; exact D).
  destruct (appears d rest (ex, repeat (Descending d) n) L D') as (b & i & a & E & B1 & B2). rewrite <- LOOK in B1, B2. rewrite <- (execute_app d _ _ b) in B1, B2.
  rewrite E, app_assoc, execute_app in FIN |- *.
  assert (C := C64_count d ex n (seq 0 n ++ b) i a B1 B2 FIN). cbv zeta in C.
  assert (Z : number is_started (snd (execute d (fresh ex n) (seq 0 n ++ b))) = 0).
  { rewrite execute_app, LOOK. clear. assert (G : forall m p, In p (snd (execute d (ex, repeat (Descending d) n) m)) -> is_started p = false).
    { induction m as [|i m IH] using rev_ind; intros p I; [apply repeat_spec in I as ->; easy|]. rewrite execute_snoc in I. unfold advance in I.
      destruct (nth_error _ i) as [q|] eqn:NQ; [|auto]. apply nth_error_In, IH in NQ. destruct (step d _ q) as [e q'] eqn:ST. cbn [snd] in I. apply in_set_nth in I as [->|I]; [|auto].
      destruct q as [|l|l| |]; cbn [step] in ST; try easy.
      - destruct (pred l <=? _); injection ST as <- <-; easy.
      - destruct (l <=? _); destruct (l =? d); injection ST as <- <-; easy.
      - injection ST as <- <-; easy.
      - injection ST as <- <-; easy. }
    apply number_none. apply G. }
  lia.
Qed.
(** One call after the other: nobody raises. *)
Theorem C64_serial : forall d ex n k, 2 * d + 1 <= k ->
  let s := execute d (fresh ex n) (concat (map (fun i => repeat i k) (seq 0 n))) in
  finished s /\ number is_raised (snd s) = 0.
Proof.
  intros d ex n k K s.
  assert (FIN : finished s).
  { apply C64_progress. intros i Li.
    assert (G : forall l, In i l -> 2 * d + 1 <= count_occ Nat.eq_dec (concat (map (fun i => repeat i k) l)) i).
    { induction l as [|x l IH]; intros I; [easy|]. cbn [map concat]. rewrite count_occ_app. destruct I as [->|I]; [rewrite count_occ_repeat_eq by easy; lia|]. specialize (IH I). lia. }
    apply G, in_seq. lia. }
  split; [exact FIN|]. destruct n as [|n]; [reflexivity|].
  destruct (le_lt_dec d ex) as [L|L]; [now apply C64_exists|].
  (* the first call makes the directory while all others have not started *)
  assert (O : forall m, exists p, snd (execute d (fresh ex (S n)) (repeat 0 m)) = p :: repeat Started n).
  { induction m as [|m [p IH]]; [now exists Started|]. change (repeat 0 (S m)) with (0 :: repeat 0 m). rewrite repeat_cons, execute_snoc. unfold advance. rewrite IH. cbn [nth_error].
    destruct (step d _ p) as [e q]. cbn [snd set_nth]. now exists q. }
  assert (D : d <= fst (execute d (fresh ex (S n)) (repeat 0 k))).
  { destruct (O k) as [p E]. assert (V := valid_execute d ex (S n) (repeat 0 k)). assert (P := proj1 (proj2 (proj2 V)) p). rewrite E in P. specialize (P (or_introl eq_refl)).
    assert (F : p = Returned \/ p = Raised). { apply (progress_one d ex (S n) (repeat 0 k) 0); [now rewrite E|]. now rewrite count_occ_repeat_eq. }
    destruct F as [-> | ->]; exact P. }
  destruct (appears d (repeat 0 k) (fresh ex (S n)) L D) as (b & i & a & E & B1 & B2).
  assert (EB : b = repeat 0 (length b)). { apply Forall_eq_repeat, Forall_forall. intros x I. symmetry. apply (repeat_spec k). rewrite E. apply in_or_app. now left. }
  unfold s in *. cbn [seq map concat] in *. rewrite E in *. rewrite <- app_assoc in *. cbn [app] in *. rewrite execute_app in *.
  assert (C := C64_count d ex (S n) b i _ B1 B2 FIN). cbv zeta in C. destruct (O (length b)) as [p EP]. rewrite <- EB in EP.
  assert (ST : n <= number is_started (snd (execute d (fresh ex (S n)) b))).
  { rewrite EP. unfold number. cbn [filter]. assert (length (filter is_started (repeat Started n)) = n) by (clear; induction n; cbn; auto).
    destruct (is_started p); cbn [length]; lia. }
  lia.
Qed.

(** Three worker processes and a result directory two levels below the deepest existing one. *)
Example C64_example :
  let moves := [0; 1; 2; 0; 0; 1; 1; 0; 0; 1; 1; 2; 2; 2] in
  execute 3 (fresh 1 3) moves = (3, [Returned; Raised; Raised]) /\ finished (execute 3 (fresh 1 3) moves).
Proof. split; [reflexivity|]. unfold finished. replace (snd _) with [Returned; Raised; Raised] by reflexivity. repeat apply Forall_cons; auto. Qed.
