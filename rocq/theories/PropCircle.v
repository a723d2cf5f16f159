(** * Property C55: the incremental pipeline over all crash points and histories. *)

From Coq Require Import String Ascii List Bool Arith Lia.
From Verif Require Import Circle.
Import ListNotations.
Local Open Scope string_scope.
Local Open Scope nat_scope.

(** ** requiresUpdate *)
Definition mtime (fs : files) (p : path) (t : nat) : Prop := exists w, fs p = Some (t, w).
(** some existing input is newer than some existing output *)
Definition outdated (fs : files) (ins outs : list path) : Prop :=
  exists i o ti to, In i ins /\ In o outs /\ mtime fs i ti /\ mtime fs o to /\ to < ti.

Lemma mtimes_in fs ps t : In t (get_mtimes fs ps) <-> exists p, In p ps /\ mtime fs p t.
Proof.
  unfold get_mtimes. rewrite in_flat_map. split.
  - intros (p & I & H). exists p. split; [easy|]. destruct (fs p) as [[t' w]|] eqn:E; [|easy]. destruct H as [->|[]]. now exists w.
  - intros (p & I & w & E). exists p. split; [easy|]. rewrite E. now left.
Qed.
Lemma maximum_in l : l <> [] -> In (list_maximum l) l /\ forall x, In x l -> x <= list_maximum l.
Proof.
  induction l as [|x [|y l] IH]; intros NE; [easy| |].
  - cbn. split; [now left|]. intros z [->|[]]. lia.
  - destruct (IH ltac:(easy)) as [I M]. change (list_maximum (x :: y :: l)) with (Nat.max x (list_maximum (y :: l))). set (m := list_maximum (y :: l)) in *. split.
    + destruct (Nat.max_spec x m) as [[_ ->]|[_ ->]]; [now right|now left].
    + intros z [->|J]; [lia|]. apply M in J. lia.
Qed.
Lemma minimum_in l : l <> [] -> In (list_minimum l) l /\ forall x, In x l -> list_minimum l <= x.
Proof.
  induction l as [|x [|y l] IH]; intros NE; [easy| |].
  - cbn. split; [now left|]. intros z [->|[]]. lia.
  - destruct (IH ltac:(easy)) as [I M]. change (list_minimum (x :: y :: l)) with (Nat.min x (list_minimum (y :: l))). set (m := list_minimum (y :: l)) in *. split.
    + destruct (Nat.min_spec x m) as [[_ ->]|[_ ->]]; [now left|now right].
    + intros z [->|J]; [lia|]. apply M in J. lia.
Qed.
Theorem C55_requires_update : forall fs ins outs, requires_update fs ins outs = true <->
  (forall o, In o outs -> fs o = None) \/ outdated fs ins outs.
Proof.
  intros fs ins outs. unfold requires_update. rewrite orb_true_iff, andb_true_iff, Nat.eqb_eq, !Nat.ltb_lt.
  set (its := get_mtimes fs ins). set (ots := get_mtimes fs outs).
  assert (NO : ots = [] <-> forall o, In o outs -> fs o = None).
  { split.
    - intros E o I. destruct (fs o) as [[t w]|] eqn:F; [|easy]. exfalso. assert (J : In t ots) by (apply mtimes_in; exists o; split; [easy|now exists w]). rewrite E in J. easy.
    - intros N. destruct ots as [|t ts] eqn:E; [easy|]. exfalso. assert (J : In t ots) by (rewrite E; now left). apply mtimes_in in J as (p & I & w & F). rewrite (N p I) in F. discriminate. }
  split.
  - intros [L|[L1 L2]]; [left; apply NO; now destruct ots|]. destruct (Nat.eq_dec (List.length ots) 0) as [Z|NZ]; [left; apply NO; now destruct ots|]. right.
    destruct (maximum_in its) as [Im _]; [now destruct its|]. destruct (minimum_in ots) as [Io _]; [now destruct ots|].
    apply mtimes_in in Im as (i & Ii & Mi). apply mtimes_in in Io as (o & Io & Mo). now exists i, o, (list_maximum its), (list_minimum ots).
  - intros [N|(i & o & ti & to & Ii & Io & Mi & Mo & L)]; [left; apply NO in N; now rewrite N|]. right.
    assert (Ji : In ti its) by (apply mtimes_in; now exists i). assert (Jo : In to ots) by (apply mtimes_in; now exists o).
    split; [destruct its; [easy|cbn; lia]|].
    destruct (maximum_in its) as [_ Mx]; [now destruct its|]. destruct (minimum_in ots) as [_ Mn]; [now destruct ots|]. specialize (Mx _ Ji). specialize (Mn _ Jo). lia.
Qed.
Lemma update_false fs ins outs : requires_update fs ins outs = false <-> (exists o, In o outs /\ fs o <> None) /\ ~ outdated fs ins outs.
Proof.
  assert (D : forall l, (exists o, In o l /\ fs o <> None) \/ forall o, In o l -> fs o = None).
  { induction l as [|x l [(o & I & N)|N]]; [right; easy|left; exists o; split; [now right|easy]|]. destruct (fs x) eqn:E; [left; exists x; split; [now left|congruence]|].
    right. intros o [->|I]; [easy|now apply N]. }
  rewrite <- not_true_iff_false, C55_requires_update. split.
  - intros H. destruct (D outs) as [E|N]; [|exfalso; apply H; now left]. split; [easy|]. intros O. apply H. now right.
  - intros [(o & I & N) O] [A|A]; [now apply N, A|easy].
Qed.

(** ** Steps *)
(** the state of the files of a step decides whether it is executed *)
Lemma update_ext fs fs' ins outs : (forall p, In p ins \/ In p outs -> fs' p = fs p) -> requires_update fs' ins outs = requires_update fs ins outs.
Proof.
  intros E. unfold requires_update. assert (M : forall ps, (forall p, In p ps -> fs' p = fs p) -> get_mtimes fs' ps = get_mtimes fs ps).
  { induction ps as [|p ps IH]; intros H; [easy|]. unfold get_mtimes in *. cbn. rewrite (H p) by now left. rewrite IH; [easy|]. intros; apply H; now right. }
  rewrite !M; [easy| |]; intros; apply E; auto.
Qed.
Lemma writes_other outs s s' p : writes outs s s' -> ~ In p outs -> fst s' p = fst s p.
Proof.
  induction 1 as [s|fs t t' s L W IH|fs t q w s I W IH]; intros N; [easy|now apply IH|]. rewrite IH by easy. cbn. unfold write_file.
  destruct (String.eqb_spec p q) as [->|]; [now destruct N|easy].
Qed.
Lemma writes_clock outs s s' : writes outs s s' -> snd s <= snd s'.
Proof. induction 1; cbn in *; lia. Qed.
(** every file is at most as new as the clock *)
Definition sane (s : state) : Prop := forall p t, mtime (fst s) p t -> t <= snd s.
Lemma writes_sane outs s s' : writes outs s s' -> sane s -> sane s'.
Proof.
  induction 1 as [s|fs t t' s L W IH|fs t q w s I W IH]; intros S; [easy| |].
  - apply IH. intros p u M. cbn in *. specialize (S p u M). cbn in S. lia.
  - apply IH. intros p u (w' & M). cbn in *. unfold write_file in M. destruct (String.eqb_spec p q) as [->|]; [injection M as -> _; lia|].
    apply (S p u). now exists w'.
Qed.
(** what was written has a time not before the start *)
Lemma writes_new outs s s' p : writes outs s s' -> fst s' p = fst s p \/ exists t w, fst s' p = Some (t, w) /\ snd s <= t.
Proof.
  induction 1 as [s|fs t t' s L W IH|fs t q w s I W IH]; [now left| |].
  - destruct IH as [E|(u & w & E & B)]; [now left|]. right. exists u, w. cbn in *. split; [easy|lia].
  - destruct IH as [E|(u & w' & E & B)]; [|right; exists u, w'; now split]. cbn in E. unfold write_file in E. destruct (String.eqb_spec p q) as [->|]; [|now left].
    right. exists t, w. cbn. split; [easy|lia].
Qed.

(** the inputs and outputs that the earlier items use are not written by later ones *)
Definition outputs_of (i : item) : list path := match i with Make _ outs => outs | Load _ => [] end.
Definition uses (i : item) : list path := match i with Make ins outs => ins ++ outs | Load ps => ps end.
Fixpoint ordered (is : list item) : Prop :=
  match is with
  | [] => True
  | i :: is' =>
      match i with Make ins outs => forall p, In p outs -> ~ In p ins | Load _ => True end /\
      (forall j p, In j is' -> In p (outputs_of j) -> ~ In p (uses i)) /\ ordered is'
  end.
Lemma run_other is s ex c s' p : run_items is s ex c s' -> (forall j, In j is -> ~ In p (outputs_of j)) -> fst s' p = fst s p.
Proof.
  induction 1 as [s|is s|ins outs is s ex c s' U R IH|ins outs is s s1 ex c s' U S R IH|ins outs is s s1 U EI W|ps is s ex c s' E R IH]; intros N; try easy.
  - apply IH. intros j I. apply N. now right.
  - rewrite IH by (intros j I; apply N; now right). destruct S as (_ & W & _). eapply writes_other; [exact W|]. apply (N (Make ins outs)). now left.
  - eapply writes_other; [exact W|]. apply (N (Make ins outs)). now left.
  - apply IH. intros j I. apply N. now right.
Qed.
Lemma run_sane is s ex c s' : run_items is s ex c s' -> sane s -> sane s'.
Proof.
  induction 1 as [s|is s|ins outs is s ex c s' U R IH|ins outs is s s1 ex c s' U S R IH|ins outs is s s1 U EI W|ps is s ex c s' E R IH]; intros H; auto.
  - apply IH. destruct S as (_ & W & _). eapply writes_sane; eauto.
  - eapply writes_sane; eauto.
Qed.
Lemma success_fresh ins outs s s' : sane s -> (forall p, In p outs -> ~ In p ins) -> outs <> [] -> succeeds ins outs s s' -> requires_update (fst s') ins outs = false.
Proof.
  intros S D NE (_ & W & F). rewrite Forall_forall in F. apply update_false. split.
  - destruct outs as [|o outs]; [easy|]. exists o. split; [now left|]. destruct (F o) as (t & E & _); [now left|]. congruence.
  - intros (i & o & ti & to & Ii & Io & (wi & Mi) & (wo & Mo) & L). destruct (F o Io) as (t & E & B). rewrite E in Mo. injection Mo as -> _.
    rewrite (writes_other _ _ _ i W) in Mi by (intros J; now apply (D i)). specialize (S i ti ltac:(now exists wi)). lia.
Qed.

(** *** A completed run *)
Definition up_to_date (fs : files) (i : item) : Prop :=
  match i with Make ins outs => requires_update fs ins outs = false | Load ps => exist fs ps end.
Definition nonempty (i : item) : Prop := match i with Make _ outs => outs <> [] | Load _ => True end.
Lemma up_to_date_ext fs fs' i : (forall p, In p (uses i) -> fs' p = fs p) -> up_to_date fs i -> up_to_date fs' i.
Proof.
  intros E. destruct i as [ins outs|ps]; cbn.
  - intros U. rewrite (update_ext fs); [easy|]. intros p [I|I]; apply E, in_or_app; auto.
  - unfold exist. rewrite !Forall_forall. intros F p I. rewrite (E p I). now apply F.
Qed.
Lemma completed_up_to_date is s ex c s' : run_items is s ex c s' -> c = true -> sane s -> ordered is -> Forall nonempty is -> Forall (up_to_date (fst s')) is.
Proof.
  induction 1 as [s|is s|ins outs is s ex c s' U R IH|ins outs is s s1 ex c s' U S R IH|ins outs is s s1 U EI W|ps is s ex c s' E R IH]; intros C H O NE; try discriminate C.
  - constructor.
  - inversion NE as [|? ? NE1 NE2]; subst. destruct O as (D & L & O). constructor; [|auto].
    apply (up_to_date_ext (fst s)); [|exact U]. intros p I. eapply run_other; [exact R|]. intros j J K. now apply (L j p).
  - inversion NE as [|? ? NE1 NE2]; subst. destruct O as (D & L & O).
    assert (H1 : sane s1) by (destruct S as (_ & W & _); eapply writes_sane; eauto). constructor; [|auto].
    apply (up_to_date_ext (fst s1)); [|exact (success_fresh _ _ _ _ H D NE1 S)]. intros p I. eapply run_other; [exact R|]. intros j J K. now apply (L j p).
  - inversion NE as [|? ? NE1 NE2]; subst. destruct O as (_ & L & O). constructor; [|auto].
    apply (up_to_date_ext (fst s)); [|exact E]. intros p I. eapply run_other; [exact R|]. intros j J K. now apply (L j p).
Qed.
Lemma up_to_date_idle is s ex c s' : run_items is s ex c s' -> Forall (up_to_date (fst s)) is -> s' = s /\ Forall (fun e => e = false) ex.
Proof.
  induction 1 as [s|is s|ins outs is s ex c s' U R IH|ins outs is s s1 ex c s' U S R IH|ins outs is s s1 U EI W|ps is s ex c s' E R IH]; intros F.
  - split; [easy|constructor].
  - split; [easy|constructor].
  - inversion F; subst. destruct (IH ltac:(easy)). split; [easy|]. now constructor.
  - inversion F; subst. cbn in *. congruence.
  - inversion F; subst. cbn in *. congruence.
  - inversion F; subst. auto.
Qed.
Lemma up_to_date_runs is s : Forall (up_to_date (fst s)) is -> exists ex, run_items is s ex true s.
Proof.
  induction is as [|i is IH]; intros F; [exists []; constructor|]. inversion F as [|? ? U F']; subst. destruct (IH F') as (ex & R).
  destruct i as [ins outs|ps]; cbn in U.
  - exists (false :: ex). now constructor.
  - exists ex. now constructor.
Qed.

(** *** The script's steps *)
Lemma append_inj a b c : (a ++ b = a ++ c -> b = c)%string.
Proof. induction a as [|x a IH]; cbn; intros E; [easy|]. injection E as E. now apply IH. Qed.
Lemma length_app a b : String.length (a ++ b)%string = String.length a + String.length b.
Proof. induction a; cbn; auto. Qed.
Lemma aligned_not s a : 12 <= String.length s -> substring (String.length s - 12) 12 s <> "_aligned.csv" -> (a ++ "_aligned.csv" <> s)%string.
Proof.
  intros L H <-. apply H. clear. rewrite length_app. cbn [String.length].
  replace (String.length a + 12 - 12) with (String.length a) by lia. induction a as [|x a IH]; [reflexivity|]. exact IH.
Qed.
Lemma aligned_short s a : String.length s < 12 -> (a ++ "_aligned.csv" <> s)%string.
Proof. intros L <-. rewrite length_app in L. cbn in L. lia. Qed.
Lemma aligned_inj g a b : a_aligned g a = a_aligned g b <-> a = b.
Proof.
  split; [|now intros ->]. unfold a_aligned. intros E. apply append_inj, append_inj in E.
  revert b E. induction a as [|x a IH]; intros [|y b] E; cbn in E; [easy| | |].
  - exfalso. assert (L := f_equal String.length E). cbn in L. rewrite length_app in L. cbn in L. lia.
  - exfalso. assert (L := f_equal String.length E). cbn in L. rewrite length_app in L. cbn in L. lia.
  - injection E as -> E. f_equal. now apply IH.
Qed.
(** the files of a group *)
Definition group_files (group : string) (a b : string) : list path :=
  [a_aligned group a; a_aligned group b; time_offset_file group; pose_file group; init_guess_file group; calib_file group].
Ltac refute E :=
  unfold a_aligned, time_offset_file, pose_file, init_guess_file, calib_file in E; try symmetry in E;
  first [discriminate E | apply append_inj in E; first [discriminate E | apply append_inj in E; first [discriminate E |
    revert E; first [apply aligned_short; cbn; lia | apply aligned_not; [cbn; lia|discriminate]] |
    symmetry in E; revert E; first [apply aligned_short; cbn; lia | apply aligned_not; [cbn; lia|discriminate]]]]].
Lemma ordered_two g a_in b_in a b : ~ In a_in (group_files g a b) -> ~ In b_in (group_files g a b) -> ordered (calibrate_two g a_in b_in a b).
Proof.
  intros NA NB. unfold group_files in NA, NB. cbn [In] in NA, NB.
  cbn [calibrate_two ordered outputs_of uses]. repeat split; trivial.
  all: try (intros j p [<-|[<-|[<-|[<-|[]]]]]; cbn [outputs_of uses In app]; intros I1 I2).
  all: try (intros j p [<-|[<-|[<-|[]]]]; cbn [outputs_of uses In app]; intros I1 I2).
  all: try (intros j p [<-|[<-|[]]]; cbn [outputs_of uses In app]; intros I1 I2).
  all: try (intros j p [<-|[]]; cbn [outputs_of uses In app]; intros I1 I2).
  all: try (intros p I1 I2; cbn [In] in I1, I2).
  all: repeat match goal with H : _ \/ _ |- _ => destruct H | H : False |- _ => destruct H end; subst; try tauto.
  all: try match goal with E : _ = _ |- False => refute E end.
  all: intros ? ? [].
Qed.
Lemma ordered_app l1 l2 : ordered l1 -> ordered l2 -> (forall i j p, In i l1 -> In j l2 -> In p (outputs_of j) -> ~ In p (uses i)) -> ordered (l1 ++ l2).
Proof.
  induction l1 as [|x l1 IH]; intros O1 O2 C; [exact O2|]. destruct O1 as (D & L & O1). cbn [app ordered]. split; [exact D|]. split.
  - intros j p I. apply in_app_or in I as [I|I]; [now apply L|]. apply (C x j p); [now left|easy].
  - apply IH; [easy|easy|]. intros i j p I. apply C. now right.
Qed.
Lemma outputs_two g a_in b_in a b i p : In i (calibrate_two g a_in b_in a b) -> In p (outputs_of i) -> In p (group_files g a b).
Proof. intros [<-|[<-|[<-|[<-|[<-|[]]]]]]; cbn [outputs_of group_files In]; tauto. Qed.
Lemma uses_two g a_in b_in a b i p : In i (calibrate_two g a_in b_in a b) -> In p (uses i) -> p = a_in \/ p = b_in \/ In p (group_files g a b).
Proof. intros [<-|[<-|[<-|[<-|[<-|[]]]]]]; cbn [uses group_files In app]; intuition auto. Qed.
Lemma files_two g a_in b_in a b p : In p (group_files g a b) -> exists i, In i (calibrate_two g a_in b_in a b) /\ In p (outputs_of i).
Proof.
  intros I. cbn [group_files In] in I. destruct I as [<-|[<-|[<-|[<-|[<-|[<-|[]]]]]]];
    [eexists; split; [now left|]|eexists; split; [now left|]|eexists; split; [now left|]|eexists; split; [right; now left|]|eexists; split; [right; right; now left|]|eexists; split; [right; right; right; now left|]];
    cbn; tauto.
Qed.
(** the given pose files are not files the script writes *)
Definition foreign (input : list path) : Prop :=
  forall i p, In i (script input) -> In p input -> ~ In p (outputs_of i).
Lemma groups_disjoint g h a b c d p : (exists x y s s', g = String x s /\ h = String y s' /\ x <> y) -> In p (group_files g a b) -> In p (group_files h c d) -> False.
Proof.
  intros (x & y & s & s' & -> & -> & NE) I J. cbn [group_files In] in I, J.
  repeat match goal with H : _ \/ _ |- _ => destruct H | H : False |- _ => destruct H end; subst;
    match goal with E : _ = _ |- False => unfold a_aligned, time_offset_file, pose_file, init_guess_file, calib_file in E; cbn [append] in E; injection E as E _; now apply NE end.
Qed.
Lemma script_ordered input : foreign input -> ordered (script input).
Proof.
  intros F. unfold foreign, script in *. destruct input as [|a [|b [|c [|d l]]]]; try exact I.
  - apply ordered_two; intros J; apply (files_two _ a b) in J as (i & Ii & Ji); apply (F i _ Ii) in Ji; cbn; auto.
  - assert (F1 : forall i p, In i (calibrate_two "0_1" a b (name_of a) (name_of b)) -> In p [a; b; c] -> ~ In p (outputs_of i)) by (intros i p Ii; apply F; apply in_or_app; auto).
    assert (F2 : forall i p, In i (calibrate_two "1_2" b c (name_of b) (name_of c)) -> In p [a; b; c] -> ~ In p (outputs_of i)) by (intros i p Ii; apply F; apply in_or_app; right; apply in_or_app; auto).
    assert (F3 : forall i p, In i (calibrate_two "2_0" c a (name_of c) (name_of a)) -> In p [a; b; c] -> ~ In p (outputs_of i)) by (intros i p Ii; apply F; apply in_or_app; right; apply in_or_app; auto).
    assert (X12 : forall i j p, In i (calibrate_two "0_1" a b (name_of a) (name_of b)) -> In j (calibrate_two "1_2" b c (name_of b) (name_of c)) -> In p (outputs_of j) -> ~ In p (uses i)).
    { intros i j p Ii Ij Ip U. destruct (uses_two _ _ _ _ _ _ _ Ii U) as [->|[->|G]]; [apply (F2 j a); cbn; auto|apply (F2 j b); cbn; auto|].
      eapply groups_disjoint; [|exact G|eapply outputs_two; eauto]. now exists "0"%char, "1"%char, "_1", "_2". }
    assert (X13 : forall i j p, In i (calibrate_two "0_1" a b (name_of a) (name_of b)) -> In j (calibrate_two "2_0" c a (name_of c) (name_of a)) -> In p (outputs_of j) -> ~ In p (uses i)).
    { intros i j p Ii Ij Ip U. destruct (uses_two _ _ _ _ _ _ _ Ii U) as [->|[->|G]]; [apply (F3 j a); cbn; auto|apply (F3 j b); cbn; auto|].
      eapply groups_disjoint; [|exact G|eapply outputs_two; eauto]. now exists "0"%char, "2"%char, "_1", "_0". }
    assert (X23 : forall i j p, In i (calibrate_two "1_2" b c (name_of b) (name_of c)) -> In j (calibrate_two "2_0" c a (name_of c) (name_of a)) -> In p (outputs_of j) -> ~ In p (uses i)).
    { intros i j p Ii Ij Ip U. destruct (uses_two _ _ _ _ _ _ _ Ii U) as [->|[->|G]]; [apply (F3 j b); cbn; auto|apply (F3 j c); cbn; auto|].
      eapply groups_disjoint; [|exact G|eapply outputs_two; eauto]. now exists "1"%char, "2"%char, "_2", "_0". }
    apply ordered_app; [|apply ordered_app|].
    + apply ordered_two; intros J; apply (files_two _ a b) in J as (i & Ii & Ji); apply (F1 i _ Ii) in Ji; cbn; auto.
    + apply ordered_two; intros J; apply (files_two _ b c) in J as (i & Ii & Ji); apply (F2 i _ Ii) in Ji; cbn; auto.
    + apply ordered_two; intros J; apply (files_two _ c a) in J as (i & Ii & Ji); apply (F3 i _ Ii) in Ji; cbn; auto.
    + exact X23.
    + intros i j p Ii Ij. apply in_app_or in Ij as [Ij|Ij]; [now apply X12|now apply X13].
Qed.
Lemma script_nonempty input : Forall nonempty (script input).
Proof. destruct input as [|a [|b [|c [|d l]]]]; cbn; repeat (apply Forall_cons; [cbn; easy|]); constructor. Qed.

(** ** Runs that complete *)
(** After a completed run nothing is out of date, and every output exists, except that of a step with
    several outputs only those are sure to exist that did before, unless none or all of them did. *)
Theorem C55_completed : forall input s ex s', foreign input -> sane s -> run_items (script input) s ex true s' ->
  forall ins outs, In (Make ins outs) (script input) ->
    ~ outdated (fst s') ins outs /\ (exists o, In o outs /\ fst s' o <> None) /\
    ((forall o, In o outs -> fst s o <> None) \/ (forall o, In o outs -> fst s o = None) -> exist (fst s') outs).
Proof.
  intros input s ex s' F S R. assert (O := script_ordered _ F). assert (NE := script_nonempty input).
  assert (U := completed_up_to_date _ _ _ _ _ R eq_refl S O NE). rewrite Forall_forall in U.
  intros ins outs I. assert (UD := U _ I). cbn in UD. apply update_false in UD as [E ND]. split; [exact ND|]. split; [exact E|].
  intros AN. assert (G : forall is s ex c s', run_items is s ex c s' -> c = true -> ordered is -> In (Make ins outs) is ->
    (forall o, In o outs -> fst s o <> None) \/ (forall o, In o outs -> fst s o = None) -> exist (fst s') outs).
  { clear. induction 1 as [s|is s|ins' outs' is s ex c s' U R IH|ins' outs' is s s1 ex c s' U S R IH|ins' outs' is s s1 U EI W|ps is s ex c s' E R IH]; intros C O I AN; try discriminate C.
    - easy.
    - destruct O as (D & L & O). destruct I as [E|I].
      + injection E as -> ->. apply update_false in U as [(o & Io & No) _]. destruct AN as [A|N]; [|exfalso; now apply No, N].
        unfold exist. rewrite Forall_forall. intros p Ip. rewrite (run_other _ _ _ _ _ p R); [now apply A|]. intros j J K. apply (L j p J K). cbn. apply in_or_app. now right.
      + apply IH; auto.
    - destruct O as (D & L & O). destruct I as [E|I].
      + injection E as -> ->. destruct S as (_ & _ & FA). rewrite Forall_forall in FA. unfold exist. rewrite Forall_forall. intros p Ip.
        rewrite (run_other _ _ _ _ _ p R). { destruct (FA p Ip) as (t & -> & _). discriminate. }
        intros j J K. apply (L j p J K). cbn. apply in_or_app. now right.
      + apply IH; auto. assert (P : forall o, In o outs -> fst s1 o = fst s o).
        { intros o Io. destruct S as (_ & W & _). apply (writes_other _ _ _ _ W). intros J. apply (L (Make ins outs) o I Io). cbn. apply in_or_app. now right. }
        destruct AN as [A|N]; [left|right]; intros o Io; rewrite P by easy; auto.
    - destruct O as (_ & L & O). destruct I as [E'|I]; [discriminate|]. apply IH; auto. }
  eapply G; eauto.
Qed.
(** A second run does nothing, and completes. *)
Theorem C55_idempotent : forall input s ex s', foreign input -> sane s -> run_items (script input) s ex true s' ->
  (forall ex2 c2 s2, run_items (script input) s' ex2 c2 s2 -> s2 = s' /\ Forall (fun e => e = false) ex2) /\
  exists ex2, run_items (script input) s' ex2 true s'.
Proof.
  intros input s ex s' F S R.
  assert (U := completed_up_to_date _ _ _ _ _ R eq_refl S (script_ordered _ F) (script_nonempty input)). split.
  - intros ex2 c2 s2 R2. eapply up_to_date_idle; eauto.
  - now apply up_to_date_runs.
Qed.
(** The same, file by file: what each file of a pair is computed from (output, input). *)
Definition groups (input : list path) : list (string * path * path) :=
  match input with
  | [a; b] => [("test", a, b)]
  | [a; b; c] => [("0_1", a, b); ("1_2", b, c); ("2_0", c, a)]
  | _ => []
  end.
Definition computed_from (g : string) (a b : path) : list (path * path) :=
  let aligned x := g ++ "/" ++ name_of x ++ "_aligned.csv" in
  [(aligned a, a); (aligned a, b); (aligned b, a); (aligned b, b); (g ++ "/time_offset.csv", a); (g ++ "/time_offset.csv", b);
   (g ++ "/pose.csv", aligned a); (g ++ "/pose.csv", aligned b);
   (g ++ "_init_guess.json", g ++ "/time_offset.csv"); (g ++ "_init_guess.json", g ++ "/pose.csv");
   (g ++ ".json", a); (g ++ ".json", b); (g ++ ".json", g ++ "_init_guess.json")].
Theorem C55_current : forall input s ex s', foreign input -> sane s -> run_items (script input) s ex true s' ->
  forall g a b, In (g, a, b) (groups input) ->
    (forall o i to ti, In (o, i) (computed_from g a b) -> mtime (fst s') o to -> mtime (fst s') i ti -> ti <= to) /\
    fst s' (g ++ "/pose.csv") <> None /\ fst s' (g ++ "_init_guess.json") <> None /\ fst s' (g ++ ".json") <> None.
Proof.
  intros input s ex s' F S R g a b IG. assert (C := C55_completed _ _ _ _ F S R).
  assert (K : forall i, In i (calibrate_two g a b (name_of a) (name_of b)) -> In i (script input)).
  { intros i I. destruct input as [|x [|y [|z [|? ?]]]]; cbn [groups In] in IG; try easy; unfold script.
    - destruct IG as [[= <- <- <-]|[]]. exact I.
    - rewrite !in_app_iff. destruct IG as [[= <- <- <-]|[[= <- <- <-]|[[= <- <- <-]|[]]]]; auto. }
  assert (M : forall o i to ti, In (o, i) (computed_from g a b) ->
    (exists ins outs, In (Make ins outs) (calibrate_two g a b (name_of a) (name_of b)) /\ In i ins /\ In o outs) ->
    mtime (fst s') o to -> mtime (fst s') i ti -> ti <= to).
  { intros o i to ti _ (ins & outs & I & Ii & Io) Mo Mi. destruct (C _ _ (K _ I)) as (ND & _). destruct (le_lt_dec ti to) as [|L]; [easy|].
    exfalso. apply ND. exists i, o, ti, to. auto. }
  split; [|split; [|split]].
  - intros o i to ti I. apply M; [exact I|]. cbn [computed_from In] in I.
    assert (E : forall ins outs, In (Make ins outs) (calibrate_two g a b (name_of a) (name_of b)) -> In i ins -> In o outs ->
      exists ins outs, In (Make ins outs) (calibrate_two g a b (name_of a) (name_of b)) /\ In i ins /\ In o outs) by eauto.
    repeat (destruct I as [[= <- <-]|I]); try destruct I;
      first [ eapply E; [left; reflexivity|cbn; tauto|cbn; tauto]
            | eapply E; [right; left; reflexivity|cbn; tauto|cbn; tauto]
            | eapply E; [right; right; left; reflexivity|cbn; tauto|cbn; tauto]
            | eapply E; [right; right; right; left; reflexivity|cbn; tauto|cbn; tauto] ].
  - destruct (C _ _ (K (Make [a_aligned g (name_of a); a_aligned g (name_of b)] [pose_file g]) ltac:(cbn; auto))) as (_ & (o & [<-|[]] & E) & _). exact E.
  - destruct (C _ _ (K (Make [time_offset_file g; pose_file g] [init_guess_file g]) ltac:(cbn; auto))) as (_ & (o & [<-|[]] & E) & _). exact E.
  - destruct (C _ _ (K (Make [a; b; init_guess_file g] [calib_file g]) ltac:(cbn; auto))) as (_ & (o & [<-|[]] & E) & _). exact E.
Qed.
(** So a completed run may leave an output missing. *)
Theorem C55_all_present_refuted : exists input s ex s', foreign input /\ sane s /\ run_items (script input) s ex true s' /\
  exists ins outs o, In (Make ins outs) (script input) /\ In o outs /\ fst s' o = None.
Proof.
  set (fs := fun p : path => if String.eqb p "test/time_offset.csv" then None else if (String.eqb p "a.csv" || String.eqb p "b.csv")%bool then Some (0, true) else Some (1, true)).
  assert (FO : foreign ["a.csv"; "b.csv"]).
  { unfold foreign. cbn. intros i p [<-|[<-|[<-|[<-|[<-|[]]]]]] [<-|[<-|[]]]; cbn; intuition discriminate. }
  exists ["a.csv"; "b.csv"], (fs, 1). destruct (up_to_date_runs (script ["a.csv"; "b.csv"]) (fs, 1)) as (ex & R).
  { do 4 (apply Forall_cons; [reflexivity|]). apply Forall_cons; [|apply Forall_nil]. cbn. unfold exist. repeat (apply Forall_cons; [discriminate|]). apply Forall_nil. }
  exists ex, (fs, 1). split; [exact FO|]. split.
  - intros p t (w & E). cbn [fst snd] in *. unfold fs in E. destruct (String.eqb _ _); [discriminate|]. destruct (_ || _)%bool; injection E as <- _; lia.
  - split; [exact R|]. eexists _, _, "test/time_offset.csv". split; [now left|]. split; [cbn; auto|reflexivity].
Qed.

(** ** Interrupted runs *)
Definition settled (fs : files) (i : item) : Prop :=
  match i with Make ins outs => requires_update fs ins outs = false | Load _ => True end.
Lemma settled_run pre post s ex c s' : run_items (pre ++ post) s ex c s' -> ordered (pre ++ post) -> Forall (settled (fst s)) pre ->
  forall p, (forall j, In j post -> ~ In p (outputs_of j)) -> fst s' p = fst s p.
Proof.
  revert s ex. induction pre as [|i pre IH]; intros s ex R O F p N; [now eapply run_other; eauto|].
  inversion F as [|? ? SI F']; subst. destruct O as (_ & _ & O). cbn [app] in R. inversion R; subst; try easy.
  - eapply IH; eauto.
  - cbn in SI. congruence.
  - cbn in SI. congruence.
  - eapply IH; eauto.
Qed.
Lemma settled_ext fs fs' i : (forall p, In p (uses i) -> fs' p = fs p) -> settled fs i -> settled fs' i.
Proof.
  intros E. destruct i as [ins outs|ps]; cbn; [|easy]. intros U. rewrite (update_ext fs); [easy|]. intros p [I|I]; apply E, in_or_app; auto.
Qed.
Lemma ordered_split pre post i j p : ordered (pre ++ post) -> In i pre -> In j post -> In p (uses i) -> ~ In p (outputs_of j).
Proof.
  induction pre as [|x pre IH]; intros O I J U K; [easy|]. destruct O as (_ & L & O). destruct I as [->|I]; [|now apply IH].
  apply (L j p); auto. apply in_or_app. now right.
Qed.
Lemma settled_runs is s cs s' : runs is s cs s' -> ordered is -> forall pre post, is = (pre ++ post)%list -> Forall (settled (fst s)) pre ->
  (forall i p, In i pre -> In p (uses i) -> fst s' p = fst s p) /\ Forall (settled (fst s')) pre.
Proof.
  induction 1 as [s|fs t t' cs s L R IH|s ex c s1 cs s2 R RS IH]; intros O pre post E F.
  - easy.
  - exact (IH O pre post E F).
  - subst is. assert (P : forall i p, In i pre -> In p (uses i) -> fst s1 p = fst s p).
    { intros i p I U. eapply settled_run; [exact R|exact O|exact F|]. intros j J. eapply ordered_split; eauto. }
    destruct (IH O pre post eq_refl) as [P2 F2].
    { rewrite Forall_forall in *. intros i I. apply (settled_ext (fst s)); [|now apply F]. intros p U. now apply (P i). }
    split; [|exact F2]. intros i p I U. rewrite (P2 i p I U). now apply (P i).
Qed.
(** A step none of whose outputs existed is interrupted after writing something: whatever it wrote or
    did not write, and however often the script is run afterwards, its outputs stay as they are. *)
Theorem C55_never_repaired : forall input pre ins outs post s0 s1 cs s2,
  script input = (pre ++ Make ins outs :: post)%list -> foreign input -> sane s0 ->
  Forall (settled (fst s0)) pre -> (forall o, In o outs -> fst s0 o = None) ->
  writes outs s0 s1 -> (exists o, In o outs /\ fst s1 o <> None) ->
  runs (script input) s1 cs s2 ->
  forall o, In o outs -> fst s2 o = fst s1 o.
Proof.
  intros input pre ins outs post s0 s1 cs s2 SE F S FP NO W (o & Io & Eo) RS p Ip. assert (O := script_ordered _ F). rewrite SE in O.
  assert (FS : Forall (settled (fst s1)) (pre ++ [Make ins outs])).
  { apply Forall_app. split.
    - rewrite Forall_forall in *. intros i I. apply (settled_ext (fst s0)); [|now apply FP]. intros q U. apply (writes_other _ _ _ _ W).
      intros K. eapply (ordered_split pre); [exact O|exact I|now left|exact U|exact K].
    - constructor; [|constructor]. cbn. apply update_false. split; [now exists o|]. intros (i & o' & ti & to & Ii & Io' & (wi & Mi) & (wo & Mo) & L).
      assert (D : ~ In i outs). { intros K. clear -O K Ii. induction pre as [|x pre IH]; cbn in O; [destruct O as (D & _); now apply (D i)|]. destruct O as (_ & _ & O). now apply IH. }
      rewrite (writes_other _ _ _ i W D) in Mi. specialize (S i ti ltac:(now exists wi)).
      destruct (writes_new _ _ _ o' W) as [E|(t & w & E & B)]; [rewrite (NO o' Io') in E; congruence|]. rewrite E in Mo. injection Mo as -> _. lia. }
  destruct (settled_runs _ _ _ _ RS ltac:(now rewrite SE) (pre ++ [Make ins outs]) post) as [P _]; [rewrite <- app_assoc; exact SE|exact FS|].
  apply (P (Make ins outs) p); [apply in_or_app; right; now left|]. cbn. apply in_or_app. now right.
Qed.
(** If a later step reads a file that the interrupted step did not write, no later run completes. *)
Theorem C55_stuck : forall input pre ins outs mid ins' outs' post s0 s1 cs s2 q,
  script input = (pre ++ Make ins outs :: mid ++ Make ins' outs' :: post)%list -> foreign input -> sane s0 ->
  Forall (settled (fst s0)) pre -> (forall o, In o outs -> fst s0 o = None) ->
  writes outs s0 s1 -> (exists o, In o outs /\ fst s1 o <> None) ->
  In q outs -> fst s1 q = None -> In q ins' -> (forall o, In o outs' -> fst s1 o = None) ->
  runs (script input) s1 cs s2 -> Forall (fun c => c = false) cs.
Proof.
  intros input pre ins outs mid ins' outs' post s0 s1 cs s2 q SE F S FP NO W EX Iq Nq Jq NO' RS.
  assert (O := script_ordered _ F).
  assert (KEY : forall s cs s', runs (script input) s cs s' -> Forall (settled (fst s)) (pre ++ [Make ins outs]) -> fst s q = None ->
     (forall o, In o outs' -> fst s o = None) -> Forall (fun c => c = false) cs).
  { clear s0 s1 s2 cs S FP NO W EX Nq NO' RS. intros s cs s' RS. induction RS as [s|fs t t' cs s L R IH|s ex c s1 cs s2 R RS IH]; intros FS Nq NO'; [constructor|now apply IH|].
    assert (SE' : script input = ((pre ++ [Make ins outs]) ++ (mid ++ Make ins' outs' :: post))%list) by (rewrite <- app_assoc; exact SE).
    assert (P : forall i p, In i (pre ++ [Make ins outs]) -> In p (uses i) -> fst s1 p = fst s p).
    { intros i p I U. rewrite SE' in R, O. eapply settled_run; [exact R|exact O|exact FS|]. intros j J. eapply ordered_split; eauto. }
    assert (Uq : In q (uses (Make ins outs))) by (cbn; apply in_or_app; now right).
    assert (Pq : fst s1 q = None) by (rewrite (P (Make ins outs) q); [easy|apply in_or_app; right; now left|easy]).
    assert (G : forall l s ex c s', run_items (l ++ Make ins' outs' :: post) s ex c s' ->
       (forall j, In j l -> ~ In q (outputs_of j)) -> (forall j o, In j l -> In o outs' -> ~ In o (outputs_of j)) ->
       fst s q = None -> (forall o, In o outs' -> fst s o = None) -> c = false /\ forall o, In o outs' -> fst s' o = None).
    { clear -Jq. induction l as [|i l IH]; intros s ex c s' R D1 D2 Nq NO'; cbn [app] in R.
      - inversion R as [|? ?|? ? ? ? ? ? ? U RR|? ? ? ? ? ? ? ? U SU RR|? ? ? ? ? U EI W|]; subst; [easy| | |].
        + exfalso. apply update_false in U as [(o & Io & No) _]. now apply No, NO'.
        + exfalso. destruct SU as (EI & _). unfold exist in EI. rewrite Forall_forall in EI. now apply (EI q).
        + exfalso. unfold exist in EI. rewrite Forall_forall in EI. now apply (EI q).
      - assert (D1' : forall j, In j l -> ~ In q (outputs_of j)) by (intros; apply D1; now right).
        assert (D2' : forall j o, In j l -> In o outs' -> ~ In o (outputs_of j)) by (intros; apply D2; auto; now right).
        inversion R as [|? ?|? ? ? ? ? ? ? U RR|? ? ? ? ? ? ? ? U SU RR|? ? ? ? ? U EI W|? ? ? ? ? ? E RR]; subst; [easy| | | |].
        + eapply IH; eauto.
        + destruct SU as (_ & W & _). eapply IH; [exact RR|exact D1'|exact D2'| |].
          * rewrite (writes_other _ _ _ q W); [easy|]. apply (D1 (Make ins outs)). now left.
          * intros o Io. rewrite (writes_other _ _ _ o W); [now apply NO'|]. apply (D2 (Make ins outs)); [now left|easy].
        + split; [easy|]. intros o Io. rewrite (writes_other _ _ _ o W); [now apply NO'|]. apply (D2 (Make ins outs)); [now left|easy].
        + eapply IH; eauto. }
    assert (SK : forall l s ex c s', run_items (l ++ mid ++ Make ins' outs' :: post) s ex c s' -> Forall (settled (fst s)) l ->
       (forall j, In j mid -> ~ In q (outputs_of j)) -> (forall j o, In j mid -> In o outs' -> ~ In o (outputs_of j)) ->
       fst s q = None -> (forall o, In o outs' -> fst s o = None) -> c = false /\ forall o, In o outs' -> fst s' o = None).
    { clear -G. induction l as [|i l IH]; intros s ex c s' R FS D1 D2 Nq NO'; cbn [app] in R; [eapply G; eauto|].
      inversion FS as [|? ? SI FS']; subst. inversion R; subst; [easy| | | |].
      - eapply IH; eauto.
      - cbn in SI. congruence.
      - cbn in SI. congruence.
      - eapply IH; eauto. }
    assert (D1 : forall j, In j mid -> ~ In q (outputs_of j)).
    { intros j J. rewrite SE' in O. eapply (ordered_split (pre ++ [Make ins outs])); [exact O|apply in_or_app; right; now left|apply in_or_app; now left|exact Uq]. }
    assert (D2 : forall j o, In j mid -> In o outs' -> ~ In o (outputs_of j)).
    { intros j o J Io K. rewrite SE, app_comm_cons, app_assoc in O.
      apply (ordered_split (pre ++ Make ins outs :: mid) (Make ins' outs' :: post) j (Make ins' outs') o); auto.
      - apply in_or_app. right. now right.
      - now left.
      - destruct j as [i1 o1|ps]; [|easy]. cbn in *. apply in_or_app. now right. }
    rewrite SE' in R. destruct (SK _ _ _ _ _ R FS D1 D2 Nq NO') as [-> NO1]. constructor; [easy|]. apply IH; auto.
    rewrite Forall_forall in *. intros i I. apply (settled_ext (fst s)); [|now apply FS]. intros p U. now apply (P i). }
  apply (KEY s1 cs s2 RS); [|easy|easy].
  rewrite SE in O. destruct EX as (o & Io & Eo). apply Forall_app. split.
  - rewrite Forall_forall in *. intros i I. apply (settled_ext (fst s0)); [|now apply FP]. intros p U. apply (writes_other _ _ _ _ W).
    intros K. eapply (ordered_split pre); [exact O|exact I|now left|exact U|exact K].
  - constructor; [|constructor]. cbn. apply update_false. split; [now exists o|]. intros (i & o' & ti & to & Ii & Io' & (wi & Mi) & (wo & Mo) & L).
    assert (D : ~ In i outs). { intros K. clear -O K Ii. induction pre as [|x pre IH]; cbn in O; [destruct O as (D & _); now apply (D i)|]. destruct O as (_ & _ & O). now apply IH. }
    rewrite (writes_other _ _ _ i W D) in Mi. specialize (S i ti ltac:(now exists wi)).
    destruct (writes_new _ _ _ o' W) as [E|(t & w & E & B)]; [rewrite (NO o' Io') in E; congruence|]. rewrite E in Mo. injection Mo as -> _. lia.
Qed.
(** Such an interruption of the very first run, after which the script is stuck. *)
Example C55_example : exists input s0 ex s1, foreign input /\ sane s0 /\ (forall i p, In i (script input) -> In p (outputs_of i) -> fst s0 p = None) /\
  run_items (script input) s0 ex false s1 /\ fst s1 "test/a_aligned.csv" = Some (1, true) /\
  forall cs s2, runs (script input) s1 cs s2 -> fst s2 "test/b_aligned.csv" = None /\ Forall (fun c => c = false) cs.
Proof.
  set (fs := fun p : path => if (String.eqb p "a.csv" || String.eqb p "b.csv")%bool then Some (0, true) else None).
  assert (FO : foreign ["a.csv"; "b.csv"]).
  { unfold foreign. cbn. intros i p [<-|[<-|[<-|[<-|[<-|[]]]]]] [<-|[<-|[]]]; cbn; intuition discriminate. }
  assert (SA : sane (fs, 1)).
  { intros p t (w & E). cbn [fst snd] in *. unfold fs in E. destruct (_ || _)%bool; [injection E as <- _; lia|discriminate]. }
  set (s1 := (write_file fs "test/a_aligned.csv" 1 true, 1)).
  assert (W : writes ["test/a_aligned.csv"; "test/b_aligned.csv"; "test/time_offset.csv"] (fs, 1) s1).
  { eapply w_write; [now left|]. apply w_nil. }
  exists ["a.csv"; "b.csv"], (fs, 1), [true], s1. split; [exact FO|]. split; [exact SA|]. split.
  { intros i p [<-|[<-|[<-|[<-|[<-|[]]]]]]; cbn; intuition (subst; reflexivity). }
  split. { apply r_fail; [reflexivity| |exact W]. unfold exist. repeat (apply Forall_cons; [discriminate|]). apply Forall_nil. }
  split; [reflexivity|]. intros cs s2 RS. split.
  - assert (E := C55_never_repaired ["a.csv"; "b.csv"] [] _ _ _ (fs, 1) s1 cs s2 eq_refl FO SA (Forall_nil _)).
    specialize (E ltac:(cbn; intuition (subst; reflexivity)) W ltac:(exists "test/a_aligned.csv"; split; [now left|discriminate]) RS "test/b_aligned.csv" ltac:(cbn; auto)).
    rewrite E. reflexivity.
  - apply (C55_stuck ["a.csv"; "b.csv"] [] _ _ [] _ _ _ (fs, 1) s1 cs s2 "test/b_aligned.csv" eq_refl FO SA (Forall_nil _)); auto.
    + cbn; intuition (subst; reflexivity).
    + exists "test/a_aligned.csv"; split; [now left|discriminate].
    + cbn; auto.
    + cbn; auto.
    + cbn; intuition (subst; reflexivity).
Qed.

(** ** Names *)
Fixpoint no_slash (s : string) : bool := match s with EmptyString => true | String c s' => negb (Ascii.eqb c "/") && no_slash s' end.
Lemma append_assoc a b c : ((a ++ b) ++ c = a ++ (b ++ c))%string.
Proof. induction a; cbn; congruence. Qed.
Lemma append_nil a : (a ++ "" = a)%string.
Proof. induction a; cbn; congruence. Qed.
Lemma basename_plain f : no_slash f = true -> forall acc, basename_from f acc = (acc ++ f)%string.
Proof.
  induction f as [|c f IH]; intros N acc; [cbn; now rewrite append_nil|]. cbn in N. apply andb_true_iff in N as [N1 N2]. apply negb_true_iff in N1.
  cbn [basename_from]. rewrite N1, IH by easy. now rewrite append_assoc.
Qed.
Lemma basename_dir d f : no_slash f = true -> basename (d ++ "/" ++ f) = f.
Proof.
  intros N. unfold basename. assert (G : forall acc, basename_from (d ++ "/" ++ f) acc = f).
  { induction d as [|c d IH]; intros acc; [cbn; now apply basename_plain|]. cbn [append basename_from]. destruct (Ascii.eqb c "/"); apply IH. }
  apply G.
Qed.
(** Two pose files with the same name in different directories share their aligned file: both roles of
    the calibration then read the same path.  Different names never collide. *)
Theorem C55_same_name : forall d1 d2 f g, no_slash f = true ->
  a_aligned g (name_of (d1 ++ "/" ++ f)) = a_aligned g (name_of (d2 ++ "/" ++ f)).
Proof. intros d1 d2 f g N. unfold name_of. now rewrite !basename_dir. Qed.
Theorem C55_different_names : forall g a b, a_aligned g a = a_aligned g b <-> a = b.
Proof. exact aligned_inj. Qed.
Fixpoint no_dot (s : string) : bool := match s with EmptyString => true | String c s' => negb (Ascii.eqb c ".") && no_dot s' end.
Lemma last_dot_none e : no_dot e = true -> forall i best, last_dot e i best = best.
Proof.
  induction e as [|c e IH]; intros N i best; [easy|]. cbn in N. apply andb_true_iff in N as [N1 N2]. apply negb_true_iff in N1.
  cbn [last_dot]. now rewrite N1, IH.
Qed.
Lemma last_dot_app s e : no_dot e = true -> forall i best, last_dot (s ++ String "." e) i best = Some (i + String.length s).
Proof.
  intros N. induction s as [|c s IH]; intros i best.
  - cbn [append last_dot]. cbn. rewrite last_dot_none by exact N. f_equal. lia.
  - cbn [append last_dot String.length]. rewrite IH. f_equal. lia.
Qed.
Lemma substring_app s r : substring 0 (String.length s) (s ++ r) = s.
Proof. induction s as [|c s IH]; cbn; [now destruct r|]. now rewrite IH. Qed.
Lemma no_slash_app a b : no_slash (a ++ b) = no_slash a && no_slash b.
Proof. induction a as [|c a IH]; [easy|]. cbn. now rewrite IH, andb_assoc. Qed.
(** The name of a pose file is its base name without the extension. *)
Theorem C55_stem : forall dir stem ext, no_slash stem = true -> no_slash ext = true -> no_dot ext = true -> all_dots stem = false ->
  name_of (stem ++ "." ++ ext) = stem /\ name_of (dir ++ "/" ++ stem ++ "." ++ ext) = stem.
Proof.
  intros dir stem ext S E D A.
  assert (N : no_slash (stem ++ "." ++ ext) = true) by (rewrite no_slash_app, S; exact E).
  assert (X : splitext (stem ++ "." ++ ext) = stem).
  { unfold splitext. change ("." ++ ext) with (String "." ext). rewrite last_dot_app by exact D. cbn [Nat.add].
    rewrite substring_app. now rewrite A. }
  unfold name_of. rewrite (basename_dir dir _ N). split; [|exact X]. unfold basename. rewrite basename_plain by exact N. exact X.
Qed.
Example C55_stem_example : no_slash "poses.1" = true /\ no_slash "csv" = true /\ no_dot "csv" = true /\ all_dots "poses.1" = false /\
  name_of "data/poses.1.csv" = "poses.1".
Proof. repeat split. Qed.
Example C55_names : name_of "x/poses.csv" = "poses" /\ name_of ".csv" = ".csv" /\ name_of "a.b.csv" = "a.b".
Proof. repeat split. Qed.
