(** * Property C54: the result files over any history of runs and crashes. *)

From Coq Require Import String List Bool Arith Lia.
From Verif Require Import Experiments RunFiles.
Import ListNotations.
Local Open Scope string_scope.
Local Opaque get_header.

(** Text [p] is the beginning of [s]. *)
Definition begins (p s : string) : Prop := exists rest, s = p ++ rest.
(** The lines of a run. *)
Definition text (ls : list string) : string := fold_right append "" ls.
Definition driver_lines (its : list iteration) : list string := flat_map snd its.
Definition half (d : disk) (a : string) (i : nat) : Prop := dq_file d a i = true /\ pose_file d a i = false.

Lemma app_nil_r' s : s ++ "" = s.
Proof. induction s; cbn; congruence. Qed.
Lemma app_assoc' a b c : (a ++ b) ++ c = a ++ (b ++ c).
Proof. induction a; cbn; congruence. Qed.
Lemma text_app l1 l2 : text (l1 ++ l2)%list = text l1 ++ text l2.
Proof. induction l1 as [|x l1 IH]; cbn; [easy|]. unfold text in IH. now rewrite IH, app_assoc'. Qed.
Lemma begins_refl s : begins s s.
Proof. exists "". now rewrite app_nil_r'. Qed.
Lemma begins_app p q s : begins q s -> begins (p ++ q) (p ++ s).
Proof. intros (r & ->). exists r. now rewrite app_assoc'. Qed.
Lemma begins_nil s : begins "" s.
Proof. now exists s. Qed.

(** what a list of operations writes *)
Definition written (ops : list op) : list string := flat_map (fun x => match x with OWrite s => [s] | _ => [] end) ops.
Lemma written_app l1 l2 : written (l1 ++ l2)%list = (written l1 ++ written l2)%list.
Proof. apply flat_map_app. Qed.
Lemma written_pairs a : forall ls i, written (pair_ops a i ls) = ls.
Proof. induction ls as [|l ls IH]; intros i; [easy|]. cbn. now rewrite <- (IH (S i)) at 2. Qed.
Lemma written_iterations its : written (flat_map iteration_ops its) = driver_lines its.
Proof. induction its as [|it its IH]; [easy|]. cbn [flat_map]. rewrite written_app, IH. unfold driver_lines. cbn [flat_map]. f_equal. exact (written_pairs _ _ 0). Qed.
Lemma written_map ls : written (map OWrite ls) = ls.
Proof. induction ls as [|l ls IH]; [easy|]. cbn. now f_equal. Qed.

Definition no_create (ops : list op) : Prop := ~ In OCreate ops.
Lemma no_create_pairs a : forall ls i, no_create (pair_ops a i ls).
Proof. induction ls as [|l ls IH]; intros i I; [easy|]. cbn in I. destruct I as [I|[I|[I|[I|I]]]]; try discriminate. now apply (IH (S i)). Qed.
Lemma no_create_iterations its : no_create (flat_map iteration_ops its).
Proof.
  intros I. apply in_flat_map in I as (it & _ & I). destruct I as [I|I]; [discriminate|]. now apply no_create_pairs in I.
Qed.
Lemma no_create_map ls : no_create (map OWrite ls).
Proof. intros I. apply in_map_iff in I as (? & ? & _). discriminate. Qed.

(** Appending never loses what is already on disk. *)
Lemma exec_append ops d b o d' : exec ops d b o d' -> no_create ops -> forall c, results d = Some c ->
  exists p, results d' = Some (c ++ p) /\ begins p (b ++ text (written ops)) /\ (o = Completed -> p = b ++ text (written ops)).
Proof.
  induction 1 as [d b|ops d b|ops d b|ops d p rest o d' X IH|x ops d b d1 b1 o d' A X IH|x ops d b A]; intros NC c R.
  - exists b. cbn. rewrite R, app_nil_r'. cbn. split; [easy|]. split; [apply begins_refl|easy].
  - exists b. cbn. rewrite R. split; [easy|]. split; [now exists (text (written ops))|easy].
  - exists "". rewrite R, app_nil_r'. split; [easy|]. split; [apply begins_nil|easy].
  - destruct (IH NC (c ++ p)) as (q & R' & B & C). { cbn. now rewrite R. }
    exists (p ++ q). rewrite R', app_assoc'. split; [easy|]. rewrite app_assoc'. split; [now apply begins_app|]. intros E. now rewrite (C E).
  - assert (NC' : no_create ops) by (intros I; apply NC; now right). destruct x as [|s| |a i|a i|a i]; cbn [apply_op] in A.
    + exfalso. apply NC. now left.
    + injection A as <- <-. destruct (IH NC' c R) as (q & R' & B & C). exists q. cbn [written flat_map app text fold_right].
      rewrite app_assoc' in B, C. easy.
    + injection A as <- <-. rewrite R in IH. destruct (IH NC' (c ++ b) eq_refl) as (q & R' & B & C). exists (b ++ q). rewrite R', app_assoc'.
      split; [easy|]. split; [now apply begins_app|]. intros E. now rewrite (C E).
    + destruct (if dq_file d a i then _ else _); [|easy]. injection A as <- <-. now apply (IH NC').
    + injection A as <- <-. now apply (IH NC').
    + injection A as <- <-. now apply (IH NC').
  - exists b. cbn. rewrite R. split; [easy|]. split; [now exists (text (written (x :: ops)))|easy].
Qed.
(** The first run, on a missing file. *)
Lemma exec_create ops d b o d' : exec ops d b o d' -> b = "" -> results d = None -> forall rest, ops = OCreate :: rest -> no_create rest ->
  results d' = None /\ o <> Completed \/
  exists p, results d' = Some p /\ begins p (text (written rest)) /\ (o = Completed -> p = text (written rest)).
Proof.
  induction 1 as [d b|ops d b|ops d b|ops d p r o d' X IH|x ops d b d1 b1 o d' A X IH|x ops d b A]; intros B0 R rest E NC.
  - discriminate.
  - left. cbn. now rewrite R.
  - left. now rewrite R.
  - destruct p; [|discriminate]. cbn in B0. subst r. apply (IH eq_refl); [|easy|easy]. cbn. now rewrite R.
  - injection E as -> ->. cbn in A. injection A as <- <-. right. destruct (exec_append _ _ _ _ _ X NC "" eq_refl) as (p & R' & B & C). exists p. now split.
  - injection E as -> ->. discriminate A.
Qed.

Section Scripts.
  Context {A : Type} (script : A -> bool -> list op) (lines : A -> list string) (body : A -> list op).
  Context (SCRIPT : forall x e, script x e = (prepare_ops e ++ body x)%list).
  Context (BODY : forall x, written (body x) = lines x) (NOC : forall x, no_create (body x)).

  Lemma history_append d rs d' : history script d rs d' -> forall c, results d = Some c ->
    exists ps, results d' = Some (c ++ text ps) /\
      Forall2 (fun p r => begins p (text (lines (fst r))) /\ (snd r = Completed -> p = text (lines (fst r)))) ps rs.
  Proof.
    induction 1 as [d|d x o d1 rs d2 X H IH]; intros c R.
    - exists []. cbn. rewrite app_nil_r'. split; [easy|constructor].
    - rewrite SCRIPT in X. unfold has_results in X. rewrite R in X. cbn [prepare_ops app] in X.
      destruct (exec_append _ _ _ _ _ X (NOC x) c R) as (p & R1 & B & C). destruct (IH _ R1) as (ps & R2 & F).
      rewrite BODY in B, C. exists (p :: ps). cbn. rewrite R2, app_assoc'. split; [easy|]. now constructor.
  Qed.
  Lemma history_create d rs d' : history script d rs d' -> results d = None ->
    results d' = None /\ Forall (fun r => snd r <> Completed) rs \/
    exists dead first o rs' ps, rs = (dead ++ (first, o) :: rs')%list /\ Forall (fun r => snd r <> Completed) dead /\
      results d' = Some (text ps) /\
      Forall2 (fun p w => begins p (fst w) /\ (snd w = Completed -> p = fst w)) ps
        ((get_header ++ text (lines first), o) :: map (fun r => (text (lines (fst r)), snd r)) rs').
  Proof.
    induction 1 as [d|d x o d1 rs d2 X H IH]; intros R.
    - left. split; [easy|constructor].
    - rewrite SCRIPT in X. unfold has_results in X. rewrite R in X. cbn [prepare_ops app] in X.
      destruct (exec_create _ _ _ _ _ X eq_refl R _ eq_refl) as [[R1 NCo]|(p & R1 & B & C)].
      { intros [I|I]; [discriminate|]. now apply NOC in I. }
      + destruct (IH R1) as [[R2 F]|(dead & first & o' & rs' & ps & E & F & R2 & F2)].
        * left. split; [easy|]. now constructor.
        * right. exists ((x, o) :: dead)%list, first, o', rs', ps. rewrite E. split; [easy|]. split; [now constructor|]. easy.
      + right. destruct (history_append _ _ _ H _ R1) as (ps & R2 & F). cbn [written flat_map app text fold_right] in B, C.
        change (flat_map _ (body x)) with (written (body x)) in B, C. fold (text (written (body x))) in B, C. rewrite BODY in B, C.
        exists [], x, o, rs, (p :: ps). split; [easy|]. split; [constructor|]. split; [exact R2|]. constructor; [easy|].
        clear -F. induction F as [|q r ps rs' Hq F IH]; [constructor|]. now constructor.
  Qed.
End Scripts.

Lemma driver_script x e : driver_ops x e = (prepare_ops e ++ flat_map iteration_ops x)%list.
Proof. easy. Qed.
Lemma sweep_script x e : sweep_ops x e = (prepare_ops e ++ OAppend :: map OWrite x)%list.
Proof. easy. Qed.
Lemma sweep_written x : written (OAppend :: map OWrite x) = x.
Proof. exact (written_map x). Qed.
Lemma sweep_no_create x : no_create (OAppend :: map OWrite x).
Proof. intros [I|I]; [discriminate|]. now apply no_create_map in I. Qed.

Lemma all_completed_text {A} (lines : A -> list string) ps rs :
  Forall2 (fun p r => begins p (text (lines (fst r))) /\ (snd r = Completed -> p = text (lines (fst r)))) ps rs ->
  Forall (fun r => snd r = Completed) rs -> text ps = text (flat_map (fun r => lines (fst r)) rs).
Proof.
  induction 1 as [|p r ps rs [B C] F IH]; intros AC; [easy|]. inversion AC; subst. cbn [text fold_right flat_map]. rewrite text_app. fold (text ps).
  rewrite IH by easy. f_equal. now apply C.
Qed.

(** *** Completed runs *)
(** Over any number of completed runs the file holds the header, once and first, then every line. *)
Theorem C54_completed : forall d rs d', history driver_ops d rs d' -> rs <> [] -> Forall (fun r => snd r = Completed) rs ->
  results d = None -> results d' = Some (get_header ++ text (flat_map (fun r => driver_lines (fst r)) rs)).
Proof.
  intros d rs d' H NE AC R.
  destruct (history_create driver_ops driver_lines _ driver_script written_iterations no_create_iterations _ _ _ H R)
    as [[_ F]|(dead & first & o & rs' & ps & E & F & R2 & F2)].
  - destruct rs as [|r rs]; [easy|]. inversion F; subst. inversion AC; subst. easy.
  - rewrite E in AC. apply Forall_app in AC as [AC1 AC2]. assert (dead = []) as ->.
    { destruct dead as [|r dead]; [easy|]. inversion F; subst. inversion AC1; subst. easy. }
    cbn in E. subst rs. rewrite R2. inversion AC2 as [|? ? C1 C2]; subst. inversion F2 as [|p w ps' ws [B C] F3]; subst. cbn [fst snd] in *.
    cbn [text fold_right flat_map fst]. rewrite (C C1). fold (text ps'). rewrite text_app, app_assoc'. do 3 f_equal.
    apply all_completed_text; [|easy]. clear -F3. revert ps' F3. induction rs' as [|r rs' IH]; intros ps' F3; inversion F3; subst; constructor; [easy|]. now apply IH.
Qed.
Theorem C54_completed_sweep : forall d rs d', history sweep_ops d rs d' -> rs <> [] -> Forall (fun r => snd r = Completed) rs ->
  results d = None -> results d' = Some (get_header ++ text (flat_map fst rs)).
Proof.
  intros d rs d' H NE AC R.
  destruct (history_create sweep_ops (fun x => x) _ sweep_script sweep_written sweep_no_create _ _ _ H R)
    as [[_ F]|(dead & first & o & rs' & ps & E & F & R2 & F2)].
  - destruct rs as [|r rs]; [easy|]. inversion F; subst. inversion AC; subst. easy.
  - rewrite E in AC. apply Forall_app in AC as [AC1 AC2]. assert (dead = []) as ->.
    { destruct dead as [|r dead]; [easy|]. inversion F; subst. inversion AC1; subst. easy. }
    cbn in E. subst rs. rewrite R2. inversion AC2 as [|? ? C1 C2]; subst. inversion F2 as [|p w ps' ws [B C] F3]; subst. cbn [fst snd] in *.
    cbn [text fold_right flat_map fst]. rewrite (C C1). fold (text ps'). rewrite text_app, app_assoc'. do 3 f_equal.
    apply (all_completed_text (fun x => x)); [|easy]. clear -F3. revert ps' F3. induction rs' as [|r rs' IH]; intros ps' F3; inversion F3; subst; constructor; [easy|]. now apply IH.
Qed.

(** *** Crashes *)
(** Whatever happens, a run only appends, and what it appends is the beginning of its own lines. *)
Theorem C54_append_only : forall d rs d' c, history driver_ops d rs d' -> results d = Some c ->
  exists ps, results d' = Some (c ++ text ps) /\
    Forall2 (fun p r => begins p (text (driver_lines (fst r))) /\ (snd r = Completed -> p = text (driver_lines (fst r)))) ps rs.
Proof. intros d rs d' c H. exact (history_append driver_ops driver_lines _ driver_script written_iterations no_create_iterations _ _ _ H c). Qed.
Theorem C54_append_only_sweep : forall d rs d' c, history sweep_ops d rs d' -> results d = Some c ->
  exists ps, results d' = Some (c ++ text ps) /\
    Forall2 (fun p r => begins p (text (fst r)) /\ (snd r = Completed -> p = text (fst r))) ps rs.
Proof. intros d rs d' c H. exact (history_append sweep_ops (fun x => x) _ sweep_script sweep_written sweep_no_create _ _ _ H c). Qed.
(** A run killed right after creating the file leaves it empty. *)
Theorem C54_killed_early : forall d its, results d = None ->
  exists d', history driver_ops d [(its, Killed)] d' /\ results d' = Some "".
Proof.
  intros d its R. exists (mkDisk (Some "") (dq_file d) (pose_file d)). split; [|easy]. econstructor; [|constructor].
  unfold driver_ops, has_results. rewrite R. cbn [prepare_ops app]. eapply x_op; [reflexivity|]. apply x_kill.
Qed.
Theorem C54_killed_early_sweep : forall d ls, results d = None ->
  exists d', history sweep_ops d [(ls, Killed)] d' /\ results d' = Some "".
Proof.
  intros d its R. exists (mkDisk (Some "") (dq_file d) (pose_file d)). split; [|easy]. econstructor; [|constructor].
  unfold sweep_ops, has_results. rewrite R. cbn [prepare_ops app]. eapply x_op; [reflexivity|]. apply x_kill.
Qed.
(** From then on completed runs give a table without header. *)
Theorem C54_no_header : forall d rs d', history driver_ops d rs d' -> Forall (fun r => snd r = Completed) rs ->
  results d = Some "" -> results d' = Some (text (flat_map (fun r => driver_lines (fst r)) rs)).
Proof.
  intros d rs d' H AC R. destruct (C54_append_only d rs d' "" H R) as (ps & R' & F). rewrite R'. cbn [append]. f_equal.
  now apply (all_completed_text driver_lines).
Qed.
Theorem C54_no_header_sweep : forall d rs d', history sweep_ops d rs d' -> Forall (fun r => snd r = Completed) rs ->
  results d = Some "" -> results d' = Some (text (flat_map fst rs)).
Proof.
  intros d rs d' H AC R. destruct (C54_append_only_sweep d rs d' "" H R) as (ps & R' & F). rewrite R'. cbn [append]. f_equal.
  now apply (all_completed_text (fun x => x)).
Qed.
(** A run that raises, anywhere after the file was created, does leave the header. *)
Theorem C54_raised : forall d its d', exec (driver_ops its false) d "" Raised d' -> results d' <> None -> results d = None ->
  exists p, results d' = Some p /\ begins p (get_header ++ text (driver_lines its)) /\ (p = "" \/ begins get_header p).
Proof.
  intros d its d' X RN R.
  assert (G : forall ops d b o d', exec ops d b o d' -> o = Raised -> no_create ops -> forall c, results d = Some c ->
     exists p, results d' = Some (c ++ (b ++ p)) /\ begins p (text (written ops))).
  { clear. induction 1 as [d b|ops d b|ops d b|ops d p rest o d' X IH|x ops d b d1 b1 o d' A X IH|x ops d b A]; intros O NC c R; try discriminate O.
    - exists "". cbn. rewrite R, app_nil_r'. split; [easy|apply begins_nil].
    - destruct (IH O NC (c ++ p)) as (q & R' & B). { cbn. now rewrite R. } exists q. rewrite R'. split; [|easy]. f_equal. now rewrite !app_assoc'.
    - assert (NC' : no_create ops) by (intros I; apply NC; now right). destruct x as [|s| |a i|a i|a i]; cbn [apply_op] in A.
      + exfalso. apply NC. now left.
      + injection A as <- <-. destruct (IH O NC' c R) as (q & R' & B). exists (s ++ q). cbn [written flat_map app text fold_right].
        rewrite R'. split; [f_equal; now rewrite !app_assoc'|now apply begins_app].
      + injection A as <- <-. rewrite R in IH. destruct (IH O NC' (c ++ b) eq_refl) as (q & R' & B). exists q. rewrite R'. split; [f_equal; now rewrite !app_assoc'|easy].
      + destruct (if dq_file d a i then _ else _); [|easy]. injection A as <- <-. now apply (IH O NC').
      + injection A as <- <-. now apply (IH O NC').
      + injection A as <- <-. now apply (IH O NC').
    - exists "". cbn. rewrite R, app_nil_r'. split; [easy|apply begins_nil]. }
  assert (G2 : forall ops d b o d', exec ops d b o d' -> o = Raised -> b = "" -> ops = driver_ops its false -> results d = None -> results d' <> None ->
     exists d1, exec (OWrite get_header :: flat_map iteration_ops its) d1 "" Raised d' /\ results d1 = Some "").
  { clear. induction 1 as [d b|ops d b|ops d b|ops d p rest o d' X IH|x ops d b d1 b1 o d' A X IH|x ops d b A]; intros OE B0 E R RN; try discriminate.
    - exfalso. apply RN. cbn. now rewrite R.
    - destruct p; [|discriminate]. cbn in B0. subst rest. apply IH; try easy. cbn. now rewrite R.
    - injection E as -> ->. cbn in A. injection A as <- <-. subst o. eexists. split; [exact X|easy].
    - injection E as -> ->. discriminate A. }
  destruct (G2 _ _ _ _ _ X eq_refl eq_refl eq_refl R RN) as (d1 & X1 & R1).
  assert (G3 : forall ops d b o d', exec ops d b o d' -> o = Raised -> b = "" -> ops = OWrite get_header :: flat_map iteration_ops its -> results d = Some "" ->
     results d' = Some "" \/ exists d2, exec (flat_map iteration_ops its) d2 get_header Raised d' /\ results d2 = Some "").
  { clear. induction 1 as [d b|ops d b|ops d b|ops d p rest o d' X IH|x ops d b d1 b1 o d' A X IH|x ops d b A]; intros OE B0 E R; try discriminate.
    - left. cbn. rewrite R. subst b. easy.
    - destruct p; [|discriminate]. cbn in B0. subst rest. apply IH; try easy. cbn. now rewrite R.
    - injection E as -> ->. cbn [apply_op] in A. injection A as <- <-. subst o b. right. eexists. split; [exact X|easy].
    - injection E as -> ->. discriminate A. }
  destruct (G3 _ _ _ _ _ X1 eq_refl eq_refl eq_refl R1) as [E|(d2 & X2 & R2)].
  - exists "". split; [easy|]. split; [apply begins_nil|now left].
  - destruct (G _ _ _ _ _ X2 eq_refl (no_create_iterations its) "" R2) as (p & R3 & B). exists (get_header ++ p). split; [exact R3|].
    rewrite written_iterations in B. split; [now apply begins_app|]. right. now exists p.
Qed.

(** *** The two files of a pair *)
Lemma set_file_same f a i : set_file f a i a i = true.
Proof. unfold set_file. now rewrite String.eqb_refl, Nat.eqb_refl. Qed.
Lemma set_file_other f a i a' i' : (a', i') <> (a, i) -> set_file f a i a' i' = f a' i'.
Proof.
  intros NE. unfold set_file. destruct (String.eqb_spec a' a) as [->|]; [|easy]. destruct (Nat.eqb_spec i' i) as [->|]; [|easy]. now destruct NE.
Qed.
Lemma pair_dec (p q : string * nat) : {p = q} + {p <> q}.
Proof. decide equality; [apply Nat.eq_dec|apply string_dec]. Qed.

(** opening a pair's pose file comes after the check *)
Fixpoint guarded (a : string) (i : nat) (ops : list op) : Prop :=
  match ops with
  | [] => True
  | OCheck a' i' :: r => (a', i') = (a, i) \/ guarded a i r
  | OOpenPose a' i' :: r => (a', i') <> (a, i) /\ guarded a i r
  | _ :: r => guarded a i r
  end.
Lemma guarded_pairs a i a' rest : guarded a i rest -> forall ls k, guarded a i (pair_ops a' k ls ++ rest).
Proof.
  intros G. induction ls as [|l ls IH]; intros k; [exact G|]. cbn. destruct (pair_dec (a', k) (a, i)) as [E|NE]; [now left|]. right. split; [easy|]. apply IH.
Qed.
Lemma guarded_iterations a i its : guarded a i (flat_map iteration_ops its).
Proof. induction its as [|it its IH]; [exact I|]. cbn [flat_map iteration_ops app guarded]. now apply guarded_pairs. Qed.
Lemma guarded_driver a i its e : guarded a i (driver_ops its e).
Proof. destruct e; apply guarded_iterations. Qed.
Lemma exec_half a i ops d b o d' : exec ops d b o d' -> guarded a i ops -> half d a i ->
  half d' a i /\ (In (OCheck a i) ops -> o <> Completed).
Proof.
  induction 1 as [d b|ops d b|ops d b|ops d p rest o d' X IH|x ops d b d1 b1 o d' A X IH|x ops d b A]; intros G H; try now split.
  - now apply IH.
  - destruct x as [|s| |a' i'|a' i'|a' i']; cbn [apply_op] in A; cbn [guarded] in G.
    + injection A as <- <-. destruct (IH G H) as [H' C]. split; [easy|]. intros [E|I]; [discriminate|auto].
    + injection A as <- <-. destruct (IH G H) as [H' C]. split; [easy|]. intros [E|I]; [discriminate|auto].
    + injection A as <- <-. destruct (IH G H) as [H' C]. split; [easy|]. intros [E|I]; [discriminate|auto].
    + destruct (pair_dec (a', i') (a, i)) as [E|NE].
      * injection E as -> ->. destruct H as [H1 H2]. rewrite H1, H2 in A. discriminate.
      * destruct (if dq_file d a' i' then _ else _); [|easy]. injection A as <- <-. destruct G as [G|G]; [easy|]. destruct (IH G H) as [H' C].
        split; [easy|]. intros [E|I]; [congruence|auto].
    + injection A as <- <-. destruct (IH G) as [H' C].
      { destruct H as [H1 H2]. split; [|easy]. cbn. unfold set_file. now destruct (_ && _). }
      split; [easy|]. intros [E|I]; [discriminate|auto].
    + injection A as <- <-. destruct G as [NE G]. destruct (IH G) as [H' C].
      { destruct H as [H1 H2]. split; [easy|]. cbn. rewrite set_file_other by congruence. easy. }
      split; [easy|]. intros [E|I]; [discriminate|auto].
Qed.
Lemma check_in a i its e l ls : In (a, ls) its -> nth_error ls i = Some l -> In (OCheck a i) (driver_ops its e).
Proof.
  intros I NI. unfold driver_ops. apply in_or_app. right. apply in_flat_map. exists (a, ls). split; [easy|]. right. cbn [fst snd].
  assert (G : forall ls k i, nth_error ls i = Some l -> In (OCheck a (k + i)) (pair_ops a k ls)).
  { clear. induction ls as [|x ls IH]; intros k i E; [now destruct i|]. destruct i as [|i]; cbn [pair_ops].
    - left. now rewrite Nat.add_0_r.
    - apply in_or_app. right. rewrite <- Nat.add_succ_comm. now apply IH. }
  now apply (G ls 0 i).
Qed.

(** A killed run can leave a pair with the first file and without the second. *)
Theorem C54_killed_between : forall a l ls its d, results d = None -> dq_file d a 0 = false -> pose_file d a 0 = false ->
  exists d', history driver_ops d [((a, l :: ls) :: its, Killed)] d' /\ half d' a 0.
Proof.
  intros a l ls its d R D P. eexists. split.
  - econstructor; [|constructor]. unfold driver_ops, has_results. rewrite R. cbn [prepare_ops app flat_map iteration_ops fst snd pair_ops].
    do 3 (eapply x_op; [reflexivity|]). eapply x_op; [cbn; rewrite D, P; reflexivity|]. eapply x_op; [reflexivity|]. apply x_kill.
  - split; cbn; [apply set_file_same|easy].
Qed.
(** Nothing repairs it: it survives every history, in which no run that reaches the pair completes. *)
Theorem C54_never_repaired : forall d rs d' a i, history driver_ops d rs d' -> half d a i ->
  half d' a i /\
  Forall (fun r => forall ls, In (a, ls) (fst r) -> (i < length ls)%nat -> snd r <> Completed) rs.
Proof.
  intros d rs d' a i H. induction H as [d|d its o d1 rs d2 X H IH]; intros HF; [split; [easy|constructor]|].
  destruct (exec_half a i _ _ _ _ _ X (guarded_driver _ _ _ _) HF) as [H1 C]. destruct (IH H1) as [H2 F]. split; [easy|]. constructor; [|easy].
  cbn [fst snd]. intros ls I L. apply C. destruct (nth_error ls i) eqn:E; [|apply nth_error_None in E; lia]. eapply check_in; eauto.
Qed.

(** *** Runs that are not interrupted *)
Inductive paired : list op -> Prop :=
| p_nil : paired []
| p_both : forall a i r, paired r -> paired (OOpenDq a i :: OOpenPose a i :: r)
| p_other : forall x r, (forall a i, x <> OOpenDq a i /\ x <> OOpenPose a i) -> paired r -> paired (x :: r).
Lemma paired_pairs a rest : paired rest -> forall ls k, paired (pair_ops a k ls ++ rest).
Proof. intros P. induction ls as [|l ls IH]; intros k; [exact P|]. cbn. apply p_other; [easy|]. apply p_both. apply p_other; [easy|]. apply IH. Qed.
Lemma paired_driver its e : paired (driver_ops its e).
Proof.
  assert (P : paired (flat_map iteration_ops its)).
  { induction its as [|it its IH]; [constructor|]. cbn. apply p_other; [easy|]. now apply paired_pairs. }
  destruct e; [exact P|]. cbn. now do 2 (apply p_other; [easy|]).
Qed.
Definition balanced (d : disk) : Prop := forall a i, dq_file d a i = pose_file d a i.
(** what holds before a suffix of the operations *)
Definition between (ops : list op) (d : disk) : Prop :=
  paired ops /\ balanced d \/
  exists a i r, ops = OOpenPose a i :: r /\ paired r /\ dq_file d a i = true /\ forall a' i', (a', i') <> (a, i) -> dq_file d a' i' = pose_file d a' i'.
Lemma between_op x ops d b d1 b1 : between (x :: ops) d -> apply_op x d b = Some (d1, b1) -> between ops d1.
Proof.
  intros [[P B]|(a & i & r & E & P & D & B)] A.
  - inversion P as [|a i r P'|x' r NP P']; subst.
    + cbn in A. injection A as <- <-. right. exists a, i, r. split; [easy|]. split; [easy|]. cbn. split; [apply set_file_same|].
      intros a' i' NE. rewrite set_file_other by easy. apply B.
    + left. split; [easy|]. destruct x as [|s| |a i|a i|a i]; cbn in A.
      * injection A as <- <-. exact B.
      * injection A as <- <-. exact B.
      * injection A as <- <-. exact B.
      * destruct (if dq_file d a i then _ else _); [|easy]. injection A as <- <-. exact B.
      * now destruct (NP a i).
      * now destruct (NP a i).
  - injection E as -> ->. cbn in A. injection A as <- <-. left. split; [easy|]. intros a' i'. cbn. destruct (pair_dec (a', i') (a, i)) as [E|NE].
    + injection E as -> ->. now rewrite set_file_same.
    + rewrite set_file_other by easy. now apply B.
Qed.
Lemma exec_balanced ops d b o d' : exec ops d b o d' -> between ops d -> o = Completed -> balanced d'.
Proof.
  induction 1 as [d b|ops d b|ops d b|ops d p rest o d' X IH|x ops d b d1 b1 o d' A X IH|x ops d b A]; intros B O; try discriminate O.
  - destruct B as [[_ B]|(a & i & r & E & _)]; [exact B|discriminate].
  - now apply IH.
  - apply IH; [|easy]. eapply between_op; eauto.
Qed.
Lemma exec_progress ops : forall d b, between ops d -> exists d', exec ops d b Completed d'.
Proof.
  induction ops as [|x ops IH]; intros d b B; [eexists; constructor|].
  destruct (apply_op x d b) as [[d1 b1]|] eqn:A.
  - destruct (IH d1 b1) as (d' & X); [eapply between_op; eauto|]. exists d'. eapply x_op; eauto.
  - exfalso. destruct x as [|s| |a i|a i|a i]; try discriminate A. cbn in A.
    destruct B as [[P B]|(a' & i' & r & E & _)]; [|discriminate]. rewrite (B a i) in A. destruct (pose_file d a i); discriminate.
Qed.
(** As long as every run completes, every further run can complete: the assertions never fail. *)
Theorem C54_uninterrupted : forall d rs d', history driver_ops d rs d' -> Forall (fun r => snd r = Completed) rs -> balanced d ->
  balanced d' /\ forall its, exists d2, exec (driver_ops its (has_results d')) d' "" Completed d2.
Proof.
  intros d rs d' H. induction H as [d|d its o d1 rs d2 X H IH]; intros AC B.
  - split; [easy|]. intros its. apply exec_progress. left. split; [apply paired_driver|easy].
  - inversion AC; subst. apply IH; [easy|]. eapply exec_balanced; [exact X|left; split; [apply paired_driver|easy]|easy].
Qed.
(** No history that starts without per-pair files leaves a second file without the first. *)
Theorem C54_second_has_first : forall d rs d', history driver_ops d rs d' ->
  (forall a i, pose_file d a i = true -> dq_file d a i = true) -> forall a i, pose_file d' a i = true -> dq_file d' a i = true.
Proof.
  assert (G : forall ops d b o d', exec ops d b o d' ->
    (paired ops \/ exists a i r, ops = OOpenPose a i :: r /\ paired r /\ dq_file d a i = true) ->
    (forall a i, pose_file d a i = true -> dq_file d a i = true) -> forall a i, pose_file d' a i = true -> dq_file d' a i = true).
  { induction 1 as [d b|ops d b|ops d b|ops d p rest o d' X IH|x ops d b d1 b1 o d' A X IH|x ops d b A]; intros P F; try exact F.
    - now apply IH.
    - destruct P as [P|(a & i & r & E & P & D)].
      + inversion P as [|a i r P'|x' r NP P']; subst.
        * cbn in A. injection A as <- <-. apply IH.
          -- right. exists a, i, r. cbn. now rewrite set_file_same.
          -- intros a' i'. cbn. intros F'. unfold set_file. destruct (_ && _); [easy|]. now apply F.
        * apply IH; [now left|]. destruct x as [|s| |a i|a i|a i]; cbn in A; try (now destruct (NP a i)); try (injection A as <- <-; exact F).
          destruct (if dq_file d a i then _ else _); [|easy]. injection A as <- <-. exact F.
      + injection E as -> ->. cbn in A. injection A as <- <-. apply IH; [now left|]. intros a' i'. cbn. destruct (pair_dec (a', i') (a, i)) as [E|NE].
        * injection E as -> ->. easy.
        * rewrite set_file_other by easy. apply F. }
  intros d rs d' H. induction H as [d|d its o d1 rs d2 X H IH]; intros F; [exact F|]. apply IH. eapply G; [exact X|left; apply paired_driver|exact F].
Qed.

(** The example of a killed first run: afterwards a completed run gives a table without header. *)
Example C54_example : exists d rs d',
  results d = None /\ balanced d /\ history driver_ops d rs d' /\ results d' = Some "RC,1
".
Proof.
  set (d := mkDisk None (fun _ _ => false) (fun _ _ => false)). exists d, [([], Killed); ([("RC", ["RC,1
"])], Completed)]. eexists. split; [easy|]. split; [easy|]. split.
  - econstructor; [eapply x_op; [reflexivity|apply x_kill]|]. econstructor; [|constructor].
    cbn. do 5 (eapply x_op; [reflexivity|]). apply x_done.
  - reflexivity.
Qed.
