(** * Properties C56, C57 and C60: exporting tools and shell helpers. *)

From Coq Require Import ZArith String Ascii List Bool Arith Lia.
From Verif Require Import Py Tools.
Import ListNotations.
Local Open Scope nat_scope.
Local Open Scope list_scope.

(** ** C56 *)
(** the stamps of the transforms of the source frame, in bag order *)
Definition selected (source_frame : string) (ms : list message) : list Z :=
  flat_map (fun m => if String.eqb (topic m) "/tf" then map stamp (filter (fun t => String.eqb (child_frame t) source_frame) (transforms m)) else []) ms.
Section C56.
  Context {P : Type} (lookup : Z -> option P).
  Definition found (s : Z) : bool := match lookup s with Some _ => true | None => false end.
  (** one row per successful lookup *)
  Definition expected (l : list Z) : list (Z * P) := flat_map (fun s => match lookup s with Some p => [(s, p)] | None => [] end) l.
  Definition successes (l : list Z) : list Z := filter found l.
  (** from the first successful lookup on *)
  Fixpoint from_first (l : list Z) : list Z := match l with [] => [] | s :: l' => if found s then l else from_first l' end.
  (** at least four counted transforms, the first and the last successful one at the same time *)
  Definition zero_span (l : list Z) : Prop := 4 <= length (from_first l) /\ exists s, hd_error (successes l) = Some s /\ last (successes l) 0%Z = s.

  (** the loop over the selected stamps *)
  Fixpoint export_stamps (l : list Z) (st : tf_state) : tf_state * option exn :=
    match l with
    | [] => (st, None)
    | s :: l' => match export_one lookup (mkTf "" s) st with (st', None) => export_stamps l' st' | (st', Some e) => (st', Some e) end
    end.
  Lemma export_stamps_app l1 l2 st : export_stamps (l1 ++ l2) st =
    match export_stamps l1 st with (st', None) => export_stamps l2 st' | (st', Some e) => (st', Some e) end.
  Proof. revert st. induction l1 as [|s l1 IH]; intros st; [easy|]. cbn [app export_stamps]. destruct (export_one _ _ _) as [st' [e|]]; [easy|apply IH]. Qed.
  Lemma export_transforms_stamps source ts : forall st, export_transforms lookup source ts st =
    export_stamps (map stamp (filter (fun t => String.eqb (child_frame t) source) ts)) st.
  Proof.
    induction ts as [|t ts IH]; intros st; [easy|]. cbn [export_transforms filter]. destruct (String.eqb (child_frame t) source); [|apply IH].
    cbn [map export_stamps]. change (export_one lookup (mkTf "" (stamp t)) st) with (export_one lookup t st). destruct (export_one lookup t st) as [st' [e|]]; [easy|apply IH].
  Qed.
  Lemma export_messages_stamps source ms : forall st, export_messages lookup source ms st = export_stamps (selected source ms) st.
  Proof.
    induction ms as [|m ms IH]; intros st; [easy|]. cbn [export_messages]. unfold selected. cbn [flat_map]. fold (selected source ms).
    destruct (String.eqb (topic m) "/tf"); [|apply IH]. rewrite export_stamps_app, export_transforms_stamps. destruct (export_stamps _ st) as [st' [e|]]; [easy|apply IH].
  Qed.

  Lemma expected_app a b : expected (a ++ b) = expected a ++ expected b.
  Proof. apply flat_map_app. Qed.
  Lemma successes_app a b : successes (a ++ b) = successes a ++ successes b.
  Proof. apply filter_app. Qed.
  Lemma from_first_app a b : from_first (a ++ b) = match from_first a with [] => from_first b | f => f ++ b end.
  Proof. induction a as [|s a IH]; [easy|]. cbn [app from_first]. destruct (found s); [easy|exact IH]. Qed.
  Lemma from_first_nil a : from_first a = [] <-> successes a = [].
  Proof. unfold successes. induction a as [|s a IH]; [easy|]. cbn [from_first filter]. destruct (found s); [split; discriminate|exact IH]. Qed.
  Definition state_of (l : list Z) : tf_state :=
    mkTfState (match successes l with [] => true | _ => false end) (length (from_first l)) (hd 0%Z (successes l)) (last (successes l) 0%Z) (expected l).
  Definition zero_span_b (l : list Z) : bool := (3 <? length (from_first l)) && (last (successes l) 0 - hd 0 (successes l) =? 0)%Z.
  Lemma zero_span_iff l : zero_span_b l = true <-> zero_span l.
  Proof.
    unfold zero_span_b, zero_span. rewrite andb_true_iff, Nat.ltb_lt, Z.eqb_eq. split.
    - intros [L E]. split; [lia|]. destruct (successes l) as [|s r] eqn:S; [apply from_first_nil in S; rewrite S in L; cbn in L; lia|]. exists s. split; [easy|]. cbn [hd] in E. lia.
    - intros [L (s & H & E)]. split; [lia|]. destruct (successes l) as [|s' r]; [easy|]. injection H as ->. cbn [hd]. rewrite E. lia.
  Qed.
  Lemma export_one_state pre s : export_one lookup (mkTf "" s) (state_of pre) =
    (state_of (pre ++ [s]), if found s && zero_span_b (pre ++ [s]) then Some ZeroDivisionError else None).
  Proof.
    unfold export_one, state_of, zero_span_b, found. cbn [stamp tf_counter init start_time end_time rows].
    rewrite successes_app, from_first_app, expected_app.
    change (expected [s]) with (match lookup s with Some p => [(s, p)] | None => [] end ++ []).
    assert (S1 : successes [s] = if found s then [s] else []) by (unfold successes; cbn [filter]; easy). rewrite S1. cbn [from_first]. unfold found. destruct (lookup s) as [p|] eqn:E; cbn [app].
    - rewrite last_last. assert (LE : length (match from_first pre with [] => [s] | z :: l => z :: l ++ [s] end) = S (length (from_first pre))).
      { destruct (from_first pre); [easy|]. cbn [length]. rewrite app_length. cbn. lia. }
      destruct (from_first pre) as [|f fs] eqn:FF.
      + apply from_first_nil in FF. rewrite FF. cbn. easy.
      + assert (NS : successes pre <> []) by (intros X; apply from_first_nil in X; congruence).
        destruct (successes pre) as [|z zs]; [easy|]. cbn [app hd]. cbn [app] in LE. rewrite LE. f_equal. unfold estimate_frequency. cbn [andb].
        destruct (3 <? S (length (f :: fs))); [|easy]. cbn [andb]. now destruct (s - z =? 0)%Z.
    - rewrite !app_nil_r. destruct (from_first pre) as [|f fs] eqn:FF; cbn [length]; [easy|]. change (0 <? S (length fs)) with true. cbn iota. f_equal. f_equal.
      cbn [app length]. rewrite app_length. cbn. lia.
  Qed.
  Lemma export_stamps_state l : forall pre,
    (exists a s b, l = a ++ s :: b /\ found s = true /\ zero_span_b (pre ++ a ++ [s]) = true /\
       export_stamps l (state_of pre) = (state_of (pre ++ a ++ [s]), Some ZeroDivisionError)) \/
    ((forall a s b, l = a ++ s :: b -> found s = true -> zero_span_b (pre ++ a ++ [s]) = false) /\
       export_stamps l (state_of pre) = (state_of (pre ++ l), None)).
  Proof.
    induction l as [|s l IH]; intros pre.
    - right. split; [intros [|] ? ? E; discriminate|]. cbn. now rewrite app_nil_r.
    - cbn [export_stamps]. rewrite export_one_state. destruct (found s && zero_span_b (pre ++ [s])) eqn:B.
      + apply andb_true_iff in B as [F Z]. left. now exists [], s, l.
      + destruct (IH (pre ++ [s])) as [(a & x & b & E & F & Z & R)|[N R]].
        * left. exists (s :: a), x, b. rewrite <- app_assoc in Z, R. subst l. cbn [app] in *. easy.
        * right. rewrite <- app_assoc in R. split; [|exact R]. intros [|y a] x b E F; injection E as -> E.
          -- rewrite F in B. exact B.
          -- specialize (N a x b E F). now rewrite <- app_assoc in N.
  Qed.

  (** What is written and reported, and when it raises. *)
  Theorem C56_rows : forall source ms rs r, write_transformation_to_csv_file lookup source ms = (rs, r) ->
    (exists a b, selected source ms = a ++ b /\ rs = expected a) /\
    (forall n, r = Ok n -> rs = expected (selected source ms) /\ n = length (from_first (selected source ms))) /\
    (forall e, r = Err e -> e = ZeroDivisionError).
  Proof.
    intros source ms rs r. unfold write_transformation_to_csv_file. rewrite export_messages_stamps.
    change (mkTfState true 0 0 0 []) with (state_of []). set (l := selected source ms).
    destruct (export_stamps_state l []) as [(a & s & b & E & F & Z & R)|[N R]]; rewrite R; cbn [app].
    - intros H. injection H as <- <-. split; [exists (a ++ [s]), b; rewrite <- app_assoc; easy|]. split; [easy|]. now intros e [= <-].
    - assert (W : exists a b, l = a ++ b /\ rows (state_of l) = expected a) by (exists l, []; now rewrite app_nil_r).
      unfold estimate_frequency. destruct (3 <? tf_counter (state_of l)); [destruct (_ =? 0)%Z|]; intros H; injection H as <- <-.
      + split; [exact W|]. split; [easy|]. now intros e [= <-].
      + split; [exact W|]. split; [|easy]. now intros n [= <-].
      + split; [exact W|]. split; [|easy]. now intros n [= <-].
  Qed.
  Theorem C56_raises : forall source ms, let l := selected source ms in
    snd (write_transformation_to_csv_file lookup source ms) = Err ZeroDivisionError <->
    zero_span l \/ exists a s b, l = a ++ s :: b /\ lookup s <> None /\ zero_span (a ++ [s]).
  Proof.
    intros source ms l. unfold write_transformation_to_csv_file. rewrite export_messages_stamps. fold l.
    change (mkTfState true 0 0 0 []) with (state_of []).
    assert (FL : forall s, found s = true <-> lookup s <> None) by (intros s; unfold found; destruct (lookup s); split; congruence).
    destruct (export_stamps_state l []) as [(a & s & b & E & F & Z & R)|[N R]]; rewrite R; cbn [app] in *.
    - split; [|easy]. intros _. right. exists a, s, b. rewrite <- FL, <- zero_span_iff. easy.
    - rewrite <- zero_span_iff. unfold zero_span_b. cbn [tf_counter start_time end_time state_of rows]. unfold estimate_frequency. split.
      + intros H. left. destruct (3 <? length (from_first l)); [|discriminate]. cbn. now destruct (_ =? 0)%Z.
      + intros [H|(a & s & b & E & F & Z)].
        * apply andb_true_iff in H as [-> ->]. easy.
        * apply FL in F. apply zero_span_iff in Z. specialize (N a s b E F). congruence.
  Qed.
  (** Two or more successful lookups at different times never raise. *)
  Theorem C56_distinct : forall source ms, let l := selected source ms in
    NoDup (successes l) -> 2 <= length (successes l) ->
    write_transformation_to_csv_file lookup source ms = (expected l, Ok (length (from_first l))).
  Proof.
    intros source ms l ND L2. destruct (write_transformation_to_csv_file lookup source ms) as [rs r] eqn:W.
    destruct (C56_rows _ _ _ _ W) as (_ & OK & ER). destruct r as [n|e].
    - destruct (OK n eq_refl) as [-> ->]. easy.
    - exfalso. rewrite (ER e eq_refl) in W.
      assert (R : snd (write_transformation_to_csv_file lookup source ms) = Err ZeroDivisionError) by now rewrite W.
      apply C56_raises in R. fold l in R.
      assert (G : forall p q, l = p ++ q -> zero_span p -> (q = [] \/ exists a s, p = a ++ [s] /\ found s = true) -> False).
      { intros p q E [L4 (s & H & LA)] K. rewrite E, successes_app in ND, L2.
        destruct (successes p) as [|x xs] eqn:SP; [easy|]. injection H as ->. destruct xs as [|y ys].
        - destruct K as [->|(a & s' & -> & F)]; [cbn in L2; lia|].
          rewrite successes_app in SP. cbn [successes filter] in SP. rewrite F in SP. destruct (successes a) as [|z zs] eqn:SA; [|destruct zs; discriminate].
          rewrite from_first_app in L4. apply from_first_nil in SA. rewrite SA in L4. cbn [from_first] in L4. rewrite F in L4. cbn in L4. lia.
        - apply NoDup_cons_iff in ND as [NI _]. apply NI. change (In s ((y :: ys) ++ successes q)). apply in_or_app. left.
          assert (LB : last (y :: ys) 0%Z = s) by exact LA. rewrite <- LB.
          assert (IL : forall (m : list Z) d, m <> [] -> In (last m d) m).
          { clear. induction m as [|x [|y m] IH]; intros d NE; [easy|now left|]. right. now apply IH. }
          now apply IL. }
      destruct R as [Z|(a & s & b & E & F & Z)].
      + apply (G l []); [now rewrite app_nil_r|easy|now left].
      + apply (G (a ++ [s]) b); [rewrite <- app_assoc; exact E|easy|]. right. exists a, s. split; [easy|]. unfold found. now destruct (lookup s).
  Qed.
End C56.
(** Repeated stamps are exported again; failed lookups are counted as exported; one success followed
    by three failures raises. *)
Theorem C56_duplicates_refuted : exists (lookup : Z -> option nat) source ms rs n,
  write_transformation_to_csv_file lookup source ms = (rs, Ok n) /\ ~ NoDup rs /\ n <> length rs.
Proof.
  set (tf s := mkTf "cam" s). set (lookup s := if (s =? 7)%Z then None else Some 0).
  exists lookup, "cam"%string, [mkMsg "/tf" [tf 1%Z; tf 7%Z; tf 2%Z; tf 2%Z]]. eexists _, _. split; [reflexivity|]. split.
  - intros ND. apply NoDup_cons_iff in ND as [_ ND]. apply NoDup_cons_iff in ND as [NI _]. apply NI. now left.
  - discriminate.
Qed.
Example C56_example : exists (lookup : Z -> option nat) source ms,
  write_transformation_to_csv_file lookup source ms = ([(1%Z, 0)], Err ZeroDivisionError).
Proof.
  exists (fun s => if (s =? 1)%Z then Some 0 else None), "cam"%string, [mkMsg "/tf" (map (mkTf "cam") [1; 2; 3; 4]%Z)]. reflexivity.
Qed.
Example C56_example_distinct : exists (lookup : Z -> option nat) ms,
  NoDup (successes lookup (selected "cam" ms)) /\ 2 <= length (successes lookup (selected "cam" ms)).
Proof.
  exists (fun _ => Some 0), [mkMsg "/tf" (map (mkTf "cam") [1; 2; 3]%Z)]. cbn. split; [|lia]. repeat constructor; cbn; intuition discriminate.
Qed.

(** ** C57 *)
Local Open Scope string_scope.
Definition frames_of (b : bag) : list string * list string := match tf_frames b with Some f => f | None => ([], []) end.
Definition cameras_of (b : bag) : list string * list string := match cameras b with Some f => f | None => ([], []) end.
Definition matching (b : bag) : Prop :=
  List.length (fst (frames_of b)) = List.length (snd (frames_of b)) /\ List.length (fst (cameras_of b)) = List.length (snd (cameras_of b)).
(** one command per frame pair, then one per camera *)
Definition tf_commands (b : bag) : list command :=
  map (fun f => TfToCsv (bag_path b ++ bag_name b) (fst f) (snd f) (tf_output (bag_name b) (snd f) (fst f))) (combine (fst (frames_of b)) (snd (frames_of b))).
Definition camera_commands (b : bag) : list command :=
  map (fun c => TargetExtractor (bag_path b ++ bag_name b) (fst c) (intrinsics_path b ++ snd c) (target_config_path b ++ target b)
     (camera_output (bag_name b) (fst c))) (combine (fst (cameras_of b)) (snd (cameras_of b))).
Lemma export_bag_spec b : export_bag b =
  if (List.length (fst (frames_of b)) =? List.length (snd (frames_of b)))%nat then
    if (List.length (fst (cameras_of b)) =? List.length (snd (cameras_of b)))%nat then ((tf_commands b ++ camera_commands b)%list, None)
    else (tf_commands b, Some AssertionError)
  else ([], Some AssertionError).
Proof.
  unfold export_bag, tf_commands, camera_commands, frames_of, cameras_of. destruct (tf_frames b) as [[s t]|]; cbn [fst snd].
  - destruct (List.length s =? List.length t)%nat; cbn [negb]; [|easy]. destruct (cameras b) as [[u v]|]; cbn [fst snd]; [|easy]. now destruct (_ =? _)%nat.
  - cbn. destruct (cameras b) as [[u v]|]; cbn [fst snd]; [|easy]. now destruct (_ =? _)%nat.
Qed.
Theorem C57_all_bags : forall bs, Forall matching bs ->
  export_bags bs = (flat_map (fun b => tf_commands b ++ camera_commands b)%list bs, None).
Proof.
  induction bs as [|b bs IH]; intros F; [easy|]. inversion F as [|? ? [M1 M2] F']; subst. cbn [export_bags flat_map].
  rewrite export_bag_spec. apply Nat.eqb_eq in M1, M2. rewrite M1, M2, IH by easy. easy.
Qed.
(** The first bag with lists of different lengths stops the script; what came before was issued. *)
Theorem C57_mismatch : forall bs b rest, Forall matching bs -> ~ matching b ->
  export_bags (bs ++ b :: rest) =
    ((flat_map (fun b => tf_commands b ++ camera_commands b) bs ++
      if (List.length (fst (frames_of b)) =? List.length (snd (frames_of b)))%nat then tf_commands b else [])%list, Some AssertionError).
Proof.
  induction bs as [|c bs IH]; intros b rest F NM; cbn [app export_bags flat_map].
  - rewrite export_bag_spec. destruct (Nat.eqb_spec (List.length (fst (frames_of b))) (List.length (snd (frames_of b)))) as [E1|]; [|easy].
    destruct (Nat.eqb_spec (List.length (fst (cameras_of b))) (List.length (snd (cameras_of b)))) as [E2|]; [|easy]. now destruct NM.
  - inversion F as [|? ? [M1 M2] F']; subst. rewrite export_bag_spec. apply Nat.eqb_eq in M1, M2. rewrite M1, M2, (IH b rest F' NM). now rewrite app_assoc.
Qed.

(** Collisions of output names. *)
Fixpoint has_char (c : ascii) (s : string) : bool := match s with EmptyString => false | String d s' => Ascii.eqb d c || has_char c s' end.
Lemma before_dot_app s r : has_char "." s = false -> before_dot (s ++ String "." r) = s.
Proof. induction s as [|c s IH]; cbn; [easy|]. intros H. apply orb_false_iff in H as [H1 H2]. now rewrite H1, IH. Qed.
Lemma slash_app a b : slash_to_underscore (a ++ b) = slash_to_underscore a ++ slash_to_underscore b.
Proof. induction a as [|c a IH]; [easy|]. cbn. now rewrite IH. Qed.
Lemma slash_none s : has_char "/" s = false -> slash_to_underscore s = s.
Proof. induction s as [|c s IH]; [easy|]. cbn. intros H. apply orb_false_iff in H as [-> H]. now rewrite IH. Qed.
(** The names of the output files. *)
Theorem C57_names : forall stem ext target source t u, has_char "." stem = false -> has_char "/" t = false -> has_char "/" u = false ->
  tf_output (stem ++ "." ++ ext) target source = stem ++ "_" ++ target ++ "_" ++ source ++ ".csv" /\
  camera_output (stem ++ "." ++ ext) ("/" ++ t) = stem ++ "_W_" ++ t ++ ".csv" /\
  camera_output (stem ++ "." ++ ext) ("/" ++ t ++ "/" ++ u) = stem ++ "_W_" ++ t ++ "_" ++ u ++ ".csv".
Proof.
  intros stem ext tg sr t u D T U. unfold tf_output, camera_output.
  change ("." ++ ext) with (String "." ext). rewrite !before_dot_app by exact D. split; [easy|].
  cbn [append slash_to_underscore tail]. change (String "/" u) with ("/" ++ u). rewrite !slash_app, (slash_none t T).
  cbn [append slash_to_underscore Ascii.eqb Bool.eqb]. rewrite (slash_none u U). split; [easy|].
  do 4 f_equal. clear. induction t as [|c t IH]; [easy|]. cbn. now rewrite IH.
Qed.
Example C57_names_example : has_char "." "run" = false /\ has_char "/" "cam0" = false /\ has_char "/" "image_raw" = false /\
  tf_output "run.bag" "base" "hand" = "run_base_hand.csv" /\ camera_output "run.bag" "/cam0/image_raw" = "run_W_cam0_image_raw.csv".
Proof. repeat split. Qed.
(** Only the bag name before its first dot counts. *)
Theorem C57_bag_collision : forall stem r1 r2 t s topic, has_char "." stem = false ->
  tf_output (stem ++ "." ++ r1) t s = tf_output (stem ++ "." ++ r2) t s /\
  camera_output (stem ++ "." ++ r1) topic = camera_output (stem ++ "." ++ r2) topic.
Proof. intros. cbn [append]. unfold tf_output, camera_output. now rewrite !before_dot_app. Qed.
(** A topic's first character is ignored, and slashes and underscores are the same. *)
Theorem C57_topic_collision : forall name c c' t, camera_output name (String c t) = camera_output name (String c' t).
Proof. easy. Qed.
Theorem C57_slash_collision : forall name t u, camera_output name ("/" ++ t ++ "/" ++ u) = camera_output name ("/" ++ t ++ "_" ++ u).
Proof.
  intros. unfold camera_output. do 3 f_equal. cbn [append slash_to_underscore tail Ascii.eqb Bool.eqb].
  induction t as [|c t IH]; [easy|]. cbn [append slash_to_underscore]. now rewrite IH.
Qed.
(** Frames: the separator may be part of a name; and a frame pair can collide with a camera. *)
Lemma app_assoc_s a b c : (a ++ b) ++ c = a ++ (b ++ c).
Proof. induction a; cbn; congruence. Qed.
Theorem C57_frame_collision : forall name a b c, tf_output name (a ++ "_" ++ b) c = tf_output name a (b ++ "_" ++ c).
Proof. intros. unfold tf_output. do 2 f_equal. now rewrite !app_assoc_s. Qed.
Theorem C57_world_collision : forall name c t, tf_output name "W" (slash_to_underscore t) = camera_output name (String c t).
Proof. intros. unfold tf_output, camera_output. now cbn [slash_to_underscore tail append]. Qed.
(** Frames without underscores do not collide within a bag. *)
Lemma app_inj_l a b c : a ++ b = a ++ c -> b = c.
Proof. induction a; cbn; intros E; [easy|]. injection E as E. auto. Qed.
Lemma length_app_s a b : String.length (a ++ b) = (String.length a + String.length b)%nat.
Proof. induction a; cbn; auto. Qed.
Lemma app_inj_r b c d : b ++ d = c ++ d -> b = c.
Proof.
  revert c. induction b as [|x b IH]; intros [|y c] E; cbn in E; [easy| | |].
  - exfalso. assert (L := f_equal String.length E). cbn in L. rewrite length_app_s in L. lia.
  - exfalso. assert (L := f_equal String.length E). cbn in L. rewrite length_app_s in L. lia.
  - injection E as -> E. f_equal. now apply IH.
Qed.
Lemma split_unique a b a' b' : has_char "_" a = false -> has_char "_" a' = false -> a ++ "_" ++ b = a' ++ "_" ++ b' -> a = a' /\ b = b'.
Proof.
  revert a'. induction a as [|c a IH]; intros [|c' a'] H H' E; cbn in E.
  - now injection E.
  - injection E as <- E. cbn in H'. discriminate.
  - injection E as -> E. cbn in H. discriminate.
  - injection E as -> E. cbn in H, H'. apply orb_false_iff in H as [_ H], H' as [_ H']. destruct (IH a' H H' E) as [-> ->]. easy.
Qed.
Theorem C57_frames_distinct : forall name t s t' s', has_char "_" t = false -> has_char "_" t' = false ->
  tf_output name t s = tf_output name t' s' -> t = t' /\ s = s'.
Proof.
  intros name t s t' s' H H' E. unfold tf_output in E. apply app_inj_l in E. apply app_inj_l in E.
  apply split_unique in E as [-> E]; [|easy|easy]. split; [easy|]. now apply app_inj_r in E.
Qed.
(** Topics that start with a slash and have no underscore do not collide within a bag. *)
Lemma slash_inj s : forall s', has_char "_" s = false -> has_char "_" s' = false -> slash_to_underscore s = slash_to_underscore s' -> s = s'.
Proof.
  induction s as [|c s IH]; intros [|c' s'] H H' E; try discriminate; [easy|]. cbn in *. apply orb_false_iff in H as [H1 H], H' as [H1' H']. injection E as EC ES.
  rewrite (IH s' H H' ES). f_equal. destruct (Ascii.eqb_spec c "/") as [->|], (Ascii.eqb_spec c' "/") as [->|]; try easy.
  - subst c'. discriminate.
  - subst c. discriminate.
Qed.
Theorem C57_topics_distinct : forall name t t', has_char "_" t = false -> has_char "_" t' = false ->
  camera_output name (String "/" t) = camera_output name (String "/" t') -> t = t'.
Proof.
  intros name t t' H H' E. unfold camera_output in E. do 3 apply app_inj_l in E. cbn [slash_to_underscore tail] in E. apply app_inj_r in E. now apply slash_inj.
Qed.
Example C57_example : exists b, matching b /\ tf_output (bag_name b) "base" "hand" = "run_base_hand.csv" /\
  camera_output (bag_name b) "/cam/image" = "run_W_cam_image.csv".
Proof. exists (mkBag "run.bag" "" "" "" (Some (["hand"], ["base"])) (Some (["/cam/image"], ["cam.yaml"])) "t.yaml"). repeat split. Qed.

(** ** C60 *)
Theorem C60_run : forall exit_code dry_run,
  (snd (run exit_code dry_run) = Ok tt <-> dry_run = true \/ exit_code = 0%Z) /\
  (snd (run exit_code dry_run) <> Ok tt -> snd (run exit_code dry_run) = Err RuntimeError) /\
  (fst (run exit_code dry_run) = true <-> dry_run = false).
Proof.
  intros c [|]; unfold run; cbn [fst snd].
  - repeat split; try easy. auto.
  - destruct (Z.eqb_spec c 0) as [->|NE]; repeat split; try easy; try (now right). intros [|]; easy.
Qed.
Theorem C60_create_path : forall exists_ makedirs_fails path,
  (exists_ (dirname path) = true \/ makedirs_fails (dirname path) = false -> create_path exists_ makedirs_fails path = Ok tt) /\
  (exists_ (dirname path) = false -> makedirs_fails (dirname path) = true -> create_path exists_ makedirs_fails path = Err NameError).
Proof.
  intros ex mk p. unfold create_path. split.
  - intros [-> | ->]; [easy|]. now destruct (ex _).
  - intros -> ->. easy.
Qed.
(** For a file name without directory: the empty path does not exist and cannot be created. *)
Lemma upto_no_slash s : has_char "/" s = false -> upto_last_slash s = "".
Proof. induction s as [|c s IH]; cbn; [easy|]. intros H. apply orb_false_iff in H as [H1 H2]. now rewrite IH, H1. Qed.
Theorem C60_bare_name : forall exists_ makedirs_fails f, has_char "/" f = false ->
  exists_ "" = false -> makedirs_fails "" = true -> create_path exists_ makedirs_fails f = Err NameError.
Proof. intros ex mk f H E M. unfold create_path, dirname. rewrite upto_no_slash by easy. cbn. now rewrite E, M. Qed.
(** The directory of "dir/file". *)
Lemma upto_app d f : has_char "/" f = false -> upto_last_slash (d ++ "/" ++ f) = d ++ "/".
Proof.
  intros N. induction d as [|c d IH]; cbn [append upto_last_slash]; [now rewrite (upto_no_slash f N)|]. cbn [append] in IH. rewrite IH. now destruct d.
Qed.
Lemma strip_app d : d <> "" -> has_char "/" d = false -> strip_slashes (d ++ "/") = d.
Proof.
  intros _.
  { induction d as [|c d IH]; cbn; [easy|]. intros H. apply orb_false_iff in H as [H1 H2]. rewrite IH by easy. destruct d; [now rewrite H1|easy]. }
Qed.
Theorem C60_dirname : forall d f, d <> "" -> has_char "/" d = false -> has_char "/" f = false -> dirname (d ++ "/" ++ f) = d.
Proof. intros d f NE Hd Hf. unfold dirname. rewrite upto_app, strip_app by easy. now destruct d. Qed.
Example C60_example : dirname "out/results.csv" = "out" /\ dirname "results.csv" = "" /\ dirname "/a//b/c" = "/a//b" /\ dirname "/c" = "/".
Proof. repeat split. Qed.
