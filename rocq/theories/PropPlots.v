(** * Property C79: what generate_plots.py shows. *)

From Coq Require Import ZArith String List Bool Arith Lia.
From Verif Require Import Num Py TimeAlign Experiments PropTables Plots.
Import ListNotations.
Local Open Scope string_scope.
Local Open Scope list_scope.

Section Figures.
  Context {N : Num}.
  Implicit Types k : list (row N).
  (** the kept rows of one dataset and method *)
  Definition group k (d m : string) : list (row N) := filter (fun r => String.eqb (r_dataset r) d && String.eqb (label r) m)%bool k.
  Definition all_methods k : list string := distinct (map label k).
  Definition all_datasets k : list string := distinct (map r_dataset k).
  (** every method that occurs at all occurs in the dataset *)
  Definition full k (d : string) : Prop := forall r, In r k -> exists r', In r' k /\ r_dataset r' = d /\ label r' = label r.
  Definition box k (d : string) : figure N :=
    BoxPlot d (all_methods k) (map (fun m => map r_position_rmse (group k d m)) (all_methods k))
                              (map (fun m => map r_orientation_rmse (group k d m)) (all_methods k)).
  Definition timing k : figure N :=
    TimePlot (all_methods k) (map (fun d => (d, map (fun m => map (fun r => add (r_runtime r) (r_runtime_optimization r)) (group k d m)) (all_methods k))) (all_datasets k)).

  Lemma filter_filter {A} (p q : A -> bool) l : filter q (filter p l) = filter (fun x => p x && q x)%bool l.
  Proof. induction l as [|x l IH]; [easy|]. cbn [filter]. destruct (p x); cbn [andb filter]; [destruct (q x); now rewrite IH|exact IH]. Qed.
  Lemma group_nil k d m : group k d m = [] <-> ~ exists r, In r k /\ r_dataset r = d /\ label r = m.
  Proof.
    split.
    - intros E (r & IN & D & M). assert (X : In r (group k d m)). { apply filter_In. split; [easy|]. now rewrite D, M, !String.eqb_refl. } now rewrite E in X.
    - intros H. apply filter_none. intros r IN. destruct (String.eqb_spec (r_dataset r) d), (String.eqb_spec (label r) m); try easy. exfalso. apply H. now exists r.
  Qed.
  Lemma per_item_summary (f : row N -> T) k d m : In d (all_datasets k) ->
    per_item (by_dataset_method f k) d m =
    match group k d m with [] => Err KeyError | _ => Ok (map f (group k d m)) end.
  Proof.
    intros ID. unfold per_item, dict_item, by_dataset_method. rewrite (dict_get_map (fun d => map (fun m => (m, map f (filter (fun r => String.eqb (label r) m) (filter (fun r => String.eqb (r_dataset r) d) k))))
                          (distinct (map label (filter (fun r => String.eqb (r_dataset r) d) k))))).
    destruct (in_dec string_dec d (distinct (map r_dataset k))) as [_|NI]; [|easy]. cbn [bind].
    rewrite (dict_get_map (fun m => map f (filter (fun r => String.eqb (label r) m) (filter (fun r => String.eqb (r_dataset r) d) k)))).
    rewrite filter_filter. fold (group k d m). destruct (in_dec string_dec m _) as [I|NI].
    - apply distinct_in, in_map_iff in I. destruct I as (r & <- & I). apply filter_In in I. destruct I as [I E].
      destruct (group k d (label r)) eqn:G; [|easy]. apply group_nil in G. exfalso. apply G. exists r. now apply String.eqb_eq in E.
    - destruct (group k d m) eqn:G; [easy|]. exfalso. apply NI. apply distinct_in. 
      assert (X : In r (group k d m)) by (rewrite G; now left). apply filter_In in X. destruct X as [I E]. apply andb_prop in E. destruct E as [E1 E2].
      apply String.eqb_eq in E2. subst m. apply in_map. now apply filter_In.
  Qed.
  Lemma mapM_ok {A B} (f : A -> res B) g l : (forall x, In x l -> f x = Ok (g x)) -> mapM f l = Ok (map g l).
  Proof. induction l as [|x l IH]; intros H; [easy|]. cbn [mapM map]. rewrite (H x) by now left. cbn [bind]. rewrite IH; [easy|]. intros y I. apply H. now right. Qed.
  Lemma mapM_err {A B} (f : A -> res B) e l : (forall x, In x l -> (exists y, f x = Ok y) \/ f x = Err e) -> (exists x, In x l /\ f x = Err e) -> mapM f l = Err e.
  Proof.
    induction l as [|x l IH]; intros H (y & I & E); [easy|]. cbn [mapM]. destruct (H x) as [[z Z]|Z]; [now left| |now rewrite Z].
    rewrite Z. cbn [bind]. rewrite IH; [easy| |].
    - intros u U. apply H. now right.
    - destruct I as [->|I]; [congruence|]. now exists y.
  Qed.
  Lemma full_groups k d : full k d <-> forall m, In m (all_methods k) -> group k d m <> [].
  Proof.
    unfold all_methods. split.
    - intros F m I G. apply distinct_in, in_map_iff in I. destruct I as (r & <- & I). apply group_nil in G. apply G. now apply F.
    - intros F r I. destruct (group k d (label r)) as [|r' g] eqn:G; [exfalso; apply (F (label r)); [apply distinct_in; now apply in_map|easy]|].
      exists r'. assert (X : In r' (group k d (label r))) by (rewrite G; now left). apply filter_In in X. destruct X as [X E]. apply andb_prop in E.
      destruct E as [E1 E2]. now apply String.eqb_eq in E1, E2.
  Qed.
  Lemma row_full (f : row N -> T) k d : In d (all_datasets k) -> full k d ->
    mapM (per_item (by_dataset_method f k) d) (all_methods k) = Ok (map (fun m => map f (group k d m)) (all_methods k)).
  Proof.
    intros ID F. apply mapM_ok. intros m I. rewrite per_item_summary by easy. rewrite full_groups in F. specialize (F m I). now destruct (group k d m).
  Qed.
  Lemma row_missing (f : row N -> T) k d : In d (all_datasets k) -> ~ full k d ->
    mapM (per_item (by_dataset_method f k) d) (all_methods k) = Err KeyError.
  Proof.
    intros ID F. apply mapM_err.
    - intros m _. rewrite per_item_summary by easy. destruct (group k d m); [now right|left; eauto].
    - assert (X : Exists (fun m => group k d m = []) (all_methods k)).
      { apply Exists_exists. destruct (Exists_dec (fun m => group k d m = []) (all_methods k)) as [E|E].
        - intros m. destruct (group k d m); [now left|now right].
        - now apply Exists_exists.
        - exfalso. apply F. apply full_groups. intros m I G. apply E. apply Exists_exists. now exists m. }
      apply Exists_exists in X. destruct X as (m & I & G). exists m. split; [easy|]. rewrite per_item_summary by easy. now rewrite G.
  Qed.
  Lemma boxes_full data : let k := kept data in forall ds, (forall d, In d ds -> In d (all_datasets k)) -> (forall d, In d ds -> full k d) ->
    forall rest, box_plots (summary data) (ds ++ rest) = (map (box k) ds ++ fst (box_plots (summary data) rest), snd (box_plots (summary data) rest)).
  Proof.
    intros k ds I F rest. induction ds as [|d ds IH]; [cbn [app map]; now destruct (box_plots (summary data) rest)|].
    cbn [app box_plots]. rewrite IH by (intros x X; first [apply I|apply F]; now right).
    change (t_position_per (summary data)) with (by_dataset_method r_position_rmse k).
    change (t_orientation_per (summary data)) with (by_dataset_method r_orientation_rmse k).
    change (t_methods (summary data)) with (all_methods k).
    rewrite !row_full by (try (apply I; now left); apply F; now left). reflexivity.
  Qed.
  Lemma box_missing data : let k := kept data in forall d rest, In d (all_datasets k) -> ~ full k d ->
    box_plots (summary data) (d :: rest) = ([], Some KeyError).
  Proof.
    intros k d rest I F. cbn [box_plots].
    change (t_position_per (summary data)) with (by_dataset_method r_position_rmse k). change (t_methods (summary data)) with (all_methods k).
    now rewrite row_missing.
  Qed.
  Lemma combine_seq_in {A} (l : list A) : forall s i x, In (i, x) (combine (seq s (length l)) l) <-> (s <= i)%nat /\ nth_error l (i - s) = Some x.
  Proof.
    induction l as [|y l IH]; intros s i x; cbn [length seq combine In].
    - split; [easy|]. intros [_ E]. now destruct (i - s)%nat.
    - rewrite IH. split.
      + intros [E|[L E]]; [injection E as <- <-; rewrite Nat.sub_diag; split; [lia|easy]|]. split; [lia|]. now replace (i - s)%nat with (S (i - S s)) by lia.
      + intros [L E]. destruct (Nat.eq_dec i s) as [->|NE]; [left; rewrite Nat.sub_diag in E; cbn in E; congruence|].
        right. split; [lia|]. now replace (i - s)%nat with (S (i - S s)) in E by lia.
  Qed.
  Lemma map_combine_snd {A B} (f : A -> B) (l : list A) : forall s, map (fun x => f (snd x)) (combine (seq s (length l)) l) = map f l.
  Proof. induction l as [|y l IH]; intros s; [easy|]. cbn. now rewrite IH. Qed.
  Lemma time_ok data : let k := kept data in k <> [] -> (forall d, In d (all_datasets k) -> full k d) -> (length (all_datasets k) <= 7)%nat ->
    time_plot (summary data) = Ok (timing k).
  Proof.
    intros k NE F L. unfold time_plot.
    change (t_methods (summary data)) with (all_methods k). change (t_datasets (summary data)) with (all_datasets k).
    change (t_runtimes_per (summary data)) with (by_dataset_method total_runtime k).
    assert (LM : length (all_methods k) <> 0%nat /\ length (all_datasets k) <> 0%nat).
    { destruct k as [|r k0]; [easy|]. split; intros E; apply length_zero_iff_nil in E;
      [assert (X : In (label r) (all_methods (r :: k0))) by (apply distinct_in; now left)|assert (X : In (r_dataset r) (all_datasets (r :: k0))) by (apply distinct_in; now left)]; now rewrite E in X. }
    destruct (Nat.eqb_spec (length (all_methods k)) 0); [easy|]. destruct (Nat.eqb_spec (length (all_datasets k)) 0); [easy|].
    rewrite (mapM_ok _ (fun x => (fun d => (d, map (fun m => map total_runtime (group k d m)) (all_methods k))) (snd x))).
    - cbn [bind]. now rewrite (map_combine_snd (fun d => (d, map (fun m => map total_runtime (group k d m)) (all_methods k)))).
    - intros [i d] I. apply combine_seq_in in I. destruct I as [_ E]. rewrite Nat.sub_0_r in E. cbn [snd].
      assert (ID : In d (all_datasets k)) by now apply nth_error_In in E.
      rewrite row_full by auto. cbn [bind]. destruct (Nat.ltb_spec i 7) as [_|G]; [easy|].
      assert (X : nth_error (all_datasets k) i <> None) by congruence. apply nth_error_Some in X. lia.
  Qed.
  Lemma time_many data : let k := kept data in (forall d, In d (all_datasets k) -> full k d) -> (7 < length (all_datasets k))%nat ->
    time_plot (summary data) = Err IndexError.
  Proof.
    intros k F L. unfold time_plot.
    change (t_methods (summary data)) with (all_methods k). change (t_datasets (summary data)) with (all_datasets k).
    change (t_runtimes_per (summary data)) with (by_dataset_method total_runtime k).
    assert (LM : length (all_methods k) <> 0%nat).
    { destruct k as [|r k0]; [cbn in L; lia|]. intros E; apply length_zero_iff_nil in E. assert (X : In (label r) (all_methods (r :: k0))) by (apply distinct_in; now left). now rewrite E in X. }
    destruct (Nat.eqb_spec (length (all_methods k)) 0); [easy|]. destruct (Nat.eqb_spec (length (all_datasets k)) 0); [lia|].
    assert (R : forall i d, In (i, d) (combine (seq 0 (length (all_datasets k))) (all_datasets k)) ->
      mapM (per_item (by_dataset_method total_runtime k) d) (all_methods k) = Ok (map (fun m => map total_runtime (group k d m)) (all_methods k))).
    { intros i d I. apply combine_seq_in in I. destruct I as [_ E]. apply nth_error_In in E. now apply row_full; [|apply F]. }
    rewrite (mapM_err _ IndexError); [easy| |].
    - intros [i d] I. rewrite (R i d I). cbn [bind]. destruct (i <? 7)%nat; [left; eauto|now right].
    - destruct (nth_error (all_datasets k) 7) as [d|] eqn:E; [|apply nth_error_None in E; lia].
      assert (I : In (7%nat, d) (combine (seq 0 (length (all_datasets k))) (all_datasets k))) by (apply combine_seq_in; split; [lia|exact E]).
      exists (7%nat, d). split; [easy|]. now rewrite (R 7%nat d I).
  Qed.

  (** Which figures are shown, for every list of result files that can be read (as in C53). *)
  Theorem C79_figures : forall files : list (list (row N)), files <> [] -> (forall r, files <> [[r]]) ->
    Forall known (concat files) -> Forall parsed (concat files) ->
    let k := filter (fun r => r_success r && negb (r_bad_singular_values r))%bool (concat files) in
    (k = [] -> generate_plots files = ([], Some ZeroDivisionError)) /\
    (forall before d after, all_datasets k = before ++ d :: after -> Forall (full k) before -> ~ full k d ->
       generate_plots files = (map (box k) before, Some KeyError)) /\
    (Forall (full k) (all_datasets k) -> (7 < length (all_datasets k))%nat ->
       generate_plots files = (map (box k) (all_datasets k), Some IndexError)) /\
    (k <> [] -> Forall (full k) (all_datasets k) -> (length (all_datasets k) <= 7)%nat ->
       exists maps e, generate_plots files = (map (box k) (all_datasets k) ++ [timing k] ++ maps, e) /\
         (maps, e) = circle_error_plot main_times main_translations main_angles (summary (concat files)) 60).
  Proof.
    intros files NE ONE K P k. unfold generate_plots. rewrite (C53_summary files NE ONE K P).
    change (t_datasets (summary (concat files))) with (all_datasets k). fold (kept (concat files)) in k.
    split; [|split; [|split]].
    - intros E. unfold time_plot. change (t_methods (summary (concat files))) with (all_methods k). rewrite E. reflexivity.
    - intros before d after E FB FD.
      assert (IN : forall x, In x (before ++ d :: after) -> In x (all_datasets k)) by (now rewrite E).
      rewrite E, (boxes_full (concat files)).
      + rewrite (box_missing (concat files)); [cbn [fst snd]; now rewrite app_nil_r| |easy]. apply IN. apply in_or_app. right. now left.
      + intros x X. apply IN. apply in_or_app. now left.
      + intros x X. rewrite Forall_forall in FB. now apply FB.
    - intros F L. rewrite Forall_forall in F. pose proof (boxes_full (concat files) (all_datasets k) (fun d H => H) F []) as B. rewrite app_nil_r in B. rewrite B.
      cbn [box_plots fst snd]. rewrite app_nil_r. now rewrite (time_many (concat files)).
    - intros NK F L. rewrite Forall_forall in F. pose proof (boxes_full (concat files) (all_datasets k) (fun d H => H) F []) as B. rewrite app_nil_r in B. rewrite B.
      cbn [box_plots fst snd]. rewrite app_nil_r. rewrite (time_ok (concat files)) by easy.
      destruct (circle_error_plot _ _ _ _ _) as [maps e]. now exists maps, e.
  Qed.
End Figures.

Example C79_figures_example {N : Num} : let r m ok d x := mkRow m ok x n1 x n0 n0 false n0 n0 (Ok n0) n0 d in
  forall x1 x2 x3 x4 : @T N,
  let a := [r "RC_filter_opt" true "A" x1; r "EC_opt" true "A" x2; r "EC_opt" false "B" x3] in
  let b := [r "RC_filter_opt" true "B" x4] in let c := [r "EC_opt" true "B" x3] in
  (generate_plots [a; b] = ([BoxPlot "A" ["PF_RC_O"; "PF_EC_O"] [[x1]; [x2]] [[n1]; [n1]]], Some KeyError)) /\
  (exists maps e, generate_plots [a; b; c] =
     ([BoxPlot "A" ["PF_RC_O"; "PF_EC_O"] [[x1]; [x2]] [[n1]; [n1]]; BoxPlot "B" ["PF_RC_O"; "PF_EC_O"] [[x4]; [x3]] [[n1]; [n1]];
       TimePlot ["PF_RC_O"; "PF_EC_O"] [("A", [[add x1 n0]; [add x2 n0]]); ("B", [[add x4 n0]; [add x3 n0]])]] ++ maps, e)).
Proof.
  intros r x1 x2 x3 x4 a b c.
  assert (K : Forall known (a ++ b ++ c) /\ Forall parsed (a ++ b ++ c)) by (split; repeat constructor; eexists; reflexivity).
  split.
  - destruct (C79_figures [a; b]) as (_ & H & _); [easy|easy|repeat constructor; eexists; reflexivity|repeat constructor; eexists; reflexivity|].
    apply (H ["A"] "B" []); [reflexivity| |].
    + constructor; [|constructor]. intros s [<- | [<- | [<- | []]]]; [exists (r "RC_filter_opt" true "A" x1)|exists (r "EC_opt" true "A" x2)|exists (r "RC_filter_opt" true "A" x1)]; (split; [cbn; tauto|split; reflexivity]).
    + intros F. destruct (F (r "EC_opt" true "A" x2)) as (s & I & D & M); [cbn; tauto|].
      destruct I as [<- | [<- | [<- | []]]]; discriminate.
  - destruct (C79_figures [a; b; c]) as (_ & _ & _ & H); [easy|easy|apply K|apply K|].
    destruct H as (maps & e & H & _); [discriminate| |cbn; lia|].
    + constructor; [|constructor; [|constructor]].
      * intros s [<- | [<- | [<- | [<- | []]]]]; [exists (r "RC_filter_opt" true "A" x1)|exists (r "EC_opt" true "A" x2)|exists (r "RC_filter_opt" true "A" x1)|exists (r "EC_opt" true "A" x2)]; (split; [cbn; tauto|split; reflexivity]).
      * intros s [<- | [<- | [<- | [<- | []]]]]; [exists (r "RC_filter_opt" true "B" x4)|exists (r "EC_opt" true "B" x3)|exists (r "RC_filter_opt" true "B" x4)|exists (r "EC_opt" true "B" x3)]; (split; [cbn; tauto|split; reflexivity]).
    + exists maps, e. exact H.
Qed.
