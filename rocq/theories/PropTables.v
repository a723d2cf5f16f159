(** * Properties C50, C52 and C53: result lines, algorithm configurations, result aggregation. *)

From Coq Require Import ZArith String Ascii List Bool Arith Lia Permutation.
From Verif Require Import Num Py Quat DualQuat HandEye TimeAlign Experiments.
Import ListNotations.
Local Open Scope string_scope.
Local Open Scope list_scope.

(** ** C50: the header and the lines of the result file

    [fields] is what a CSV reader sees in the first line of a text: the pieces between commas. *)
Definition comma : ascii := ",".
Definition eol : ascii := ascii_of_nat 10.
Fixpoint fields (s : string) : list string :=
  match s with
  | EmptyString => [""]
  | String c s' =>
      if Ascii.eqb c eol then [""]
      else if Ascii.eqb c comma then "" :: fields s'
      else match fields s' with
           | f :: fs => String c f :: fs
           | [] => [String c ""]
           end
  end.
Fixpoint occurs (a : ascii) (s : string) : nat :=
  match s with
  | EmptyString => 0
  | String c s' => (if Ascii.eqb c a then 1 else 0) + occurs a s'
  end.

(** the column names of the header *)
Definition columns : list string :=
  [ "algorithm_name"; "num_pose_pairs"; "iteration_num"; "prefiltering"; "poses_B_H_csv_file";
    "poses_W_E_csv_file"; "success"; "position_rmse"; "orientation_rmse"; "num_inliers";
    "num_input_poses"; "num_posesafter_filtering"; "runtime_s"; "loop_error_position_m";
    "loop_error_orientation_deg"; "singular_values"; "bad_singular_values"; "optimization_enabled";
    "optimization_success"; "optimization_runtime_s"; "spoiled_initial_guess_angle_offset";
    "spoiled_initial_guess_translation_offset"; "spoiled_initial_guess_time_offset" ].

Lemma nodup_check {A} (dec : forall x y : A, {x = y} + {x <> y}) l : nodup dec l = l -> NoDup l.
Proof. intros <-. apply NoDup_nodup. Qed.

Theorem C50_header : fields get_header = columns /\ occurs eol get_header = 1%nat /\ NoDup columns.
Proof.
  split; [vm_compute; reflexivity|]. split; [vm_compute; reflexivity|].
  apply (nodup_check string_dec). vm_compute. reflexivity.
Qed.

(** A rendering of values: strings are written as they are, other values without comma or line end. *)
Definition rendering {N : Num} (show : cell N -> string) : Prop :=
  forall c, match c with CStr s => show c = s | _ => occurs comma (show c) = 0%nat /\ occurs eol (show c) = 0%nat end.

Lemma fields_cons_nonempty s : fields s <> [].
Proof. destruct s as [|c s]; cbn [fields]; [discriminate|]. destruct (Ascii.eqb c eol); [discriminate|]. destruct (Ascii.eqb c comma); [discriminate|]. destruct (fields s); discriminate. Qed.
Lemma fields_plain s : forall rest, occurs eol s = 0%nat -> occurs comma s = 0%nat ->
  fields (s ++ String comma rest)%string = s :: fields rest /\ fields (s ++ newline)%string = [s].
Proof.
  induction s as [|c s IH]; intros rest H1 H2; [easy|]. cbn [occurs] in H1, H2. cbn [append fields].
  destruct (Ascii.eqb c eol); [discriminate|]. destruct (Ascii.eqb c comma); [discriminate|].
  destruct (IH rest H1 H2) as [-> ->]. easy.
Qed.
Lemma fields_join l : l <> [] -> Forall (fun s => occurs eol s = 0%nat /\ occurs comma s = 0%nat) l ->
  fields (join_str "," l ++ newline)%string = l.
Proof.
  induction l as [|s l IH]; intros NE F; [easy|]. inversion F as [|? ? [H1 H2] F']; subst.
  destruct l as [|s2 l]; [exact (proj2 (fields_plain s "" H1 H2))|].
  change (join_str "," (s :: s2 :: l)) with (s ++ String comma (join_str "," (s2 :: l)))%string.
  assert (A : forall a b c, ((a ++ b) ++ c = a ++ (b ++ c))%string) by (clear; induction a; intros; cbn; congruence).
  rewrite A. cbn [append]. destruct (fields_plain s (join_str "," (s2 :: l) ++ newline)%string H1 H2) as [-> _].
  now rewrite IH.
Qed.
Lemma fields_count s : forall rest, occurs eol s = 0%nat ->
  length (fields (s ++ String comma rest)%string) = (1 + occurs comma s + length (fields rest))%nat /\
  length (fields (s ++ newline)%string) = (1 + occurs comma s)%nat.
Proof.
  induction s as [|c s IH]; intros rest H1; [easy|]. cbn [occurs] in H1. cbn [append fields occurs].
  destruct (Ascii.eqb c eol); [discriminate|]. destruct (IH rest H1) as [E1 E2].
  destruct (Ascii.eqb c comma); cbn [length]; [lia|].
  destruct (fields (s ++ String comma rest)%string) eqn:F1; [now apply fields_cons_nonempty in F1|].
  destruct (fields (s ++ newline)%string) eqn:F2; [now apply fields_cons_nonempty in F2|]. cbn [length] in *. lia.
Qed.
Lemma fields_join_count l : l <> [] -> Forall (fun s => occurs eol s = 0%nat) l ->
  length (fields (join_str "," l ++ newline)%string) = (length l + list_sum (map (occurs comma) l))%nat.
Proof.
  induction l as [|s l IH]; intros NE F; [easy|]. inversion F as [|? ? H1 F']; subst.
  destruct l as [|s2 l]; [change (join_str "," [s]) with s; rewrite (proj2 (fields_count s "" H1)); cbn; lia|].
  change (join_str "," (s :: s2 :: l)) with (s ++ String comma (join_str "," (s2 :: l)))%string.
  assert (A : forall a b c, ((a ++ b) ++ c = a ++ (b ++ c))%string) by (clear; induction a; intros; cbn; congruence).
  rewrite A. cbn [append]. rewrite (proj1 (fields_count s _ H1)), IH by easy. cbn [map list_sum length fold_right] in *. lia.
Qed.

Section C50.
  Context {N : Num}.

  (** every list of the entry has one element per pose pair *)
  Definition filled (e : entry N) (n : nat) : Prop :=
    length (e_dataset_names e) = n /\ length (e_success e) = n /\ length (e_rmse e) = n /\
    length (e_num_inliers e) = n /\ length (e_num_initial_poses e) = n /\ length (e_num_poses_kept e) = n /\
    length (e_runtimes e) = n /\ length (e_singular_values e) = n /\ length (e_bad_singular_value e) = n /\
    length (e_optimization_success e) = n /\ length (e_optimization_runtime e) = n /\
    length (e_spoiled_angle e) = n /\ length (e_spoiled_translation e) = n /\ length (e_spoiled_time e) = n.

  Theorem C50_check_length : forall (e : entry N) n, check_length e n = Ok tt <-> filled e n.
  Proof.
    intros e n. unfold check_length, filled. split.
    - intros H.
      repeat match type of H with
      | bind (assert_ ?b) _ = _ => let E := fresh "E" in destruct b eqn:E; cbn [assert_ bind] in H; [|discriminate]; apply Nat.eqb_eq in E
      end. intuition.
    - intros (-> & -> & -> & -> & -> & -> & -> & -> & -> & -> & -> & -> & -> & ->). now rewrite Nat.eqb_refl.
  Qed.

  (** what the line of pair [i] shows under each column name *)
  Definition shown (e : entry N) (i : nat) : list (string * cell N) :=
    [ ("algorithm_name", CStr (e_name e));
      ("num_pose_pairs", CInt (Z.of_nat i));
      ("iteration_num", CInt (e_iteration e));
      ("prefiltering", CBool (e_prefiltering_enabled e));
      ("poses_B_H_csv_file", CStr (fst (nth i (e_dataset_names e) ("", ""))));
      ("poses_W_E_csv_file", CStr (snd (nth i (e_dataset_names e) ("", ""))));
      ("success", CBool (nth i (e_success e) false));
      ("position_rmse", fst (nth i (e_rmse e) (CNone, CNone)));
      ("orientation_rmse", snd (nth i (e_rmse e) (CNone, CNone)));
      ("num_inliers", match nth i (e_num_inliers e) None with Some k => CInt (Z.of_nat k) | None => CNone end);
      ("num_input_poses", CInt (Z.of_nat (nth i (e_num_initial_poses e) O)));
      ("num_posesafter_filtering", CInt (Z.of_nat (nth i (e_num_poses_kept e) O)));
      ("runtime_s", CNum (nth i (e_runtimes e) n0));
      ("loop_error_position_m", e_loop_error_position e);
      ("loop_error_orientation_deg", e_loop_error_orientation e);
      ("singular_values", match nth i (e_singular_values e) None with Some l => CArr l | None => CStr "" end);
      ("bad_singular_values", match nth i (e_bad_singular_value e) None with Some b => CBool b | None => CNone end);
      ("optimization_enabled", CBool (e_optimization_enabled e));
      ("optimization_success", CBool (nth i (e_optimization_success e) false));
      ("optimization_runtime_s", CNum (nth i (e_optimization_runtime e) n0));
      ("spoiled_initial_guess_angle_offset", match nth i (e_spoiled_angle e) None with Some x => CNum x | None => CNone end);
      ("spoiled_initial_guess_translation_offset", match nth i (e_spoiled_translation e) None with Some l => CArr l | None => CNone end);
      ("spoiled_initial_guess_time_offset", match nth i (e_spoiled_time e) None with Some x => CNum x | None => CNone end) ].

  Lemma index_nth {A} (l : list A) i d : (i < length l)%nat -> index l i = Ok (nth i l d).
  Proof. intros L. unfold index. now rewrite (nth_error_nth' l d L). Qed.

  Lemma line_shown e n i : filled e n -> (i < n)%nat -> line_cells e i = Ok (map snd (shown e i)).
  Proof.
    intros (H1 & H2 & H3 & H4 & H5 & H6 & H7 & H8 & H9 & H10 & H11 & H12 & H13 & H14) L. unfold line_cells.
    rewrite (index_nth (e_singular_values e) i None) by lia. rewrite (index_nth (e_dataset_names e) i ("", "")) by lia.
    rewrite (index_nth (e_success e) i false) by lia. rewrite (index_nth (e_rmse e) i (CNone, CNone)) by lia.
    rewrite (index_nth (e_num_inliers e) i None) by lia. rewrite (index_nth (e_num_initial_poses e) i O) by lia.
    rewrite (index_nth (e_num_poses_kept e) i O) by lia. rewrite (index_nth (e_runtimes e) i n0) by lia.
    rewrite (index_nth (e_bad_singular_value e) i None) by lia. rewrite (index_nth (e_optimization_success e) i false) by lia.
    rewrite (index_nth (e_optimization_runtime e) i n0) by lia. rewrite (index_nth (e_spoiled_angle e) i None) by lia.
    rewrite (index_nth (e_spoiled_translation e) i None) by lia. rewrite (index_nth (e_spoiled_time e) i None) by lia.
    reflexivity.
  Qed.

  (** names that can be written into one CSV field *)
  Definition name_ok (s : string) : Prop := occurs comma s = 0%nat /\ occurs eol s = 0%nat.

  (** Every line has one field per header column, in header order. *)
  Theorem C50_line : forall (show : cell N -> string) e n i, rendering show -> filled e n -> (i < n)%nat ->
    name_ok (e_name e) -> name_ok (fst (nth i (e_dataset_names e) ("", ""))) ->
    name_ok (snd (nth i (e_dataset_names e) ("", ""))) ->
    (forall r s, In r (e_rmse e) -> fst r <> CStr s /\ snd r <> CStr s) ->
    (forall s, e_loop_error_position e <> CStr s /\ e_loop_error_orientation e <> CStr s) ->
    map fst (shown e i) = columns /\
    exists txt, csv_line show e i = Ok txt /\ fields txt = map (fun p => show (snd p)) (shown e i) /\
      length (fields txt) = length (fields get_header).
  Proof.
    intros show e n i R F L O1 O2 O3 NS1 NS2. split; [reflexivity|]. unfold csv_line. rewrite (line_shown e n i F L). cbn [bind].
    eexists. split; [reflexivity|].
    assert (E : fields (join_str "," (map show (map snd (shown e i))) ++ newline)%string = map (fun p => show (snd p)) (shown e i)).
    { rewrite map_map. apply fields_join; [discriminate|].
      assert (G : forall c, (match c with CStr s => name_ok s | _ => True end) -> occurs eol (show c) = 0%nat /\ occurs comma (show c) = 0%nat).
      { intros c H. specialize (R c). destruct c; try (destruct R; split; assumption). rewrite R. destruct H. split; assumption. }
      assert (RM : In (nth i (e_rmse e) (CNone, CNone)) (e_rmse e)) by (apply nth_In; destruct F as (_ & _ & -> & _); exact L).
      apply Forall_map. unfold shown.
      repeat (apply Forall_cons; [cbv beta; cbn [snd]; apply G|]); try exact I; try assumption; try constructor.
      - destruct (fst (nth i (e_rmse e) (CNone, CNone))) eqn:Q; try exact I. now destruct (proj1 (NS1 _ s RM)).
      - destruct (snd (nth i (e_rmse e) (CNone, CNone))) eqn:Q; try exact I. now destruct (proj2 (NS1 _ s RM)).
      - now destruct (nth i (e_num_inliers e) None).
      - destruct (e_loop_error_position e) eqn:Q; try exact I. now destruct (proj1 (NS2 s)).
      - destruct (e_loop_error_orientation e) eqn:Q; try exact I. now destruct (proj2 (NS2 s)).
      - now destruct (nth i (e_singular_values e) None).
      - now destruct (nth i (e_bad_singular_value e) None).
      - now destruct (nth i (e_spoiled_angle e) None).
      - now destruct (nth i (e_spoiled_translation e) None).
      - now destruct (nth i (e_spoiled_time e) None). }
    split; [exact E|]. rewrite E, (proj1 C50_header). now rewrite map_length.
  Qed.

  (** Commas in the algorithm or file names add columns: nothing is quoted. *)
  Theorem C50_commas : forall (show : cell N -> string) e n i, rendering show -> filled e n -> (i < n)%nat ->
    occurs eol (e_name e) = 0%nat -> occurs eol (fst (nth i (e_dataset_names e) ("", ""))) = 0%nat ->
    occurs eol (snd (nth i (e_dataset_names e) ("", ""))) = 0%nat ->
    (forall r s, In r (e_rmse e) -> fst r <> CStr s /\ snd r <> CStr s) ->
    (forall s, e_loop_error_position e <> CStr s /\ e_loop_error_orientation e <> CStr s) ->
    exists txt, csv_line show e i = Ok txt /\
      length (fields txt) = (length columns + occurs comma (e_name e)
        + occurs comma (fst (nth i (e_dataset_names e) ("", "")))
        + occurs comma (snd (nth i (e_dataset_names e) ("", ""))))%nat.
  Proof.
    intros show e n i R F L O1 O2 O3 NS1 NS2. unfold csv_line. rewrite (line_shown e n i F L). cbn [bind].
    eexists. split; [reflexivity|]. rewrite map_map.
    assert (G : forall c, (match c with CStr s => occurs eol s = 0%nat | _ => True end) -> occurs eol (show c) = 0%nat).
    { intros c H. specialize (R c). destruct c; try apply R. now rewrite R. }
    assert (C : forall c, (forall s, c <> CStr s) -> occurs comma (show c) = 0%nat).
    { intros c H. specialize (R c). destruct c; try apply R. now destruct (H s). }
    assert (CS : forall s, show (CStr s) = s) by (intros s; exact (R (CStr s))).
    assert (RM : In (nth i (e_rmse e) (CNone, CNone)) (e_rmse e)) by (apply nth_In; destruct F as (_ & _ & -> & _); exact L).
    rewrite fields_join_count; [|discriminate|].
    - rewrite map_length. change (length (shown e i)) with 23%nat. change (length columns) with 23%nat.
      unfold shown. cbn [map snd list_sum fold_right]. rewrite !CS.
      rewrite (C (CInt (Z.of_nat i))), (C (CInt (e_iteration e))), (C (CBool (e_prefiltering_enabled e))) by discriminate.
      rewrite (C (CBool (nth i (e_success e) false))) by discriminate.
      rewrite (C (fst (nth i (e_rmse e) (CNone, CNone)))) by (intros s; apply (NS1 _ s RM)).
      rewrite (C (snd (nth i (e_rmse e) (CNone, CNone)))) by (intros s; apply (NS1 _ s RM)).
      rewrite (C (match nth i (e_num_inliers e) None with Some k => CInt (Z.of_nat k) | None => CNone end)) by (destruct (nth i (e_num_inliers e) None); discriminate).
      rewrite !(C (CInt _)), !(C (CNum _)), !(C (CBool _)) by discriminate.
      rewrite (C (e_loop_error_position e)) by (intros s; apply (NS2 s)).
      rewrite (C (e_loop_error_orientation e)) by (intros s; apply (NS2 s)).
      rewrite (C (match nth i (e_bad_singular_value e) None with Some b => CBool b | None => CNone end)) by (destruct (nth i (e_bad_singular_value e) None); discriminate).
      rewrite (C (match nth i (e_spoiled_angle e) None with Some x => CNum x | None => CNone end)) by (destruct (nth i (e_spoiled_angle e) None); discriminate).
      rewrite (C (match nth i (e_spoiled_translation e) None with Some l => CArr l | None => CNone end)) by (destruct (nth i (e_spoiled_translation e) None); discriminate).
      rewrite (C (match nth i (e_spoiled_time e) None with Some x => CNum x | None => CNone end)) by (destruct (nth i (e_spoiled_time e) None); discriminate).
      replace (occurs comma (show (match nth i (e_singular_values e) None with Some l => CArr l | None => CStr "" end))) with 0%nat
        by (destruct (nth i (e_singular_values e) None); [now rewrite C by discriminate|now rewrite CS]).
      lia.
    - apply Forall_map. unfold shown.
      repeat (apply Forall_cons; [cbv beta; cbn [snd]; apply G|]); try exact I; try assumption; try constructor.
      + destruct (fst (nth i (e_rmse e) (CNone, CNone))) eqn:Q; try exact I. now destruct (proj1 (NS1 _ s RM)).
      + destruct (snd (nth i (e_rmse e) (CNone, CNone))) eqn:Q; try exact I. now destruct (proj2 (NS1 _ s RM)).
      + now destruct (nth i (e_num_inliers e) None).
      + destruct (e_loop_error_position e) eqn:Q; try exact I. now destruct (proj1 (NS2 s)).
      + destruct (e_loop_error_orientation e) eqn:Q; try exact I. now destruct (proj2 (NS2 s)).
      + now destruct (nth i (e_singular_values e) None).
      + now destruct (nth i (e_bad_singular_value e) None).
      + now destruct (nth i (e_spoiled_angle e) None).
      + now destruct (nth i (e_spoiled_translation e) None).
      + now destruct (nth i (e_spoiled_time e) None).
  Qed.

  (** The prefiltering column does not show the configuration: it is False for every algorithm. *)
  Theorem C50_prefiltering : forall (a : algorithm) iteration (e : entry N) n i,
    e_prefiltering_enabled e = e_prefiltering_enabled (init_from_configs new_entry a iteration) ->
    filled e n -> (i < n)%nat ->
    exists cells, line_cells e i = Ok cells /\ nth_error (combine columns cells) 3 = Some ("prefiltering", CBool false).
  Proof.
    intros a it e n i P F L. exists (map snd (shown e i)). split; [now apply (line_shown e n)|].
    unfold shown. cbn [map snd columns combine nth_error]. rewrite P. reflexivity.
  Qed.
  Theorem C50_prefiltering_refuted : exists a : algorithm, In a (get_all_configs (N:=N)) /\
    prefilter_poses_enabled (hand_config (base a)) = true /\
    e_prefiltering_enabled (init_from_configs new_entry a 0) = false.
  Proof. exists (with_optimization (get_baseline_config true) true). split; [now left|easy]. Qed.
End C50.

(** The plotting tool wants one more column than the header names. *)
Theorem C50_dataset : reader_columns = columns ++ ["dataset"] /\ length reader_columns = S (length columns).
Proof. easy. Qed.

(** A filled entry and a rendering exist. *)
Example C50_example {N : Num} : let show (c : cell N) := match c with CStr s => s | _ => "x" end in
  let e := mkEntry "RC_filter_opt" 0 false [("a.csv", "b.csv")] [true] [(CNum n0, CNum n1)] [Some 3%nat] [7%nat] [5%nat] [n1]
             (CInt (-1)) (CInt (-1)) [Some [n1]] [Some false] true [true] [n0] [None] [None] [None] in
  rendering show /\ filled e 1 /\ csv_line show e 0 = Ok ("RC_filter_opt,x,x,x,a.csv,b.csv,x,x,x,x,x,x,x,x,x,x,x,x,x,x,x,x,x" ++ newline)%string.
Proof. split; [intros []; easy|]. split; [repeat split|reflexivity]. Qed.

(** ** C52: the shipped configurations *)

(** the choices a configuration makes *)
Inductive kind := Baseline | RansacClassic | RansacScalar | ExhaustiveClassic | ExhaustiveScalar.
Record choice := Choice { c_kind : kind; c_prefilter : bool; c_optimize : bool }.
Definition kind_of {N : Num} (c : config N) : kind :=
  if use_baseline_approach c then Baseline
  else match enable_exhaustive_search c, ransac_inlier_classification c with
       | false, RmseThreshold => RansacClassic
       | false, _ => RansacScalar
       | true, RmseThreshold => ExhaustiveClassic
       | true, _ => ExhaustiveScalar
       end.
Definition choice_of {N : Num} (a : algorithm (N:=N)) : choice :=
  Choice (kind_of (hand_config (base a))) (prefilter_poses_enabled (hand_config (base a))) (enable_optimization a).
Definition long_name (c : choice) : string :=
  (match c_kind c with Baseline => "baseline" | RansacClassic => "RC" | RansacScalar => "RS"
                     | ExhaustiveClassic => "EC" | ExhaustiveScalar => "ES" end
   ++ match c_kind c with
      | ExhaustiveClassic | ExhaustiveScalar => ""
      | _ => if c_prefilter c then "_filter" else "_no_filter"
      end
   ++ (if c_optimize c then "_opt" else "_no_opt"))%string.
Definition short_label (c : choice) : string :=
  ((if c_prefilter c then "PF_" else "")
   ++ match c_kind c with Baseline => "B" | RansacClassic => "RC" | RansacScalar => "RS"
                        | ExhaustiveClassic => "EC" | ExhaustiveScalar => "ES" end
   ++ (if c_optimize c then "_O" else ""))%string.
Definition exhaustive (k : kind) : bool := match k with ExhaustiveClassic | ExhaustiveScalar => true | _ => false end.

(** All combinations occur exactly once, except exhaustive search without prefiltering. *)
Theorem C52_all : forall N : Num, length (get_all_configs (N:=N)) = 16%nat /\
  NoDup (map choice_of (get_all_configs (N:=N))) /\
  forall c, In c (map choice_of (get_all_configs (N:=N))) <-> (exhaustive (c_kind c) = true -> c_prefilter c = true).
Proof.
  intros N. split; [easy|]. split.
  - cbn. repeat (constructor; [cbn; intuition discriminate|]). constructor.
  - intros [k p o]. cbn [c_kind c_prefilter]. split.
    + cbn. intros H. repeat (destruct H as [H|H]; [injection H as <- <- <-; easy|]). easy.
    + destruct k, p, o; cbn; intros H; try (specialize (H eq_refl); discriminate H); repeat (first [left; reflexivity|right]).
Qed.

Lemma label_dec (a b : res string) : {a = b} + {a <> b}.
Proof. repeat decide equality. Defined.

(** Names spell out the choices, are pairwise distinct, and the plotting tool knows them all under
    pairwise distinct labels that spell out the choices too. *)
Theorem C52_names : forall N : Num,
  Forall (fun a => algorithm_name a = long_name (choice_of a)) (get_all_configs (N:=N)) /\
  Forall (fun a => dict_item method_name_dict (algorithm_name a) = Ok (short_label (choice_of a))) (get_all_configs (N:=N)) /\
  NoDup (map algorithm_name (get_all_configs (N:=N) ++ [get_spoiled_config])) /\
  NoDup (map (fun a => dict_item method_name_dict (algorithm_name a)) (get_all_configs (N:=N) ++ [get_spoiled_config])) /\
  (forall name, (exists label, dict_item method_name_dict name = Ok label) <->
                In name (map algorithm_name (get_all_configs (N:=N) ++ [get_spoiled_config]))).
Proof.
  intros N. split; [repeat (constructor; [reflexivity|]); constructor|].
  split; [repeat (constructor; [reflexivity|]); constructor|].
  split; [apply (nodup_check string_dec); vm_compute; reflexivity|].
  split; [apply (nodup_check label_dec); vm_compute; reflexivity|].
  intros name. split.
  - intros (l & E). unfold dict_item in E. destruct (dict_get method_name_dict name) as [v|] eqn:G; [clear E l|discriminate].
    unfold method_name_dict in G. cbn [dict_get] in G.
    repeat match type of G with
    | (if String.eqb ?k name then _ else _) = _ => let Q := fresh "Q" in destruct (String.eqb k name) eqn:Q; [apply String.eqb_eq in Q; subst name; clear G; cbn; intuition|clear Q]
    end. discriminate G.
  - intros I. cbn in I. repeat (destruct I as [<-|I]; [eexists; reflexivity|]). easy.
Qed.

(** What the drivers rely on: pose-inlier methods draw samples of 3 (they assert at least 2),
    scalar-part methods of 1, exhaustive search prefilters, the baseline never searches exhaustively. *)
Theorem C52_consistent : forall (N : Num) (a : algorithm), In a (get_spoiled_config :: get_all_configs (N:=N)) ->
  let c := hand_config (base a) in
  (use_baseline_approach c = true -> enable_exhaustive_search c = false) /\
  (enable_exhaustive_search c = true -> prefilter_poses_enabled c = true) /\
  (ransac_inlier_classification c = RmseThreshold -> ransac_sample_size c = 3%nat) /\
  (use_baseline_approach c = false -> ransac_inlier_classification c = ScalarPartEquality -> ransac_sample_size c = 1%nat) /\
  ransac_inlier_classification c <> UnknownMethod /\ min_num_inliers c = 10%nat /\
  hand_eye_calibration_tolerance c = lit 4 (-2) /\ ransac_outlier_probability c = lit 5 (-1) /\
  ransac_success_probability_threshold c = lit 99 (-2) /\ prefilter_dot_product_threshold c = lit 95 (-2) /\
  (optimization_only a = true <-> a = get_spoiled_config).
Proof.
  intros N a I. cbn in I. repeat (destruct I as [<-|I]; [cbn; repeat split; try reflexivity; intros; discriminate|]). easy.
Qed.
(** Every configuration, and the basic one they are made from, has the same settings in all other respects. *)
Theorem C52_settings : forall (N : Num) c, In c (get_basic_config :: map base (get_spoiled_config :: get_all_configs (N:=N))) ->
  let h := hand_config c in
  time_config c = mkFiltering 25 (lit 995 (-1)) 25 (lit 99 0) /\
  ransac_sample_rejection_tolerance h = lit 1 (-2) /\ ransac_max_number_iterations h = 20%nat /\ ransac_enable_early_abort h = true /\
  ransac_position_error_threshold_m h = lit 2 (-2) /\ ransac_orientation_error_threshold_deg h = lit 1 0 /\
  ransac_model_refinement h = true /\ ransac_evaluate_refined_model_on_inliers_only h = false.
Proof.
  intros N c I. cbn in I. repeat (destruct I as [<-|I]; [cbn; repeat split; reflexivity|]). easy.
Qed.
(** The basic configuration is RANSAC with samples of three pairs, scalar-part inliers and no prefilter; the experiment with a
    spoiled initial guess runs only the optimization, with the settings of the exhaustive search with scalar-part inliers. *)
Theorem C52_special : forall N : Num,
  let b := get_basic_config (N:=N) in let s := get_spoiled_config (N:=N) in
  config_name b = ""%string /\ use_baseline_approach (hand_config b) = false /\ enable_exhaustive_search (hand_config b) = false /\
  prefilter_poses_enabled (hand_config b) = false /\ ransac_sample_size (hand_config b) = 3%nat /\
  ransac_inlier_classification (hand_config b) = ScalarPartEquality /\
  algorithm_name s = "optimization_w_spoiled_init_calibration"%string /\ enable_optimization s = true /\ optimization_only s = true /\
  use_baseline_approach (hand_config (base s)) = false /\ enable_exhaustive_search (hand_config (base s)) = true /\
  ransac_inlier_classification (hand_config (base s)) = ScalarPartEquality.
Proof. intros N. repeat split. Qed.

(** ** C53: aggregation *)
Section C53.
  Context {N : Num}.

  (** distinct elements in the order of their first occurrence *)
  Definition distinct (l : list string) : list string := rev (nodup string_dec (rev l)).
  (** the rows that count *)
  Definition kept (data : list (row N)) : list (row N) :=
    filter (fun r => r_success r && negb (r_bad_singular_values r)) data.
  (** the label of a row's method *)
  Definition label (r : row N) : string :=
    match dict_get method_name_dict (r_method r) with Some m => m | None => "" end.
  Definition known (r : row N) : Prop := exists m, dict_item method_name_dict (r_method r) = Ok m.
  Definition parsed (r : row N) : Prop := exists x, r_translation r = Ok x.
  Definition translation (r : row N) : T := match r_translation r with Ok x => x | Err _ => n0 end.
  Definition total_runtime (r : row N) : T := add (r_runtime r) (r_runtime_optimization r).

  Definition by_method (f : row N -> T) (k : list (row N)) : list (list T) :=
    map (fun m => map f (filter (fun r => String.eqb (label r) m) k)) (distinct (map label k)).
  Definition by_dataset_method (f : row N -> T) (k : list (row N)) : dict (dict (list T)) :=
    map (fun d => (d, map (fun m => (m, map f (filter (fun r => String.eqb (label r) m) (filter (fun r => String.eqb (r_dataset r) d) k))))
                          (distinct (map label (filter (fun r => String.eqb (r_dataset r) d) k)))))
        (distinct (map r_dataset k)).
  Definition summary (data : list (row N)) : table N :=
    let k := kept data in
    mkTable (distinct (map label k)) (distinct (map r_dataset k))
      (by_dataset_method r_position_rmse k) (by_dataset_method r_orientation_rmse k)
      (by_method r_position_rmse k) (by_method r_orientation_rmse k) (by_method total_runtime k)
      (by_dataset_method total_runtime k)
      (map r_loop_error_position k) (map r_loop_error_orientation k) (map r_angle k) (map translation k) (map r_time k).

  Lemma distinct_snoc l x : distinct (l ++ [x]) = if in_dec string_dec x l then distinct l else distinct l ++ [x].
  Proof.
    unfold distinct. rewrite rev_app_distr. cbn [rev app nodup].
    destruct (in_dec string_dec x (rev l)) as [I|I], (in_dec string_dec x l) as [J|J]; try easy.
    - apply in_rev in I. easy.
    - now apply in_rev in J.
  Qed.
  Lemma distinct_in l x : In x (distinct l) <-> In x l.
  Proof. unfold distinct. now rewrite <- in_rev, nodup_In, <- in_rev. Qed.
  Lemma distinct_NoDup l : NoDup (distinct l).
  Proof. unfold distinct. apply NoDup_rev, NoDup_nodup. Qed.

  Lemma str_index_none l s : str_index l s = None <-> ~ In s l.
  Proof.
    induction l as [|x l IH]; cbn [str_index In]; [easy|]. destruct (String.eqb x s) eqn:E.
    - apply String.eqb_eq in E. subst. split; [discriminate|]. intros H. destruct H. now left.
    - apply String.eqb_neq in E. destruct (str_index l s); cbn [option_map].
      + split; [discriminate|]. intros H. destruct IH as [_ IH]. discriminate IH. intros I. apply H. now right.
      + split; [|easy]. intros _ [H|H]; [easy|]. now apply (proj1 IH).
  Qed.
  Lemma append_at_map (f : string -> list T) x : forall ms i m, NoDup ms -> str_index ms m = Some i ->
    append_at (map f ms) i x = map (fun m' => if String.eqb m' m then f m' ++ [x] else f m') ms.
  Proof.
    induction ms as [|y ms IH]; intros i m ND E; [discriminate|]. inversion ND as [|? ? NI ND']; subst. cbn [str_index] in E. cbn [map].
    destruct (String.eqb y m) eqn:Q.
    - injection E as <-. cbn [append_at]. f_equal. apply map_ext_in. intros z Iz. apply String.eqb_eq in Q. subst y.
      destruct (String.eqb z m) eqn:Q2; [|easy]. apply String.eqb_eq in Q2. now subst z.
    - destruct (str_index ms m) as [j|] eqn:SI; [|discriminate]. injection E as <-. cbn [append_at]. f_equal. now apply IH.
  Qed.
  Lemma dict_get_map {V} (f : string -> V) ks k : dict_get (map (fun k => (k, f k)) ks) k = if in_dec string_dec k ks then Some (f k) else None.
  Proof.
    induction ks as [|x ks IH]; [easy|]. cbn [map dict_get]. destruct (String.eqb x k) eqn:E.
    - apply String.eqb_eq in E. subst x. destruct (in_dec string_dec k (k :: ks)) as [|H]; [easy|]. destruct H. now left.
    - rewrite IH. apply String.eqb_neq in E. destruct (in_dec string_dec k ks) as [I|I], (in_dec string_dec k (x :: ks)) as [J|J]; try easy.
      + destruct J. now right.
      + destruct J as [J|J]; easy.
  Qed.
  Lemma dict_set_map {V} (f : string -> V) ks k v : NoDup ks ->
    dict_set (map (fun k => (k, f k)) ks) k v =
    map (fun k' => (k', if String.eqb k' k then v else f k')) (if in_dec string_dec k ks then ks else ks ++ [k]).
  Proof.
    intros ND. induction ks as [|x ks IH].
    - cbn. now rewrite String.eqb_refl.
    - inversion ND as [|? ? NI ND']; subst. cbn [map dict_set]. destruct (String.eqb x k) eqn:E.
      + apply String.eqb_eq in E. subst x. destruct (in_dec string_dec k (k :: ks)) as [|H]; [|destruct H; now left].
        cbn [map]. rewrite String.eqb_refl. f_equal. apply map_ext_in. intros z Iz.
        destruct (String.eqb z k) eqn:Q; [|easy]. apply String.eqb_eq in Q. now subst z.
      + rewrite IH by easy. apply String.eqb_neq in E. destruct (in_dec string_dec k ks) as [I|I], (in_dec string_dec k (x :: ks)) as [J|J].
        * cbn [map]. apply String.eqb_neq in E. now rewrite E.
        * destruct J. now right.
        * destruct J as [J|J]; easy.
        * cbn [map app]. apply String.eqb_neq in E. now rewrite E.
  Qed.
  Lemma filter_none {A} (p : A -> bool) l : (forall x, In x l -> p x = false) -> filter p l = [].
  Proof. induction l as [|x l IH]; intros H; [easy|]. cbn [filter]. rewrite (H x) by now left. apply IH. intros y I. apply H. now right. Qed.

  Lemma by_method_snoc f k r :
    let t := by_method f k in
    by_method f (k ++ [r]) =
    match str_index (distinct (map label k)) (label r) with
    | Some i => append_at t i (f r)
    | None => append_at (t ++ [[]]) (length (distinct (map label k))) (f r)
    end.
  Proof.
    intros t. unfold by_method. rewrite map_app. cbn [map]. rewrite distinct_snoc.
    destruct (str_index (distinct (map label k)) (label r)) as [i|] eqn:SI.
    - destruct (in_dec string_dec (label r) (map label k)) as [I|I].
      + unfold t, by_method. rewrite (append_at_map _ (f r) _ _ _ (distinct_NoDup _) SI). apply map_ext. intros m.
        rewrite filter_app. cbn [filter]. rewrite (String.eqb_sym (label r)). destruct (String.eqb m (label r)) eqn:E; [|now rewrite app_nil_r].
        now rewrite map_app.
      + exfalso. assert (H : str_index (distinct (map label k)) (label r) = None) by (apply str_index_none; now rewrite distinct_in). rewrite SI in H. discriminate.
    - apply str_index_none in SI. rewrite distinct_in in SI. destruct (in_dec string_dec (label r) (map label k)) as [I|_]; [easy|].
      assert (G : forall (l : list (list T)) x, append_at (l ++ [[]]) (length l) x = l ++ [[x]]) by (clear; induction l; intros; cbn; [easy|now rewrite IHl]).
      unfold t. replace (length (distinct (map label k))) with (length (by_method f k)) by (unfold by_method; now rewrite map_length).
      rewrite G. rewrite map_app. cbn [map]. unfold by_method. f_equal.
      + apply map_ext_in. intros m Im. rewrite filter_app. cbn [filter]. destruct (String.eqb (label r) m) eqn:E; [|now rewrite app_nil_r].
        apply String.eqb_eq in E. subst m. now rewrite distinct_in in Im.
      + rewrite filter_app. cbn [filter]. rewrite String.eqb_refl, filter_none; [easy|]. intros x Ix. apply String.eqb_neq. intros E. apply SI. rewrite <- E. now apply in_map.
  Qed.
  Lemma by_dataset_snoc f k r :
    by_dataset_method f (k ++ [r]) = per_append (by_dataset_method f k) (r_dataset r) (label r) (f r).
  Proof.
    set (inner := fun kk d => map (fun m => (m, map f (filter (fun r => String.eqb (label r) m) (filter (fun r => String.eqb (r_dataset r) d) kk))))
                          (distinct (map label (filter (fun r => String.eqb (r_dataset r) d) kk)))).
    change (by_dataset_method f (k ++ [r])) with (map (fun d => (d, inner (k ++ [r]) d)) (distinct (map r_dataset (k ++ [r])))).
    unfold per_append. cbv zeta. change (by_dataset_method f k) with (map (fun d => (d, inner k d)) (distinct (map r_dataset k))).
    rewrite dict_get_map, dict_set_map by apply distinct_NoDup.
    set (d := r_dataset r). rewrite map_app. cbn [map]. fold d. rewrite distinct_snoc. unfold dict.
    assert (OLD : (match (if in_dec string_dec d (distinct (map r_dataset k)) then Some (inner k d) else None) with Some i => i | None => [] end) = inner k d).
    { destruct (in_dec string_dec d (distinct (map r_dataset k))) as [|I]; [easy|]. unfold inner. rewrite filter_none; [easy|].
      intros x Ix. apply String.eqb_neq. intros E. apply I, distinct_in. rewrite <- E. now apply in_map. }
    rewrite OLD. clear OLD.
    assert (NEW : dict_set (inner k d) (label r) ((match dict_get (inner k d) (label r) with Some l => l | None => [] end) ++ [f r]) = inner (k ++ [r]) d).
    { unfold inner. rewrite filter_app. cbn [filter]. fold d. rewrite String.eqb_refl.
      set (kd := filter (fun r0 => String.eqb (r_dataset r0) d) k). rewrite dict_get_map, dict_set_map by apply distinct_NoDup.
      rewrite map_app. cbn [map]. rewrite distinct_snoc.
      assert (OLD : (match (if in_dec string_dec (label r) (distinct (map label kd)) then Some (map f (filter (fun r0 => String.eqb (label r0) (label r)) kd)) else None) with Some l => l | None => [] end)
                    = map f (filter (fun r0 => String.eqb (label r0) (label r)) kd)).
      { destruct (in_dec string_dec (label r) (distinct (map label kd))) as [|I]; [easy|]. rewrite filter_none; [easy|].
        intros x Ix. apply String.eqb_neq. intros E. apply I, distinct_in. rewrite <- E. now apply in_map. }
      rewrite OLD. clear OLD.
      replace (if in_dec string_dec (label r) (map label kd) then distinct (map label kd) else distinct (map label kd) ++ [label r])
        with (if in_dec string_dec (label r) (distinct (map label kd)) then distinct (map label kd) else distinct (map label kd) ++ [label r]).
      2:{ destruct (in_dec string_dec (label r) (distinct (map label kd))) as [I|I], (in_dec string_dec (label r) (map label kd)) as [J|J]; try easy; exfalso.
          - now rewrite distinct_in in I. - now rewrite distinct_in in I. }
      apply map_ext. intros m. f_equal. rewrite filter_app. cbn [filter]. rewrite (String.eqb_sym (label r)). destruct (String.eqb m (label r)) eqn:E.
      - apply String.eqb_eq in E. subst m. now rewrite map_app.
      - now rewrite app_nil_r. }
    rewrite NEW. clear NEW.
    replace (if in_dec string_dec d (map r_dataset k) then distinct (map r_dataset k) else distinct (map r_dataset k) ++ [d])
        with (if in_dec string_dec d (distinct (map r_dataset k)) then distinct (map r_dataset k) else distinct (map r_dataset k) ++ [d]).
    2:{ destruct (in_dec string_dec d (distinct (map r_dataset k))) as [I|I], (in_dec string_dec d (map r_dataset k)) as [J|J]; try easy; exfalso.
        - now rewrite distinct_in in I. - now rewrite distinct_in in I. }
    apply map_ext. intros d'. f_equal. destruct (String.eqb d' d) eqn:E; [now apply String.eqb_eq in E; subst d'|].
    unfold inner. rewrite filter_app. cbn [filter]. fold d. rewrite (String.eqb_sym d), E, app_nil_r. easy.
  Qed.

  Lemma collect_step pre r : known r -> parsed r -> collect_row (summary pre) r = Ok (summary (pre ++ [r])).
  Proof.
    intros (m & KM) (x & PX). unfold collect_row. rewrite PX, KM. cbn [bind].
    assert (LB : label r = m). { unfold label. unfold dict_item in KM. destruct (dict_get method_name_dict (r_method r)); [congruence|discriminate]. }
    assert (TR : translation r = x) by (unfold translation; now rewrite PX).
    replace (negb (r_success r) || r_bad_singular_values r) with (negb (r_success r && negb (r_bad_singular_values r))) by (destruct (r_success r), (r_bad_singular_values r); easy).
    unfold summary, kept. rewrite filter_app. cbn [filter].
    destruct (r_success r && negb (r_bad_singular_values r)); cbn [negb]; [|now rewrite app_nil_r].
    set (k := filter _ pre). rewrite !by_dataset_snoc, !by_method_snoc. rewrite !map_app. cbn [map].
    cbn [t_methods t_datasets t_position_per t_orientation_per t_position t_orientation t_runtimes t_runtimes_per
         t_loop_position t_loop_orientation t_angles t_translations t_times]. rewrite LB, TR.
    assert (DS : match str_index (distinct (map r_dataset k)) (r_dataset r) with
                 | Some _ => distinct (map r_dataset k) | None => distinct (map r_dataset k) ++ [r_dataset r] end
               = distinct (map r_dataset k ++ [r_dataset r])).
    { rewrite distinct_snoc. destruct (str_index (distinct (map r_dataset k)) (r_dataset r)) eqn:SI.
      - destruct (in_dec string_dec (r_dataset r) (map r_dataset k)) as [|I]; [easy|].
        assert (H : str_index (distinct (map r_dataset k)) (r_dataset r) = None) by (apply str_index_none; now rewrite distinct_in). congruence.
      - apply str_index_none in SI. rewrite distinct_in in SI. now destruct (in_dec string_dec (r_dataset r) (map r_dataset k)). }
    rewrite DS. clear DS. rewrite (distinct_snoc (map label k)).
    destruct (str_index (distinct (map label k)) m) eqn:SI.
    - destruct (in_dec string_dec m (map label k)) as [|I]; [reflexivity|].
      assert (H : str_index (distinct (map label k)) m = None) by (apply str_index_none; now rewrite distinct_in). congruence.
    - apply str_index_none in SI. rewrite distinct_in in SI. destruct (in_dec string_dec m (map label k)); [easy|reflexivity].
  Qed.
  Lemma collect_rows_ok data : forall pre, Forall known data -> Forall parsed data ->
    collect_rows (summary pre) data = Ok (summary (pre ++ data)).
  Proof.
    induction data as [|r data IH]; intros pre K P; [now rewrite app_nil_r|]. inversion K; inversion P; subst.
    cbn [collect_rows]. rewrite collect_step by easy. cbn [bind]. rewrite IH by easy. now rewrite <- app_assoc.
  Qed.

  (** The result for every list of rows: exactly the kept rows, in file order, grouped. *)
  Theorem C53_summary : forall (files : list (list (row N))), files <> [] ->
    (forall r, files <> [[r]]) -> Forall known (concat files) -> Forall parsed (concat files) ->
    collect_data_from_csv files true = Ok (summary (concat files)).
  Proof.
    intros files NE ONE K P. unfold collect_data_from_csv, load. destruct files as [|f rest]; [easy|]. cbn [negb].
    assert (E : (match f with [_] => match rest with [] => Err TypeError | _ => Ok (concat (f :: rest)) end | _ => Ok (concat (f :: rest)) end) = Ok (concat (f :: rest))).
    { destruct f as [|a [|b f]]; try easy. destruct rest; [|easy]. now destruct (ONE a). }
    rewrite E. cbn [bind]. exact (collect_rows_ok _ [] K P).
  Qed.

  (** Nothing is lost or duplicated by the grouping. *)
  Lemma filter_perm {A} (p : A -> bool) (l : list A) : Permutation (filter p l ++ filter (fun x => negb (p x)) l) l.
  Proof.
    induction l as [|x l IH]; [constructor|]. cbn [filter]. destruct (p x); cbn [negb app]; [now constructor|].
    apply Permutation_sym. apply Permutation_cons_app. now apply Permutation_sym.
  Qed.
  Lemma groups_perm {A} (key : A -> string) : forall ks (l : list A), NoDup ks -> (forall x, In x l -> In (key x) ks) ->
    Permutation (concat (map (fun k => filter (fun x => String.eqb (key x) k) l) ks)) l.
  Proof.
    induction ks as [|k ks IH]; intros l ND H.
    - destruct l as [|x l]; [constructor|]. destruct (H x). now left.
    - inversion ND as [|? ? NI ND']; subst. cbn [map concat].
      assert (R : map (fun k0 => filter (fun x => String.eqb (key x) k0) l) ks
                = map (fun k0 => filter (fun x => String.eqb (key x) k0) (filter (fun x => negb (String.eqb (key x) k)) l)) ks).
      { apply map_ext_in. intros k0 I. clear -I NI. induction l as [|x l IH]; [easy|]. cbn [filter].
        destruct (String.eqb (key x) k) eqn:E; cbn [negb]; [|cbn [filter]; now rewrite IH].
        apply String.eqb_eq in E. destruct (String.eqb (key x) k0) eqn:E2; [|exact IH].
        apply String.eqb_eq in E2. congruence. }
      rewrite R. etransitivity; [|apply (filter_perm (fun x => String.eqb (key x) k))]. apply Permutation_app_head.
      apply IH; [easy|]. intros x I. apply filter_In in I as [I NE]. destruct (H x I) as [E|]; [|easy].
      subst k. now rewrite String.eqb_refl in NE.
  Qed.
  Theorem C53_nothing_lost : forall (data : list (row N)) (f : row N -> T),
    Permutation (concat (by_method f (kept data))) (map f (kept data)) /\
    Permutation (flat_map (fun d => flat_map snd (snd d)) (by_dataset_method f (kept data))) (map f (kept data)).
  Proof.
    intros data f. set (k := kept data). split.
    - unfold by_method. rewrite <- (map_map (fun m => filter (fun r => String.eqb (label r) m) k) (map f)).
      rewrite <- concat_map. apply Permutation_map. apply groups_perm; [apply distinct_NoDup|].
      intros r I. apply distinct_in. now apply in_map.
    - unfold by_dataset_method. rewrite flat_map_concat_map, map_map. cbn [snd].
      assert (P : Permutation (concat (map (fun d => filter (fun r => String.eqb (r_dataset r) d) k) (distinct (map r_dataset k)))) k).
      { apply groups_perm; [apply distinct_NoDup|]. intros r I. apply distinct_in. now apply in_map. }
      apply (Permutation_map f) in P. etransitivity; [|exact P]. rewrite concat_map, map_map. clear P.
      induction (distinct (map r_dataset k)) as [|d ds IH]; [constructor|]. cbn [map concat]. apply Permutation_app; [|exact IH].
      rewrite flat_map_concat_map, map_map. cbn [snd]. rewrite <- (map_map (fun m => filter (fun r => String.eqb (label r) m) (filter (fun r => String.eqb (r_dataset r) d) k)) (map f)).
      rewrite <- concat_map. apply Permutation_map. apply groups_perm; [apply distinct_NoDup|].
      intros r I. apply distinct_in. now apply in_map.
  Qed.

  (** An unknown method name raises KeyError, also when its row would have been skipped. *)
  Theorem C53_unknown : forall (pre post : list (row N)) r rest, Forall known pre -> Forall parsed pre ->
    parsed r -> ~ known r -> (pre <> [] \/ post <> [] \/ rest <> []) ->
    collect_data_from_csv ((pre ++ r :: post) :: rest) true = Err KeyError.
  Proof.
    intros pre post r rest K P (x & PX) U NE. unfold collect_data_from_csv, load. cbn [negb].
    assert (E : (match pre ++ r :: post with [_] => match rest with [] => Err TypeError | _ => Ok (concat ((pre ++ r :: post) :: rest)) end
                 | _ => Ok (concat ((pre ++ r :: post) :: rest)) end) = Ok (concat ((pre ++ r :: post) :: rest))).
    { destruct pre as [|a [|b pre]], post, rest; try easy. now destruct NE as [|[|]]. }
    rewrite E. clear E NE. cbn [bind concat]. rewrite <- app_assoc. cbn [app].
    assert (G : forall d t, collect_rows t (pre ++ r :: d) = Err KeyError).
    { clear post rest. induction pre as [|a pre IH]; intros d t; cbn [app collect_rows].
      - unfold collect_row. rewrite PX. cbn [bind]. unfold known in U. destruct (dict_item method_name_dict (r_method r)) as [m|e] eqn:D; [destruct U; now exists m|].
        unfold dict_item in D. destruct (dict_get method_name_dict (r_method r)); [discriminate|]. injection D as <-. easy.
      - inversion K as [|? ? (m & KM) K']; inversion P as [|? ? (y & PY) P']; subst. unfold collect_row. rewrite PY, KM. cbn [bind].
        destruct (negb (r_success a) || r_bad_singular_values a); [now apply IH|].
        destruct (str_index (t_methods t) m); cbn [bind]; now apply IH. }
    apply G.
  Qed.

  (** A single result line in a single file, no file at all, or get_header=False always raise. *)
  Theorem C53_edge : forall (r : row N) files,
    collect_data_from_csv [[r]] true = Err TypeError /\
    collect_data_from_csv (N:=N) [] true = Err UnboundLocalError /\
    collect_data_from_csv files false = Err UnboundLocalError.
  Proof. intros r files. repeat split. now destruct files. Qed.
End C53.

Example C53_example {N : Num} : let r m ok d x := mkRow m ok x n0 n0 n0 n0 false n0 n0 (Ok n0) n0 d in
  forall x1 x2 x3 x4 : T,
  let data := [r "RC_filter_opt" true "A" x1; r "EC_opt" true "A" x2; r "RC_filter_opt" false "B" x3; r "RC_filter_opt" true "B" x4] in
  Forall known data /\ Forall parsed data /\
  exists t, collect_data_from_csv [data] true = Ok t /\ t_methods t = ["PF_RC_O"; "PF_EC_O"] /\ t_datasets t = ["A"; "B"] /\
    t_position t = [[x1; x4]; [x2]] /\
    t_position_per t = [("A", [("PF_RC_O", [x1]); ("PF_EC_O", [x2])]); ("B", [("PF_RC_O", [x4])])].
Proof.
  intros r x1 x2 x3 x4 data. split; [repeat constructor; eexists; reflexivity|]. split; [repeat constructor; eexists; reflexivity|].
  exists (match collect_data_from_csv [data] true with Ok t => t | Err _ => empty_table end).
  split; [vm_compute; reflexivity|]. split; [vm_compute; reflexivity|]. split; [vm_compute; reflexivity|].
  split; vm_compute; reflexivity.
Qed.
