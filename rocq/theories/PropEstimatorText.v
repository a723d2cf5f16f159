(** * Property C104, continued: the batch estimator and the files of the target extractor and of the tf export. *)

From Coq Require Import Reals ZArith List Bool Ascii Lra Lia.
From Flocq Require Import Core.
From Verif Require Import Py XReal ListFacts CsvText NumberText Estimator PropCsvText PropCsvFiles PropNumberText PropEstimator.
Import ListNotations.
Local Open Scope R_scope.

(** ** A table of decimal numbers has neither carriage returns nor bars *)
Lemma join_clean cells : Forall PropCsvFiles.cell cells -> Forall (fun c => c <> cr /\ c <> bar) (join [comma; space] cells).
Proof.
  intros F. induction F as [|c cells C F IH]; [constructor|].
  assert (CC : Forall (fun c => c <> cr /\ c <> bar) c) by (revert C; apply Forall_impl; intros a; tauto).
  destruct cells as [|d cells]; [exact CC|]. change (join [comma; space] (c :: d :: cells)) with (c ++ [comma; space] ++ join [comma; space] (d :: cells)).
  apply Forall_app. split; [exact CC|]. apply Forall_app. split; [|exact IH]. constructor; [split; discriminate|]. constructor; [split; discriminate|constructor].
Qed.
Lemma table_clean number value rows : (forall x, decimal (number x) (value x)) -> Forall (fun c => c <> cr /\ c <> bar) (table number rows).
Proof.
  intros D. unfold table. induction rows as [|r rows IH]; [constructor|]. cbn [map concat]. apply Forall_app. split; [|exact IH].
  apply Forall_app. split; [|constructor; [split; discriminate|constructor]]. apply join_clean, Forall_map, Forall_forall. intros x _.
  now apply (decimal_cell _ (value x)).
Qed.

(** ** The estimator *)
(** Whatever number of digits: std::stod reads the same double as float(), *)
Theorem C104_estimator_number : forall P limit w x, (1 <= P)%nat -> w = [] \/ w = [dot; digit 0] ->
  stod (general P limit w x) = Some (to_double (rounded P x)).
Proof. intros P limit w x P1 W. apply stod_float. now apply C104_number. Qed.
(** and every double of the target extractor exactly. *)
Theorem C104_estimator_exact : forall x, double x -> stod (cpp17 x) = Some x.
Proof. intros x X. apply stod_float. now apply C104_extractor_number. Qed.
(** The estimator adds exactly the poses that the target extractor has written (and refuses exactly the files with a
    row that it refuses), *)
Theorem C104_estimator : forall near_one use_jpl w rows, Forall (fun r => length r = w) rows -> Forall (Forall double) rows ->
  forall ms, read_poses near_one use_jpl (Some (table cpp17 rows)) = Some ms <-> Forall2 (adds Ropp near_one use_jpl) rows ms.
Proof.
  intros near jpl w rows W D. apply C75_same_numbers; [|now apply (C104_extractor w)].
  apply (table_clean _ (rounded 17)). intros x. apply general_decimal; [lia|now left].
Qed.
(** and those of a tf export with Python 2 with twelve digits. *)
Theorem C104_estimator_tf_python2 : forall near_one use_jpl w rows, Forall (fun r => length r = w) rows ->
  forall ms, read_poses near_one use_jpl (Some (table str2 rows)) = Some ms <->
    Forall2 (adds Ropp near_one use_jpl) (map (map (fun x => to_double (rounded 12 x))) rows) ms.
Proof.
  intros near jpl w rows W. apply C75_same_numbers; [|now apply (C104_tf_python2 w)].
  apply (table_clean _ (rounded 12)). intros x. apply general_decimal; [lia|now right].
Qed.
(** In particular a recording of unit quaternions is never refused, *)
Theorem C104_estimator_accepts : forall near_one use_jpl rows, checks_length near_one ->
  Forall (fun r => exists s x y z a b c d, r = [s; x; y; z; a; b; c; d] /\ Rabs (sqrt (a * a + b * b + c * c + d * d) - 1) <= 99 / 10 ^ 10) rows ->
  Forall (Forall double) rows -> exists ms, read_poses near_one use_jpl (Some (table cpp17 rows)) = Some ms.
Proof.
  intros near jpl rows K G D. 
  assert (W : Forall (fun r : list R => length r = 8%nat) rows).
  { revert G. apply Forall_impl. intros r (s & x & y & z & a & b & c & d & -> & _). reflexivity. }
  refine (proj1 (C75_accepted near jpl (table cpp17 rows) rows K _ (C104_extractor 8 rows W D)) _).
  - apply (table_clean _ (rounded 17)). intros x. apply general_decimal; [lia|now left].
  - revert G. apply Forall_impl. intros r (s & x & y & z & a & b & c & d & -> & H). right. exists s, x, y, z, a, b, c, d. split; [reflexivity|exact H].
Qed.
(** not even with twelve digits. *)
Theorem C104_estimator_accepts_python2 : forall near_one use_jpl rows, checks_length near_one ->
  Forall (fun r => exists s x y z a b c d, r = [s; x; y; z; a; b; c; d] /\ Rabs (sqrt (a * a + b * b + c * c + d * d) - 1) <= 98 / 10 ^ 10) rows ->
  Forall (Forall double) rows -> exists ms, read_poses near_one use_jpl (Some (table str2 rows)) = Some ms.
Proof.
  intros near jpl rows K G D.
  assert (W : Forall (fun r : list R => length r = 8%nat) rows).
  { revert G. apply Forall_impl. intros r (s & x & y & z & a & b & c & d & -> & _). reflexivity. }
  refine (proj1 (C75_accepted near jpl (table str2 rows) _ K _ (C104_tf_python2 8 rows W)) _).
  - apply (table_clean _ (rounded 12)). intros x. apply general_decimal; [lia|now right].
  - apply Forall_map. rewrite Forall_forall in *. intros r I. specialize (D r I). destruct (G r I) as (s & x & y & z & a & b & c & d & -> & H).
    right. cbn [map]. do 8 eexists. split; [reflexivity|].
    assert (E : forall u, double u -> Rabs u <= 2 -> Rabs (to_double (rounded 12 u) - u) <= 2 / 10 ^ 11).
    { intros u U B. destruct (C104_tf_python2_error u U) as (v & V & L). unfold str2 in V. rewrite C104_number in V by (lia || now right).
      injection V as <-. assert (T : 1 / 10 ^ 11 * Rabs u <= 1 / 10 ^ 11 * 2) by (apply Rmult_le_compat_l; lra). lra. }
    assert (B : forall u, u * u <= a * a + b * b + c * c + d * d -> Rabs u <= 2).
    { intros u L. assert (S : sqrt (u * u) <= sqrt (a * a + b * b + c * c + d * d)) by now apply sqrt_le_1_alt.
      rewrite <- (sqrt_Rsqr_abs u). unfold Rsqr. revert H S. generalize (sqrt (a * a + b * b + c * c + d * d)), (sqrt (u * u)). clear. intros p q H S. revert H. split_Rabs; lra. }
    repeat match goal with H : Forall double (_ :: _) |- _ => inversion_clear H as [|? ? ?D ?F]; rename F into D end.
    pose proof (Rle_0_sqr a). pose proof (Rle_0_sqr b). pose proof (Rle_0_sqr c). pose proof (Rle_0_sqr d). unfold Rsqr in *.
    assert (N : Rabs (length4 (to_double (rounded 12 a), to_double (rounded 12 b), to_double (rounded 12 c), to_double (rounded 12 d)) - length4 (a, b, c, d)) <= 2 * (2 / 10 ^ 11))
      by (apply near_unit; [lra| | | |]; apply E; try assumption; apply B; lra).
    change (length4 (a, b, c, d)) with (sqrt (a * a + b * b + c * c + d * d)) in N.
    revert N H. generalize (sqrt (a * a + b * b + c * c + d * d)). generalize (length4 (to_double (rounded 12 a), to_double (rounded 12 b), to_double (rounded 12 c), to_double (rounded 12 d))).
    clear. intros p q N H. revert N H. split_Rabs; lra.
Qed.

(** a recording of one pose, turned by 120 degrees about the diagonal *)
Example C104_estimator_example : let rows := [[1; 2; 3; 4; / 2; / 2; / 2; / 2]] in
  checks_length near_double /\ Forall (Forall double) rows /\
  Forall (fun r => exists s x y z a b c d, r = [s; x; y; z; a; b; c; d] /\ Rabs (sqrt (a * a + b * b + c * c + d * d) - 1) <= 98 / 10 ^ 10) rows.
Proof.
  cbv zeta. split; [apply near_double_checks|]. split.
  - assert (I : forall m e, (Z.abs m < 2 ^ 53)%Z -> (-1074 <= e)%Z -> double (IZR m * bpow radix2 e)).
    { intros m e M E. apply generic_format_FLT. exists (Float radix2 m e); [reflexivity|exact M|exact E]. }
    assert (J : forall m, (Z.abs m < 2 ^ 53)%Z -> double (IZR m)) by (intros m M; rewrite <- (Rmult_1_r (IZR m)); apply (I m 0%Z); [exact M|lia]).
    assert (H : double (/ 2)) by (replace (/ 2) with (IZR 1 * bpow radix2 (-1)); [apply I; [reflexivity|lia]|change (bpow radix2 (-1)) with (/ 2); lra]).
    repeat constructor; try exact H; apply J; reflexivity.
  - constructor; [|constructor]. do 8 eexists. split; [reflexivity|].
    replace (/ 2 * / 2 + / 2 * / 2 + / 2 * / 2 + / 2 * / 2) with 1 by lra. rewrite sqrt_1, Rminus_diag_eq, Rabs_R0 by easy. lra.
Qed.
