(** * Property C75, continued: the batch estimator at the end of the complete script. *)

From Coq Require Import Reals ZArith String List Bool Lra Lia.
From Verif Require Import Num Py XReal Quat DualQuat XFacts Spec Embed QuatFacts HandEye TimeAlign CsvIo PropAligned PropCsv Experiments Extrinsic Cli PropScript Estimator PropEstimator.
Import ListNotations.
Local Open Scope R_scope.

(** Python normalises the quaternions it reads: a recording whose quaternions are scaled by positive factors is aligned
    exactly like the original ... *)
Definition rescaled (r r' : PropAligned.row) : Prop := exists k, 0 < k /\ r' = (fst r, (fst (snd r), hscale k (snd (snd r)))).
Lemma normalise_scaled k t p q : 0 < k -> q <> hzero ->
  normalise_row (N:=XR) (Fin t, inP p (hscale k q)) = normalise_row (N:=XR) (Fin t, inP p q).
Proof.
  intros K NZ. pose proof (hnorm_pos q NZ) as P.
  assert (E : hnorm (hscale k q) = k * hnorm q).
  { unfold hnorm. replace (hnorm2 (hscale k q)) with ((k * k) * hnorm2 q) by (unfold hnorm2, hdot, hscale, dot3, vscale; cbn [qv qs v1 v2 v3]; ring).
    rewrite sqrt_mult; [|nra|apply hnorm2_pos]. rewrite sqrt_square by lra. reflexivity. }
  assert (KP : 0 < k * hnorm q) by now apply Rmult_lt_0_compat.
  unfold normalise_row, inP. cbn [fst snd pos ori]. rewrite !qnorm_in, E, !qdivs_in by lra. do 3 f_equal.
  destruct q as [[x y z] w]. unfold hscale, vscale. cbn [qv qs v1 v2 v3]. f_equal; [f_equal|]; field; lra.
Qed.
Lemma read_rescaled (rows rows' : list PropAligned.row) jpl : Forall2 rescaled rows rows' -> Forall (fun q => q <> hzero) (row_quats rows) ->
  read_time_stamped_poses (inS rows') jpl = read_time_stamped_poses (inS rows) jpl.
Proof.
  intros F NZ. destruct F as [|r r' rows rows' H F]; [reflexivity|].
  assert (E : map normalise_row (inS (r' :: rows')) = map normalise_row (inS (r :: rows))).
  { assert (F' : Forall2 rescaled (r :: rows) (r' :: rows')) by now constructor. clear H F. revert NZ.
    induction F' as [|[t [p q]] r2 l l' (k & K & ->) F IH]; intros NZ; [reflexivity|]. inversion NZ as [|? ? Q NZ']; subst. cbn [fst snd] in *.
    cbn [inS map fst snd] in *. rewrite normalise_scaled by easy. f_equal. apply IH. exact NZ'. }
  assert (T : map fst (inS (r' :: rows')) = map fst (inS (r :: rows))).
  { assert (F' : Forall2 rescaled (r :: rows) (r' :: rows')) by now constructor. clear - F'.
    induction F' as [|[t [p q]] r2 l l' (k & K & ->) F IH]; [reflexivity|]. cbn [inS map fst snd] in *. now f_equal. }
  rewrite !read_nonempty by easy. now rewrite E, T.
Qed.
Theorem C75_rescaled : forall rows_A rows_A' rows_B rows_B' jpl,
  Forall2 rescaled rows_A rows_A' -> Forall2 rescaled rows_B rows_B' ->
  Forall (fun q => q <> hzero) (row_quats rows_A) -> Forall (fun q => q <> hzero) (row_quats rows_B) ->
  compute_aligned_poses_main (inS rows_A') (inS rows_B') jpl = compute_aligned_poses_main (inS rows_A) (inS rows_B) jpl.
Proof.
  intros A A' B B' jpl FA FB NA NB. unfold compute_aligned_poses_main.
  now rewrite (read_rescaled A A' jpl FA NA), (read_rescaled B B' jpl FB NB).
Qed.

(** ... but the batch estimator gets the recordings as they are.  If a row of one of them has a quaternion that fails the
    check of its length, or neither one nor eight columns, the script ends with a failure and calibration_optimized.json
    stays as it was, whatever calibration.json contains. *)
Section Any.
  Context (N : Num) (svd : list (@dquat N) -> res (list (@T N) * list (@dquat N))).
  Context (near_one : @T N * @T N * @T N * @T N -> bool).
  Definition unreadable (c : option (content (N:=N))) : Prop :=
    c = None \/ exists rows row, c = Some (Csv rows) /\ In row rows /\ forall m, ~ adds opp near_one false row m.
  (** an estimator that does nothing else when it cannot read its input *)
  Definition reads_first (estimator : option (content (N:=N)) -> option content -> option content -> option content * bool) : Prop :=
    forall a b c, unreadable a \/ unreadable b -> estimator a b c = (None, false).
  Theorem C75_script : forall estimator fuel A B fs fs' e ok, reads_first estimator ->
    script svd estimator fuel A B fs = Done (Ok (fs', e, ok)) ->
    ~ In A fixed_outputs -> ~ In B fixed_outputs -> A <> aligned_path B -> B <> aligned_path A ->
    unreadable (fs A) \/ unreadable (fs B) ->
    ok = false /\ fs' "calibration_optimized.json"%string = fs "calibration_optimized.json"%string.
  Proof.
    intros estimator fuel A B fs fs' e ok RF H IA IB NA NB U.
    destruct (C67_status N svd estimator fuel A B fs fs' e ok H IA IB NA NB) as (out & E & O).
    rewrite (RF _ _ _ U) in E. injection E as <- <-. now split.
  Qed.
End Any.

(** Non-vacuity: exact arithmetic, a recording with quaternions of length 2. *)
Definition near_exact (q : xr * xr * xr * xr) : bool :=
  match q with
  | (Fin a, Fin b, Fin c, Fin d) => if Rle_dec (Rabs (length4 (a, b, c, d) - 1)) (1 / 10 ^ 8) then true else false
  | _ => false
  end.
Definition estimator0 (a b c : option (content (N:=XR))) : option (content (N:=XR)) * bool := (None, false).
Example C75_script_example : reads_first XR near_exact estimator0 /\
  unreadable XR near_exact (Some (Csv [[Fin 0; Fin 1; Fin 2; Fin 3; Fin 0; Fin 0; Fin 0; Fin 2]])) /\
  rescaled (0, (RV 1 2 3, RQ (RV 0 0 0) 1)) (0, (RV 1 2 3, RQ (RV 0 0 0) 2)).
Proof.
  split; [easy|]. split.
  - right. do 2 eexists. split; [reflexivity|]. split; [now left|]. intros m [(s & E & _)|(s & x & y & z & a & b & c & d & E & Q & _)]; [discriminate E|].
    injection E as <- <- <- <- <- <- <- <-. revert Q. cbv zeta. cbn [opp XR xopp near_exact length4].
    replace (- 0 * - 0 + - 0 * - 0 + - 0 * - 0 + 2 * 2) with (2 * 2) by ring. rewrite sqrt_square by lra.
    destruct (Rle_dec _ _) as [L|]; [|easy]. replace (2 - 1) with 1 in L by lra. rewrite Rabs_R1 in L. lra.
  - exists 2. split; [lra|]. cbn [fst snd]. unfold hscale, vscale. cbn [qv qs v1 v2 v3]. do 3 f_equal; [f_equal|]; lra.
Qed.
