(** * compute_hand_eye_calibration on finite inputs. *)

From Coq Require Import Reals ZArith Bool List Lra Psatz.
From Verif Require Import Num Py XReal XFacts Quat DualQuat HandEye Spec Embed QuatFacts QuatTrig
  QuatRot DualFacts ScrewFacts ListFacts HandEyeFacts KernelFacts.
Import ListNotations.
Local Open Scope R_scope.

(** ** The quadratic *)
Definition qa (p q : rdq) : R := hdot (dr p) (dd p).
Definition qb (p q : rdq) : R := hdot (dr p) (dd q) + hdot (dr q) (dd p).
Definition qc (p q : rdq) : R := hdot (dr q) (dd q).
Definition disc (p q : rdq) : R := qb p q * qb p q - 4 * qa p q * qc p q.
Definition clipped (p q : rdq) : R := if Rlt_dec (disc p q) 0 then 0 else disc p q.
Definition root1 (p q : rdq) : R := (- qb p q + sqrt (clipped p q)) / (2 * qa p q).
Definition root2 (p q : rdq) : R := (- qb p q - sqrt (clipped p q)) / (2 * qa p q).
Definition val (p q : rdq) (s : R) : R :=
  s * s * hdot (dr p) (dr p) + 2 * s * hdot (dr p) (dr q) + hdot (dr q) (dr q).
Definition root (p q : rdq) : R :=
  if Rlt_dec (val p q (root2 p q)) (val p q (root1 p q)) then root1 p q else root2 p q.

Lemma clipped_pos p q : 0 <= clipped p q.
Proof. unfold clipped. destruct (Rlt_dec _ _); lra. Qed.

Lemma val_norm p q s : val p q s = hnorm2 (hadd (hscale s (dr p)) (dr q)).
Proof. unfold val. destruct (dr p) as [[] ?], (dr q) as [[] ?]. specu; ring. Qed.

Lemma solve_in_a0 p q : qa p q = 0 -> solve_quadratic (inD p) (inD q) = Err AssertionError.
Proof.
  intros H. unfold solve_quadratic. change (rot (inD p)) with (inQ (dr p)). change (dual (inD p)) with (inQ (dd p)).
  rewrite !qdot_in. apply assert_false. unfold n0; cbn [eqb XR lit xeqb Rlit].
  unfold qa in H. rewrite H, Reqb_refl. reflexivity.
Qed.

Definition combo (p q : rdq) : rdq :=
  let s := root p q in rflip (dqscale (/ sqrt (val p q s)) (dqadd (dqscale s p) q)).

Lemma solve_in p q :
  solve_quadratic (inD p) (inD q) =
    if Req_EM_T (qa p q) 0 then Err AssertionError
    else if Rlt_dec (disc p q) (-1 / 100) then Err AssertionError
    else if Rlt_dec 0 (val p q (root p q)) then Ok (inD (combo p q)) else Err AssertionError.
Proof.
  destruct (Req_EM_T (qa p q) 0) as [Z|A]; [now apply solve_in_a0|].
  unfold solve_quadratic.
  change (rot (inD p)) with (inQ (dr p)). change (dual (inD p)) with (inQ (dd p)).
  change (rot (inD q)) with (inQ (dr q)). change (dual (inD q)) with (inQ (dd q)).
  rewrite !qdot_in. unfold n0, n1, n2, n4.
  cbn [XR lit add sub mul div opp sqrtn eqb ltb xadd xsub xmul xopp xeqb xltb].
  change (Rlit 0 0) with 0. change (Rlit 2 0) with 2. change (Rlit 4 0) with 4. change (Rlit 1 0) with 1.
  change (Rlit (-1) (-2)) with (-1 / 100).
  fold (qa p q). fold (qb p q). fold (qc p q). fold (disc p q).
  rewrite Reqb_f by easy. rewrite assert_true by easy.
  unfold Rltb at 1. destruct (Rlt_dec (disc p q) (-1 / 100)) as [L|L]; [reflexivity|].
  rewrite assert_true by easy.
  match goal with |- context [xsqrt ?t] => replace t with (Fin (clipped p q)) end.
  2:{ unfold clipped, Rltb. now destruct (Rlt_dec (disc p q) 0). }
  rewrite xsqrt_fin by apply clipped_pos. cbn [xadd xsub].
  rewrite !xdiv_fin by lra. fold (root1 p q). fold (root2 p q). cbn [xmul xadd].
  fold (val p q (root1 p q)). fold (val p q (root2 p q)). cbn [xltb].
  assert (M : forall s, 0 < val p q s ->
    Ok (flip_negative (dnormalize (dadd (dscale_l (N:=XR) (Fin (s * sqrt (1 / val p q s))) (inD p))
                                        (dscale_l (N:=XR) (Fin (sqrt (1 / val p q s))) (inD q)))))
    = Ok (inD (rflip (dqscale (/ sqrt (val p q s)) (dqadd (dqscale s p) q))))).
  { intros s V. rewrite !dscale_l_in, dadd_in.
    assert (SV : 0 < sqrt (val p q s)) by now apply sqrt_lt_R0.
    assert (I : sqrt (1 / val p q s) = / sqrt (val p q s)).
    { unfold Rdiv. rewrite Rmult_1_l. symmetry. apply (Rmult_eq_reg_r (sqrt (val p q s))); [|lra].
      rewrite Rinv_l by lra. rewrite <- sqrt_mult_alt by (left; now apply Rinv_0_lt_compat).
      rewrite Rinv_l by lra. now rewrite sqrt_1. }
    rewrite I.
    assert (C : dqadd (dqscale (s * / sqrt (val p q s)) p) (dqscale (/ sqrt (val p q s)) q)
              = dqscale (/ sqrt (val p q s)) (dqadd (dqscale s p) q)).
    { apply rdq_eq; cbn [dqadd dqscale dr dd]; qring. }
    rewrite C.
    assert (H1 : hnorm (dr (dqscale (/ sqrt (val p q s)) (dqadd (dqscale s p) q))) = 1).
    { cbn [dqadd dqscale dr]. rewrite hnorm_scale by (left; now apply Rinv_0_lt_compat).
      unfold hnorm. rewrite <- val_norm. field. lra. }
    rewrite dnormalize_in by lra. rewrite H1. replace (/ 1) with 1 by field.
    now rewrite dqscale_1, flip_negative_in. }
  unfold combo, root, Rltb at 1.
  destruct (Rlt_dec (val p q (root2 p q)) (val p q (root1 p q))).
  - unfold Rltb. destruct (Rlt_dec 0 (val p q (root1 p q))) as [V|V]; [|reflexivity].
    rewrite assert_true by easy. cbn [bind]. rewrite xdiv_fin by lra.
    rewrite xsqrt_fin.
    2:{ left. apply Rdiv_lt_0_compat; lra. }
    cbn [xmul bind]. apply M, V.
  - unfold Rltb. destruct (Rlt_dec 0 (val p q (root2 p q))) as [V|V]; [|reflexivity].
    rewrite assert_true by easy. cbn [bind]. rewrite xdiv_fin by lra.
    rewrite xsqrt_fin.
    2:{ left. apply Rdiv_lt_0_compat; lra. }
    cbn [xmul bind]. apply M, V.
Qed.

Lemma quad_at p q s : hdot (dr (dqadd (dqscale s p) q)) (dd (dqadd (dqscale s p) q))
  = qa p q * s * s + qb p q * s + qc p q.
Proof.
  unfold qa, qb, qc. destruct p as [[[] ?] [[] ?]], q as [[[] ?] [[] ?]]. specu; ring.
Qed.
Lemma root_eq p q : qa p q <> 0 -> root p q = root1 p q \/ root p q = root2 p q.
Proof. intros. unfold root. destruct (Rlt_dec _ _); auto. Qed.
Lemma root_solves p q : qa p q <> 0 -> 0 <= disc p q ->
  qa p q * root p q * root p q + qb p q * root p q + qc p q = 0.
Proof.
  intros A D. assert (C : clipped p q = disc p q) by (unfold clipped; destruct (Rlt_dec _ _); lra).
  pose proof (sqrt_sqrt _ D) as SS. unfold disc in SS at 3.
  destruct (root_eq p q A) as [-> | ->]; unfold root1, root2; rewrite C; set (r := sqrt (disc p q)) in *.
  - replace (qa p q * ((- qb p q + r) / (2 * qa p q)) * ((- qb p q + r) / (2 * qa p q)) +
      qb p q * ((- qb p q + r) / (2 * qa p q)) + qc p q)
      with ((r * r - (qb p q * qb p q - 4 * qa p q * qc p q)) / (4 * qa p q)) by (field; lra).
    rewrite SS. field; lra.
  - replace (qa p q * ((- qb p q - r) / (2 * qa p q)) * ((- qb p q - r) / (2 * qa p q)) +
      qb p q * ((- qb p q - r) / (2 * qa p q)) + qc p q)
      with ((r * r - (qb p q * qb p q - 4 * qa p q * qc p q)) / (4 * qa p q)) by (field; lra).
    rewrite SS. field; lra.
Qed.
Lemma root_clipped p q : qa p q <> 0 -> disc p q < 0 ->
  qa p q * root p q * root p q + qb p q * root p q + qc p q = - disc p q / (4 * qa p q).
Proof.
  intros A D. assert (C : clipped p q = 0) by (unfold clipped; destruct (Rlt_dec _ _); lra).
  assert (R : root p q = - qb p q / (2 * qa p q)).
  { destruct (root_eq p q A) as [-> | ->]; unfold root1, root2; rewrite C, sqrt_0; field; lra. }
  rewrite R. unfold disc. field; lra.
Qed.
Lemma hdot_scale2 k p q : hdot (hscale k p) (hscale k q) = k * k * hdot p q.
Proof. destruct p as [[] ?], q as [[] ?]. specu; ring. Qed.
Lemma combo_dual p q : qa p q <> 0 -> 0 < val p q (root p q) ->
  hdot (dr (combo p q)) (dd (combo p q))
  = (qa p q * root p q * root p q + qb p q * root p q + qc p q) / val p q (root p q).
Proof.
  intros A V. unfold combo. set (s := root p q) in *.
  assert (SV : 0 < sqrt (val p q s)) by now apply sqrt_lt_R0.
  assert (F : forall x, hdot (dr (rflip x)) (dd (rflip x)) = hdot (dr x) (dd x)).
  { intros x. destruct (rflip_cases x) as [-> | ->]; [easy|].
    destruct x as [[[] ?] [[] ?]]. specu; ring. }
  rewrite F. cbn [dqscale dr dd]. rewrite hdot_scale2. rewrite quad_at.
  pose proof (sqrt_sqrt (val p q s) ltac:(lra)) as SS. set (r := sqrt (val p q s)) in *.
  rewrite <- SS. field. lra.
Qed.
Lemma combo_unit p q : 0 < val p q (root p q) -> unitq (dr (combo p q)).
Proof.
  intros V. unfold combo. set (s := root p q) in *.
  assert (SV : 0 < sqrt (val p q s)) by now apply sqrt_lt_R0.
  assert (F : forall x, unitq (dr x) -> unitq (dr (rflip x))).
  { intros x. destruct (rflip_cases x) as [-> | ->]; [easy|]. unfold unitq, dqneg; cbn [dr].
    now rewrite hnorm2_neg. }
  apply F. unfold unitq. cbn [dqscale dqadd dr]. rewrite hnorm2_scale, <- val_norm.
  pose proof (sqrt_sqrt (val p q s) ltac:(lra)) as SS. set (r := sqrt (val p q s)) in *.
  rewrite <- SS. field. lra.
Qed.

(** ** Exact data: v7, v8 independent combinations of (q,q') and (0,q) *)
Lemma solve_exact x al1 be1 al2 be2 :
  unitdq x -> 0 < qs (dr x) -> al1 * be2 - al2 * be1 <> 0 ->
  let comb a b := dqadd (dqscale a x) (dqscale b (RD hzero (dr x))) in
  solve_quadratic (inD (comb al1 be1)) (inD (comb al2 be2)) =
    if Req_EM_T (al1 * be1) 0 then Err AssertionError else Ok (inD x).
Proof.
  intros [U D] W IND comb. set (p := comb al1 be1). set (q := comb al2 be2).
  unfold unitq, hnorm2 in U. set (k := dr x) in *. set (k' := dd x) in *.
  assert (HD : forall a b c d, hdot (dr (comb a b)) (dd (comb c d)) = a * d).
  { intros. unfold comb. cbn [dqadd dqscale dr dd]. fold k. fold k'.
    transitivity (a * c * hdot k k' + a * d * hdot k k).
    - clearbody k k'. destruct k as [[] ?], k' as [[] ?]. specu; ring.
    - rewrite U, D. ring. }
  assert (HR : forall a b c d, hdot (dr (comb a b)) (dr (comb c d)) = a * c).
  { intros. unfold comb. cbn [dqadd dqscale dr dd]. fold k.
    transitivity (a * c * hdot k k).
    - clearbody k k'. destruct k as [[] ?]. specu; ring.
    - rewrite U. ring. }
  assert (QA : qa p q = al1 * be1) by apply HD.
  assert (QB : qb p q = al1 * be2 + al2 * be1) by (unfold qb, p, q; now rewrite !HD).
  assert (QC : qc p q = al2 * be2) by apply HD.
  assert (VAL : forall s, val p q s = (s * al1 + al2) * (s * al1 + al2)).
  { intros s. unfold val, p, q. rewrite !HR. ring. }
  rewrite solve_in. rewrite QA.
  destruct (Req_EM_T (al1 * be1) 0) as [Z|A]; [easy|].
  assert (A1 : al1 <> 0) by (intros ->; apply A; ring).
  assert (B1 : be1 <> 0) by (intros ->; apply A; ring).
  set (d := al1 * be2 - al2 * be1) in *.
  assert (DI : disc p q = d * d) by (unfold disc; rewrite QA, QB, QC; unfold d; ring).
  pose proof (Rle_0_sqr d) as DP. unfold Rsqr in DP.
  assert (D2 : 0 < d * d) by nra.
  destruct (Rlt_dec (disc p q) (-1 / 100)) as [L|L]; [lra|].
  (* the root that kills the dual part *)
  set (sg := - be2 / be1). set (sb := - al2 / al1).
  assert (VG : val p q sg = d * d / (be1 * be1)).
  { rewrite VAL. unfold sg, d. field. easy. }
  assert (VB : val p q sb = 0).
  { rewrite VAL. unfold sb. field_simplify; [|easy]. unfold Rdiv. ring. }
  assert (VP : 0 < val p q sg) by (rewrite VG; apply Rdiv_lt_0_compat; nra).
  assert (C : clipped p q = d * d) by (unfold clipped; destruct (Rlt_dec _ _); lra).
  assert (SQ : sqrt (clipped p q) = Rabs d) by (rewrite C; apply sqrt_Rsqr_abs).
  assert (ROOT : root p q = sg).
  { assert (R12 : (root1 p q = sg /\ root2 p q = sb) \/ (root1 p q = sb /\ root2 p q = sg)).
    { unfold root1, root2. rewrite SQ, QA, QB. unfold sg, sb.
      unfold Rabs. destruct (Rcase_abs d).
      - left. unfold d. split; field; easy.
      - right. unfold d. split; field; easy. }
    unfold root. destruct R12 as [[-> ->]|[-> ->]]; rewrite VB; destruct (Rlt_dec _ _); lra || easy. }
  rewrite ROOT. destruct (Rlt_dec 0 (val p q sg)) as [_|NV]; [|lra].
  unfold combo. rewrite ROOT. do 2 f_equal.
  assert (SV : sqrt (val p q sg) = Rabs (sg * al1 + al2)) by (rewrite VAL; apply sqrt_Rsqr_abs).
  assert (NZ : sg * al1 + al2 <> 0) by (intros Z; rewrite VAL, Z in VP; lra).
  assert (LIN : dqadd (dqscale sg p) q = dqscale (sg * al1 + al2) x).
  { unfold p, q, comb. apply rdq_eq; cbn [dqadd dqscale dr dd]; fold k; fold k'.
    - qring.
    - assert (BZ : sg * be1 + be2 = 0) by (unfold sg; field; easy).
      transitivity (hadd (hscale (sg * al1 + al2) k') (hscale (sg * be1 + be2) k)); [qring|].
      rewrite BZ. qring. }
  rewrite LIN, SV, dqscale_scale. unfold Rabs. destruct (Rcase_abs (sg * al1 + al2)).
  - replace (/ - (sg * al1 + al2) * (sg * al1 + al2)) with (-1) by (field; lra).
    unfold rflip. cbn [dqscale dr hscale qs]. fold k. destruct (Rlt_dec (-1 * qs k) 0); [|lra].
    apply rdq_eq; cbn [dqneg dqscale dr dd]; qring.
  - replace (/ (sg * al1 + al2) * (sg * al1 + al2)) with 1 by (field; lra).
    rewrite dqscale_1. apply rflip_id. fold k. lra.
Qed.

(** ** The gates on finite input *)
Lemma allclose8 tol a b : 0 <= tol ->
  allclose (N:=XR) (Fin tol) (dq_list (inD (RD (RQ vzero (qs (dr a))) (RQ vzero (qs (dd a))))))
                   (dq_list (inD (RD (RQ vzero (qs (dr b))) (RQ vzero (qs (dd b))))))
  = true <-> scalars_close tol a b.
Proof.
  intros T0. unfold dq_list, q_list, inD, inQ. cbn [rot dual qx qy qz qw app dr dd qv qs vzero v1 v2 v3].
  cbn [allclose]. rewrite !andb_true_iff, !isclose_fin, !Rleb_iff.
  unfold scalars_close, close_to.
  assert (Z : Rabs (0 - 0) <= tol + 1 / 100000 * Rabs 0).
  { replace (0 - 0) with 0 by ring. rewrite Rabs_R0. lra. }
  tauto.
Qed.
Lemma scalar_parts_close_in tol a b : 0 <= tol ->
  exists c, scalar_parts_close (N:=XR) (Fin tol) (inD a) (inD b) = Ok c /\ (c = true <-> scalars_close tol a b).
Proof.
  intros. unfold scalar_parts_close. rewrite !scalar_in. cbn [bind]. eexists; split; [reflexivity|].
  now apply allclose8.
Qed.
Lemma close_to_refl tol x : 0 <= tol -> close_to tol x x.
Proof.
  intros. unfold close_to. replace (x - x) with 0 by ring. rewrite Rabs_R0. pose proof (Rabs_pos x). lra.
Qed.
Lemma scalars_close_eq tol a b : 0 <= tol -> qs (dr a) = qs (dr b) -> qs (dd a) = qs (dd b) ->
  scalars_close tol a b.
Proof. intros H E1 E2. unfold scalars_close. rewrite E1, E2. split; now apply close_to_refl. Qed.

Lemma for_pairs_ok {A B C} (f : A -> B -> res C) (g : A -> B -> C) a b :
  length a = length b -> (forall x y, In (x, y) (combine a b) -> f x y = Ok (g x y)) ->
  for_pairs f a b = Ok (map (fun p => g (fst p) (snd p)) (combine a b)).
Proof.
  revert b; induction a as [|x a IH]; intros [|y b] L H; try discriminate L; [easy|].
  cbn [for_pairs combine map fst snd]. rewrite H by now left. cbn [bind].
  rewrite IH; [easy|now injection L|]. intros; apply H; now right.
Qed.
Lemma for_pairs_length {A B C} (f : A -> B -> res C) a b c :
  for_pairs f a b = Ok c -> length c = length a /\ (length a <= length b)%nat.
Proof.
  revert b c; induction a as [|x a IH]; intros [|y b] c H; cbn [for_pairs] in H; try discriminate H.
  - inversion H; subst. simpl; lia.
  - inversion H; subst. simpl; lia.
  - destruct (f x y); [|easy]. cbn [bind] in H. destruct (for_pairs f a b) eqn:E; [|easy].
    inversion H; subst. apply IH in E as []. simpl; lia.
Qed.

(** ** One calibration on exact data *)
Section Calibrate.
  Context (svd : list (@dquat XR) -> res (list (@T XR) * list (@dquat XR))).

  (** the decomposition terminates without an exception *)
  Definition svd_returns (m : list rdq) : Prop := exists r, svd (map inD m) = Ok r.

  Lemma setup_s_in a b : svd_returns (srows a b) -> scalars_close (5 / 100) a b ->
    setup_s_matrix svd (inD a) (inD b) = Ok (map inD (srows a b)).
  Proof.
    intros [r R] C. unfold setup_s_matrix. change (@lit XR 5 (-2)) with (Fin (5 / 100)).
    destruct (scalar_parts_close_in (5 / 100) a b) as (c & -> & H); [lra|]. cbn [bind].
    rewrite assert_true by now apply H. rewrite s_rows_in, R. reflexivity.
  Qed.
  Lemma setup_s_rejects a b : ~ scalars_close (5 / 100) a b ->
    setup_s_matrix svd (inD a) (inD b) = Err AssertionError.
  Proof.
    intros C. unfold setup_s_matrix. change (@lit XR 5 (-2)) with (Fin (5 / 100)).
    destruct (scalar_parts_close_in (5 / 100) a b) as (c & -> & H); [lra|]. cbn [bind].
    apply assert_false. destruct c; [|easy]. now destruct C; apply H.
  Qed.

  Lemma concat_trows l : concat (map (fun p => map inD (srows (fst p) (snd p))) l) = map inD (trows l).
  Proof. induction l as [|p l IH]; [easy|]. cbn [map concat trows flat_map]. now rewrite IH, map_app. Qed.

  Lemma for_pairs_in {C} (f : @dquat XR -> @dquat XR -> res C) (g : rdq -> rdq -> C) l :
    (forall p, In p l -> f (inD (fst p)) (inD (snd p)) = Ok (g (fst p) (snd p))) ->
    for_pairs f (hands l) (eyes l) = Ok (map (fun p => g (fst p) (snd p)) l).
  Proof.
    unfold hands, eyes. induction l as [|p l IH]; intros H; [easy|]. cbn [map for_pairs].
    rewrite H by now left. cbn [bind]. rewrite IH by (intros; apply H; now right). easy.
  Qed.

  Lemma setup_t_in l : (forall p, In p l -> svd_returns (srows (fst p) (snd p))) ->
    (forall p, In p l -> scalars_close (5 / 100) (fst p) (snd p)) -> svd_returns (trows l) ->
    setup_t_matrix svd (hands l) (eyes l) = Ok (map inD (trows l)).
  Proof.
    intros R C [r RT]. unfold setup_t_matrix.
    rewrite (for_pairs_in _ (fun a b => map inD (srows a b))).
    2:{ intros p I. apply setup_s_in; auto. }
    cbn [bind]. rewrite concat_trows, RT. reflexivity.
  Qed.

  Lemma scalar_gate_in tol l : 0 <= tol ->
    (forall p, In p l -> scalars_close tol (snd p) (fst p)) ->
    scalar_gate (N:=XR) (Fin tol) (hands l) (eyes l) = Ok tt.
  Proof.
    intros T0 C. unfold scalar_gate.
    rewrite (for_pairs_in _ (fun _ _ => tt)); [reflexivity|].
    intros p I. destruct (scalar_parts_close_in tol (snd p) (fst p) T0) as (c & -> & H). cbn [bind].
    rewrite assert_true by (apply H; auto). reflexivity.
  Qed.

  Lemma opposite_in a b : opposite_signs (inD a) (inD b) = true <-> qs (dr a) * qs (dr b) < 0.
  Proof.
    unfold opposite_signs, n0. cbn [XR lit ltb inD rot inQ qw xltb Rlit]. change (IZR 0) with 0.
    unfold Rltb.
    destruct (Rlt_dec (qs (dr a)) 0), (Rlt_dec 0 (qs (dr b))), (Rlt_dec 0 (qs (dr a))),
             (Rlt_dec (qs (dr b)) 0); simpl; split; intros H; try easy; try lra; try nra.
  Qed.
  Definition rmatch (p : rdq * rdq) : rdq * rdq :=
    (fst p, if Rlt_dec (qs (dr (snd p)) * qs (dr (fst p))) 0 then dqneg (snd p) else snd p).
  Lemma match_sign_in p : match_sign (inD (fst p)) (inD (snd p)) = inD (snd (rmatch p)).
  Proof.
    unfold match_sign, rmatch. cbn [snd].
    pose proof (opposite_in (snd p) (fst p)) as H.
    destruct (opposite_signs (inD (snd p)) (inD (fst p))), (Rlt_dec _ _); try reflexivity.
    - apply dneg_in.
    - destruct n. now apply H.
    - exfalso. now apply H in r.
  Qed.
  Lemma match_signs_in l : match_signs (hands l) (eyes l) = (eyes (map rmatch l), false).
  Proof.
    unfold hands, eyes. induction l as [|p l IH]; [easy|]. cbn [map match_signs].
    rewrite IH. cbn. now rewrite match_sign_in.
  Qed.
  Lemma hands_rmatch l : hands (map rmatch l) = hands l.
  Proof. unfold hands. rewrite map_map. reflexivity. Qed.

  Lemma compute_in tol l :
    compute_hand_eye_calibration svd tol (inD dqone :: hands l) (inD dqone :: eyes l)
    = (inD dqone :: eyes (map rmatch l),
       calibrate svd tol (hands ((dqone, dqone) :: map rmatch l)) (eyes ((dqone, dqone) :: map rmatch l))).
  Proof.
    unfold compute_hand_eye_calibration. cbn [index nth_error]. cbn [bind].
    rewrite is_origin_one. cbn [bind]. rewrite !assert_true by easy.
    cbn [match_signs]. rewrite match_signs_in.
    assert (E : match_sign (inD dqone) (inD dqone) = inD dqone).
    { change (match_sign (inD (fst (dqone, dqone))) (inD (snd (dqone, dqone))) = inD dqone).
      rewrite match_sign_in. unfold rmatch; cbn [fst snd dqone dr hone qs].
      destruct (Rlt_dec _ _); [lra|easy]. }
    rewrite E. unfold hands at 2. cbn [map fst]. fold (hands (map rmatch l)). rewrite hands_rmatch.
    reflexivity.
  Qed.

  (** every admissible decomposition of the matrix of exact data *)
  Lemma consistent_scalars x p : unitdq x -> consistent x p ->
    qs (dr (fst p)) = qs (dr (snd p)) /\ qs (dd (fst p)) = qs (dd (snd p)).
  Proof. intros U C. exact (screw_congruence _ _ _ U C). Qed.

  Lemma independent x : unitdq x -> forall a b,
    dqadd (dqscale a x) (dqscale b (RD hzero (dr x))) = RD hzero hzero -> a = 0 /\ b = 0.
  Proof.
    intros [U _] a b E.
    pose proof (f_equal dr E) as E1. pose proof (f_equal dd E) as E2. cbn [dqadd dqscale dr dd] in E1, E2.
    assert (A : a = 0).
    { apply (f_equal (fun q => hdot q (dr x))) in E1.
      replace (hdot (hadd (hscale a (dr x)) (hscale b hzero)) (dr x)) with (a * hdot (dr x) (dr x)) in E1
        by (destruct (dr x) as [[] ?]; specu; ring).
      replace (hdot hzero (dr x)) with 0 in E1 by (destruct (dr x) as [[] ?]; specu; ring).
      unfold hnorm2 in U. rewrite U in E1. lra. }
    split; [exact A|]. subst a. apply (f_equal (fun q => hdot q (dr x))) in E2.
    replace (hdot (hadd (hscale 0 (dd x)) (hscale b (dr x))) (dr x)) with (b * hdot (dr x) (dr x)) in E2
      by (destruct (dr x) as [[] ?], (dd x) as [[] ?]; specu; ring).
    replace (hdot hzero (dr x)) with 0 in E2 by (destruct (dr x) as [[] ?]; specu; ring).
    unfold hnorm2 in U. rewrite U in E2. lra.
  Qed.

  Lemma setup_t_inv l m : setup_t_matrix svd (hands l) (eyes l) = Ok m -> m = map inD (trows l).
  Proof.
    unfold setup_t_matrix. intros H.
    destruct (for_pairs (setup_s_matrix svd) (hands l) (eyes l)) as [ss|] eqn:E; [|easy].
    cbn [bind] in H. destruct (svd (concat ss)); [|easy]. cbn [bind] in H. inversion H; subst; clear H.
    rewrite <- concat_trows. f_equal. revert ss E. induction l as [|p l IH]; intros ss E.
    - cbn in E. inversion E. easy.
    - cbn [hands eyes map for_pairs] in E. fold (hands l) in E. fold (eyes l) in E.
      destruct (setup_s_matrix svd (inD (fst p)) (inD (snd p))) as [c|] eqn:SS; [|easy]. cbn [bind] in E.
      destruct (for_pairs _ (hands l) (eyes l)) as [cs|] eqn:R; [|easy]. cbn [bind] in E. inversion E; subst.
      cbn [map]. rewrite (IH cs eq_refl). f_equal.
      unfold setup_s_matrix in SS. destruct (scalar_parts_close _ _ _) as [[]|]; cbn [bind] in SS; try discriminate SS.
      rewrite assert_true in SS by easy. destruct (svd _); [|easy]. cbn [bind] in SS. inversion SS.
      apply s_rows_in.
  Qed.
  Lemma inD_list_inj l k : map inD l = map inD k -> l = k.
  Proof.
    revert k; induction l as [|x l IH]; intros [|y k] H; try discriminate H; [easy|].
    cbn [map] in H. injection H as H1 H2. f_equal; [|now apply IH].
    destruct x as [[[] ?] [[] ?]], y as [[[] ?] [[] ?]]. unfold inD, inQ in *. cbn in *. congruence.
  Qed.

  Lemma calibrate_exact tol x l m s v :
    0 <= tol -> unitdq x -> 0 < qs (dr x) -> Forall (consistent x) l -> two_axes l ->
    setup_t_matrix svd (hands l) (eyes l) = Ok (map inD m) ->
    svd (map inD m) = Ok (map Fin s, map inD v) -> svd_spec m s v ->
    exists v7, nth_error v 6 = Some v7 /\
      calibrate svd (Fin tol) (hands l) (eyes l) =
        if Req_EM_T (hdot (dr v7) (dd v7)) 0 then Err AssertionError
        else Ok (inD x, map Fin s, bad_singular_values (N:=XR) (map Fin s)).
  Proof.
    intros T0 U W C TA ST SE SP.
    pose proof (inD_list_inj _ _ (setup_t_inv _ _ ST)) as ->.
    assert (K : kills (trows l) x /\ kills (trows l) (RD hzero (dr x))).
    { rewrite !kills_trows. rewrite Forall_forall in C.
      split; apply Forall_forall; intros p I; apply (kernel_forward _ _ _ U (C p I)). }
    destruct K as [K1 K2].
    destruct (svd_null _ _ _ _ _ SP K1 K2 (independent x U)) as (v7 & v8 & E7 & E8 & N7 & N8 & D77 & D88 & D78).
    exists v7. split; [exact E7|].
    destruct (kernel_converse x l U ltac:(lra) C TA _ N7) as (a1 & b1 & V7).
    destruct (kernel_converse x l U ltac:(lra) C TA _ N8) as (a2 & b2 & V8).
    unfold calibrate. rewrite scalar_gate_in.
    2: exact T0.
    2:{ intros p I. rewrite Forall_forall in C. destruct (consistent_scalars x p U (C p I)).
        apply scalars_close_eq; [easy|congruence|congruence]. }
    cbn [bind]. rewrite ST. cbn [bind]. rewrite SE. cbn [bind].
    rewrite !index_map, (index_some _ _ _ E7), (index_some _ _ _ E8). cbn [bind].
    assert (IND : a1 * b2 - a2 * b1 <> 0).
    { intros Z.
      assert (L1 : dqadd (dqscale a1 v8) (dqscale (- a2) v7) = RD hzero hzero).
      { rewrite V7, V8. apply rdq_eq; cbn [dqadd dqscale dr dd].
        - qring.
        - transitivity (hscale (a1 * b2 - a2 * b1) (dr x)); [qring|]. rewrite Z. qring. }
      assert (L2 : dqadd (dqscale b1 v8) (dqscale (- b2) v7) = RD hzero hzero).
      { rewrite V7, V8. apply rdq_eq; cbn [dqadd dqscale dr dd].
        - transitivity (hscale (- (a1 * b2 - a2 * b1)) (dr x)); [qring|]. rewrite Z. qring.
        - transitivity (hscale (- (a1 * b2 - a2 * b1)) (dd x)); [qring|]. rewrite Z. qring. }
      assert (Q : forall a b, dqadd (dqscale a v8) (dqscale b v7) = RD hzero hzero -> a = 0 /\ b = 0).
      { intros a b E. split.
        - apply (f_equal (dot8 v8)) in E. rewrite dot8_add, !dot8_scale, dot8_zero, D88 in E.
          rewrite (dot8_sym v8 v7), D78 in E. lra.
        - apply (f_equal (dot8 v7)) in E. rewrite dot8_add, !dot8_scale, dot8_zero, D77, D78 in E. lra. }
      destruct (Q _ _ L1) as [A1 _], (Q _ _ L2) as [B1 _].
      rewrite V7, A1, B1 in D77. clear - D77. destruct x as [[[] ?] [[] ?]]. specu. lra. }
    assert (HD : hdot (dr v7) (dd v7) = a1 * b1).
    { rewrite V7. destruct U as [U D]. unfold hnorm2 in U. cbn [dqadd dqscale dr dd].
      transitivity (a1 * a1 * hdot (dr x) (dd x) + a1 * b1 * hdot (dr x) (dr x)).
      - clear. destruct x as [[[] ?] [[] ?]]. specu. ring.
      - rewrite U, D. ring. }
    rewrite HD, V7, V8. rewrite (solve_exact x a1 b1 a2 b2 U W IND).
    destruct (Req_EM_T (a1 * b1) 0); reflexivity.
  Qed.
End Calibrate.

Lemma is_origin_in a : is_origin (inD a) = true <-> near_one a.
Proof.
  unfold is_origin. rewrite didentity_in, !dq_list_in. unfold lit; cbn [XR]. rewrite Rlit_1e8.
  cbn [map allclose dqone hone hzero vzero dr dd qv qs Spec.v1 Spec.v2 Spec.v3].
  rewrite !andb_true_iff, !isclose_fin, !Rleb_iff. unfold near_one, close_to. tauto.
Qed.

Section Gates.
  Context {N : Num}.
  Lemma for_pairs_firstn {A B C} (f : A -> B -> res C) a b :
    for_pairs f a b = for_pairs f a (firstn (length a) b).
  Proof. revert b; induction a as [|x a IH]; intros [|y b]; cbn; try easy. now rewrite IH. Qed.
  Lemma for_pairs_short {A B C} (f : A -> B -> res C) a b c : for_pairs f a b = Ok c ->
    forall i x, nth_error a i = Some x -> exists y z, nth_error b i = Some y /\ f x y = Ok z /\ nth_error c i = Some z.
  Proof.
    revert b c; induction a as [|x a IH]; intros [|y b] c H i x' Hi; cbn [for_pairs] in H; try easy;
      try (now destruct i).
    destruct (f x y) as [z|] eqn:F; [|easy]. cbn [bind] in H.
    destruct (for_pairs f a b) as [cs|] eqn:R; [|easy]. cbn [bind] in H. injection H as <-.
    destruct i; cbn in *.
    - injection Hi as <-. eauto.
    - destruct (IH _ _ R i x' Hi) as (y' & z' & ?). eauto.
  Qed.
  Lemma match_signs_length (b w : list (@dquat N)) : length (fst (match_signs b w)) = length w.
  Proof.
    revert w; induction b as [|x b IH]; intros [|y w]; cbn [match_signs fst]; try easy.
    destruct (match_signs b w) as [rest e] eqn:E. specialize (IH w). rewrite E in IH. cbn in *. congruence.
  Qed.
  Lemma match_signs_short (b w : list (@dquat N)) : snd (match_signs b w) = (length w <? length b)%nat.
  Proof.
    revert w; induction b as [|x b IH]; intros [|y w]; cbn [match_signs snd length]; try easy.
    destruct (match_signs b w) as [rest e] eqn:E. specialize (IH w). rewrite E in IH. cbn in *.
    rewrite IH. reflexivity.
  Qed.
  Lemma match_signs_nth (b w : list (@dquat N)) i y : nth_error w i = Some y ->
    nth_error (fst (match_signs b w)) i
    = Some (match nth_error b i with Some x => match_sign x y | None => y end).
  Proof.
    revert w i; induction b as [|x b IH]; intros [|y' w] [|i] H; cbn [match_signs fst]; try easy.
    - destruct (match_signs b w) as [rest e]. cbn. injection H as ->. reflexivity.
    - destruct (match_signs b w) as [rest e] eqn:E. cbn. specialize (IH w i H). rewrite E in IH. exact IH.
  Qed.
End Gates.
Lemma match_signs_app l (w : list (@dquat XR)) :
  match_signs (hands l) (eyes l ++ w) = (eyes (map rmatch l) ++ w, false).
Proof.
  unfold hands, eyes. induction l as [|p l IH]; [easy|]. cbn [map match_signs app].
  rewrite IH. cbn. now rewrite match_sign_in.
Qed.
