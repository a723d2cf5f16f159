(** * Property C97: exchanging the two sensors inverts the calibration; order, signs and the implementation of the decomposition do not matter. *)

From Coq Require Import Reals ZArith Bool List Lra Lia Psatz Permutation.
From Verif Require Import Num Py XReal XFacts Quat DualQuat HandEye Spec Embed QuatFacts QuatTrig
  QuatRot DualFacts ScrewFacts ListFacts HandEyeFacts KernelFacts CalibFacts SingularFacts.
Import ListNotations.
Local Open Scope R_scope.

(** ** Specification *)
(** compute_hand_eye_calibration on the identity followed by the motions l of hand and eye *)
Definition run (svd : list (@dquat XR) -> res (list (@T XR) * list (@dquat XR))) (tol : R) (l : list (rdq * rdq)) :=
  compute_hand_eye_calibration svd (Fin tol) (inD dqone :: hands l) (inD dqone :: eyes l).
(** the decomposition never raises *)
Definition total (svd : list (@dquat XR) -> res (list (@T XR) * list (@dquat XR))) : Prop := forall m, exists r, svd m = Ok r.
(** [s] and [v] are what np.linalg.svd returns for the matrix of this call, and they are exact *)
Definition decomposed svd tol l (s : list R) (v : list rdq) : Prop := forall m,
  setup_t_matrix svd (inD dqone :: hands l) (fst (run svd tol l)) = Ok (map inD m) ->
  svd (map inD m) = Ok (map Fin s, map inD v) /\ svd_spec m s v.
(** no two solutions of the quadratic equation have equally long rotation parts *)
Definition untied (p q : rdq) : Prop := forall a b,
  let x := dqadd (dqscale a p) q in
  let y := dqadd (dqscale b p) q in
  hdot (dr x) (dd x) = 0 -> hdot (dr y) (dd y) = 0 -> hnorm2 (dr x) = hnorm2 (dr y) -> a = b.
(** the two smallest singular values are different from each other and from the other six, and there is one best solution *)
Definition separated (s : list R) (v : list rdq) : Prop :=
  nth 7 s 0 < nth 6 s 0 < nth 5 s 0 /\ forall p q, nth_error v 6 = Some p -> nth_error v 7 = Some q -> untied p q.
(** the calls end in the same way: with the same exception, or with the same singular values and warning, and calibrations
    x and f x (either sign, if it is a half turn) *)
Definition same_result (f : rdq -> rdq) (o o' : list (@dquat XR) * res (@dquat XR * list (@T XR) * bool)) : Prop :=
  match snd o, snd o' with
  | Ok (r, s, bad), Ok (r', s', bad') => s' = s /\ bad' = bad /\
      exists x x', r = inD x /\ r' = inD x' /\ (x' = f x \/ qs (dr x) = 0 /\ x' = dqneg (f x))
  | Err e, Err e' => e' = e
  | _, _ => False
  end.
(** the same two motions, each with either sign of the dual quaternion; half turns, whose sign is not matched, literally *)
Definition resigned (p p' : rdq * rdq) : Prop :=
  p' = p \/ qs (dr (fst p)) * qs (dr (snd p)) <> 0 /\
            (fst p' = fst p \/ fst p' = dqneg (fst p)) /\ (snd p' = snd p \/ snd p' = dqneg (snd p)).
Definition same_motions (l l' : list (rdq * rdq)) : Prop := exists k, Permutation l k /\ Forall2 resigned k l'.
Definition swapped (l : list (rdq * rdq)) : list (rdq * rdq) := map (fun p => (snd p, fst p)) l.
(** the scalar parts of the two motions differ by at most c, when their signs are matched *)
Definition scalars_within (c : R) (p : rdq * rdq) : Prop :=
  let b := if Rlt_dec (qs (dr (fst p)) * qs (dr (snd p))) 0 then dqneg (snd p) else snd p in
  Rabs (qs (dr (fst p)) - qs (dr b)) <= c /\ Rabs (qs (dd (fst p)) - qs (dd b)) <= c.

(** ** The quadratic equation *)
Lemma roots_eq p q : qa p q <> 0 -> untied p q -> val p q (root1 p q) = val p q (root2 p q) -> root1 p q = root2 p q.
Proof.
  intros A U V. destruct (Rle_or_lt 0 (disc p q)) as [D|D].
  - assert (C : clipped p q = disc p q) by (unfold clipped; destruct (Rlt_dec _ _); lra).
    pose proof (sqrt_sqrt _ D) as SS.
    assert (S1 : forall t, t * t = disc p q -> qa p q * ((- qb p q + t) / (2 * qa p q)) * ((- qb p q + t) / (2 * qa p q)) + qb p q * ((- qb p q + t) / (2 * qa p q)) + qc p q = 0).
    { intros t T. transitivity ((t * t - (qb p q * qb p q - 4 * qa p q * qc p q)) / (4 * qa p q)); [field; lra|]. rewrite T. unfold disc. field. lra. }
    apply U; cbn zeta; rewrite ?quad_at; unfold root1, root2; rewrite ?C.
    + now apply S1.
    + replace (- qb p q - sqrt (disc p q)) with (- qb p q + - sqrt (disc p q)) by ring. apply S1. lra.
    + rewrite !val_norm in V. cbn [dqadd dqscale dr]. unfold root1, root2 in V. rewrite C in V. exact V.
  - assert (C : clipped p q = 0) by (unfold clipped; destruct (Rlt_dec _ _); lra).
    unfold root1, root2. rewrite C, sqrt_0. f_equal. ring.
Qed.
Section Flip.
  Context (p q p' q' : rdq).
  Context (QA : qa p' q' = qa p q) (QB : qb p' q' = - qb p q) (QC : qc p' q' = qc p q) (V : forall s, val p' q' (- s) = val p q s).
  Context (A : qa p q <> 0) (U : untied p q).
  Lemma flip_clipped : clipped p' q' = clipped p q.
  Proof. unfold clipped, disc. rewrite QA, QB, QC. now replace (- qb p q * - qb p q) with (qb p q * qb p q) by ring. Qed.
  Lemma flip_root1 : root1 p' q' = - root2 p q.
  Proof. unfold root1, root2. rewrite flip_clipped, QA, QB. field. easy. Qed.
  Lemma flip_root2 : root2 p' q' = - root1 p q.
  Proof. unfold root1, root2. rewrite flip_clipped, QA, QB. field. easy. Qed.
  Lemma flip_root : root p' q' = - root p q.
  Proof.
    unfold root. rewrite flip_root1, flip_root2, !V.
    destruct (Rlt_dec (val p q (root1 p q)) (val p q (root2 p q))), (Rlt_dec (val p q (root2 p q)) (val p q (root1 p q))); try lra.
    f_equal. apply roots_eq; [easy|easy|lra].
  Qed.
  Lemma flip_disc : disc p' q' = disc p q.
  Proof. unfold disc. rewrite QA, QB, QC. ring. Qed.
  Lemma flip_val : val p' q' (root p' q') = val p q (root p q).
  Proof. now rewrite flip_root, V. Qed.
End Flip.
(** the two sign changes *)
Definition close (x y : rdq) : Prop := y = x \/ qs (dr x) = 0 /\ y = dqneg x.
Definition agree (f : rdq -> rdq) (r r' : res (@dquat XR)) : Prop :=
  match r, r' with
  | Ok d, Ok d' => exists x x', d = inD x /\ d' = inD x' /\ close (f x) x'
  | Err e, Err e' => e' = e
  | _, _ => False
  end.
Lemma neg_l p q : qa (dqneg p) q = qa p q /\ qb (dqneg p) q = - qb p q /\ qc (dqneg p) q = qc p q /\ forall s, val (dqneg p) q (- s) = val p q s.
Proof. unfold qa, qb, qc, val. destruct p as [[[] ?] [[] ?]], q as [[[] ?] [[] ?]]. specu. repeat split; intros; ring. Qed.
Lemma neg_r p q : qa p (dqneg q) = qa p q /\ qb p (dqneg q) = - qb p q /\ qc p (dqneg q) = qc p q /\ forall s, val p (dqneg q) (- s) = val p q s.
Proof. unfold qa, qb, qc, val. destruct p as [[[] ?] [[] ?]], q as [[[] ?] [[] ?]]. specu. repeat split; intros; ring. Qed.
Lemma rflip_close x : close (rflip x) (rflip (dqneg x)).
Proof.
  unfold close, rflip. cbn [dqneg dr hneg qs]. destruct (Rlt_dec (qs (dr x)) 0), (Rlt_dec (- qs (dr x)) 0); try lra.
  - now left.
  - left. destruct x as [[[] ?] [[] ?]]. unfold dqneg, hneg, vscale. cbn. repeat f_equal; ring.
  - right. split; [lra|easy].
Qed.
Lemma close_refl x : close x x.
Proof. now left. Qed.
Lemma dqneg_twice x : dqneg (dqneg x) = x.
Proof. destruct x as [[[] ?] [[] ?]]. unfold dqneg, hneg, vscale. cbn. repeat f_equal; ring. Qed.
Lemma close_trans x y z : close x y -> close y z -> close x z.
Proof.
  intros [->|[H ->]] [->|[H' ->]]; unfold close; auto. left. apply dqneg_twice.
Qed.
Lemma untied_neg_l p q : untied p q -> untied (dqneg p) q.
Proof.
  intros U a b x y. replace x with (dqadd (dqscale (- a) p) q). 2:{ unfold x. apply rdq_eq; cbn [dqadd dqscale dqneg dr dd]; qring. }
  replace y with (dqadd (dqscale (- b) p) q). 2:{ unfold y. apply rdq_eq; cbn [dqadd dqscale dqneg dr dd]; qring. }
  intros H1 H2 H3. pose proof (U (- a) (- b) H1 H2 H3). lra.
Qed.
Lemma solve_neg_l p q : untied p q -> solve_quadratic (inD (dqneg p)) (inD q) = solve_quadratic (inD p) (inD q).
Proof.
  intros U. destruct (neg_l p q) as (QA & QB & QC & V). rewrite !solve_in, QA.
  destruct (Req_EM_T (qa p q) 0) as [Z|A]; [easy|].
  rewrite (flip_disc p q (dqneg p) q QA QB QC), (flip_val p q (dqneg p) q QA QB QC V A U).
  destruct (Rlt_dec _ _); [easy|]. destruct (Rlt_dec _ _); [|easy]. do 2 f_equal. unfold combo.
  rewrite (flip_val p q (dqneg p) q QA QB QC V A U), (flip_root p q (dqneg p) q QA QB QC V A U). do 2 f_equal.
  f_equal. apply rdq_eq; cbn [dqscale dqneg dr dd]; qring.
Qed.
Lemma solve_neg_r p q : untied p q -> agree (fun x => x) (solve_quadratic (inD p) (inD q)) (solve_quadratic (inD p) (inD (dqneg q))).
Proof.
  intros U. destruct (neg_r p q) as (QA & QB & QC & V). rewrite !solve_in, QA.
  destruct (Req_EM_T (qa p q) 0) as [Z|A]; [easy|].
  rewrite (flip_disc p q p (dqneg q) QA QB QC), (flip_val p q p (dqneg q) QA QB QC V A U).
  destruct (Rlt_dec _ _); [easy|]. destruct (Rlt_dec _ _); [|easy]. cbn [agree]. exists (combo p q), (combo p (dqneg q)). split; [easy|]. split; [easy|].
  unfold combo. rewrite (flip_val p q p (dqneg q) QA QB QC V A U), (flip_root p q p (dqneg q) QA QB QC V A U).
  set (k := / sqrt _). set (s := root p q).
  replace (dqscale k (dqadd (dqscale (- s) p) (dqneg q))) with (dqneg (dqscale k (dqadd (dqscale s p) q))); [apply rflip_close|].
  apply rdq_eq; cbn [dqadd dqscale dqneg dr dd]; qring.
Qed.
Lemma solve_signs p q p' q' : untied p q -> (p' = p \/ p' = dqneg p) -> (q' = q \/ q' = dqneg q) ->
  agree (fun x => x) (solve_quadratic (inD p) (inD q)) (solve_quadratic (inD p') (inD q')).
Proof.
  intros U P Q.
  assert (E : solve_quadratic (inD p') (inD q') = solve_quadratic (inD p) (inD q')).
  { destruct P as [->| ->]; [easy|]. apply solve_neg_l. destruct Q as [->| ->]; [easy|].
    intros a b x y. replace x with (dqneg (dqadd (dqscale (- a) p) q)). 2:{ unfold x. apply rdq_eq; cbn [dqadd dqscale dqneg dr dd]; qring. }
    replace y with (dqneg (dqadd (dqscale (- b) p) q)). 2:{ unfold y. apply rdq_eq; cbn [dqadd dqscale dqneg dr dd]; qring. }
    specialize (U (- a) (- b)). cbn zeta in U. set (x0 := dqadd (dqscale (- a) p) q) in *. set (y0 := dqadd (dqscale (- b) p) q) in *.
    assert (ND : forall z, hdot (dr (dqneg z)) (dd (dqneg z)) = hdot (dr z) (dd z)) by (intros [[[] ?] [[] ?]]; specu; ring).
    rewrite !ND. cbn [dqneg dr]. rewrite !hnorm2_neg. intros H1 H2 H3. specialize (U H1 H2 H3). lra. }
  rewrite E. destruct Q as [->| ->]; [|now apply solve_neg_r].
  destruct (solve_quadratic (inD p) (inD q)) as [d|] eqn:S; [|easy]. cbn [agree]. rewrite solve_in in S.
  destruct (Req_EM_T _ _); [easy|]. destruct (Rlt_dec _ _); [easy|]. destruct (Rlt_dec _ _); [|easy]. injection S as <-.
  exists (combo p q), (combo p q). auto using close_refl.
Qed.
(** conjugation *)
Lemma conj_q p q : qa (dqconj p) (dqconj q) = qa p q /\ qb (dqconj p) (dqconj q) = qb p q /\ qc (dqconj p) (dqconj q) = qc p q /\ forall s, val (dqconj p) (dqconj q) s = val p q s.
Proof. unfold qa, qb, qc, val. destruct p as [[[] ?] [[] ?]], q as [[[] ?] [[] ?]]. specu. repeat split; intros; ring. Qed.
Lemma conj_combo p q : combo (dqconj p) (dqconj q) = dqconj (combo p q).
Proof.
  destruct (conj_q p q) as (QA & QB & QC & V). unfold combo.
  assert (R : root (dqconj p) (dqconj q) = root p q).
  { unfold root, root1, root2, clipped, disc. now rewrite QA, QB, QC, !V. }
  rewrite R, V. set (k := / sqrt _). set (s := root p q).
  replace (dqscale k (dqadd (dqscale s (dqconj p)) (dqconj q))) with (dqconj (dqscale k (dqadd (dqscale s p) q))).
  2:{ apply rdq_eq; cbn [dqadd dqscale dqconj dr dd]; qring. }
  set (z := dqscale k _). unfold rflip. cbn [dqconj dr hconj qs]. destruct (Rlt_dec (qs (dr z)) 0); [|easy].
  destruct z as [[[] ?] [[] ?]]. unfold dqneg, dqconj, hneg, hconj, vscale. cbn. repeat f_equal; ring.
Qed.
Lemma conj_solve p q : agree dqconj (solve_quadratic (inD p) (inD q)) (solve_quadratic (inD (dqconj p)) (inD (dqconj q))).
Proof.
  destruct (conj_q p q) as (QA & QB & QC & V). rewrite !solve_in. rewrite QA. destruct (Req_EM_T _ _); [easy|].
  assert (D : disc (dqconj p) (dqconj q) = disc p q) by (unfold disc; now rewrite QA, QB, QC).
  assert (R : root (dqconj p) (dqconj q) = root p q).
  { unfold root, root1, root2, clipped, disc. now rewrite QA, QB, QC, !V. }
  rewrite D, R, V. destruct (Rlt_dec _ _); [easy|]. destruct (Rlt_dec _ _); [|easy]. cbn [agree].
  exists (combo p q), (combo (dqconj p) (dqconj q)). split; [easy|]. split; [easy|]. rewrite conj_combo. apply close_refl.
Qed.
Lemma untied_conj p q : untied p q -> untied (dqconj p) (dqconj q).
Proof.
  intros U a b x y. replace x with (dqconj (dqadd (dqscale a p) q)). 2:{ unfold x. apply rdq_eq; cbn [dqadd dqscale dqconj dr dd]; qring. }
  replace y with (dqconj (dqadd (dqscale b p) q)). 2:{ unfold y. apply rdq_eq; cbn [dqadd dqscale dqconj dr dd]; qring. }
  specialize (U a b). cbn zeta in U. set (x0 := dqadd (dqscale a p) q) in *. set (y0 := dqadd (dqscale b p) q) in *.
  assert (ND : forall z, hdot (dr (dqconj z)) (dd (dqconj z)) = hdot (dr z) (dd z)) by (intros [[[] ?] [[] ?]]; specu; ring).
  assert (NN : forall z, hnorm2 (dr (dqconj z)) = hnorm2 (dr z)) by (intros [[[] ?] [[] ?]]; specu; ring).
  now rewrite !ND, !NN.
Qed.

(** ** The decomposition *)
Definition good (f : rdq -> rdq) : Prop := f = (fun x => x) \/ f = dqconj.
Lemma conj_twice x : dqconj (dqconj x) = x.
Proof. destruct x as [[[] ?] [[] ?]]. unfold dqconj, hconj, vscale. cbn. repeat f_equal; ring. Qed.
Lemma conj_dot8 x y : dot8 (dqconj x) (dqconj y) = dot8 x y.
Proof. destruct x as [[[] ?] [[] ?]], y as [[[] ?] [[] ?]]. specu; ring. Qed.
Lemma conj_sum {A} (g : A -> rdq) l : dqconj (dqsum (map g l)) = dqsum (map (fun a => dqconj (g a)) l).
Proof.
  induction l as [|a l IH]; cbn [map dqsum fold_right].
  - apply rdq_eq; cbn [dqconj dr dd]; qring.
  - fold (dqsum (map g l)). fold (dqsum (map (fun a => dqconj (g a)) l)). rewrite <- IH. apply rdq_eq; cbn [dqadd dqconj dr dd]; qring.
Qed.
Lemma transport f m m' s v : good f -> (forall y z, gram m' (f y) (f z) = gram m y z) -> length m' = length m ->
  svd_spec m s v -> svd_spec m' s (map f v).
Proof.
  intros F G L SP.
  assert (NT : forall i w, nth_error (map f v) i = Some w -> exists u, nth_error v i = Some u /\ w = f u).
  { intros i w H. rewrite nth_error_map in H. destruct (nth_error v i) as [u|]; [|easy]. injection H as <-. eauto. }
  assert (DF : forall y z, dot8 (f y) (f z) = dot8 y z) by (intros; destruct F as [-> | ->]; auto using conj_dot8).
  constructor.
  - rewrite map_length. apply (svd_rows _ _ _ SP).
  - rewrite L. apply (svd_count _ _ _ SP).
  - intros y. destruct F as [-> | ->].
    + rewrite map_id. apply (svd_basis _ _ _ SP).
    + rewrite map_map. pose proof (svd_basis _ _ _ SP (dqconj y)) as B. apply (f_equal dqconj) in B.
      rewrite conj_twice, conj_sum in B. rewrite B at 1. f_equal. apply map_ext. intros w.
      rewrite <- (conj_dot8 y), conj_twice. apply rdq_eq; cbn [dqscale dqconj dr dd]; qring.
  - intros i j vi vj I J. apply NT in I as (u & I & ->). apply NT in J as (w & J & ->). rewrite DF. now apply (svd_orthonormal _ _ _ SP).
  - intros i j vi vj I J N. apply NT in I as (u & I & ->). apply NT in J as (w & J & ->). rewrite G. now apply (svd_orthogonal _ _ _ SP i j).
  - intros i vi I. apply NT in I as (u & I & ->). rewrite G. now apply (svd_values _ _ _ SP).
  - apply (svd_nonneg _ _ _ SP).
  - apply (svd_sorted _ _ _ SP).
Qed.

(** ** Gates *)
Lemma for_pairs_char {C} (P : rdq * rdq -> Prop) (f : @dquat XR -> @dquat XR -> res C) (g : rdq -> rdq -> C) l :
  (forall p, P p /\ f (inD (fst p)) (inD (snd p)) = Ok (g (fst p) (snd p)) \/ ~ P p /\ f (inD (fst p)) (inD (snd p)) = Err AssertionError) ->
  Forall P l /\ for_pairs f (hands l) (eyes l) = Ok (map (fun p => g (fst p) (snd p)) l) \/
  ~ Forall P l /\ for_pairs f (hands l) (eyes l) = Err AssertionError.
Proof.
  intros H. unfold hands, eyes. induction l as [|p l IH]; [left; split; [constructor|easy]|]. cbn [map for_pairs].
  destruct (H p) as [[HP ->]|[HP ->]]; cbn [bind].
  - destruct IH as [[F ->]|[F ->]]; cbn [bind].
    + left. split; [now constructor|easy].
    + right. split; [|easy]. intros X. inversion X. easy.
  - right. split; [|easy]. intros X. inversion X. easy.
Qed.
Lemma gate_char tol l : 0 <= tol ->
  Forall (fun p => scalars_close tol (snd p) (fst p)) l /\ scalar_gate (N:=XR) (Fin tol) (hands l) (eyes l) = Ok tt \/
  ~ Forall (fun p => scalars_close tol (snd p) (fst p)) l /\ scalar_gate (N:=XR) (Fin tol) (hands l) (eyes l) = Err AssertionError.
Proof.
  intros T0. unfold scalar_gate.
  destruct (for_pairs_char (fun p => scalars_close tol (snd p) (fst p)) (fun b w => do ok <- scalar_parts_close (N:=XR) (Fin tol) w b; assert ok; Ok tt) (fun _ _ => tt) l) as [[F ->]|[F ->]].
  - intros p. destruct (scalar_parts_close_in tol (snd p) (fst p) T0) as (c & -> & H). cbn [bind]. destruct c.
    + left. split; [now apply H|easy].
    + right. split; [|easy]. intros X. now apply H in X.
  - now left.
  - now right.
Qed.
Lemma setup_char svd l : total svd ->
  Forall (fun p => scalars_close (5 / 100) (fst p) (snd p)) l /\ setup_t_matrix svd (hands l) (eyes l) = Ok (map inD (trows l)) \/
  ~ Forall (fun p => scalars_close (5 / 100) (fst p) (snd p)) l /\ setup_t_matrix svd (hands l) (eyes l) = Err AssertionError.
Proof.
  intros T. unfold setup_t_matrix.
  destruct (for_pairs_char (fun p => scalars_close (5 / 100) (fst p) (snd p)) (setup_s_matrix svd) (fun a b => map inD (srows a b)) l) as [[F ->]|[F ->]].
  - intros p. unfold setup_s_matrix. change (@lit XR 5 (-2)) with (Fin (5 / 100)).
    destruct (scalar_parts_close_in (5 / 100) (fst p) (snd p)) as (c & -> & H); [lra|]. cbn [bind]. destruct c.
    + left. split; [now apply H|]. cbn [assert_ bind]. destruct (T (s_rows (inD (fst p)) (inD (snd p)))) as (r & ->). cbn [bind]. now rewrite s_rows_in.
    + right. split; [|easy]. intros X. now apply H in X.
  - left. split; [easy|]. cbn [bind]. rewrite concat_trows. destruct (T (map inD (trows l))) as (r & ->). easy.
  - now right.
Qed.

(** ** Two calls on matrices with the same products *)
Definition matched (l : list (rdq * rdq)) : list (rdq * rdq) := (dqone, dqone) :: map rmatch l.
Lemma run_in svd tol l : run svd tol l = (eyes (matched l), calibrate svd (Fin tol) (hands (matched l)) (eyes (matched l))).
Proof. apply compute_in. Qed.
Lemma hands_matched l : inD dqone :: hands l = hands (matched l).
Proof. unfold matched. cbn [hands map fst]. f_equal. symmetry. apply hands_rmatch. Qed.
Lemma two_runs f svd svd' tol l l' s v s' v' : good f -> total svd -> total svd' -> 0 <= tol ->
  (Forall (fun p => scalars_close tol (snd p) (fst p)) (matched l) <-> Forall (fun p => scalars_close tol (snd p) (fst p)) (matched l')) ->
  (Forall (fun p => scalars_close (5 / 100) (fst p) (snd p)) (matched l) <-> Forall (fun p => scalars_close (5 / 100) (fst p) (snd p)) (matched l')) ->
  (forall y z, gram (trows (matched l')) (f y) (f z) = gram (trows (matched l)) y z) -> length (trows (matched l')) = length (trows (matched l)) ->
  decomposed svd tol l s v -> decomposed svd' tol l' s' v' -> separated s v ->
  same_result f (run svd tol l) (run svd' tol l').
Proof.
  intros F T1 T2 T0 G1 G2 GR LEN D1 D2 [SE UN]. unfold decomposed in D1, D2. rewrite run_in, hands_matched in D1, D2. cbn [fst] in D1, D2. rewrite !run_in.
  unfold same_result. cbn [snd]. unfold calibrate.
  destruct (gate_char tol (matched l) T0) as [[A ->]|[A ->]], (gate_char tol (matched l') T0) as [[A' ->]|[A' ->]];
    [|now apply G1 in A|now apply G1 in A'|easy]. cbn [bind].
  destruct (setup_char svd (matched l) T1) as [[B E1]|[B E1]], (setup_char svd' (matched l') T2) as [[B' E2]|[B' E2]];
    [|now apply G2 in B|now apply G2 in B'|now rewrite E1, E2].
  specialize (D1 _ E1) as [S1 SP1]. specialize (D2 _ E2) as [S2 SP2]. rewrite E1, E2. cbn [bind]. rewrite S1, S2. cbn [bind].
  pose proof (transport f _ _ _ _ F GR LEN SP1) as SP3.
  pose proof (values_unique _ _ _ _ _ SP3 SP2) as ->.
  pose proof (svd_rows _ _ _ SP1) as L1. pose proof (svd_rows _ _ _ SP2) as L2.
  destruct (nth_error v 6) as [p|] eqn:E6; [|apply nth_error_None in E6; lia].
  destruct (nth_error v 7) as [q|] eqn:E7; [|apply nth_error_None in E7; lia].
  destruct (nth_error v' 6) as [p'|] eqn:E6'; [|apply nth_error_None in E6'; lia].
  destruct (nth_error v' 7) as [q'|] eqn:E7'; [|apply nth_error_None in E7'; lia].
  specialize (UN p q eq_refl eq_refl).
  rewrite !index_map, (index_some _ _ _ E6), (index_some _ _ _ E7), (index_some _ _ _ E6'), (index_some _ _ _ E7'). cbn [bind].
  assert (P : p' = f p \/ p' = dqneg (f p)).
  { apply (vector_unique (trows (matched l')) s (map f v) v' 6); [easy|easy|now rewrite nth_error_map, E6|easy|].
    intros j J N. destruct (Nat.eq_dec j 7) as [->|N7]; [lra|]. pose proof (svd_sorted _ _ _ SP1 j 5 ltac:(lia)). lra. }
  assert (Q : q' = f q \/ q' = dqneg (f q)).
  { apply (vector_unique (trows (matched l')) s (map f v) v' 7); [easy|easy|now rewrite nth_error_map, E7|easy|].
    intros j J N. pose proof (svd_sorted _ _ _ SP1 j 6 ltac:(lia)). lra. }
  assert (AG : agree f (solve_quadratic (inD p) (inD q)) (solve_quadratic (inD (f p)) (inD (f q)))).
  { destruct F as [-> | ->]; [apply solve_signs; auto|apply conj_solve]. }
  assert (UF : untied (f p) (f q)) by (destruct F as [-> | ->]; auto using untied_conj).
  pose proof (solve_signs _ _ _ _ UF P Q) as AH.
  destruct (solve_quadratic (inD p) (inD q)) as [d|], (solve_quadratic (inD (f p)) (inD (f q))) as [d1|], (solve_quadratic (inD p') (inD q')) as [d2|];
    cbn [agree] in AG, AH; try contradiction; cbn [bind]; [|congruence].
  split; [easy|]. split; [easy|]. destruct AG as (x & x1 & -> & -> & C1). destruct AH as (x1' & x2 & I & -> & C2).
  assert (x1' = x1) by (pose proof (inD_list_inj [x1] [x1']) as X; cbn [map] in X; rewrite I in X; specialize (X eq_refl); congruence). subst x1'.
  exists x, x2. split; [easy|]. split; [easy|]. pose proof (close_trans _ _ _ C1 C2) as [->|[Z ->]]; [now left|right]. split; [|easy].
  destruct F as [-> | ->]; [easy|]. cbn [dqconj dr hconj qs] in Z. easy.
Qed.

(** ** Order and signs *)
Lemma gram_cat m k a b : gram (m ++ k) a b = gram m a b + gram k a b.
Proof. induction m as [|r m IH]; simpl; [ring|]. rewrite IH. ring. Qed.
Lemma gram_pairs l y z : gram (trows l) y z = fold_right (fun p acc => gram (srows (fst p) (snd p)) y z + acc) 0 l.
Proof. induction l as [|p l IH]; [easy|]. cbn [trows flat_map fold_right]. fold (trows l). now rewrite gram_cat, IH. Qed.
Lemma trows_length l : length (trows l) = (6 * length l)%nat.
Proof. induction l as [|p l IH]; [easy|]. cbn [trows flat_map]. fold (trows l). rewrite app_length, IH. change (length (srows (fst p) (snd p))) with 6%nat. cbn [length]. lia. Qed.
Definition twin (p p' : rdq * rdq) : Prop := p' = p \/ p' = (dqneg (fst p), dqneg (snd p)).
Lemma twin_match p p' : resigned p p' -> twin (rmatch p) (rmatch p').
Proof.
  destruct p as [a b], p' as [a' b']. unfold resigned, twin, rmatch. cbn [fst snd]. intros [H|(N & A & B)]; [left; now injection H as -> ->|].
  destruct A as [-> | ->], B as [-> | ->]; cbn [dqneg dr hneg qs] in *; cbn [fst snd].
  - now left.
  - destruct (Rlt_dec (qs (dr b) * qs (dr a)) 0), (Rlt_dec (- qs (dr b) * qs (dr a)) 0); try (exfalso; lra); left; [easy|]. now rewrite <- (dqneg_twice b) at 2.
  - destruct (Rlt_dec (qs (dr b) * qs (dr a)) 0), (Rlt_dec (qs (dr b) * - qs (dr a)) 0); try (exfalso; lra); right; [now rewrite dqneg_twice|easy].
  - destruct (Rlt_dec (qs (dr b) * qs (dr a)) 0), (Rlt_dec (- qs (dr b) * - qs (dr a)) 0); try (exfalso; lra); right; easy.
Qed.
Lemma twin_gram p p' y z : twin p p' -> gram (srows (fst p') (snd p')) y z = gram (srows (fst p) (snd p)) y z.
Proof.
  intros [->| ->]; [easy|]. destruct p as [[[[a b c] d] [[e f g] h]] [[[a' b' c'] d'] [[e' f' g'] h']]], y as [[[y1 y2 y3] y4] [[y5 y6 y7] y8]], z as [[[z1 z2 z3] z4] [[z5 z6 z7] z8]].
  unfold gram, srows, rhalf. cbn [map combine app fst snd fold_right dqneg dr dd hneg qv qs]. specu. ring.
Qed.
Lemma neg_close tol a b : scalars_close tol (dqneg a) (dqneg b) <-> scalars_close tol a b.
Proof.
  unfold scalars_close, close_to. cbn [dqneg dr dd hneg qs]. rewrite !Rabs_Ropp.
  replace (- qs (dr a) - - qs (dr b)) with (- (qs (dr a) - qs (dr b))) by ring. replace (- qs (dd a) - - qs (dd b)) with (- (qs (dd a) - qs (dd b))) by ring.
  now rewrite !Rabs_Ropp.
Qed.
Lemma twin_forall (P : rdq * rdq -> Prop) l l' : (forall p, P (dqneg (fst p), dqneg (snd p)) <-> P p) -> Forall2 twin l l' -> (Forall P l <-> Forall P l').
Proof.
  intros H F. induction F as [|p p' l l' T F IH]; [easy|]. rewrite !Forall_cons_iff, IH.
  assert (E : P p' <-> P p) by (destruct T as [-> | ->]; [easy|apply H]). now rewrite E.
Qed.
Lemma twin_rows l l' y z : Forall2 twin l l' -> gram (trows l') y z = gram (trows l) y z.
Proof.
  intros F. rewrite !gram_pairs. induction F as [|p p' l l' T F IH]; [easy|]. cbn [fold_right]. now rewrite IH, (twin_gram p p').
Qed.
Lemma perm_rows l l' y z : Permutation l l' -> gram (trows l') y z = gram (trows l) y z.
Proof. intros F. rewrite !gram_pairs. induction F as [|p l l' F IH|p q l|l1 l2 l3 F1 IH1 F2 IH2]; cbn [fold_right]; lra. Qed.
Lemma perm_forall {A} (P : A -> Prop) l l' : Permutation l l' -> (Forall P l <-> Forall P l').
Proof. intros H. rewrite !Forall_forall. split; intros F x I; apply F; [now apply (Permutation_in _ (Permutation_sym H))|now apply (Permutation_in _ H)]. Qed.
Lemma same_motions_match l l' : same_motions l l' -> exists k, Permutation (matched l) k /\ Forall2 twin k (matched l').
Proof.
  intros (k & P & F). exists (matched k). split.
  - constructor. now apply Permutation_map.
  - constructor; [now left|]. clear P. induction F as [|p p' k l' R F IH]; [constructor|]. constructor; [now apply twin_match|exact IH].
Qed.

(** The order of the motions, the signs of the dual quaternions and the implementation of the decomposition do not matter. *)
Theorem C97_order : forall svd svd' tol l l' s v s' v', total svd -> total svd' -> 0 <= tol -> same_motions l l' ->
  decomposed svd tol l s v -> decomposed svd' tol l' s' v' -> separated s v ->
  same_result (fun x => x) (run svd tol l) (run svd' tol l').
Proof.
  intros svd svd' tol l l' s v s' v' T1 T2 T0 SM D1 D2 SE. destruct (same_motions_match _ _ SM) as (k & P & F).
  assert (HN : forall t p, scalars_close t (dqneg (snd p)) (dqneg (fst p)) <-> scalars_close t (snd p) (fst p)) by (intros; apply neg_close).
  assert (HN' : forall t p, scalars_close t (dqneg (fst p)) (dqneg (snd p)) <-> scalars_close t (fst p) (snd p)) by (intros; apply neg_close).
  apply (two_runs (fun x => x) svd svd' tol l l' s v s' v'); try easy.
  - now left.
  - rewrite (perm_forall _ _ _ P). apply twin_forall; [apply HN|easy].
  - rewrite (perm_forall _ _ _ P). apply twin_forall; [apply HN'|easy].
  - intros y z. now rewrite (twin_rows _ _ _ _ F), (perm_rows _ _ _ _ P).
  - rewrite !trows_length. now rewrite (Permutation_length P), (Forall2_len _ _ _ F).
Qed.
Theorem C97_implementation : forall svd svd' tol l s v s' v', total svd -> total svd' -> 0 <= tol ->
  decomposed svd tol l s v -> decomposed svd' tol l s' v' -> separated s v ->
  same_result (fun x => x) (run svd tol l) (run svd' tol l).
Proof.
  intros svd svd' tol l s v s' v' T1 T2 T0. apply C97_order; try easy. exists l. split; [easy|]. induction l; constructor; [now left|easy].
Qed.

(** ** Exchanging the sensors *)
Lemma swap_gram p y z : gram (srows (fst (rmatch (snd p, fst p))) (snd (rmatch (snd p, fst p)))) (dqconj y) (dqconj z)
  = gram (srows (fst (rmatch p)) (snd (rmatch p))) y z.
Proof.
  destruct p as [a b]. unfold rmatch. cbn [fst snd]. rewrite (Rmult_comm (qs (dr a))). destruct (Rlt_dec _ _) as [_|_];
  destruct a as [[[a1 a2 a3] a4] [[a5 a6 a7] a8]], b as [[[b1 b2 b3] b4] [[b5 b6 b7] b8]], y as [[[y1 y2 y3] y4] [[y5 y6 y7] y8]], z as [[[z1 z2 z3] z4] [[z5 z6 z7] z8]];
  unfold gram, srows, rhalf; cbn [map combine app fst snd fold_right dqneg dqconj dr dd hneg hconj qv qs]; specu; ring.
Qed.
Lemma swap_rows l y z : gram (trows (matched (swapped l))) (dqconj y) (dqconj z) = gram (trows (matched l)) y z.
Proof.
  assert (H : gram (trows (map rmatch (swapped l))) (dqconj y) (dqconj z) = gram (trows (map rmatch l)) y z).
  { rewrite !gram_pairs. unfold swapped. induction l as [|p l IH]; [easy|]. cbn [map fold_right]. now rewrite IH, swap_gram. }
  rewrite !gram_pairs in *. unfold matched. cbn [fold_right]. rewrite H. f_equal.
  pose proof (swap_gram (dqone, dqone) y z) as S. unfold rmatch in S. cbn [fst snd dqone dr hone qs] in S.
  destruct (Rlt_dec _ _) as [L|_]; [lra|]. exact S.
Qed.
Lemma within_closes c t p : scalars_within c p -> c <= t -> 0 <= t ->
  scalars_close t (snd (rmatch p)) (fst (rmatch p)) /\ scalars_close t (fst (rmatch p)) (snd (rmatch p)) /\
  scalars_close t (snd (rmatch (snd p, fst p))) (fst (rmatch (snd p, fst p))) /\ scalars_close t (fst (rmatch (snd p, fst p))) (snd (rmatch (snd p, fst p))).
Proof.
  intros [H1 H2] C T0. destruct p as [a b]. unfold rmatch. cbn [fst snd] in *. rewrite (Rmult_comm (qs (dr b))).
  assert (K : forall u w, Rabs (u - w) <= c -> close_to t u w /\ close_to t w u /\ close_to t (- u) (- w) /\ close_to t (- w) (- u)).
  { intros u w H. unfold close_to. rewrite !Rabs_Ropp. replace (- u - - w) with (- (u - w)) by ring. replace (- w - - u) with (u - w) by ring. rewrite Rabs_Ropp, (Rabs_minus_sym w).
    pose proof (Rabs_pos u). pose proof (Rabs_pos w). repeat split; lra. }
  destruct (Rlt_dec (qs (dr a) * qs (dr b)) 0); cbn [dqneg dr dd hneg qs] in *; destruct (K _ _ H1) as (K1 & K2 & K3 & K4), (K _ _ H2) as (K5 & K6 & K7 & K8);
    rewrite ?Ropp_involutive in *; unfold scalars_close; cbn [dqneg dr dd hneg qs]; auto.
Qed.
Lemma one_close t : 0 <= t -> scalars_close t dqone dqone.
Proof. intros. now apply scalars_close_eq. Qed.
Theorem C97_swap : forall svd svd' tol l s v s' v', total svd -> total svd' -> 0 <= tol ->
  Forall (fun p => scalars_within tol p /\ scalars_within (1 / 20) p) l ->
  decomposed svd tol l s v -> decomposed svd' tol (swapped l) s' v' -> separated s v ->
  same_result dqconj (run svd tol l) (run svd' tol (swapped l)).
Proof.
  intros svd svd' tol l s v s' v' T1 T2 T0 W D1 D2 SE. rewrite Forall_forall in W.
  apply (two_runs dqconj svd svd' tol l (swapped l) s v s' v'); try easy.
  - now right.
  - split; intros _; (constructor; [now apply one_close|]); apply Forall_forall; intros q I; apply in_map_iff in I as (p & <- & I).
    + unfold swapped in I. apply in_map_iff in I as (p0 & <- & I). now apply (within_closes tol tol p0 (proj1 (W p0 I)) (Rle_refl _) T0).
    + now apply (within_closes tol tol p (proj1 (W p I)) (Rle_refl _) T0).
  - split; intros _; (constructor; [apply one_close; lra|]); apply Forall_forall; intros q I; apply in_map_iff in I as (p & <- & I).
    + unfold swapped in I. apply in_map_iff in I as (p0 & <- & I). apply (within_closes (1 / 20) (5 / 100) p0 (proj2 (W p0 I))); lra.
    + apply (within_closes (1 / 20) (5 / 100) p (proj2 (W p I))); lra.
  - apply swap_rows.
  - rewrite !trows_length. unfold matched, swapped. cbn [length]. now rewrite !map_length.
Qed.
(** the calibrations of the two calls undo each other *)
Theorem C97_inverse : forall svd svd' tol l s v s' v' r sv bad r' sv' bad', total svd -> total svd' -> 0 <= tol ->
  Forall (fun p => scalars_within tol p /\ scalars_within (1 / 20) p) l ->
  decomposed svd tol l s v -> decomposed svd' tol (swapped l) s' v' -> separated s v ->
  snd (run svd tol l) = Ok (r, sv, bad) -> snd (run svd' tol (swapped l)) = Ok (r', sv', bad') ->
  sv' = sv /\ bad' = bad /\ exists x x', r = inD x /\ r' = inD x' /\ (unitdq x -> unitdq x' /\ forall p, move x' (move x p) = p /\ move x (move x' p) = p).
Proof.
  intros svd svd' tol l s v s' v' r sv bad r' sv' bad' T1 T2 T0 W D1 D2 SE E1 E2.
  pose proof (C97_swap svd svd' tol l s v s' v' T1 T2 T0 W D1 D2 SE) as H. unfold same_result in H. rewrite E1, E2 in H.
  destruct H as (-> & -> & x & x' & -> & -> & C). split; [easy|]. split; [easy|]. exists x, x'. split; [easy|]. split; [easy|]. intros U.
  assert (UC : unitdq (dqconj x)).
  { destruct U as [U1 U2]. split; [rewrite <- U1|rewrite <- U2]; destruct x as [[[] ?] [[] ?]]; specu; ring. }
  assert (MC : forall p, move (dqconj x) (move x p) = p /\ move x (move (dqconj x) p) = p).
  { intros p. rewrite <- !move_mul by (apply U || apply UC). rewrite <- unitdq_inv_conj, dqmul_inv_l, dqmul_inv_r, move_one by auto using unitdq_n2. easy. }
  destruct C as [->|[_ ->]]; [easy|]. split; [now apply unitdq_neg|].
  assert (MN : forall p, move (dqneg (dqconj x)) p = move (dqconj x) p).
  { intros [p1 p2 p3]. destruct x as [[[x1 x2 x3] x4] [[x5 x6 x7] x8]]. specu. f_equal; ring. }
  intros p. rewrite !MN. apply MC.
Qed.

(** ** Example: five motions that do not fit together exactly, for a rotation about the x axis *)
Definition x97 : rdq := RD (RQ (RV (3 / 5) 0 0) (4 / 5)) hzero.
Definition turn (a b c : R) : rdq := RD (RQ (RV a b c) (4 / 5)) hzero.
Definition screw97 (a b : R) : rdq :=
  RD (RQ (RV (24 / 145 * a) (24 / 145 * b) 0) (143 / 145)) (RQ (RV (14 / 145 * a) (14 / 145 * b) 0) (- (336 / 20735))).
Definition l97 : list (rdq * rdq) :=
  [(turn 0 (12 / 25) (9 / 25), turn 0 (12 / 25) (- (9 / 25))); (turn 0 (- (9 / 25)) (12 / 25), turn 0 (9 / 25) (12 / 25));
   (turn (3 / 5) 0 0, turn (3 / 5) 0 0); (screw97 1 0, screw97 (-1) 0); (screw97 0 1, screw97 0 1)].
Definition hi (z : rq) : rdq := RD (hscale (4 / 5) z) (hscale (3 / 5) z).
Definition lo (z : rq) : rdq := RD (hscale (3 / 5) z) (hscale (- (4 / 5)) z).
Definition n97 : rq := RQ (RV (- (4 / 5)) 0 0) (3 / 5).
Definition e97 (i : nat) : rq := RQ (RV (if Nat.eqb i 1 then 1 else 0) (if Nat.eqb i 2 then 1 else 0) (if Nat.eqb i 3 then 1 else 0)) 0.
Definition v97 : list rdq := [hi n97; lo n97; hi (e97 3); lo (e97 3); RD (e97 2) hzero; RD hzero (e97 2); hi (dr x97); lo (dr x97)].
Definition s97 : list R :=
  [sqrt (72 / 25 + 4096 / 21025); sqrt (72 / 25 + 1296 / 21025); sqrt (1476 / 625 + 4096 / 21025); sqrt (1476 / 625 + 1296 / 21025);
   sqrt (1476 / 625); sqrt (1476 / 625); 64 / 145; 36 / 145].
Definition form97 (y z : rdq) : R :=
  72 / 25 * (hdot n97 (dr y) * hdot n97 (dr z) + hdot n97 (dd y) * hdot n97 (dd z))
  + 1476 / 625 * (hdot (e97 2) (dr y) * hdot (e97 2) (dr z) + hdot (e97 2) (dd y) * hdot (e97 2) (dd z)
                  + hdot (e97 3) (dr y) * hdot (e97 3) (dr z) + hdot (e97 3) (dd y) * hdot (e97 3) (dd z))
  + 16 / 21025 * fold_right Rplus 0 (map (fun e => 144 * (hdot e (dr y) * hdot e (dr z))
      + (7 * hdot e (dr y) + 12 * hdot e (dd y)) * (7 * hdot e (dr z) + 12 * hdot e (dd z))) [hone; e97 1; e97 3]).
Lemma match97 : map rmatch l97 = l97.
Proof.
  unfold l97. cbn [map]. unfold rmatch, turn, screw97. cbn [fst snd dr qs].
  repeat match goal with |- context [Rlt_dec ?a ?b] => destruct (Rlt_dec a b); [exfalso; lra|] end. reflexivity.
Qed.
Lemma gram97 y z : gram (trows (matched l97)) y z = form97 y z.
Proof.
  unfold matched. rewrite match97. destruct y as [[[y1 y2 y3] y4] [[y5 y6 y7] y8]], z as [[[z1 z2 z3] z4] [[z5 z6 z7] z8]].
  unfold form97, n97, e97, gram, trows, l97, turn, screw97, srows, rhalf. cbn [flat_map map combine app fst snd fold_right Nat.eqb]. specu. field.
Qed.
Lemma sqrt97 a : 0 <= a -> sqrt a * sqrt a = a.
Proof. apply sqrt_sqrt. Qed.
Lemma svd97 : svd_spec (trows (matched l97)) s97 v97.
Proof.
  assert (F : forall i j vi vj, nth_error v97 i = Some vi -> nth_error v97 j = Some vj ->
    dot8 vi vj = (if Nat.eqb i j then 1 else 0) /\ form97 vi vj = if Nat.eqb i j then nth i s97 0 * nth i s97 0 else 0).
  { assert (Q1 := sqrt97 (72 / 25 + 4096 / 21025) ltac:(lra)). assert (Q2 := sqrt97 (72 / 25 + 1296 / 21025) ltac:(lra)).
    assert (Q3 := sqrt97 (1476 / 625 + 4096 / 21025) ltac:(lra)). assert (Q4 := sqrt97 (1476 / 625 + 1296 / 21025) ltac:(lra)).
    assert (Q5 := sqrt97 (1476 / 625) ltac:(lra)).
    intros i j vi vj I J. unfold v97 in I, J. unfold s97.
    do 8 (destruct i as [|i]; [cbn [nth_error] in I; injection I as <-;
      do 8 (destruct j as [|j]; [cbn [nth_error] in J; injection J as <-; cbn [Nat.eqb nth];
        rewrite ?Q1, ?Q2, ?Q3, ?Q4, ?Q5; clear; unfold form97, hi, lo, n97, x97, e97; cbn [map fold_right Nat.eqb]; specu; split; field|]); now destruct j|]).
    now destruct i. }
  constructor.
  - reflexivity.
  - rewrite trows_length. unfold matched. rewrite match97. reflexivity.
  - intros [[[y1 y2 y3] y4] [[y5 y6 y7] y8]]. unfold v97, hi, lo, n97, x97, e97, dqsum. cbn [map fold_right Nat.eqb].
    apply rdq_eq; apply rq_eq; specu; field.
  - intros i j vi vj I J. apply (F i j vi vj I J).
  - intros i j vi vj I J N. rewrite gram97. destruct (F i j vi vj I J) as [_ ->]. now apply Nat.eqb_neq in N as ->.
  - intros i vi I. rewrite gram97. destruct (F i i vi vi I I) as [_ ->]. now rewrite Nat.eqb_refl.
  - intros i. unfold s97. do 8 (destruct i as [|i]; [cbn [nth]; try apply sqrt_pos; lra|]). destruct i; cbn; lra.
  - assert (B : forall i, nth (S i) s97 0 <= nth i s97 0).
    { intros i. unfold s97. do 5 (destruct i as [|i]; [cbn [nth]; apply sqrt_le_1_alt; lra|]).
      destruct i as [|i]; [cbn [nth]; apply Rsqr_incr_0_var; [unfold Rsqr; rewrite sqrt97 by lra; lra|apply sqrt_pos]|].
      do 2 (destruct i as [|i]; [cbn [nth]; lra|]). destruct i; cbn; lra. }
    intros i j L. induction L as [|j L IH]; [lra|]. specialize (B j). lra.
Qed.

Definition oracle97 (s : list R) (v : list rdq) : list (@dquat XR) -> res (list (@T XR) * list (@dquat XR)) := fun _ => Ok (map Fin s, map inD v).
Lemma total97 s v : total (oracle97 s v).
Proof. intros m. now eexists. Qed.
Lemma decomposed97 tol l s v : svd_spec (trows (matched l)) s v -> decomposed (oracle97 s v) tol l s v.
Proof.
  intros SP m E. split; [easy|]. rewrite run_in, hands_matched in E. cbn [fst] in E. apply setup_t_inv, inD_list_inj in E. now subst m.
Qed.
Lemma separated97 : separated s97 v97.
Proof.
  split.
  - unfold s97. cbn [nth]. split; [lra|]. apply Rsqr_incrst_0; [unfold Rsqr; rewrite sqrt97 by lra; lra|lra|apply sqrt_pos].
  - intros p q P Q. cbn [v97 nth_error] in P, Q. injection P as <-. injection Q as <-. intros a b x y. unfold x, y, hi, lo, x97. cbn [dr]. specu. intros H1 H2 H3.
    assert (A : (a - 4 / 3) * (a + 3 / 4) = 0) by lra. assert (B : (b - 4 / 3) * (b + 3 / 4) = 0) by lra.
    apply Rmult_integral in A. apply Rmult_integral in B.
    destruct A as [A|A], B as [B|B]; try lra.
Qed.
Lemma within97 : Forall (fun p => scalars_within (4 / 100) p /\ scalars_within (1 / 20) p) l97.
Proof.
  assert (H : forall p, In p l97 -> 0 < qs (dr (fst p)) * qs (dr (snd p)) /\ qs (dr (fst p)) = qs (dr (snd p)) /\ qs (dd (fst p)) = qs (dd (snd p))).
  { intros p [<-|[<-|[<-|[<-|[<-|[]]]]]]; cbn; repeat split; lra. }
  apply Forall_forall. intros p I. destruct (H p I) as (P & E1 & E2).
  assert (K : forall c, 0 <= c -> scalars_within c p).
  { intros c C. unfold scalars_within. cbn zeta. destruct (Rlt_dec _ _) as [L|_]; [lra|]. rewrite E1, E2, !Rminus_diag_eq, Rabs_R0 by easy. easy. }
  split; apply K; lra.
Qed.
Lemma result97 : snd (run (oracle97 s97 v97) (4 / 100) l97) = Ok (inD x97, map Fin s97, bad_singular_values (N:=XR) (map Fin s97)).
Proof.
  rewrite run_in. cbn [snd]. unfold calibrate.
  assert (W := within97). rewrite Forall_forall in W.
  destruct (gate_char (4 / 100) (matched l97)) as [[_ ->]|[N _]]; [lra| |].
  2:{ exfalso. apply N. constructor; [apply one_close; lra|]. apply Forall_forall. intros q I. apply in_map_iff in I as (p & <- & I). apply (within_closes (4 / 100) (4 / 100) p (proj1 (W p I))); lra. }
  destruct (setup_char (oracle97 s97 v97) (matched l97) (total97 _ _)) as [[_ ->]|[N _]].
  2:{ exfalso. apply N. constructor; [apply one_close; lra|]. apply Forall_forall. intros q I. apply in_map_iff in I as (p & <- & I). apply (within_closes (1 / 20) (5 / 100) p (proj2 (W p I))); lra. }
  cbn [bind]. unfold oracle97 at 1. cbn [bind]. rewrite !index_map. rewrite (index_some v97 6 (hi (dr x97))), (index_some v97 7 (lo (dr x97))) by reflexivity. cbn [bind].
  assert (C : forall a b, dqadd (dqscale a x97) (dqscale b (RD hzero (dr x97))) = RD (hscale a (dr x97)) (hscale b (dr x97))).
  { intros a b. apply rdq_eq; cbn [dqadd dqscale dr dd]; unfold x97; qring. }
  assert (U : unitdq x97) by (split; unfold x97; specu; field).
  pose proof (solve_exact x97 (4 / 5) (3 / 5) (3 / 5) (- (4 / 5)) U ltac:(cbn; lra) ltac:(lra)) as S. cbn beta zeta in S. rewrite !C in S.
  unfold hi, lo. rewrite S. destruct (Req_EM_T _ _); [lra|]. reflexivity.
Qed.
(** All hypotheses hold, and the two calls return the rotation and its inverse. *)
Example C97_example :
  total (oracle97 s97 v97) /\ total (oracle97 s97 (map dqconj v97)) /\
  Forall (fun p => scalars_within (4 / 100) p /\ scalars_within (1 / 20) p) l97 /\
  decomposed (oracle97 s97 v97) (4 / 100) l97 s97 v97 /\ decomposed (oracle97 s97 (map dqconj v97)) (4 / 100) (swapped l97) s97 (map dqconj v97) /\
  separated s97 v97 /\ same_motions l97 (rev l97) /\
  snd (run (oracle97 s97 v97) (4 / 100) l97) = Ok (inD x97, map Fin s97, bad_singular_values (N:=XR) (map Fin s97)) /\
  snd (run (oracle97 s97 (map dqconj v97)) (4 / 100) (swapped l97)) = Ok (inD (dqconj x97), map Fin s97, bad_singular_values (N:=XR) (map Fin s97)).
Proof.
  assert (D1 : decomposed (oracle97 s97 v97) (4 / 100) l97 s97 v97) by apply decomposed97, svd97.
  assert (D2 : decomposed (oracle97 s97 (map dqconj v97)) (4 / 100) (swapped l97) s97 (map dqconj v97)).
  { apply decomposed97. apply (transport dqconj (trows (matched l97))); [now right|apply swap_rows| |apply svd97].
    rewrite !trows_length. unfold matched, swapped. cbn [length]. now rewrite !map_length. }
  split; [apply total97|]. split; [apply total97|]. split; [apply within97|]. split; [easy|]. split; [easy|]. split; [apply separated97|].
  split. { exists (rev l97). split; [apply Permutation_rev|]. induction (rev l97); constructor; [now left|easy]. }
  split; [apply result97|].
  pose proof (C97_swap (oracle97 s97 v97) (oracle97 s97 (map dqconj v97)) (4 / 100) l97 s97 v97 s97 (map dqconj v97) (total97 _ _) (total97 _ _) ltac:(lra) within97 D1 D2 separated97) as H.
  unfold same_result in H. rewrite result97 in H. destruct (snd (run (oracle97 s97 (map dqconj v97)) _ _)) as [[[r sv] bad]|]; [|easy].
  destruct H as (-> & -> & x & x' & E & -> & C).
  assert (x = x97) by (pose proof (inD_list_inj [x97] [x]) as X; cbn [map] in X; rewrite E in X; specialize (X eq_refl); congruence). subst x.
  destruct C as [->|[Z _]]; [easy|]. cbn in Z. lra.
Qed.

(** ** The tolerance test is relative to the scalar parts of the first sensor, so close to the limit the two calls can end differently:
    with the default tolerance the motions "hand at rest, eye turned" pass the test and "hand turned, eye at rest" do not. *)
Definition sin97 : R := sqrt (1 - 95999 / 100000 * (95999 / 100000)).
Definition turn97 : rdq := RD (RQ (RV sin97 0 0) (95999 / 100000)) hzero.
Definition v97' : list rdq := [RD hone hzero; RD hzero hone; RD (e97 2) hzero; RD hzero (e97 2); RD (e97 3) hzero; RD hzero (e97 3); hi (e97 1); lo (e97 1)].
Definition s97' : list R := [sin97; sin97; sin97; sin97; sin97; sin97; 0; 0].
Lemma sin97_sq : sin97 * sin97 = 1 - 95999 / 100000 * (95999 / 100000).
Proof. apply sqrt_sqrt. lra. Qed.
Lemma matched97 : matched [(dqone, turn97)] = [(dqone, dqone); (dqone, turn97)].
Proof. unfold matched, rmatch. cbn [map fst snd turn97 dqone dr hone qs]. destruct (Rlt_dec _ _); [lra|easy]. Qed.
Lemma svd97' : svd_spec (trows (matched [(dqone, turn97)])) s97' v97'.
Proof.
  assert (G : forall y z, gram (trows (matched [(dqone, turn97)])) y z = sin97 * sin97 * (
      hdot hone (dr y) * hdot hone (dr z) + hdot (e97 2) (dr y) * hdot (e97 2) (dr z) + hdot (e97 3) (dr y) * hdot (e97 3) (dr z)
    + hdot hone (dd y) * hdot hone (dd z) + hdot (e97 2) (dd y) * hdot (e97 2) (dd z) + hdot (e97 3) (dd y) * hdot (e97 3) (dd z))).
  { intros y z. rewrite matched97. destruct y as [[[y1 y2 y3] y4] [[y5 y6 y7] y8]], z as [[[z1 z2 z3] z4] [[z5 z6 z7] z8]].
    unfold e97, gram, trows, turn97, srows, rhalf. generalize sin97. intros b. cbn [flat_map map combine app fst snd fold_right Nat.eqb]. specu. field. }
  assert (F : forall i j vi vj, nth_error v97' i = Some vi -> nth_error v97' j = Some vj ->
    dot8 vi vj = (if Nat.eqb i j then 1 else 0) /\ gram (trows (matched [(dqone, turn97)])) vi vj = if Nat.eqb i j then nth i s97' 0 * nth i s97' 0 else 0).
  { intros i j vi vj I J. rewrite G. clear G. unfold v97' in I, J. unfold s97'. generalize sin97. intros b.
    do 8 (destruct i as [|i]; [cbn [nth_error] in I; injection I as <-;
      do 8 (destruct j as [|j]; [cbn [nth_error] in J; injection J as <-; cbn [Nat.eqb nth]; unfold hi, lo, e97; cbn [Nat.eqb]; specu; split; field|]); now destruct j|]).
    now destruct i. }
  assert (P : 0 <= sin97) by apply sqrt_pos.
  constructor.
  - reflexivity.
  - rewrite trows_length, matched97. reflexivity.
  - intros [[[y1 y2 y3] y4] [[y5 y6 y7] y8]]. unfold v97', hi, lo, e97, dqsum. cbn [map fold_right Nat.eqb]. apply rdq_eq; apply rq_eq; specu; field.
  - intros i j vi vj I J. apply (F i j vi vj I J).
  - intros i j vi vj I J N. destruct (F i j vi vj I J) as [_ ->]. now apply Nat.eqb_neq in N as ->.
  - intros i vi I. destruct (F i i vi vi I I) as [_ ->]. now rewrite Nat.eqb_refl.
  - intros i. unfold s97'. do 8 (destruct i as [|i]; [cbn [nth]; lra|]). destruct i; cbn; lra.
  - assert (B : forall i, nth (S i) s97' 0 <= nth i s97' 0) by (intros i; unfold s97'; do 8 (destruct i as [|i]; [cbn [nth]; lra|]); destruct i; cbn; lra).
    intros i j L. induction L as [|j L IH]; [lra|]. specialize (B j). lra.
Qed.
Theorem C97_asymmetric : unitdq turn97 /\ let l := [(dqone, turn97)] in
  (exists svd s v r sv bad, total svd /\ decomposed svd (4 / 100) l s v /\ snd (run svd (4 / 100) l) = Ok (r, sv, bad)) /\
  forall svd, snd (run svd (4 / 100) (swapped l)) = Err AssertionError.
Proof.
  split. { split; unfold turn97; generalize sin97_sq; generalize sin97; intros b B; specu; lra. }
  split.
  - assert (D := decomposed97 (4 / 100) _ _ _ svd97'). exists (oracle97 s97' v97'), s97', v97'.
    destruct (snd (run (oracle97 s97' v97') (4 / 100) [(dqone, turn97)])) as [[[r sv] bad]|e] eqn:E.
    + exists r, sv, bad. split; [apply total97|]. split; [exact D|easy].
    + exfalso. rewrite run_in in E. cbn [snd] in E. unfold calibrate in E.
      destruct (gate_char (4 / 100) (matched [(dqone, turn97)])) as [[_ X]|[N _]]; [lra|rewrite X in E|].
      2:{ apply N. rewrite matched97. constructor; [apply one_close; lra|]. constructor; [|constructor]. unfold scalars_close, close_to. cbn [fst snd turn97 dqone dr dd hone hzero qs].
          rewrite (Rabs_left (95999 / 100000 - 1)), (Rminus_diag_eq 0 0), Rabs_R0, Rabs_R1 by (reflexivity || lra). split; lra. }
      destruct (setup_char (oracle97 s97' v97') (matched [(dqone, turn97)]) (total97 _ _)) as [[_ X']|[N _]]; [rewrite X' in E|].
      2:{ apply N. rewrite matched97. constructor; [apply one_close; lra|]. constructor; [|constructor]. unfold scalars_close, close_to. cbn [fst snd turn97 dqone dr dd hone hzero qs].
          rewrite (Rminus_diag_eq 0 0), Rabs_R0 by reflexivity. pose proof (Rabs_pos (95999 / 100000)). rewrite (Rabs_right (1 - 95999 / 100000)) by lra. split; lra. }
      cbn [bind] in E. unfold oracle97 at 1 in E. cbn [bind] in E. rewrite !index_map, (index_some v97' 6 (hi (e97 1))), (index_some v97' 7 (lo (e97 1))) in E by reflexivity. cbn [bind] in E.
      rewrite solve_in in E.
      assert (QA : qa (hi (e97 1)) (lo (e97 1)) = 12 / 25) by (unfold qa, hi, lo, e97; cbn [Nat.eqb]; specu; field).
      assert (QB : qb (hi (e97 1)) (lo (e97 1)) = - (7 / 25)) by (unfold qb, hi, lo, e97; cbn [Nat.eqb]; specu; field).
      assert (QC : qc (hi (e97 1)) (lo (e97 1)) = - (12 / 25)) by (unfold qc, hi, lo, e97; cbn [Nat.eqb]; specu; field).
      assert (DI : disc (hi (e97 1)) (lo (e97 1)) = 1) by (unfold disc; rewrite QA, QB, QC; field).
      destruct (Req_EM_T _ _); [lra|]. destruct (Rlt_dec _ _); [lra|]. destruct (Rlt_dec _ _) as [|N]; [easy|]. apply N.
      assert (V : forall t, val (hi (e97 1)) (lo (e97 1)) t = (4 * t + 3) / 5 * ((4 * t + 3) / 5)) by (intros t; unfold val, hi, lo, e97; cbn [Nat.eqb]; specu; field).
      assert (CL : clipped (hi (e97 1)) (lo (e97 1)) = 1) by (unfold clipped; rewrite DI; destruct (Rlt_dec _ _); lra).
      assert (R1 : root1 (hi (e97 1)) (lo (e97 1)) = 4 / 3) by (unfold root1; rewrite CL, QA, QB, sqrt_1; field).
      assert (R2 : root2 (hi (e97 1)) (lo (e97 1)) = - (3 / 4)) by (unfold root2; rewrite CL, QA, QB, sqrt_1; field).
      unfold root. rewrite R1, R2, !V. destruct (Rlt_dec _ _) as [|Z]; [lra|exfalso; apply Z; lra].
  - intros svd. rewrite run_in. cbn [snd]. unfold calibrate.
    destruct (gate_char (4 / 100) (matched (swapped [(dqone, turn97)]))) as [[N _]|[_ ->]]; [lra|exfalso|easy].
    unfold matched, swapped, rmatch in N. cbn [map fst snd turn97 dqone dr hone qs] in N. destruct (Rlt_dec _ _) as [L|_]; [lra|].
    inversion N as [|? ? _ N' ]. inversion N' as [|? ? [C _] _]. unfold close_to in C. cbn [fst snd dqone turn97 dr hone qs] in C.
    rewrite (Rabs_right (1 - 95999 / 100000)), Rabs_right in C by lra. lra.
Qed.
