(** * Property C95, continued: the error does not go to zero with the noise. *)

From Coq Require Import Reals ZArith Bool List Lra Lia Psatz.
From Flocq Require Import Core.
From Verif Require Import Num Py XReal XFacts Quat DualQuat HandEye Spec Embed QuatFacts QuatTrig
  QuatRot PropQuat DualFacts ScrewFacts PropDual ListFacts HandEyeFacts KernelFacts CalibFacts CalibExample
  PropCalib PropEval FloatQuat StabilityFacts PropStability PropAccuracy NoiseFacts PropNoise NoiseExample.
Import ListNotations.
Local Open Scope R_scope.

(** a half turn about the third axis and a translation of length 2 / f along it *)
Definition far95 (f : R) : rdq := RD (RQ (RV 0 0 1) 0) (RQ vzero (/ f)).

Lemma len3_le v q : 0 <= q -> dot3 v v <= q * q -> len3 v <= q.
Proof. intros Q H. unfold len3. rewrite <- (sqrt_square q Q). now apply sqrt_le_1_alt. Qed.
Lemma dist_le p r q : 0 <= q -> hnorm2 (hsub p r) <= q * q -> dist p r <= q.
Proof. intros Q H. now apply norm_of_sqr. Qed.

Lemma trans_near g h : unitq (dr g) -> len3 (vsub (trans_of g) (trans_of h)) <= 2 * (dist (dd g) (dd h) + hnorm (dd h) * dist (dr g) (dr h)).
Proof.
  intros U. apply unit_hnorm in U.
  replace (vsub (trans_of g) (trans_of h)) with (qv (hscale 2 (hadd (hmul (hsub (dd g) (dd h)) (hconj (dr g))) (hmul (dd h) (hconj (hsub (dr g) (dr h))))))).
  2:{ unfold trans_of. destruct (dr g) as [[] ?], (dd g) as [[] ?], (dr h) as [[] ?], (dd h) as [[] ?]. apply rv_eq; specu; ring. }
  eapply Rle_trans; [apply len3_qv|]. rewrite hnorm_scale by lra. apply Rmult_le_compat_l; [lra|].
  eapply Rle_trans; [apply hnorm_triangle|]. rewrite !hnorm_mul, !hnorm_conj, U. unfold dist. lra.
Qed.
Lemma same_turn g h q r : 0 <= r -> unitq (dr g) -> dr g = dr h -> hnorm2 (hsub (dd g) (dd h)) <= r * r -> 2 * r <= q -> near q q g h.
Proof.
  intros R U E H Q. assert (D : dist (dd g) (dd h) <= r) by now apply dist_le.
  pose proof (trans_near g h U) as T. rewrite E, dist_refl in T. split; [lra|]. left. rewrite E, dist_refl. lra.
Qed.
Lemma same_dual g h q : unitq (dr g) -> dd g = dd h -> hnorm2 (dd h) <= 1 / 2 * (1 / 2) -> 0 <= q -> hnorm2 (hsub (dr g) (dr h)) <= q * q -> near q q g h.
Proof.
  intros U E N Q H. assert (D : dist (dr g) (dr h) <= q) by now apply dist_le. assert (N' : hnorm (dd h) <= 1 / 2) by (apply norm_of_sqr; lra).
  pose proof (trans_near g h U) as T. rewrite E, dist_refl in T. pose proof (dist_pos (dr g) (dr h)).
  assert (hnorm (dd h) * dist (dr g) (dr h) <= 1 / 2 * dist (dr g) (dr h)) by (apply Rmult_le_compat_r; lra). split; [lra|]. now left.
Qed.
Lemma short_trans g : unitdq g -> hnorm2 (dd g) <= 1 -> len3 (trans_of g) <= 3.
Proof. intros U N. rewrite trans_len by easy. assert (hnorm (dd g) <= 1) by (apply norm_of_sqr; lra). lra. Qed.

Section Family.
  Context (et sj sk ta de wj wk wb f a b c s : R).
  Context (Het : 0 < et <= 1 / 20)
    (Hj : sj * sj = (1 + 2 * et) / 4) (Hk : sk * sk = (1 - 2 * et) / 4) (Ht : ta * ta = (1 - et) / 4) (Hd : de * de = et * (2 - et) / 2)
    (Pj : 0 <= sj) (Pk : 0 <= sk) (Pt : 0 < ta) (Pd : 0 < de)
    (Wj : wj * wj = 1 - sj * sj) (Wk : wk * wk = 1 - sk * sk) (Wb : wb * wb = 1 - de * de)
    (PWj : 0 < wj) (PWk : 0 < wk) (PWb : 0 < wb)
    (Hf : 4 * (ta * de) * f = 2 * et * (1 - et)) (Ha : a * a = 1 / 2) (Hb : b * b * (1 + f * f) = 1) (Pa : 0 < a) (Pb : 0 < b) (Hc : c * c + s * s = 1).
  Let L := 1 - et.
  Let l := l95 et sj sk ta de wj wk wb.

  Lemma l95_unit : Forall (fun p => unitdq (fst p) /\ unitdq (snd p)) l.
  Proof.
    unfold l, l95. repeat (apply Forall_cons; [cbn [fst snd]; split; split; unfold unitq; specu; lra|]). apply Forall_nil.
  Qed.
  Lemma et_sqr : 0 <= et * et <= et / 20.
  Proof. split; [apply Rle_0_sqr|]. replace (et / 20) with (et * (1 / 20)) by field. apply Rmult_le_compat_l; lra. Qed.
  Lemma l95_noisy q : 0 <= q -> 2 * et <= q * q -> 2 * et <= q -> q <= 1 / 4 -> Forall (noisy x95 q q q q 3) l.
  Proof.
    intros Q0 Q1 Q2 Q3. pose proof l95_unit as U. pose proof et_sqr as E2. unfold l, l95 in *.
    assert (DE : 0 <= de * de <= 1 / 20) by (split; [apply Rle_0_sqr|lra]).
    assert (SQ : forall y z, 0 <= y -> 0 <= z -> z * z < y * y -> z < y) by (intros y z Y Z H; apply Rsqr_incrst_0; [exact H|easy|easy]).
    assert (WJ : 1 / 2 < wj) by (apply SQ; lra). assert (WK : 1 / 2 < wk) by (apply SQ; lra). assert (WB : 1 / 2 < wb) by (apply SQ; lra).
    assert (WB1 : 1 - wb <= de * de).
    { assert (M : (1 - wb) * (1 + wb) = de * de) by lra. destruct (Rle_lt_dec wb 1) as [G|G].
      - assert ((1 - wb) * 1 <= (1 - wb) * (1 + wb)) by (apply Rmult_le_compat_l; lra). lra.
      - lra. }
    assert (ES : forall z, z * z <= 1 / 2 -> z * et * (z * et) <= et * et).
    { intros z Z. replace (z * et * (z * et)) with (z * z * (et * et)) by ring. assert (z * z * (et * et) <= 1 / 2 * (et * et)) by (apply Rmult_le_compat_r; lra). lra. }
    pose proof (ES sj ltac:(lra)) as Ej. pose proof (ES sk ltac:(lra)) as Ek.
    assert (LS : forall z, z * z <= 1 / 2 -> z * L * (z * L) <= 1).
    { intros z Z. replace (z * L * (z * L)) with (z * z * (L * L)) by ring. assert (L * L <= 1) by (unfold L; lra).
      assert (z * z * (L * L) <= z * z * 1) by (apply Rmult_le_compat_l; [apply Rle_0_sqr|lra]). lra. }
    pose proof (LS sj ltac:(lra)) as Lj. pose proof (LS sk ltac:(lra)) as Lk. unfold L in *.
    repeat (apply Forall_cons; [apply Forall_inv in U; destruct U as [U1 U2]; cbn [fst snd] in *; split; [exact U1|]; split; [exact U2|]; cbn [fst snd]; split; [|
      split; [cbn [dr qs fst]; rewrite Rabs_pos_eq by lra; lra|]; split; (apply short_trans; [assumption|specu; lra])]|apply Forall_inv_tail in U]).
    - exists (RD (RQ (RV 0 sj 0) wj) (RQ (RV 0 0 sj) 0)), (RD (RQ (RV 0 sj 0) wj) (RQ (RV 0 0 (- sj)) 0)).
      split; [split; unfold unitq; specu; lra|]. split; [split; unfold unitq; specu; lra|].
      split; [left; unfold x95; apply rdq_eq; apply rq_eq; specu; ring|].
      split; (apply (same_turn _ _ _ et); [lra|apply U1 || apply U2|reflexivity|specu; lra|lra]).
    - exists (RD (RQ (RV 0 0 sk) wk) (RQ (RV 0 (- sk) 0) 0)), (RD (RQ (RV 0 0 sk) wk) (RQ (RV 0 sk 0) 0)).
      split; [split; unfold unitq; specu; lra|]. split; [split; unfold unitq; specu; lra|].
      split; [left; unfold x95; apply rdq_eq; apply rq_eq; specu; ring|].
      split; (apply (same_turn _ _ _ et); [lra|apply U1 || apply U2|reflexivity|specu; lra|lra]).
    - exists (RD hone (RQ (RV ta 0 0) 0)), (RD hone (RQ (RV ta 0 0) 0)).
      split; [split; unfold unitq; specu; lra|]. split; [split; unfold unitq; specu; lra|].
      split; [left; unfold x95; apply rdq_eq; apply rq_eq; specu; ring|].
      split; (apply same_dual; [apply U1 || apply U2|reflexivity|specu; lra|lra|specu; lra]).
    - apply Forall_nil.
  Qed.

  (** *** The calibration *)
  Let v7 := comb c s (k95 a) (j95 f b).
  Let v8 := comb (- s) c (k95 a) (j95 f b).
  Lemma q95a : qa v7 v8 = c * s * (a * b). Proof. unfold qa, v7, k95, j95, comb. specu. ring. Qed.
  Lemma q95b : qb v7 v8 = (c * c - s * s) * (a * b). Proof. unfold qb, v7, v8, k95, j95, comb. specu. ring. Qed.
  Lemma q95c : qc v7 v8 = - (c * s * (a * b)). Proof. unfold qc, v8, k95, j95, comb. specu. ring. Qed.
  Lemma disc95 : disc v7 v8 = a * b * (a * b).
  Proof.
    unfold disc. rewrite q95a, q95b, q95c. transitivity ((c * c + s * s) * (c * c + s * s) * (a * b * (a * b))); [ring|]. rewrite Hc. ring.
  Qed.
  Context (Pc : 0 < c) (Ps : 0 < s).
  Lemma roots95 : root1 v7 v8 = s / c /\ root2 v7 v8 = - (c / s).
  Proof.
    assert (AB : 0 < a * b) by now apply Rmult_lt_0_compat.
    assert (CL : sqrt (clipped v7 v8) = a * b).
    { unfold clipped. rewrite disc95. destruct (Rlt_dec _ _) as [G|G]; [exfalso; pose proof (Rmult_lt_0_compat _ _ AB AB); lra|]. apply sqrt_square. lra. }
    unfold root1, root2. rewrite CL, q95a, q95b. split.
    - replace (- ((c * c - s * s) * (a * b)) + a * b) with (2 * (s * s) * (a * b)) by (replace (a * b) with ((c * c + s * s) * (a * b)) at 3 by (rewrite Hc; ring); ring).
      field. repeat split; lra.
    - replace (- ((c * c - s * s) * (a * b)) - a * b) with (- (2 * (c * c) * (a * b))) by (replace (a * b) with ((c * c + s * s) * (a * b)) at 3 by (rewrite Hc; ring); ring).
      field. repeat split; lra.
  Qed.
  Lemma combo_at t k y : 0 < k -> dqadd (dqscale t v7) v8 = dqscale k y \/ dqadd (dqscale t v7) v8 = dqscale (- k) y ->
    root v7 v8 = t -> unitq (dr y) -> combo v7 v8 = rflip y \/ combo v7 v8 = rflip (dqneg y).
  Proof.
    intros K E R U. unfold combo. rewrite R.
    assert (V : sqrt (val v7 v8 t) = k).
    { rewrite val_norm. change (hadd (hscale t (dr v7)) (dr v8)) with (dr (dqadd (dqscale t v7) v8)).
      replace (hnorm2 (dr (dqadd (dqscale t v7) v8))) with (k * k * hnorm2 (dr y)) by (destruct E as [-> | ->]; cbn [dqscale dr]; rewrite hnorm2_scale; ring).
      unfold unitq in U. rewrite U, Rmult_1_r. apply sqrt_square. lra. }
    rewrite V. destruct E as [-> | ->]; [left|right]; f_equal; destruct y as [[[] ?] [[] ?]]; apply rdq_eq; apply rq_eq; specu; field; lra.
  Qed.

  Lemma at_root1 : dqadd (dqscale (s / c) v7) v8 = dqscale (/ c) (j95 f b).
  Proof.
    assert (K : s / c * s + c = / c) by (replace (s / c * s + c) with ((c * c + s * s) / c) by (field; lra); rewrite Hc; field; lra).
    rewrite <- K. unfold v7, v8, comb, k95, j95. apply rdq_eq; apply rq_eq; specu; field; lra.
  Qed.
  Lemma at_root2 : dqadd (dqscale (- (c / s)) v7) v8 = dqscale (- / s) (k95 a).
  Proof.
    assert (K : - (c / s) * c + - s = - / s) by (replace (- (c / s) * c + - s) with (- ((c * c + s * s) / s)) by (field; lra); rewrite Hc; field; lra).
    rewrite <- K. unfold v7, v8, comb, k95, j95. apply rdq_eq; apply rq_eq; specu; field; lra.
  Qed.
  Lemma f_pos : 0 < f.
  Proof.
    assert (0 < ta * de) by now apply Rmult_lt_0_compat. assert (0 < 2 * et * (1 - et)) by (apply Rmult_lt_0_compat; lra).
    destruct (Rlt_le_dec 0 f) as [|G]; [easy|]. assert (0 <= 4 * (ta * de) * - f) by (apply Rmult_le_pos; lra). lra.
  Qed.
  Lemma val95 : val v7 v8 (s / c) = f * f * (b * b) / (c * c) /\ val v7 v8 (- (c / s)) = a * a / (s * s).
  Proof.
    rewrite !val_norm. split.
    - change (hadd (hscale (s / c) (dr v7)) (dr v8)) with (dr (dqadd (dqscale (s / c) v7) v8)). rewrite at_root1. unfold j95. specu. field. lra.
    - change (hadd (hscale (- (c / s)) (dr v7)) (dr v8)) with (dr (dqadd (dqscale (- (c / s)) v7) v8)). rewrite at_root2. unfold k95. specu. field. lra.
  Qed.
  Lemma compare95 : f * f * (b * b) / (c * c) > a * a / (s * s) <-> a * a * (c * c) < f * f * (b * b) * (s * s).
  Proof.
    assert (C : 0 < c * c) by now apply Rmult_lt_0_compat. assert (S : 0 < s * s) by now apply Rmult_lt_0_compat.
    assert (E1 : f * f * (b * b) / (c * c) * (c * c * (s * s)) = f * f * (b * b) * (s * s)) by (field; lra).
    assert (E2 : a * a / (s * s) * (c * c * (s * s)) = a * a * (c * c)) by (field; lra).
    assert (P : 0 < c * c * (s * s)) by now apply Rmult_lt_0_compat.
    rewrite <- E1, <- E2. split; intros H; [now apply Rmult_lt_compat_r|now apply Rmult_lt_reg_r in H].
  Qed.
  Lemma combo_far : a * a * (c * c) < f * f * (b * b) * (s * s) -> combo v7 v8 = far95 f.
  Proof.
    intros H. apply compare95 in H. destruct roots95 as [R1 R2]. destruct val95 as [V1 V2]. pose proof f_pos as PF.
    assert (R : root v7 v8 = s / c) by (unfold root; rewrite R1, R2, V1, V2; destruct (Rlt_dec _ _); [easy|lra]).
    unfold combo. rewrite R, V1. unfold rflip. rewrite at_root1.
    replace (f * f * (b * b) / (c * c)) with ((f * b / c) * (f * b / c)) by (field; lra).
    assert (P : 0 < f * b / c) by (apply Rdiv_lt_0_compat; [now apply Rmult_lt_0_compat|easy]).
    rewrite sqrt_square by lra.
    replace (dqscale (/ (f * b / c)) (dqscale (/ c) (j95 f b))) with (far95 f).
    2:{ unfold far95, j95. apply rdq_eq; apply rq_eq; specu; field; lra. }
    cbn [far95 dr qs]. destruct (Rlt_dec 0 0); [lra|reflexivity].
  Qed.
  Lemma combo_near : f * f * (b * b) * (s * s) <= a * a * (c * c) -> combo v7 v8 = x95.
  Proof.
    intros H. destruct roots95 as [R1 R2]. destruct val95 as [V1 V2].
    assert (N : ~ a * a / (s * s) < f * f * (b * b) / (c * c)) by (intros G; apply compare95 in G; lra).
    assert (R : root v7 v8 = - (c / s)) by (unfold root; rewrite R1, R2, V1, V2; destruct (Rlt_dec _ _); [easy|easy]).
    unfold combo. rewrite R, V2. rewrite at_root2.
    replace (a * a / (s * s)) with ((a / s) * (a / s)) by (field; lra).
    assert (P : 0 < a / s) by now apply Rdiv_lt_0_compat.
    rewrite sqrt_square by lra.
    replace (dqscale (/ (a / s)) (dqscale (- / s) (k95 a))) with (dqneg x95).
    2:{ unfold x95, k95. apply rdq_eq; apply rq_eq; specu; field; lra. }
    unfold rflip. cbn [dqneg x95 dr hone hneg qs]. destruct (Rlt_dec _ 0) as [G|G]; [|lra].
    unfold x95. apply rdq_eq; apply rq_eq; specu; ring.
  Qed.

  Let oracle : list (@dquat XR) -> res (list (@T XR) * list (@dquat XR)) := fun _ => Ok (map Fin (s95 et), map inD (v95 f a b c s)).
  Lemma built95 : setup_t_matrix oracle (inD dqone :: hands l) (inD dqone :: eyes l) = Ok (map inD (m95 et sj sk ta de wj wk wb)).
  Proof.
    change (setup_t_matrix oracle (hands ((dqone, dqone) :: l)) (eyes ((dqone, dqone) :: l)) = Ok (map inD (trows ((dqone, dqone) :: l)))).
    apply setup_t_in.
    - intros. now eexists.
    - intros p [<-|I]; [apply scalars_close_eq; [lra|easy|easy]|]. unfold l, l95 in I.
      repeat (destruct I as [<-|I]; [apply scalars_close_eq; [lra|reflexivity|reflexivity]|]). easy.
    - now eexists.
  Qed.
  Lemma matched95 : map rmatch l = l.
  Proof.
    unfold l, l95, rmatch. cbn [map fst snd dr qs].
    repeat match goal with |- context [Rlt_dec (?u * ?u) 0] => destruct (Rlt_dec (u * u) 0) as [G|_]; [pose proof (Rle_0_sqr u); unfold Rsqr in *; lra|] end. reflexivity.
  Qed.
  Lemma unflagged95 : bad_singular_values (N:=XR) (map Fin (s95 et)) = false.
  Proof.
    pose proof et_sqr as E2. unfold bad_singular_values, s95. cbn [map bad_from Nat.ltb Nat.leb XR ltb xltb lit].
    assert (H5 : Rlit 5 (-1) = 1 / 2) by (unfold Rlit; cbn; lra). rewrite H5.
    assert (A : forall z, 1 / 4 <= z -> Rltb (sqrt z) (1 / 2) = false).
    { intros z Z. unfold Rltb. destruct (Rlt_dec _ _) as [G|]; [|easy]. exfalso. assert (1 / 2 <= sqrt z); [|lra].
      rewrite <- (sqrt_square (1 / 2)) by lra. apply sqrt_le_1_alt. lra. }
    assert (B : forall z, z <= 1 / 4 -> Rltb (1 / 2) (sqrt z) = false).
    { intros z Z. unfold Rltb. destruct (Rlt_dec _ _) as [G|]; [|easy]. exfalso. assert (sqrt z <= 1 / 2); [|lra].
      rewrite <- (sqrt_square (1 / 2)) by lra. apply sqrt_le_1_alt. lra. }
    rewrite !A by lra. rewrite !B by lra. reflexivity.
  Qed.
  Lemma computed95 tol : 0 <= tol ->
    compute_hand_eye_calibration oracle (Fin tol) (inD dqone :: hands l) (inD dqone :: eyes l)
    = (inD dqone :: eyes l, Ok (inD (combo v7 v8), map Fin (s95 et), false)).
  Proof.
    intros T0. rewrite compute_in, matched95. f_equal. unfold calibrate. rewrite scalar_gate_in.
    2: exact T0.
    2:{ intros p [<-|I]; [apply scalars_close_eq; [lra|easy|easy]|]. unfold l, l95 in I.
        repeat (destruct I as [<-|I]; [apply scalars_close_eq; [lra|reflexivity|reflexivity]|]). easy. }
    cbn [bind]. assert (B := built95). change (inD dqone :: hands l) with (hands ((dqone, dqone) :: l)) in B.
    change (inD dqone :: eyes l) with (eyes ((dqone, dqone) :: l)) in B. rewrite B. cbn [bind]. unfold oracle at 1. cbn [bind].
    rewrite !index_map. unfold index. cbn [v95 nth_error bind]. fold v7 v8. rewrite solve_in.
    assert (AB : 0 < a * b) by now apply Rmult_lt_0_compat. assert (CS : 0 < c * s) by now apply Rmult_lt_0_compat.
    destruct (Req_EM_T _ _) as [Z|_]; [rewrite q95a in Z; pose proof (Rmult_lt_0_compat _ _ CS AB); lra|].
    destruct (Rlt_dec _ _) as [Z|_]; [rewrite disc95 in Z; pose proof (Rmult_lt_0_compat _ _ AB AB); lra|].
    destruct (Rlt_dec 0 _) as [_|Z].
    - cbn [bind]. rewrite unflagged95. reflexivity.
    - exfalso. apply Z. destruct val95 as [V1 V2]. destruct roots95 as [R1 R2]. pose proof f_pos as PF.
      assert (0 < f * f * (b * b) / (c * c)) by (apply Rdiv_lt_0_compat; repeat apply Rmult_lt_0_compat; easy).
      assert (0 < a * a / (s * s)) by (apply Rdiv_lt_0_compat; apply Rmult_lt_0_compat; easy).
      unfold root. rewrite R1, R2, V1, V2. destruct (Rlt_dec _ _); [now rewrite V1|now rewrite V2].
  Qed.
  Lemma spec95 : svd_spec (m95 et sj sk ta de wj wk wb) (s95 et) (v95 f a b c s).
  Proof. now apply svd95. Qed.
End Family.

Lemma root_of z : 0 <= z -> exists y, 0 <= y /\ y * y = z.
Proof. intros Z. exists (sqrt z). split; [apply sqrt_pos|now apply sqrt_sqrt]. Qed.
Lemma root_pos z : 0 < z -> exists y, 0 < y /\ y * y = z.
Proof. intros Z. exists (sqrt z). split; [now apply sqrt_lt_R0|apply sqrt_sqrt; lra]. Qed.

(** a recording [l] of a hand and an eye that are held together by [x], measured within q metres and q in orientation, for which
    compute_hand_eye_calibration returns [x'] without warning, the decomposition of the matrix being exact *)
Definition returned_from (q : R) (x : rdq) (l : list (rdq * rdq)) (x' : rdq) : Prop :=
  Forall (noisy x q q q q 3) l /\
  exists svd (m : list rdq) (s : list R) (v : list rdq), (forall m', exists r, svd m' = Ok r) /\
    compute_hand_eye_calibration svd (Fin 0) (inD dqone :: hands l) (inD dqone :: eyes l)
      = (inD dqone :: eyes l, Ok (inD x', map Fin s, false)) /\
    setup_t_matrix svd (inD dqone :: hands l) (inD dqone :: eyes l) = Ok (map inD m) /\
    svd (map inD m) = Ok (map Fin s, map inD v) /\ svd_spec m s v.

Lemma family q : 0 < q < 1 / 4 -> exists l f, length l = 3%nat /\ 0 < f <= q /\
  returned_from q x95 l x95 /\ returned_from q x95 l (far95 f).
Proof.
  intros Q. set (et := q * q / 4).
  assert (Q2 : q * q <= 1 / 4 * q) by (apply Rmult_le_compat_r; lra). assert (Q3 : 0 < q * q) by (apply Rmult_lt_0_compat; lra).
  assert (Het : 0 < et <= 1 / 20) by (unfold et; lra).
  assert (E2 : 0 <= et * et <= et / 20) by (split; [apply Rle_0_sqr|]; replace (et / 20) with (et * (1 / 20)) by field; apply Rmult_le_compat_l; lra).
  destruct (root_of ((1 + 2 * et) / 4) ltac:(lra)) as (sj & Pj & Hj). destruct (root_of ((1 - 2 * et) / 4) ltac:(lra)) as (sk & Pk & Hk).
  destruct (root_pos ((1 - et) / 4) ltac:(lra)) as (ta & Pt & Ht). destruct (root_pos (et * (2 - et) / 2) ltac:(lra)) as (de & Pd & Hd).
  destruct (root_pos (1 - sj * sj) ltac:(lra)) as (wj & PWj & Wj). destruct (root_pos (1 - sk * sk) ltac:(lra)) as (wk & PWk & Wk).
  destruct (root_pos (1 - de * de) ltac:(lra)) as (wb & PWb & Wb).
  assert (TD : 0 < ta * de) by now apply Rmult_lt_0_compat.
  set (f := 2 * et * (1 - et) / (4 * (ta * de))).
  assert (Hf : 4 * (ta * de) * f = 2 * et * (1 - et)) by (unfold f; field; split; lra).
  destruct (root_pos (1 / 2) ltac:(lra)) as (a & Pa & Ha).
  pose proof (Rle_0_sqr f) as F2. unfold Rsqr in F2.
  destruct (root_pos (/ (1 + f * f)) ltac:(apply Rinv_0_lt_compat; lra)) as (b & Pb & Hb').
  assert (Hb : b * b * (1 + f * f) = 1) by (rewrite Hb'; field; lra).
  pose proof (f_sqr et ta de f Het Ht Hd Hf) as FS.
  pose proof (f_pos et ta de f Het Pt Pd Hf) as PF.
  assert (FB : f * f <= 21 / 20 * et).
  { assert (f * f * (39 / 20) <= f * f * (2 - et)) by (apply Rmult_le_compat_l; lra). lra. }
  assert (FQ : f <= q).
  { apply Rsqr_incr_0; [|lra|lra]. unfold Rsqr. unfold et in FB. lra. }
  set (l := l95 et sj sk ta de wj wk wb).
  assert (NO : Forall (noisy x95 q q q q 3) l).
  { apply l95_noisy; try assumption; unfold et in *; lra. }
  assert (BB : 1 / 2 < b * b).
  { assert (b * b * (1 + f * f) <= b * b * (3 / 2)) by (apply Rmult_le_compat_l; [apply Rle_0_sqr|lra]). lra. }
  assert (RES : forall c s, c * c + s * s = 1 -> 0 < c -> 0 < s ->
    returned_from q x95 l (combo (comb c s (k95 a) (j95 f b)) (comb (- s) c (k95 a) (j95 f b)))).
  { intros c s Hc Pc Ps. split; [exact NO|]. exists (fun _ => Ok (map Fin (s95 et), map inD (v95 f a b c s))), (m95 et sj sk ta de wj wk wb), (s95 et), (v95 f a b c s).
    split; [intros m'; eexists; reflexivity|]. split; [|split; [|split]].
    - eapply computed95; try eassumption; lra.
    - apply built95.
    - reflexivity.
    - eapply spec95; eassumption. }
  exists l, f. split; [reflexivity|]. split; [lra|]. split.
  - assert (X : combo (comb (3 / 5) (4 / 5) (k95 a) (j95 f b)) (comb (- (4 / 5)) (3 / 5) (k95 a) (j95 f b)) = x95).
    2:{ pose proof (RES (3 / 5) (4 / 5) ltac:(lra) ltac:(lra) ltac:(lra)) as Y. rewrite X in Y. exact Y. }
    apply combo_near; try assumption; try lra.
    + assert (f * f * (b * b) <= 1 / 10 * 1); [|lra]. assert (b * b <= 1) by (assert (0 <= b * b * (f * f)) by (apply Rmult_le_pos; [apply Rle_0_sqr|easy]); lra).
      apply Rmult_le_compat; try lra.
  - assert (C1 : 0 < f * b) by now apply Rmult_lt_0_compat.
    rewrite <- (combo_far et ta de f a b (f * b) b); try assumption; try lra.
    + apply RES; try assumption. lra.
    + replace (a * a * (f * b * (f * b))) with (a * a * (f * f * (b * b))) by ring. rewrite Ha.
      assert (0 < f * f * (b * b)) by (replace (f * f * (b * b)) with (f * b * (f * b)) by ring; now apply Rmult_lt_0_compat).
      rewrite (Rmult_comm (1 / 2)). now apply Rmult_lt_compat_l.
Qed.

(** However small the noise is, the calibration that is returned, without any warning, can be a half turn away from the true
    one and arbitrarily far: the alternative in C95_noise cannot be dropped.  The same recording can also give the true
    calibration exactly: it depends on the basis of a plane that the decomposition returns. *)
Theorem C95_continuous_refuted : forall ep, 0 < ep < 1 / 4 -> exists l x',
  returned_from ep x95 l x95 /\ returned_from ep x95 l x' /\
  2 / ep <= len3 (trans_of x') /\ hrot (dr x') (RV 1 0 0) = RV (-1) 0 0 /\ hrot (dr x95) (RV 1 0 0) = RV 1 0 0.
Proof.
  intros ep E. destruct (family ep E) as (l & f & _ & F & A & B). exists l, (far95 f). split; [exact A|]. split; [exact B|].
  assert (I : / ep <= / f) by (apply Rinv_le_contravar; lra). assert (IP : 0 < / ep) by (apply Rinv_0_lt_compat; lra).
  split; [|split].
  - rewrite trans_len by (split; unfold unitq, far95; specu; ring). unfold hnorm, far95. cbn [dd].
    replace (hnorm2 (RQ vzero (/ f))) with (/ f * / f) by (specu; ring). rewrite sqrt_square by lra. lra.
  - unfold far95. apply rv_eq; specu; ring.
  - unfold x95. apply rv_eq; specu; ring.
Qed.

(** The hypotheses of C95_noise and C95_unflagged are met with either outcome. *)
Example C95_example : exists l x' svd m s v p, (forall m', exists r, svd m' = Ok r) /\
  unitdq x95 /\ Forall (noisy x95 (1 / 1000000) (1 / 1000000) (1 / 1000000) (1 / 1000000) 3) l /\
  compute_hand_eye_calibration svd (Fin 0) (inD dqone :: hands l) (inD dqone :: eyes l) = (inD dqone :: eyes l, Ok (inD x', map Fin s, false)) /\
  setup_t_matrix svd (inD dqone :: hands l) (inD dqone :: eyes l) = Ok (map inD m) /\
  svd (map inD m) = Ok (map Fin s, map inD v) /\ svd_spec m s v /\
  2 * sqrt (INR (length l)) * misfit x95 (1 / 1000000) (1 / 1000000) (1 / 1000000) (1 / 1000000) 3 * (1 + len3 (trans_of x95) / 2) <= 1 / 100 /\
  misfit x95 (1 / 1000000) (1 / 1000000) (1 / 1000000) (1 / 1000000) 3 <= 1 / 20 /\ 1 / 2 <= nth 5 s 0 /\
  nth_error v 6 = Some p /\ hdot (dr p) (dd p) <> 0.
Proof.
  destruct (family (1 / 1000000) ltac:(lra)) as (l & f & LE & _ & (N & svd & m & s & v & TT & C & ST & SE & SP) & _).
  assert (U : unitdq x95) by (split; unfold unitq, x95; specu; ring).
  assert (P : exists p, nth_error v 6 = Some p /\ hdot (dr p) (dd p) <> 0).
  { destruct (nth_error v 6) as [p|] eqn:E7; [|exfalso; apply nth_error_None in E7; rewrite (svd_rows _ _ _ SP) in E7; lia]. exists p. split; [reflexivity|].
    intros Z. pose proof C as H. unfold compute_hand_eye_calibration in H. destruct (do b0 <- _; _) as [u|]; [|easy].
    destruct (match_signs _ _) as [w' short]. destruct short; [easy|]. apply pair_equal_spec in H as [EW H]. rewrite EW in H. unfold calibrate in H.
    destruct (scalar_gate _ _ _); [|easy]. cbn [bind] in H. rewrite ST in H. cbn [bind] in H. rewrite SE in H. cbn [bind] in H.
    rewrite !index_map in H. unfold index in H. rewrite E7 in H. cbn [bind] in H. destruct (nth_error v 7) as [q|]; [|easy]. cbn [bind] in H.
    rewrite solve_in_a0 in H by exact Z. easy. }
  assert (S5 : 1 / 2 <= nth 5 s 0).
  { assert (LEN : (6 <= length m)%nat).
    { change (inD dqone :: hands l) with (hands ((dqone, dqone) :: l)) in ST. change (inD dqone :: eyes l) with (eyes ((dqone, dqone) :: l)) in ST.
      rewrite (inD_list_inj _ _ (setup_t_inv svd _ _ ST)). cbn [trows flat_map]. rewrite app_length. cbn. lia. }
    apply (bad_from_false s 0 5); [lia|rewrite (svd_count _ _ _ SP); lia|].
    pose proof C as H. unfold compute_hand_eye_calibration in H. destruct (do b0 <- _; _) as [u|]; [|easy].
    destruct (match_signs _ _) as [w' short]. destruct short; [easy|]. apply pair_equal_spec in H as [EW H]. rewrite EW in H. unfold calibrate in H.
    destruct (scalar_gate _ _ _); [|easy]. cbn [bind] in H. rewrite ST in H. cbn [bind] in H. rewrite SE in H. cbn [bind] in H.
    destruct (index (map inD v) 6); [|easy]. cbn [bind] in H.
    destruct (index (map inD v) 7); [|easy]. cbn [bind] in H. destruct (solve_quadratic _ _); [|easy]. cbn [bind] in H. unfold bad_singular_values in H. congruence. }
  destruct P as (p & E7 & A). exists l, x95, svd, m, s, v, p. split; [exact TT|]. split; [exact U|]. split; [exact N|]. split; [exact C|]. split; [exact ST|]. split; [exact SE|]. split; [exact SP|].
  assert (T : len3 (trans_of x95) = 2).
  { unfold len3, x95. match goal with |- sqrt ?z = _ => replace z with (2 * 2) by (specu; ring) end. apply sqrt_square. lra. }
  unfold misfit. rewrite T, LE. cbn [INR]. assert (S : sqrt (1 + 1 + 1) <= 2) by (rewrite <- (sqrt_square 2) by lra; apply sqrt_le_1_alt; lra).
  split; [lra|]. split; [lra|]. split; [exact S5|]. split; [exact E7|exact A].
Qed.
