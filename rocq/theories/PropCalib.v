(** * Properties C25-C28: compute_hand_eye_calibration. *)

From Coq Require Import Reals ZArith Bool List Lra Lia Psatz.
From Verif Require Import Num Py XReal XFacts Quat DualQuat HandEye Spec Embed QuatFacts QuatTrig
  QuatRot DualFacts ScrewFacts ListFacts HandEyeFacts KernelFacts CalibFacts CalibExample.
Import ListNotations.
Local Open Scope R_scope.

(** ** C25 *)
(** [l]: exact motion pairs after the first (identity) pair; [e]: the eye poses as given by the
    caller, each possibly with the wrong sign (a half turn must have the right sign, see C27). *)
Theorem C25_recovery : forall svd (tol : R) (x : rdq) (l : list (rdq * rdq)) (e : list rdq)
    (m : list rdq) (s : list R) (v : list rdq),
  0 <= tol -> unitdq x -> 0 < qs (dr x) -> Forall (consistent x) l -> two_axes l ->
  Forall2 (fun p y => y = snd p \/ (y = dqneg (snd p) /\ qs (dr (snd p)) <> 0)) l e ->
  setup_t_matrix svd (inD dqone :: hands l) (inD dqone :: eyes l) = Ok (map inD m) ->
  svd (map inD m) = Ok (map Fin s, map inD v) -> svd_spec m s v ->
  exists v7, nth_error v 6 = Some v7 /\
    compute_hand_eye_calibration svd (Fin tol) (inD dqone :: hands l) (inD dqone :: map inD e)
    = (inD dqone :: eyes l,
       if Req_EM_T (hdot (dr v7) (dd v7)) 0 then Err AssertionError
       else Ok (inD x, map Fin s, bad_singular_values (N:=XR) (map Fin s))).
Proof.
  intros svd tol x l e m s v T0 U W C TA FE ST SE SP.
  set (l1 := (dqone, dqone) :: l).
  assert (C1 : Forall (consistent x) l1).
  { apply Forall_cons; [|exact C]. unfold consistent; cbn [fst snd]. now rewrite dqmul_1_l, dqmul_1_r. }
  assert (TA1 : two_axes l1).
  { destruct TA as (p & q & Ip & Iq & H). exists p, q. repeat split; try (right; assumption). exact H. }
  destruct (calibrate_exact svd tol x l1 m s v T0 U W C1 TA1 ST SE SP) as (v7 & E7 & H).
  exists v7. split; [exact E7|].
  set (l' := combine (map fst l) e).
  assert (L : length l = length e) by exact (Forall2_len _ _ _ FE).
  assert (Hh : hands l = hands l').
  { unfold hands, l'. rewrite <- (map_map fst inD (combine _ _)), <- (map_map fst inD l). f_equal.
    clear - L. revert e L. induction l as [|p l IH]; intros [|y e] L; try discriminate L; [easy|].
    cbn. f_equal. apply IH. now injection L. }
  assert (He : map inD e = eyes l').
  { unfold eyes, l'. rewrite <- (map_map snd inD). f_equal.
    clear - L. revert e L. induction l as [|p l IH]; intros [|y e] L; try discriminate L; [easy|].
    cbn. f_equal. apply IH. now injection L. }
  assert (M : map rmatch l' = l).
  { unfold l'. clear - FE C U. revert e FE. induction l as [|p l IH]; intros e FE; inversion FE; subst; [easy|].
    cbn [map combine]. apply Forall_cons_iff in C as [C0 C]. rewrite IH by easy. f_equal.
    destruct (consistent_scalars x p U C0) as [S _]. unfold rmatch; cbn [fst snd].
    destruct p as [a b]; cbn [fst snd] in *. f_equal.
    pose proof (Rle_0_sqr (qs (dr b))) as SQ. unfold Rsqr in SQ.
    destruct H1 as [-> | [-> NZ]].
    - destruct (Rlt_dec _ _) as [Z|]; [|easy]. rewrite S in Z. lra.
    - cbn [dqneg dr hneg qs]. destruct (Rlt_dec _ _) as [|Z]; [apply dqneg_neg|].
      exfalso. apply Z. rewrite S. nra. }
  rewrite Hh, He, compute_in, M. unfold l1 in H. now rewrite H.
Qed.

(** The same, as the caller sees it: whatever admissible decomposition is used, the outcome is the
    true transform or the "division by zero" assertion. *)
Theorem C25_never_wrong : forall svd (tol : R) (x : rdq) (l : list (rdq * rdq)) (e : list rdq)
    (m : list rdq) (s : list R) (v : list rdq) (w : list (@dquat XR)) r,
  0 <= tol -> unitdq x -> 0 < qs (dr x) -> Forall (consistent x) l -> two_axes l ->
  Forall2 (fun p y => y = snd p \/ (y = dqneg (snd p) /\ qs (dr (snd p)) <> 0)) l e ->
  setup_t_matrix svd (inD dqone :: hands l) (inD dqone :: eyes l) = Ok (map inD m) ->
  svd (map inD m) = Ok (map Fin s, map inD v) -> svd_spec m s v ->
  compute_hand_eye_calibration svd (Fin tol) (inD dqone :: hands l) (inD dqone :: map inD e) = (w, r) ->
  (exists sv bad, r = Ok (inD x, sv, bad)) \/ r = Err AssertionError.
Proof.
  intros * T0 U W C TA FE ST SE SP H.
  destruct (C25_recovery _ _ _ _ _ _ _ _ T0 U W C TA FE ST SE SP) as (v7 & _ & E).
  rewrite E in H. destruct (Req_EM_T _ _); injection H as <- <-; [now right|left]. eauto.
Qed.

(** On perfect data the calibration can be rejected: an admissible decomposition of the matrix of a
    noise-free experiment with two orthogonal axes for which the assertion fires. *)
Theorem C25_total_refuted : exists svd (x : rdq) (l : list (rdq * rdq)) (m : list rdq) (s : list R) (v : list rdq),
  unitdq x /\ 0 < qs (dr x) /\ Forall (consistent x) l /\ two_axes l /\
  setup_t_matrix svd (inD dqone :: hands l) (inD dqone :: eyes l) = Ok (map inD m) /\
  svd (map inD m) = Ok (map Fin s, map inD v) /\ svd_spec m s v /\
  forall tol, 0 <= tol ->
    snd (compute_hand_eye_calibration svd (Fin tol) (inD dqone :: hands l) (inD dqone :: eyes l))
    = Err AssertionError.
Proof.
  exists (svd_const (v0 1 0)), x0, l0, m0, s0, (v0 1 0).
  assert (SP : svd_spec m0 s0 (v0 1 0)) by (apply svd0; ring).
  split; [apply x0_unit|]. split; [unfold x0, q0; cbn; lra|]. split; [apply l0_consistent|].
  split; [apply l0_axes|]. split; [apply m0_built|]. split; [reflexivity|]. split; [exact SP|].
  intros tol T0.
  assert (FE : Forall2 (fun p y => y = snd p \/ (y = dqneg (snd p) /\ qs (dr (snd p)) <> 0)) l0 (map snd l0)).
  { clear. induction l0; cbn; constructor; auto. }
  assert (ME : map inD (map snd l0) = eyes l0) by apply map_map.
  destruct (C25_recovery (svd_const (v0 1 0)) tol x0 l0 (map snd l0) m0 s0 (v0 1 0) T0 x0_unit
              ltac:(unfold x0, q0; cbn; lra) l0_consistent l0_axes FE (m0_built _) eq_refl SP)
    as (v7 & E7 & E).
  rewrite <- ME, E. injection E7 as <-. cbn [snd].
  destruct (Req_EM_T _ 0) as [|NZ]; [easy|]. exfalso. apply NZ. unfold q0. specu. ring.
Qed.
(** All hypotheses of C25_recovery are met by that experiment, and with another admissible basis the
    true transform is returned (with both eye signs flipped as well). *)
Example C25_example :
  svd_spec m0 s0 (v0 (3/5) (4/5)) /\
  let r := Ok (inD x0, map Fin s0, bad_singular_values (N:=XR) (map Fin s0)) in
  compute_hand_eye_calibration (svd_const (v0 (3/5) (4/5))) (Fin (1/25))
    (inD dqone :: hands l0) (inD dqone :: eyes l0) = (inD dqone :: eyes l0, r) /\
  compute_hand_eye_calibration (svd_const (v0 (3/5) (4/5))) (Fin (1/25))
    (inD dqone :: hands l0) (inD dqone :: map (fun p => inD (dqneg (snd p))) l0)
    = (inD dqone :: eyes l0, r).
Proof.
  assert (SP : svd_spec m0 s0 (v0 (3/5) (4/5))) by (apply svd0; field).
  split; [exact SP|]. intros r.
  assert (G : forall e, Forall2 (fun p y => y = snd p \/ (y = dqneg (snd p) /\ qs (dr (snd p)) <> 0)) l0 e ->
    compute_hand_eye_calibration (svd_const (v0 (3/5) (4/5))) (Fin (1/25))
      (inD dqone :: hands l0) (inD dqone :: map inD e) = (inD dqone :: eyes l0, r)).
  { intros e FE.
    destruct (C25_recovery (svd_const (v0 (3/5) (4/5))) (1/25) x0 l0 e m0 s0 _ ltac:(lra) x0_unit
              ltac:(unfold x0, q0; cbn; lra) l0_consistent l0_axes FE (m0_built _) eq_refl SP)
      as (v7 & E7 & E).
    rewrite E. injection E7 as <-. destruct (Req_EM_T _ 0) as [Z|]; [|easy]. exfalso.
    unfold q0 in Z. specu. lra. }
  split.
  - replace (eyes l0) with (map inD (map snd l0)) at 1 by apply map_map. apply G.
    clear. induction l0; cbn; constructor; auto.
  - replace (map (fun p => inD (dqneg (snd p))) l0) with (map inD (map (fun p => dqneg (snd p)) l0))
      by apply map_map.
    apply G. unfold l0. cbn [map snd]. apply Forall2_cons; [|apply Forall2_cons; [|apply Forall2_nil]];
      right; (split; [reflexivity|]); cbn [snd dr qs]; lra.
Qed.

(** ** C26 *)
(** The returned rotation is a unit quaternion with non-negative scalar part, in the plane spanned by
    the last two right singular vectors.  If that plane contains a rigid motion the result is one;
    otherwise (clipped discriminant) the defect rot.dual is not 0 but bounded relative to the
    leading coefficient of the quadratic. *)
Theorem C26_wellformed : forall svd tol b_h w_e w r sv bad,
  (forall m s v, svd m = Ok (s, v) -> exists vr, v = map inD vr) ->
  compute_hand_eye_calibration svd tol b_h w_e = (w, Ok (r, sv, bad)) ->
  exists m v v7 v8 x lam s,
    setup_t_matrix svd b_h w = Ok m /\ svd m = Ok (sv, map inD v) /\
    nth_error v 6 = Some v7 /\ nth_error v 7 = Some v8 /\
    r = inD x /\ unitq (dr x) /\ 0 <= qs (dr x) /\
    x = dqscale lam (dqadd (dqscale s v7) v8) /\
    ((exists t, let y := dqadd (dqscale t v7) v8 in hdot (dr y) (dd y) = 0) -> unitdq x) /\
    ((forall t, let y := dqadd (dqscale t v7) v8 in hdot (dr y) (dd y) <> 0) ->
       hdot (dr x) (dd x) <> 0 /\
       Rabs (hdot (dr x) (dd x)) * (4 * Rabs (hdot (dr v7) (dd v7))) <= lam * lam * (1 / 100)).
Proof.
  intros svd tol b_h w_e w r sv bad FIN H. unfold compute_hand_eye_calibration in H.
  destruct (do b0 <- index b_h 0; _) as [u|]; [|easy].
  destruct (match_signs b_h w_e) as [w' short]. destruct short; [easy|]. injection H as <- H.
  unfold calibrate in H.
  destruct (scalar_gate tol b_h w'); [|easy]. cbn [bind] in H.
  destruct (setup_t_matrix svd b_h w') as [m|]; [|easy]. cbn [bind] in H.
  destruct (svd m) as [[s vv]|] eqn:SV; [|easy]. cbn [bind] in H.
  destruct (FIN _ _ _ SV) as [v ->].
  rewrite !index_map in H. unfold index in H.
  destruct (nth_error v 6) as [p|] eqn:E7; [|easy]. cbn [bind] in H.
  destruct (nth_error v 7) as [q|] eqn:E8; [|easy]. cbn [bind] in H.
  rewrite solve_in in H.
  destruct (Req_EM_T (qa p q) 0) as [|A]; [easy|].
  destruct (Rlt_dec (disc p q) (-1 / 100)) as [|D]; [easy|].
  destruct (Rlt_dec 0 (val p q (root p q))) as [V|]; [|easy]. cbn [bind] in H.
  injection H as <- <- <-.
  assert (SV0 : 0 < sqrt (val p q (root p q))) by now apply sqrt_lt_R0.
  assert (NEG : forall z k, dqneg (dqscale k z) = dqscale (- k) z).
  { intros [[[] ?] [[] ?]] k. apply rdq_eq; apply rq_eq; specu; ring. }
  assert (LAM : exists lam, combo p q = dqscale lam (dqadd (dqscale (root p q) p) q) /\
                 lam * lam = / val p q (root p q)).
  { assert (SS : / sqrt (val p q (root p q)) * / sqrt (val p q (root p q)) = / val p q (root p q)).
    { rewrite <- Rinv_mult. now rewrite sqrt_sqrt by lra. }
    unfold combo. destruct (rflip_cases (dqscale (/ sqrt (val p q (root p q))) (dqadd (dqscale (root p q) p) q)))
      as [-> | ->].
    - now exists (/ sqrt (val p q (root p q))).
    - exists (- / sqrt (val p q (root p q))). split; [apply NEG|]. rewrite <- SS. ring. }
  destruct LAM as (lam & EL & LL).
  exists m, v, p, q, (combo p q), lam, (root p q).
  split; [easy|]. split; [exact SV|]. split; [easy|]. split; [easy|]. split; [easy|].
  split; [now apply combo_unit|]. split; [apply rflip_pos|]. split; [exact EL|].
  assert (SQ : forall t, 4 * qa p q * (qa p q * t * t + qb p q * t + qc p q)
                = (2 * qa p q * t + qb p q) * (2 * qa p q * t + qb p q) - disc p q)
    by (intros; unfold disc; ring).
  split.
  - intros [t T0]. cbv zeta in T0. rewrite quad_at in T0.
    assert (DP : 0 <= disc p q).
    { specialize (SQ t). rewrite T0 in SQ. pose proof (Rle_0_sqr (2 * qa p q * t + qb p q)) as Q.
      unfold Rsqr in Q. lra. }
    split; [now apply combo_unit|]. rewrite combo_dual by easy. rewrite root_solves by easy.
    unfold Rdiv. ring.
  - intros NR. cbv zeta in NR. destruct (Rlt_dec (disc p q) 0) as [DN|DP].
    + rewrite combo_dual, root_clipped by easy. split.
      * intros Z. apply Rmult_integral in Z as [Z|Z].
        -- apply Rmult_integral in Z as [Z|Z]; [lra|]. revert Z. apply Rinv_neq_0_compat. lra.
        -- revert Z. apply Rinv_neq_0_compat. lra.
      * fold (qa p q). rewrite LL. unfold Rdiv. rewrite !Rabs_mult.
        rewrite (Rabs_pos_eq (- disc p q)) by lra.
        rewrite (Rabs_pos_eq (/ val p q (root p q))) by (left; now apply Rinv_0_lt_compat).
        rewrite Rabs_inv, Rabs_mult, (Rabs_pos_eq 4) by lra.
        assert (AP : Rabs (qa p q) <> 0) by now apply Rabs_no_R0.
        replace (- disc p q * / (4 * Rabs (qa p q)) * / val p q (root p q) * (4 * Rabs (qa p q)))
          with (/ val p q (root p q) * - disc p q) by (field; split; lra).
        apply Rmult_le_compat_l; [left; now apply Rinv_0_lt_compat|lra].
    + exfalso. apply (NR (root p q)). rewrite quad_at. apply root_solves; lra.
Qed.

(** Clipping the discriminant can return something far from a rigid motion (here on degenerate
    data, with an admissible decomposition): rot . dual > 100. *)
Theorem C26_rigid_refuted : exists svd (m : list rdq) (s : list R) (v : list rdq) (x : rdq),
  setup_t_matrix svd [inD dqone] [inD dqone] = Ok (map inD m) /\
  svd (map inD m) = Ok (map Fin s, map inD v) /\ svd_spec m s v /\
  (forall tol, 0 <= tol -> exists bad,
     snd (compute_hand_eye_calibration svd (Fin tol) [inD dqone] [inD dqone])
     = Ok (inD x, map Fin s, bad)) /\
  Rabs (hdot (dr x) (dd x)) > 100.
Proof.
  set (P := 2000 / 1000001). set (Q := 999999 / 1000001).
  set (svd := fun _ : list (@dquat XR) => Ok (map Fin s1, map inD (CalibExample.v1 P Q)) : res (list (@T XR) * _)).
  set (p := RD (hscale (3/5) e1) (hscale (4/5) e1)). set (q := RD (hscale P e2) (hscale Q e2)).
  assert (QA : qa p q = 12 / 25) by (unfold qa, p, e1; specu; field).
  assert (QB : qb p q = 0) by (unfold qb, p, q, e1, e2; specu; ring).
  assert (QC : qc p q = P * Q) by (unfold qc, q, e2; specu; ring).
  assert (D : disc p q = - (48 / 25) * (P * Q)) by (unfold disc; rewrite QA, QB, QC; field).
  assert (DN : -1 / 100 <= disc p q < 0) by (rewrite D; unfold P, Q; lra).
  assert (RT : root p q = 0).
  { assert (C : clipped p q = 0) by (unfold clipped; destruct (Rlt_dec _ _); lra).
    destruct (root_eq p q) as [-> | ->]; [lra| |]; unfold root1, root2; rewrite C, sqrt_0, QA, QB; field. }
  assert (V : val p q (root p q) = P * P) by (rewrite RT; unfold val, q, e2; specu; ring).
  assert (ST : setup_t_matrix svd (hands [(dqone, dqone)]) (eyes [(dqone, dqone)]) = Ok (map inD m1)).
  { apply setup_t_in.
    - intros. now eexists.
    - intros z [<-|[]]. apply scalars_close_eq; [lra|easy|easy].
    - now eexists. }
  exists svd, m1, s1, (CalibExample.v1 P Q), (combo p q).
  split; [exact ST|]. split; [reflexivity|]. split; [apply svd1; unfold P, Q; field|].
  split.
  - intros tol T0.
    assert (E : compute_hand_eye_calibration svd (Fin tol) [inD dqone] [inD dqone]
      = ([inD dqone], calibrate svd (Fin tol) (hands [(dqone, dqone)]) (eyes [(dqone, dqone)])))
      by exact (compute_in svd (Fin tol) []).
    rewrite E. cbn [snd]. unfold calibrate.
    rewrite scalar_gate_in; [|exact T0|].
    2:{ intros z [<-|[]]. now apply scalars_close_eq. }
    cbn [bind]. rewrite ST. cbn [bind]. unfold svd at 1.
    cbn [bind]. rewrite !index_map. unfold CalibExample.v1. cbn [index nth_error bind].
    fold p. fold q. rewrite solve_in.
    destruct (Req_EM_T (qa p q) 0); [lra|]. destruct (Rlt_dec (disc p q) (-1 / 100)); [lra|].
    destruct (Rlt_dec 0 (val p q (root p q))) as [VP|NV].
    2:{ exfalso. apply NV. rewrite V. unfold P. lra. }
    cbn [bind]. eexists. reflexivity.
  - rewrite combo_dual; [|lra|rewrite V; unfold P; lra]. rewrite root_clipped by lra. rewrite V, D, QA.
    rewrite Rabs_pos_eq.
    + apply Rmult_lt_reg_r with (P * P); [unfold P; lra|].
      replace (- (- (48 / 25) * (P * Q)) / (4 * (12 / 25)) / (P * P) * (P * P)) with (P * Q)
        by (field; unfold P; lra). unfold P, Q. lra.
    + replace (- (- (48 / 25) * (P * Q)) / (4 * (12 / 25)) / (P * P)) with (P * Q / (P * P)) by (field; unfold P; lra).
      unfold P, Q. lra.
Qed.

Example C26_example : exists svd tol b_h w_e w r sv bad,
  (forall m s v, svd m = Ok (s, v) -> exists vr, v = map inD vr) /\
  compute_hand_eye_calibration svd tol b_h w_e = (w, Ok (r, sv, bad)) /\ length b_h = 3%nat.
Proof.
  exists (svd_const (v0 (3/5) (4/5))), (Fin (1/25)), (inD dqone :: hands l0), (inD dqone :: eyes l0).
  do 4 eexists. split; [|split; [apply C25_example|reflexivity]].
  intros m s v H. exists (v0 (3/5) (4/5)).
  exact (eq_sym (f_equal (fun r => match r with Ok p => snd p | Err _ => [] end) H)).
Qed.

(** ** C27 *)
(** For every number type: the call leaves the hand list alone and changes the eye list only by
    negating entries whose scalar part has strictly the opposite sign of its partner's. *)
Theorem C27_only_signs : forall (N : Num) svd tol (b w w' : list (@dquat N)) r,
  compute_hand_eye_calibration svd tol b w = (w', r) ->
  length w' = length w /\
  forall i x, nth_error w i = Some x -> exists y, nth_error w' i = Some y /\
    (y = x \/
     (y = dneg x /\ exists h, nth_error b i = Some h /\
        ((ltb (qw (rot x)) n0 = true /\ ltb n0 (qw (rot h)) = true) \/
         (ltb n0 (qw (rot x)) = true /\ ltb (qw (rot h)) n0 = true)))).
Proof.
  intros N svd tol b w w' r H. unfold compute_hand_eye_calibration in H.
  destruct (do b0 <- index b 0; _) as [u|].
  2:{ injection H as <- <-. split; [easy|]. intros i x Hx. exists x. auto. }
  assert (W : w' = fst (match_signs b w)).
  { destruct (match_signs b w) as [k e]. destruct e; injection H as <- <-; reflexivity. }
  subst w'. split; [apply match_signs_length|]. intros i x Hx.
  eexists. split; [apply match_signs_nth; exact Hx|].
  destruct (nth_error b i) as [h|]; [|now left]. unfold match_sign, opposite_signs.
  destruct (ltb (qw (rot x)) n0) eqn:E1, (ltb n0 (qw (rot h))) eqn:E2, (ltb n0 (qw (rot x))) eqn:E3,
           (ltb (qw (rot h)) n0) eqn:E4; cbn [orb andb]; auto; right; (split; [reflexivity|]); exists h; auto.
Qed.
(** On finite data no pair has strictly opposite signs afterwards, and agreeing pairs are untouched. *)
Theorem C27_signs_agree : forall svd tol (l : list (rdq * rdq)) w' r,
  compute_hand_eye_calibration svd tol (inD dqone :: hands l) (inD dqone :: eyes l) = (w', r) ->
  exists e, w' = inD dqone :: map inD e /\
    Forall2 (fun p y => 0 <= qs (dr (fst p)) * qs (dr y) /\
                        (0 <= qs (dr (fst p)) * qs (dr (snd p)) -> y = snd p) /\
                        (qs (dr (fst p)) * qs (dr (snd p)) < 0 -> y = dqneg (snd p))) l e.
Proof.
  intros svd tol l w' r H. rewrite compute_in in H. injection H as <- _.
  exists (map (fun p => snd (rmatch p)) l). split.
  - f_equal. unfold eyes. now rewrite !map_map.
  - clear. induction l as [|p l IH]; cbn [map]; constructor; [|exact IH]. unfold rmatch. cbn [snd].
    destruct (Rlt_dec _ _) as [L|L].
    + cbn [dqneg dr hneg qs]. split; [nra|]. split; [intros; nra|easy].
    + split; [nra|]. split; [easy|intros; nra].
Qed.
(** Negating eye poses does not change the outcome, as long as the scalar parts of the pair are not
    zero. *)
Theorem C27_sign_invariance : forall svd tol (p0 : rdq * rdq) (l : list (rdq * rdq)) (e : list rdq),
  Forall2 (fun p y => y = snd p \/
             (y = dqneg (snd p) /\ qs (dr (fst p)) <> 0 /\ qs (dr (snd p)) <> 0)) l e ->
  snd (compute_hand_eye_calibration svd tol (hands (p0 :: l)) (inD (snd p0) :: map inD e))
  = snd (compute_hand_eye_calibration svd tol (hands (p0 :: l)) (eyes (p0 :: l))).
Proof.
  intros svd tol p0 l e FE.
  assert (L : length l = length e) by exact (Forall2_len _ _ _ FE).
  set (l' := combine (map fst l) e).
  assert (Hh : hands l = hands l').
  { unfold hands, l'. rewrite <- (map_map fst inD (combine _ _)), <- (map_map fst inD l). f_equal.
    clear - L. revert e L. induction l as [|p l IH]; intros [|y e] L; try discriminate L; [easy|].
    cbn. f_equal. apply IH. now injection L. }
  assert (He : map inD e = eyes l').
  { unfold eyes, l'. rewrite <- (map_map snd inD). f_equal.
    clear - L. revert e L. induction l as [|p l IH]; intros [|y e] L; try discriminate L; [easy|].
    cbn. f_equal. apply IH. now injection L. }
  assert (M : map rmatch l' = map rmatch l).
  { unfold l'. clear - FE. revert e FE. induction l as [|p l IH]; intros e FE; inversion FE; subst; [easy|].
    cbn [map combine]. rewrite IH by easy. f_equal. unfold rmatch; cbn [fst snd]. f_equal.
    destruct p as [a b]; cbn [fst snd] in *.
    destruct H1 as [-> | (-> & NA & NB)]; [easy|]. cbn [dqneg dr hneg qs].
    assert (P : qs (dr a) * qs (dr b) <> 0) by now apply Rmult_integral_contrapositive.
    destruct (Rlt_dec (- qs (dr b) * qs (dr a)) 0), (Rlt_dec (qs (dr b) * qs (dr a)) 0); try nra.
    - apply dqneg_neg.
    - easy. }
  unfold compute_hand_eye_calibration.
  assert (HH : hands (p0 :: l) = hands (p0 :: l')) by (unfold hands in *; cbn [map]; now rewrite Hh).
  assert (EE : inD (snd p0) :: map inD e = eyes (p0 :: l')) by (unfold eyes in *; cbn [map]; now rewrite He).
  change (index (eyes (p0 :: l)) 0) with (Ok (inD (snd p0))).
  change (index (inD (snd p0) :: map inD e) 0) with (Ok (inD (snd p0))).
  destruct (do b0 <- index (hands (p0 :: l)) 0; _) as [u|]; [|easy].
  rewrite match_signs_in, EE. rewrite HH at 1. rewrite match_signs_in. cbn [map]. rewrite M. easy.
Qed.
(** A half turn with the wrong sign is not repaired: the eye pose is left alone, although the pair
    with the opposite sign is exact, and the matrix built from it does not annihilate the truth. *)
Theorem C27_half_turn_refuted : exists (x a b : rdq),
  unitdq x /\ 0 < qs (dr x) /\ unitdq a /\ unitdq b /\ consistent x (a, dqneg b) /\
  forall svd tol,
    fst (compute_hand_eye_calibration svd tol [inD dqone; inD a] [inD dqone; inD b]) = [inD dqone; inD b] /\
    forall m, setup_t_matrix svd [inD dqone; inD a] [inD dqone; inD b] = Ok (map inD m) -> ~ kills m x.
Proof.
  set (a := RD (RQ (RV 1 0 0) 0) hzero). set (b := RD (RQ (RV (-7/25) (24/25) 0) 0) hzero).
  exists x0, a, b. split; [apply x0_unit|]. split; [unfold x0, q0; cbn; lra|].
  split; [split; unfold a; specu; field|]. split; [split; unfold b; specu; field|].
  split.
  { unfold consistent, x0, q0, a, b; cbn [fst snd]. apply rdq_eq; apply rq_eq; specu; lra. }
  intros svd tol. split.
  - pose proof (compute_in svd tol [(a, b)]) as E.
    change (inD dqone :: hands [(a, b)]) with [inD dqone; inD a] in E.
    change (inD dqone :: eyes [(a, b)]) with [inD dqone; inD b] in E. rewrite E. cbn [fst].
    unfold rmatch, a, b. cbn [map fst snd dr qs]. destruct (Rlt_dec _ _); [lra|reflexivity].
  - intros m ST.
    change [inD dqone; inD a] with (hands [(dqone, dqone); (a, b)]) in ST.
    change [inD dqone; inD b] with (eyes [(dqone, dqone); (a, b)]) in ST.
    apply setup_t_inv, inD_list_inj in ST. subst m. rewrite kills_trows. intros K.
    apply Forall_cons_iff in K as [_ K]. apply Forall_cons_iff in K as [K _]. cbn [fst snd] in K.
    rewrite kills_srows in K. destruct K as [K _]. unfold x0, q0, a, b, up_vec in K. specu.
    injection K as K _ _. lra.
Qed.
Example C27_example :
  Forall2 (fun p y => y = snd p \/
             (y = dqneg (snd p) /\ qs (dr (fst p)) <> 0 /\ qs (dr (snd p)) <> 0))
    l0 [snd (nth 0 l0 (dqone, dqone)); dqneg (snd (nth 1 l0 (dqone, dqone)))].
Proof.
  unfold l0. cbn [nth snd]. apply Forall2_cons; [now left|]. apply Forall2_cons; [|apply Forall2_nil].
  right. split; [reflexivity|]. cbn [fst snd dr qs]. lra.
Qed.

(** ** C28 *)
Theorem C28_accepts_only : forall svd tol (b w : list rdq) w' r,
  0 <= tol -> compute_hand_eye_calibration svd (Fin tol) (map inD b) (map inD w) = (w', Ok r) ->
  (exists b1 w1, nth_error b 0 = Some b1 /\ nth_error w 0 = Some w1 /\ near_one b1 /\ near_one w1) /\
  (length b <= length w)%nat /\
  forall i a y, nth_error b i = Some a -> nth_error w i = Some y ->
    exists y', nth_error w' i = Some (inD y') /\ (y' = y \/ y' = dqneg y) /\ scalars_close tol y' a.
Proof.
  intros svd tol b w w' r T0 H. unfold compute_hand_eye_calibration in H.
  destruct (do b0 <- index (map inD b) 0; _) as [u|] eqn:G; [|easy].
  assert (HD : exists b1 w1, nth_error b 0 = Some b1 /\ nth_error w 0 = Some w1 /\ near_one b1 /\ near_one w1).
  { rewrite !index_map in G. unfold index in G.
    destruct (nth_error b 0) as [b1|]; [|easy]. cbn [bind] in G.
    destruct (is_origin (inD b1)) eqn:O1; [|easy]. rewrite assert_true in G by easy.
    destruct (nth_error w 0) as [w1|]; [|easy]. cbn [bind] in G.
    destruct (is_origin (inD w1)) eqn:O2; [|easy].
    exists b1, w1. split; [easy|]. split; [easy|]. now rewrite <- !is_origin_in. }
  split; [exact HD|].
  destruct (match_signs (map inD b) (map inD w)) as [k e] eqn:M.
  pose proof (match_signs_short (map inD b) (map inD w)) as SH. rewrite M in SH. cbn [snd] in SH.
  rewrite !map_length in SH.
  destruct e; [easy|]. injection H as <- H.
  split; [symmetry in SH; apply Nat.ltb_ge in SH; exact SH|].
  intros i a y Hi Hy.
  pose proof (match_signs_nth (map inD b) (map inD w) i (inD y)) as N. rewrite M in N. cbn [fst] in N.
  rewrite !nth_error_map, Hi, Hy in N. cbn [option_map] in N. specialize (N eq_refl).
  change (match_sign (inD a) (inD y)) with (match_sign (inD (fst (a, y))) (inD (snd (a, y)))) in N.
  rewrite match_sign_in in N.
  exists (snd (rmatch (a, y))). split; [exact N|].
  split; [unfold rmatch; cbn [snd]; destruct (Rlt_dec _ _); auto|].
  unfold calibrate in H. destruct (scalar_gate (N:=XR) (Fin tol) (map inD b) k) as [u'|] eqn:SG; [|easy].
  unfold scalar_gate in SG. destruct (for_pairs _ (map inD b) k) as [us|] eqn:F; [|easy].
  destruct (for_pairs_short _ _ _ _ F i (inD a)) as (y2 & z & Y2 & Z & _).
  { now rewrite nth_error_map, Hi. }
  rewrite N in Y2. apply (f_equal (fun o => match o with Some d => d | None => y2 end)) in Y2. change (inD (snd (rmatch (a, y))) = y2) in Y2. subst y2. cbv beta in Z.
  destruct (scalar_parts_close_in tol (snd (rmatch (a, y))) a T0) as (c & C & IFF).
  rewrite C in Z. cbn [bind] in Z. apply IFF. now destruct c.
Qed.
Theorem C28_rejects : forall svd tol (b w : list rdq), 0 <= tol ->
  let r := snd (compute_hand_eye_calibration svd (Fin tol) (map inD b) (map inD w)) in
  (b = [] -> r = Err IndexError) /\
  (forall b1, nth_error b 0 = Some b1 -> ~ near_one b1 -> r = Err AssertionError) /\
  (forall b1, nth_error b 0 = Some b1 -> near_one b1 -> w = [] -> r = Err IndexError) /\
  (forall b1 w1, nth_error b 0 = Some b1 -> near_one b1 -> nth_error w 0 = Some w1 -> ~ near_one w1 ->
     r = Err AssertionError) /\
  (forall b1 w1, nth_error b 0 = Some b1 -> near_one b1 -> nth_error w 0 = Some w1 -> near_one w1 ->
     (length w < length b)%nat -> r = Err IndexError) /\
  (forall b1 w1 i a y, nth_error b 0 = Some b1 -> near_one b1 -> nth_error w 0 = Some w1 -> near_one w1 ->
     (length b <= length w)%nat -> nth_error b i = Some a -> nth_error w i = Some y ->
     ~ scalars_close tol (if Rlt_dec (qs (dr a) * qs (dr y)) 0 then dqneg y else y) a ->
     r = Err AssertionError).
Proof.
  intros svd tol b w T0 r. unfold r, compute_hand_eye_calibration. rewrite !index_map. clear r.
  assert (FT : forall a, ~ near_one a -> is_origin (inD a) = false).
  { intros a H. destruct (is_origin (inD a)) eqn:E; [|easy]. destruct H. now apply is_origin_in. }
  assert (GO : forall b1 w1, nth_error b 0 = Some b1 -> near_one b1 -> nth_error w 0 = Some w1 -> near_one w1 ->
    (do b0 <- (do x <- index b 0; Ok (inD x)); assert is_origin b0;
     do w0 <- (do x <- index w 0; Ok (inD x)); assert is_origin w0; Ok tt) = Ok tt).
  { intros b1 w1 Hb Nb Hw Nw. rewrite (index_some _ _ _ Hb), (index_some _ _ _ Hw). cbn [bind].
    rewrite !assert_true by now apply is_origin_in. reflexivity. }
  repeat split.
  - intros ->. reflexivity.
  - intros b1 Hb N1. rewrite (index_some _ _ _ Hb). cbn [bind]. now rewrite (FT _ N1).
  - intros b1 Hb N1 ->. rewrite (index_some _ _ _ Hb). cbn [bind]. now rewrite assert_true by now apply is_origin_in.
  - intros b1 w1 Hb N1 Hw N2. rewrite (index_some _ _ _ Hb), (index_some _ _ _ Hw). cbn [bind].
    rewrite assert_true by now apply is_origin_in. now rewrite (FT _ N2).
  - intros b1 w1 Hb N1 Hw N2 L. rewrite (GO _ _ Hb N1 Hw N2).
    destruct (match_signs (map inD b) (map inD w)) as [k e] eqn:M.
    pose proof (match_signs_short (map inD b) (map inD w)) as SH. rewrite M in SH. cbn [snd] in SH.
    rewrite !map_length in SH. destruct (Nat.ltb_spec (length w) (length b)); [|lia]. now subst e.
  - intros b1 w1 i a y Hb N1 Hw N2 L Hi Hy NC. rewrite (GO _ _ Hb N1 Hw N2).
    set (l := combine b w).
    assert (E1 : map inD b = hands l).
    { unfold hands, l. rewrite <- (map_map fst inD). f_equal. clear - L.
      revert w L. induction b as [|x b IH]; intros [|z w] L; cbn in *; try easy; try lia.
      f_equal. apply IH. lia. }
    assert (E2 : map inD w = eyes l ++ map inD (skipn (length b) w)).
    { unfold eyes, l. rewrite <- (map_map snd inD), <- map_app. f_equal. clear - L.
      revert w L. induction b as [|x b IH]; intros [|z w] L; cbn in *; try easy; try lia.
      f_equal. apply IH. lia. }
    rewrite E1, E2, match_signs_app. cbn [snd]. unfold calibrate.
    assert (SG : scalar_gate (N:=XR) (Fin tol) (hands l) (eyes (map rmatch l) ++ map inD (skipn (length b) w))
                 = Err AssertionError).
    2:{ now rewrite SG. }
    assert (IN : nth_error l i = Some (a, y)).
    { unfold l. clear - Hi Hy. revert w i Hi Hy. induction b as [|x b IH]; intros [|z w] [|i] Hi Hy; cbn in *; try easy.
      - congruence.
      - now apply IH. }
    unfold scalar_gate. clear - IN NC T0. revert i IN.
    generalize (map inD (skipn (length b) w)) as rest. induction l as [|p l IH]; intros rest i IN; [now destruct i|].
    cbn [map hands eyes for_pairs app]. fold (hands l). fold (eyes (map rmatch l)).
    destruct (scalar_parts_close_in tol (snd (rmatch p)) (fst p) T0) as (c & C & IFF). rewrite C. cbn [bind].
    destruct i as [|i]; cbn in IN.
    + injection IN as ->. destruct c; [|reflexivity]. exfalso. apply NC.
      rewrite (Rmult_comm (qs (dr a))). apply IFF. reflexivity.
    + destruct c; [|reflexivity]. rewrite assert_true by easy. cbn [bind].
      specialize (IH rest i IN). destruct (for_pairs _ (hands l) _) as [|e]; [discriminate IH|].
      cbn [bind] in *. exact IH.
Qed.
Example C28_example : near_one dqone /\
  ~ scalars_close (1/25) (RD (RQ (RV (3/5) 0 0) (4/5)) hzero) (RD (RQ (RV 0 (4/5) 0) (3/5)) hzero).
Proof.
  split.
  - unfold near_one, dqone, hone, hzero, vzero; cbn [dr dd qv qs Spec.v1 Spec.v2 Spec.v3].
    repeat split; apply close_to_refl; lra.
  - intros [H _]. cbn [dr qs] in H. unfold close_to in H.
    rewrite (Rabs_pos_eq (4/5 - 3/5)), (Rabs_pos_eq (3/5)) in H by lra. lra.
Qed.
