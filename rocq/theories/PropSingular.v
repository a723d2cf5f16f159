(** * Property C74: the flag "bad singular values" of compute_hand_eye_calibration. *)

From Coq Require Import Reals ZArith Bool List Lra Lia Psatz.
From Verif Require Import Num Py XReal XFacts Quat DualQuat HandEye Spec Embed QuatFacts QuatTrig
  QuatRot DualFacts ScrewFacts ListFacts HandEyeFacts KernelFacts CalibFacts CalibExample PropCalib.
Import ListNotations.
Local Open Scope R_scope.

(** ** What the flag means, for every kind of numbers *)
Section Flag.
  Context {N : Num}.
  Lemma bad_from_spec (s : list (@T N)) : forall k, bad_from k s = true <->
    exists i x, nth_error s i = Some x /\
      ((k + i < 6)%nat /\ ltb x (lit 5 (-1)) = true \/ (6 <= k + i)%nat /\ ltb (lit 5 (-1)) x = true).
  Proof.
    induction s as [|x s IH]; intros k; cbn [bad_from].
    - split; [discriminate|]. intros (i & y & E & _). now destruct i.
    - rewrite orb_true_iff, (IH (S k)). split.
      + intros [H | (i & y & E & H)].
        * exists 0%nat, x. split; [easy|]. rewrite Nat.add_0_r.
          destruct (Nat.ltb_spec k 6); [now left|right]. split; [easy|exact H].
        * exists (S i), y. split; [exact E|]. replace (k + S i)%nat with (S k + i)%nat by lia. exact H.
      + intros ([|i] & y & E & H).
        * left. injection E as <-. rewrite Nat.add_0_r in H.
          destruct (Nat.ltb_spec k 6), H as [[]|[]]; try lia; assumption.
        * right. exists i, y. split; [exact E|]. replace (k + S i)%nat with (S k + i)%nat in H by lia. exact H.
  Qed.

  (** The flag is raised exactly if one of the first six reported singular values is below 0.5 or a
      later one is above; the reported values are the ones the decomposition of the matrix of the
      (sign-matched) pairs returned. *)
  Theorem C74_flag : forall svd tol (b_h w_e w : list dquat) dq (s : list T) bad,
    compute_hand_eye_calibration svd tol b_h w_e = (w, Ok (dq, s, bad)) ->
    (exists t v, setup_t_matrix svd b_h w = Ok t /\ svd t = Ok (s, v)) /\
    (bad = true <-> exists i x, nth_error s i = Some x /\
       ((i < 6)%nat /\ ltb x (lit 5 (-1)) = true \/ (6 <= i)%nat /\ ltb (lit 5 (-1)) x = true)).
  Proof.
    intros * H. unfold compute_hand_eye_calibration in H.
    destruct (bind (index b_h 0) _) as [u|]; [|discriminate H].
    destruct (match_signs b_h w_e) as [w' short]. destruct short; [discriminate H|].
    injection H as <- H. unfold calibrate in H.
    destruct (scalar_gate _ _ _); [|discriminate H]. cbn [bind] in H.
    destruct (setup_t_matrix svd b_h w') as [t|] eqn:ST; [|discriminate H]. cbn [bind] in H.
    destruct (svd t) as [[s' v]|] eqn:SV; [|discriminate H]. cbn [bind] in H.
    destruct (index v 6); [|discriminate H]. cbn [bind] in H.
    destruct (index v 7); [|discriminate H]. cbn [bind] in H.
    destruct (solve_quadratic _ _); [|discriminate H]. cbn [bind] in H.
    injection H as <- <- <-. split; [now exists t, v|]. apply (bad_from_spec s' 0).
  Qed.
End Flag.

(** ** Exact decompositions *)
Lemma gram_sym m a b : gram m a b = gram m b a.
Proof. induction m as [|r m IH]; simpl; [easy|]. rewrite IH. ring. Qed.
Lemma gram_app m k a b : gram (m ++ k) a b = gram m a b + gram k a b.
Proof. induction m as [|r m IH]; simpl; [ring|]. rewrite IH. ring. Qed.

Definition sum8 (l : list R) : R := fold_right Rplus 0 l.

Lemma dqsum_dot r l : dot8 r (dqsum l) = sum8 (map (dot8 r) l).
Proof. induction l as [|x l IH]; [apply dot8_zero|]. cbn [dqsum fold_right map]. rewrite dot8_add. fold (dqsum l). now rewrite IH. Qed.

Lemma parseval m s v y : svd_spec m s v -> dot8 y y = sum8 (map (fun w => dot8 y w * dot8 y w) v).
Proof.
  intros SV. rewrite (svd_basis _ _ _ SV y) at 2. rewrite dqsum_dot, map_map. f_equal.
  apply map_ext. intros w. apply dot8_scale.
Qed.

Lemma gram_coeff m s v y i w : svd_spec m s v -> nth_error v i = Some w ->
  gram m y w = dot8 y w * (nth i s 0 * nth i s 0).
Proof.
  intros SV Hi. rewrite (svd_basis _ _ _ SV y) at 1. rewrite gram_sum.
  assert (G : forall k l, (forall j w, nth_error l j = Some w -> nth_error v (k + j) = Some w) ->
     fold_right (fun x acc => gram m x w + acc) 0 (map (fun u => dqscale (dot8 y u) u) l)
     = if ((k <=? i) && (i <? k + length l))%nat then dot8 y w * gram m w w else 0).
  { intros k l; revert k; induction l as [|u l IH]; intros k H; simpl.
    - destruct (Nat.leb_spec k i), (Nat.ltb_spec i (k + 0)); simpl; try easy. lia.
    - rewrite gram_scale.
      rewrite (IH (S k)) by (intros j z Hj; rewrite <- (H (S j) z Hj); f_equal; lia).
      pose proof (H 0%nat u eq_refl) as Hw. rewrite Nat.add_0_r in Hw.
      destruct (Nat.eq_dec i k) as [->|NE].
      + assert (u = w) by congruence. subst u.
        destruct (Nat.leb_spec k k); [|lia]. destruct (Nat.ltb_spec k (k + S (length l))); [|lia].
        destruct (Nat.leb_spec (S k) k); [lia|]. simpl. ring.
      + rewrite (svd_orthogonal _ _ _ SV k i u w Hw Hi) by congruence.
        destruct (Nat.leb_spec k i), (Nat.leb_spec (S k) i), (Nat.ltb_spec i (S k + length l)),
          (Nat.ltb_spec i (k + S (length l))); simpl; try lia; ring. }
  rewrite (G 0%nat v) by easy.
  assert (Hl : (i < length v)%nat) by (apply nth_error_Some; congruence).
  destruct (Nat.ltb_spec i (0 + length v)); [|lia]. simpl.
  now rewrite (svd_values _ _ _ SV i w Hi).
Qed.

Lemma gram_sum_r m l z : gram m z (dqsum l) = sum8 (map (gram m z) l).
Proof. rewrite gram_sym, gram_sum. induction l as [|x l IH]; [easy|]. simpl. rewrite IH, gram_sym. easy. Qed.

(** |M y|^2 in the basis V *)
Lemma gram_diag m s v y : svd_spec m s v ->
  gram m y y = sum8 (map (fun w => dot8 y w * gram m y w) v).
Proof.
  intros SV. rewrite (svd_basis _ _ _ SV y) at 2. rewrite gram_sum_r, map_map. f_equal.
  apply map_ext. intros w. rewrite gram_sym, gram_scale. now rewrite gram_sym.
Qed.

(** a vector orthogonal to v7 and v8 is stretched by at least the sixth singular value *)
Lemma stretch m s v v7 v8 y : svd_spec m s v -> nth_error v 6 = Some v7 -> nth_error v 7 = Some v8 ->
  dot8 y v7 = 0 -> dot8 y v8 = 0 -> nth 5 s 0 * nth 5 s 0 * dot8 y y <= gram m y y.
Proof.
  intros SV E7 E8 O7 O8. rewrite (gram_diag _ _ _ _ SV), (parseval _ _ _ y SV).
  pose proof (svd_rows _ _ _ SV) as L.
  assert (G : forall i w, nth_error v i = Some w -> (i < 6)%nat ->
    nth 5 s 0 * nth 5 s 0 * (dot8 y w * dot8 y w) <= dot8 y w * gram m y w).
  { intros i w Hi Lt. rewrite (gram_coeff _ _ _ _ _ _ SV Hi).
    pose proof (svd_sorted _ _ _ SV i 5 ltac:(lia)). pose proof (svd_nonneg _ _ _ SV 5).
    assert (nth 5 s 0 * nth 5 s 0 <= nth i s 0 * nth i s 0) by (apply Rmult_le_compat; lra).
    pose proof (Rle_0_sqr (dot8 y w)). unfold Rsqr in *. nra. }
  destruct v as [|w0 [|w1 [|w2 [|w3 [|w4 [|w5 [|w6 [|w7 [|? ?]]]]]]]]]; try discriminate L.
  injection E7 as ->. injection E8 as ->.
  pose proof (G 0%nat w0 eq_refl ltac:(lia)). pose proof (G 1%nat w1 eq_refl ltac:(lia)).
  pose proof (G 2%nat w2 eq_refl ltac:(lia)). pose proof (G 3%nat w3 eq_refl ltac:(lia)).
  pose proof (G 4%nat w4 eq_refl ltac:(lia)). pose proof (G 5%nat w5 eq_refl ltac:(lia)).
  cbn [map sum8 fold_right]. rewrite O7, O8. lra.
Qed.

(** the sum of the squares of the entries bounds six times the square of the sixth value *)
Definition frob (m : list rdq) : R := sum8 (map (fun r => dot8 r r) m).
Lemma frob_app m k : frob (m ++ k) = frob m + frob k.
Proof. unfold frob, sum8. induction m as [|r m IH]; simpl; [ring|]. rewrite IH. ring. Qed.
Lemma sum8_add {A} (f g : A -> R) l : sum8 (map f l) + sum8 (map g l) = sum8 (map (fun x => f x + g x) l).
Proof. unfold sum8. induction l as [|x l IH]; cbn [map fold_right]; [ring|]. rewrite <- IH. ring. Qed.
Lemma frob_gram m s v k : svd_spec m s v -> sum8 (map (fun w => gram k w w) v) = frob k.
Proof.
  intros SV. induction k as [|r k IH].
  - unfold frob, sum8. clear. induction v as [|w v IHv]; [easy|]. cbn in *. rewrite IHv. ring.
  - unfold frob. cbn [map sum8 fold_right gram]. fold (sum8 (map (fun r => dot8 r r) k)). fold (frob k).
    rewrite (parseval _ _ _ r SV), <- IH. symmetry. apply sum8_add.
Qed.
Lemma sixth_frob m s v : svd_spec m s v -> 6 * (nth 5 s 0 * nth 5 s 0) <= frob m.
Proof.
  intros SV. rewrite <- (frob_gram m s v m SV). pose proof (svd_rows _ _ _ SV) as L.
  assert (G : forall i w, nth_error v i = Some w -> (i < 6)%nat -> nth 5 s 0 * nth 5 s 0 <= gram m w w).
  { intros i w Hi Lt. rewrite (svd_values _ _ _ SV i w Hi).
    pose proof (svd_sorted _ _ _ SV i 5 ltac:(lia)). pose proof (svd_nonneg _ _ _ SV 5).
    apply Rmult_le_compat; lra. }
  destruct v as [|w0 [|w1 [|w2 [|w3 [|w4 [|w5 [|w6 [|w7 [|? ?]]]]]]]]]; try discriminate L.
  pose proof (G 0%nat w0 eq_refl ltac:(lia)). pose proof (G 1%nat w1 eq_refl ltac:(lia)).
  pose proof (G 2%nat w2 eq_refl ltac:(lia)). pose proof (G 3%nat w3 eq_refl ltac:(lia)).
  pose proof (G 4%nat w4 eq_refl ltac:(lia)). pose proof (G 5%nat w5 eq_refl ltac:(lia)).
  pose proof (gram_pos m w6). pose proof (gram_pos m w7).
  cbn [map sum8 fold_right]. lra.
Qed.
Lemma frob_srows a b : frob (srows a b) <=
  8 * (dot3 (qv (dr a)) (qv (dr a)) + dot3 (qv (dr b)) (qv (dr b)))
  + 4 * (dot3 (qv (dd a)) (qv (dd a)) + dot3 (qv (dd b)) (qv (dd b))).
Proof.
  destruct a as [[[a1 a2 a3] a4] [[a5 a6 a7] a8]], b as [[[b1 b2 b3] b4] [[b5 b6 b7] b8]].
  unfold frob, srows, rhalf. cbn [map combine app sum8 fold_right fst snd]. specu.
  pose proof (Rle_0_sqr (a1 - b1)). pose proof (Rle_0_sqr (a2 - b2)). pose proof (Rle_0_sqr (a3 - b3)).
  pose proof (Rle_0_sqr (a5 - b5)). pose proof (Rle_0_sqr (a6 - b6)). pose proof (Rle_0_sqr (a7 - b7)).
  unfold Rsqr in *. lra.
Qed.

(** ** Noise-free recordings *)
(** A successful calibration of a noise-free recording that excites two axes, with an exact
    decomposition: [x] is the true transform, [l] the motion pairs after the first one (the
    identity), [e] the eye poses as given by the caller (each possibly with the wrong sign), [s] and
    [v] the decomposition, [sv] and [bad] the reported singular values and flag. *)
Record exact_run (svd : list (@dquat XR) -> res (list (@T XR) * list (@dquat XR))) (x : rdq)
    (l : list (rdq * rdq)) (s : list R) (sv : list (@T XR)) (bad : bool) : Prop := {
  run_unit : unitdq x;
  run_positive : 0 < qs (dr x);
  run_consistent : Forall (consistent x) l;
  run_axes : two_axes l;
  run_result : exists (tol : R) (e : list rdq) w dq, 0 <= tol /\
    Forall2 (fun p y => y = snd p \/ (y = dqneg (snd p) /\ qs (dr (snd p)) <> 0)) l e /\
    compute_hand_eye_calibration svd (Fin tol) (inD dqone :: hands l) (inD dqone :: map inD e)
    = (w, Ok (dq, sv, bad));
  run_svd : exists m v,
    setup_t_matrix svd (inD dqone :: hands l) (inD dqone :: eyes l) = Ok (map inD m) /\
    svd (map inD m) = Ok (map Fin s, map inD v) /\ svd_spec m s v
}.

Lemma run_facts svd x l s sv bad : exact_run svd x l s sv bad ->
  sv = map Fin s /\ bad = bad_singular_values (N:=XR) (map Fin s) /\ length s = 8%nat /\
  nth 6 s 0 = 0 /\ nth 7 s 0 = 0 /\
  exists v v7 v8, svd_spec (trows ((dqone, dqone) :: l)) s v /\
    nth_error v 6 = Some v7 /\ nth_error v 7 = Some v8 /\
    kills (trows ((dqone, dqone) :: l)) v7 /\ kills (trows ((dqone, dqone) :: l)) v8.
Proof.
  intros [U W C TA (tol & e & w & dq & T0 & FE & H) (m & v & ST & SE & SP)].
  destruct (C25_recovery _ _ _ _ _ _ _ _ T0 U W C TA FE ST SE SP) as (u7 & _ & R).
  rewrite R in H. destruct (Req_EM_T _ 0); [discriminate H|]. injection H as _ _ <- <-.
  set (l1 := (dqone, dqone) :: l) in *.
  assert (M : m = trows l1) by exact (inD_list_inj _ _ (setup_t_inv svd l1 _ ST)). subst m.
  assert (C1 : Forall (consistent x) l1).
  { apply Forall_cons; [|exact C]. unfold consistent; cbn [fst snd]. now rewrite dqmul_1_l, dqmul_1_r. }
  assert (K : kills (trows l1) x /\ kills (trows l1) (RD hzero (dr x))).
  { rewrite !kills_trows. rewrite Forall_forall in C1.
    split; apply Forall_forall; intros p I; apply (kernel_forward _ _ _ U (C1 p I)). }
  destruct K as [K1 K2].
  destruct (svd_null _ _ _ _ _ SP K1 K2 (independent x U)) as (v7 & v8 & E7 & E8 & N7 & N8 & _).
  assert (Z : forall i w, nth_error v i = Some w -> kills (trows l1) w -> nth i s 0 = 0).
  { intros i w' Hi Kw. pose proof (svd_values _ _ _ SP i w' Hi) as V. rewrite gram_kills in V by exact Kw.
    symmetry in V. now apply Rmult_integral in V as []. }
  split; [easy|]. split; [easy|]. split.
  { rewrite (svd_count _ _ _ SP). destruct TA as (p & _ & I & _). destruct l as [|p0 l']; [easy|].
    unfold l1. cbn [trows flat_map]. rewrite !app_length. cbn [srows rhalf map combine app length]. lia. }
  split; [exact (Z 6%nat v7 E7 N7)|]. split; [exact (Z 7%nat v8 E8 N8)|].
  exists v, v7, v8. exact (conj SP (conj E7 (conj E8 (conj N7 N8)))).
Qed.

Lemma gram_first l y : gram (trows ((dqone, dqone) :: l)) y y = gram (trows l) y y.
Proof.
  cbn [trows flat_map]. fold (trows l). rewrite gram_app.
  rewrite (gram_kills (srows _ _) y y); [ring|]. generalize (kills1 y). unfold m1. cbn [trows flat_map].
  now rewrite app_nil_r.
Qed.

Lemma half_ltb (a b : R) : @ltb XR (Fin a) (Fin b) = true <-> a < b.
Proof. apply Rltb_iff. Qed.
Lemma half_lit : @lit XR 5 (-1) = Fin (1 / 2).
Proof. change (@lit XR 5 (-1)) with (Fin (5 / 10)). f_equal. field. Qed.

(** The last two values vanish, and the flag is raised exactly if the sixth value is below 0.5. *)
Theorem C74_exact : forall svd x l s sv bad, exact_run svd x l s sv bad ->
  sv = map Fin s /\ length s = 8%nat /\ nth 6 s 0 = 0 /\ nth 7 s 0 = 0 /\
  (bad = true <-> nth 5 s 0 < 1 / 2).
Proof.
  intros * H. destruct (run_facts _ _ _ _ _ _ H) as (E & B & L & Z6 & Z7 & v & _ & _ & SP & _).
  do 4 (split; [assumption|]). rewrite B. unfold bad_singular_values. rewrite (bad_from_spec (N:=XR)).
  assert (NE : forall i y, nth_error (map Fin s) i = Some y -> (i < 8)%nat /\ y = Fin (nth i s 0)).
  { intros i y Hi. rewrite nth_error_map in Hi. destruct (nth_error s i) as [r|] eqn:Ei; [|easy].
    injection Hi as <-. rewrite (nth_error_nth _ _ 0 Ei). split; [|easy]. rewrite <- L.
    apply nth_error_Some. congruence. }
  rewrite half_lit. split.
  - intros (i & y & Hi & [[Lt Q]|[Ge Q]]); apply NE in Hi as [Li ->]; apply half_ltb in Q.
    + pose proof (svd_sorted _ _ _ SP i 5 ltac:(cbn in Lt; lia)). lra.
    + cbn in Ge. assert (I : i = 6%nat \/ i = 7%nat) by lia. destruct I as [-> | ->]; lra.
  - intros Q. exists 5%nat, (Fin (nth 5 s 0)). split.
    + rewrite nth_error_map, (nth_error_nth' s 0) by lia. reflexivity.
    + left. split; [cbn; lia|]. now apply half_ltb.
Qed.

(** How far [y] is from solving the hand-eye equation a y = y b of one pair (vector parts). *)
Definition residual (y : rdq) (p : rdq * rdq) : R :=
  let d := dqadd (dqmul (fst p) y) (dqneg (dqmul y (snd p))) in
  dot3 (qv (dr d)) (qv (dr d)) + dot3 (qv (dd d)) (qv (dd d)).

Lemma gram_srows a b y : qs (dr a) = qs (dr b) -> qs (dd a) = qs (dd b) ->
  gram (srows a b) y y = residual y (a, b).
Proof.
  intros E1 E2. unfold residual. cbn [fst snd].
  set (d := dqadd (dqmul a y) (dqneg (dqmul y b))).
  assert (R : map (fun r => dot8 r y) (srows a b)
              = [Spec.v1 (qv (dr d)); Spec.v2 (qv (dr d)); Spec.v3 (qv (dr d)); Spec.v1 (qv (dd d)); Spec.v2 (qv (dd d)); Spec.v3 (qv (dd d))]).
  { subst d. destruct a as [[[a1 a2 a3] a4] [[a5 a6 a7] a8]], b as [[[b1 b2 b3] b4] [[b5 b6 b7] b8]],
      y as [[[y1 y2 y3] y4] [[y5 y6 y7] y8]].
    cbn [dr dd qs] in E1, E2. subst a4 a8. unfold srows, rhalf. cbn [map combine app fst snd].
    repeat apply f_equal2; try reflexivity; specu; ring. }
  assert (G : forall m, gram m y y = fold_right (fun z acc => z * z + acc) 0 (map (fun r => dot8 r y) m)).
  { induction m as [|r m IH]; [easy|]. cbn [gram map fold_right]. fold (gram m y y). now rewrite IH. }
  rewrite G, R. cbn [fold_right]. destruct d as [[[] ?] [[] ?]]. specu. ring.
Qed.
Lemma gram_trows x l y : unitdq x -> Forall (consistent x) l ->
  gram (trows l) y y = fold_right Rplus 0 (map (residual y) l).
Proof.
  intros U C. induction C as [|p l C0 C IH]; [easy|]. cbn [trows flat_map map fold_right]. fold (trows l).
  rewrite gram_app, IH. f_equal. destruct (consistent_scalars x p U C0), p. now apply gram_srows.
Qed.

(** If the flag is not raised, a direction orthogonal to the solutions (the multiples of the true
    transform plus dual multiples) misses the equations by at least half its length. *)
Theorem C74_conditioned : forall svd x l s sv, exact_run svd x l s sv false ->
  forall y, dot8 y x = 0 -> dot8 y (RD hzero (dr x)) = 0 ->
  1 / 4 * dot8 y y <= fold_right Rplus 0 (map (residual y) l).
Proof.
  intros * H y O1 O2.
  destruct (C74_exact _ _ _ _ _ _ H) as (_ & _ & _ & _ & B).
  destruct (run_facts _ _ _ _ _ _ H) as (_ & _ & _ & _ & _ & v & v7 & v8 & SP & E7 & E8 & N7 & N8).
  destruct H as [U W C TA _ _].
  rewrite <- (gram_trows x l y U C), <- gram_first.
  set (l1 := (dqone, dqone) :: l) in *.
  assert (C1 : Forall (consistent x) l1).
  { apply Forall_cons; [|exact C]. unfold consistent; cbn [fst snd]. now rewrite dqmul_1_l, dqmul_1_r. }
  assert (TA1 : two_axes l1).
  { destruct TA as (p & q & Ip & Iq & H'). exists p, q. repeat split; try (right; assumption). exact H'. }
  assert (O : forall w, kills (trows l1) w -> dot8 y w = 0).
  { intros w K. destruct (kernel_converse x l1 U ltac:(lra) C1 TA1 _ K) as (a & b & ->).
    rewrite dot8_add, !dot8_scale, O1, O2. ring. }
  pose proof (stretch _ _ _ _ _ y SP E7 E8 (O _ N7) (O _ N8)) as S.
  assert (S5 : 1 / 2 <= nth 5 s 0).
  { destruct (Rlt_dec (nth 5 s 0) (1 / 2)) as [Lt|]; [|lra]. now apply B in Lt. }
  assert (0 <= dot8 y y).
  { rewrite (parseval _ _ _ y SP). clear. induction v as [|w v IH]; cbn [map sum8 fold_right]; [lra|].
    pose proof (Rle_0_sqr (dot8 y w)). unfold Rsqr, sum8 in *. lra. }
  apply Rle_trans with (2 := S). apply Rmult_le_compat_r; [assumption|].
  replace (1 / 4) with (1 / 2 * (1 / 2)) by field. apply Rmult_le_compat; lra.
Qed.

(** How large the motions of a pair are.  The vector part of a rotation by the angle t has length
    |sin(t/2)|; the dual parts grow with the translations. *)
Definition motion (p : rdq * rdq) : R :=
  8 * (dot3 (qv (dr (fst p))) (qv (dr (fst p))) + dot3 (qv (dr (snd p))) (qv (dr (snd p))))
  + 4 * (dot3 (qv (dd (fst p))) (qv (dd (fst p))) + dot3 (qv (dd (snd p))) (qv (dd (snd p)))).

Lemma frob_trows l : frob (trows l) <= sum8 (map motion l).
Proof.
  induction l as [|p l IH]; [unfold frob; cbn; lra|]. cbn [trows flat_map]. fold (trows l).
  rewrite frob_app. cbn [map sum8 fold_right]. fold (sum8 (map motion l)).
  pose proof (frob_srows (fst p) (snd p)). unfold motion at 1. lra.
Qed.

(** The flag is always raised when the motions are small, although the returned transform is exact. *)
Theorem C74_small : forall svd x l s sv bad, exact_run svd x l s sv bad ->
  fold_right Rplus 0 (map motion l) < 3 / 2 -> bad = true.
Proof.
  intros * H Lt. apply (C74_exact _ _ _ _ _ _ H).
  destruct (run_facts _ _ _ _ _ _ H) as (_ & _ & _ & _ & _ & v & _ & _ & SP & _).
  pose proof (sixth_frob _ _ _ SP) as F. pose proof (frob_trows ((dqone, dqone) :: l)) as G.
  assert (M1 : motion (dqone, dqone) = 0) by (unfold motion, dqone; cbn [fst snd]; specu; ring).
  cbn [map sum8 fold_right] in G. rewrite M1 in G. change (fold_right Rplus 0 (map motion l)) with (sum8 (map motion l)) in *.
  pose proof (svd_nonneg _ _ _ SP 5).
  destruct (Rlt_dec (nth 5 s 0) (1 / 2)) as [|Ge]; [easy|]. nra.
Qed.

(** ** More of the same motions *)
Lemma sixth_positive svd x l s sv bad : exact_run svd x l s sv bad -> 0 < nth 5 s 0.
Proof.
  intros H. destruct (run_facts _ _ _ _ _ _ H) as (_ & _ & _ & _ & _ & v & v7 & v8 & SP & E7 & E8 & N7 & N8).
  destruct H as [U W C TA _ _].
  set (l1 := (dqone, dqone) :: l) in *.
  assert (C1 : Forall (consistent x) l1).
  { apply Forall_cons; [|exact C]. unfold consistent; cbn [fst snd]. now rewrite dqmul_1_l, dqmul_1_r. }
  assert (TA1 : two_axes l1).
  { destruct TA as (p & q & Ip & Iq & H'). exists p, q. repeat split; try (right; assumption). exact H'. }
  destruct (Rle_lt_or_eq_dec _ _ (svd_nonneg _ _ _ SP 5)) as [|Z]; [easy|exfalso].
  pose proof (svd_rows _ _ _ SP) as L.
  destruct (nth_error v 5) as [v6|] eqn:E6; [|apply nth_error_None in E6; lia].
  assert (N6 : kills (trows l1) v6).
  { apply gram_zero. rewrite (svd_values _ _ _ SP 5 v6 E6), <- Z. ring. }
  destruct (kernel_converse x l1 U ltac:(lra) C1 TA1 _ N6) as (a6 & b6 & V6).
  destruct (kernel_converse x l1 U ltac:(lra) C1 TA1 _ N7) as (a7 & b7 & V7).
  destruct (kernel_converse x l1 U ltac:(lra) C1 TA1 _ N8) as (a8 & b8 & V8).
  pose proof (svd_orthonormal _ _ _ SP 5 5 _ _ E6 E6) as D66. pose proof (svd_orthonormal _ _ _ SP 6 6 _ _ E7 E7) as D77.
  pose proof (svd_orthonormal _ _ _ SP 7 7 _ _ E8 E8) as D88. pose proof (svd_orthonormal _ _ _ SP 5 6 _ _ E6 E7) as D67.
  pose proof (svd_orthonormal _ _ _ SP 5 7 _ _ E6 E8) as D68. pose proof (svd_orthonormal _ _ _ SP 6 7 _ _ E7 E8) as D78.
  cbn [Nat.eqb] in *.
  assert (DEP : dqadd (dqscale (a7 * b8 - a8 * b7) v6)
                  (dqadd (dqscale (a8 * b6 - a6 * b8) v7) (dqscale (a6 * b7 - a7 * b6) v8)) = RD hzero hzero).
  { rewrite V6, V7, V8. clear. destruct x as [[[] ?] [[] ?]]. apply rdq_eq; apply rq_eq; specu; ring. }
  assert (Z6 : a7 * b8 - a8 * b7 = 0).
  { apply (f_equal (dot8 v6)) in DEP. rewrite !dot8_add, !dot8_scale, dot8_zero, D66, D67, D68 in DEP. lra. }
  assert (L1 : dqadd (dqscale a7 v8) (dqscale (- a8) v7) = RD hzero hzero).
  { rewrite V7, V8. apply rdq_eq; cbn [dqadd dqscale dr dd].
    - qring.
    - transitivity (hscale (a7 * b8 - a8 * b7) (dr x)); [qring|]. rewrite Z6. qring. }
  assert (L2 : dqadd (dqscale b7 v8) (dqscale (- b8) v7) = RD hzero hzero).
  { rewrite V7, V8. apply rdq_eq; cbn [dqadd dqscale dr dd].
    - transitivity (hscale (- (a7 * b8 - a8 * b7)) (dr x)); [qring|]. rewrite Z6. qring.
    - transitivity (hscale (- (a7 * b8 - a8 * b7)) (dd x)); [qring|]. rewrite Z6. qring. }
  apply (f_equal (dot8 v8)) in L1. apply (f_equal (dot8 v8)) in L2.
  rewrite dot8_add, !dot8_scale, dot8_zero, D88, (dot8_sym v8 v7), D78 in L1, L2.
  assert (A7 : a7 = 0) by lra. assert (B7 : b7 = 0) by lra.
  rewrite V7, A7, B7 in D77. clear - D77. destruct x as [[[] ?] [[] ?]]. specu. lra.
Qed.

Lemma trows_app l k : trows (l ++ k) = trows l ++ trows k.
Proof. apply flat_map_app. Qed.
Lemma gram_copies l k y : gram (trows (concat (repeat l k))) y y = INR k * gram (trows l) y y.
Proof.
  induction k as [|k IH]; [cbn; ring|]. cbn [repeat concat]. rewrite trows_app, gram_app, IH, S_INR. ring.
Qed.
(** Whatever the recording: if the same motions are repeated often enough, the flag is not raised.
    The flag therefore depends on how many poses there are, not only on how well they constrain
    the result. *)
Theorem C74_copies : forall svd x l s sv bad, exact_run svd x l s sv bad ->
  exists n, forall k, (n <= k)%nat -> forall svd' s' sv' bad',
    exact_run svd' x (concat (repeat l k)) s' sv' bad' -> bad' = false.
Proof.
  intros * H. pose proof (sixth_positive _ _ _ _ _ _ H) as P.
  assert (P2 : 0 < nth 5 s 0 * nth 5 s 0) by now apply Rmult_lt_0_compat.
  destruct (archimed_cor1 (4 * (nth 5 s 0 * nth 5 s 0))) as (n & Hn & Pn); [lra|].
  assert (Hn' : 1 / 4 < INR n * (nth 5 s 0 * nth 5 s 0)).
  { apply lt_0_INR in Pn. apply (Rmult_lt_compat_l (INR n) _ _ Pn) in Hn. rewrite Rinv_r in Hn by lra. lra. }
  exists n. intros k Lk * H'. pose proof (sixth_positive _ _ _ _ _ _ H') as P'.
  destruct (C74_exact _ _ _ _ _ _ H') as (_ & _ & _ & _ & B).
  destruct bad'; [exfalso|easy]. destruct B as [B _]. specialize (B eq_refl).
  destruct (run_facts _ _ _ _ _ _ H) as (_ & _ & _ & _ & _ & v & v7 & v8 & SP & E7 & E8 & N7 & N8).
  destruct (run_facts _ _ _ _ _ _ H') as (_ & _ & _ & _ & _ & v' & _ & _ & SP' & _).
  pose proof (svd_rows _ _ _ SP') as L'.
  destruct (nth_error v' 5) as [u|] eqn:EU; [|apply nth_error_None in EU; lia].
  pose proof (svd_values _ _ _ SP' 5 u EU) as GU.
  pose proof (svd_orthonormal _ _ _ SP' 5 5 _ _ EU EU) as DU. cbn [Nat.eqb] in DU.
  destruct H as [U W C TA _ _]. pose proof (run_consistent _ _ _ _ _ _ H') as C'.
  set (l1 := (dqone, dqone) :: l) in *. set (l2 := (dqone, dqone) :: concat (repeat l k)) in *.
  assert (C1 : Forall (consistent x) l1).
  { apply Forall_cons; [|exact C]. unfold consistent; cbn [fst snd]. now rewrite dqmul_1_l, dqmul_1_r. }
  assert (C2 : Forall (consistent x) l2).
  { apply Forall_cons; [|exact C']. unfold consistent; cbn [fst snd]. now rewrite dqmul_1_l, dqmul_1_r. }
  assert (TA1 : two_axes l1).
  { destruct TA as (p & q & Ip & Iq & HX). exists p, q. repeat split; try (right; assumption). exact HX. }
  assert (K : kills (trows l2) x /\ kills (trows l2) (RD hzero (dr x))).
  { rewrite !kills_trows. rewrite Forall_forall in C2.
    split; apply Forall_forall; intros p I; apply (kernel_forward _ _ _ U (C2 p I)). }
  destruct K as [K1 K2].
  assert (NZ : gram (trows l2) u u <> 0).
  { rewrite GU. pose proof (Rmult_lt_0_compat _ _ P' P'). lra. }
  pose proof (svd_coeff _ _ _ _ _ _ SP' K1 EU NZ) as O1.
  pose proof (svd_coeff _ _ _ _ _ _ SP' K2 EU NZ) as O2.
  assert (O : forall w, kills (trows l1) w -> dot8 u w = 0).
  { intros w Kw. destruct (kernel_converse x l1 U ltac:(lra) C1 TA1 _ Kw) as (a & b & ->).
    rewrite dot8_add, !dot8_scale, (dot8_sym u x), O1, (dot8_sym u), O2. ring. }
  pose proof (stretch _ _ _ _ _ u SP E7 E8 (O _ N7) (O _ N8)) as S. rewrite DU in S.
  unfold l1 in S. unfold l2 in GU. rewrite gram_first in S, GU. rewrite gram_copies in GU.
  apply le_INR in Lk. pose proof (pos_INR n).
  assert (G1 : INR n * (nth 5 s 0 * nth 5 s 0) <= INR k * gram (trows l) u u) by (apply Rmult_le_compat; lra).
  assert (G2 : nth 5 s' 0 * nth 5 s' 0 < 1 / 2 * (1 / 2)) by (apply Rmult_le_0_lt_compat; lra).
  lra.
Qed.

(** ** Examples *)
(** A recording the flag accepts: the experiment of CalibExample, sixth value 24/25. *)
Lemma run_of svd x l s m v sv bad : unitdq x -> 0 < qs (dr x) -> Forall (consistent x) l -> two_axes l ->
  setup_t_matrix svd (inD dqone :: hands l) (inD dqone :: eyes l) = Ok (map inD m) ->
  svd (map inD m) = Ok (map Fin s, map inD v) -> svd_spec m s v ->
  match nth_error v 6 with Some w => hdot (dr w) (dd w) <> 0 | None => False end ->
  sv = map Fin s -> bad = bad_singular_values (N:=XR) (map Fin s) ->
  exact_run svd x l s sv bad.
Proof.
  intros U W C TA ST SE SP NZ -> ->. constructor; try assumption.
  - assert (FE : Forall2 (fun p y => y = snd p \/ (y = dqneg (snd p) /\ qs (dr (snd p)) <> 0)) l (map snd l)).
    { clear. induction l; cbn; constructor; auto. }
    destruct (C25_recovery svd 0 x l (map snd l) m s v ltac:(lra) U W C TA FE ST SE SP) as (v7 & E7 & E).
    exists 0, (map snd l). do 2 eexists. split; [lra|]. split; [exact FE|]. rewrite E.
    rewrite E7 in NZ. destruct (Req_EM_T _ 0); [easy|]. reflexivity.
  - exists m, v. exact (conj ST (conj SE SP)).
Qed.

Example C74_accepted : exists sv, exact_run (svd_const (v0 (3/5) (4/5))) x0 l0 s0 sv false.
Proof.
  assert (R : exact_run (svd_const (v0 (3/5) (4/5))) x0 l0 s0 (map Fin s0) (bad_singular_values (N:=XR) (map Fin s0))).
  { apply (run_of _ _ _ _ m0 (v0 (3/5) (4/5))); try reflexivity.
    - apply x0_unit.
    - unfold x0, q0; cbn; lra.
    - apply l0_consistent.
    - apply l0_axes.
    - apply m0_built.
    - apply svd0; field.
    - cbn [nth_error v0]. unfold q0. specu. lra. }
  exists (map Fin s0). destruct (bad_singular_values _) eqn:B; [exfalso|exact R].
  destruct (C74_exact _ _ _ _ _ _ R) as (_ & _ & _ & _ & Q). pose proof (proj1 Q eq_refl) as F. cbn in F. lra.
Qed.

(** A noise-free recording with two rotations by about 11 degrees about orthogonal axes: the
    transform is found, but the flag is raised; every recording with these motions repeated often
    enough is accepted. *)
Definition l2 : list (rdq * rdq) :=
  let a := RD (RQ (RV (40/401) 0 0) (399/401)) hzero in
  let b := RD (RQ (RV 0 (40/401) 0) (399/401)) hzero in [(a, a); (b, b)].
Definition m2 : list rdq := trows ((dqone, dqone) :: l2).
Definition s2 : list R :=
  [80/401 * sqrt 2; 80/401 * sqrt 2; 80/401; 80/401; 80/401; 80/401; 0; 0].
Definition v2 : list rdq :=
  [RD e3 hzero; RD hzero e3; RD e1 hzero; RD hzero e1; RD e2 hzero; RD hzero e2;
   RD (hscale (3/5) hone) (hscale (4/5) hone); RD (hscale (-4/5) hone) (hscale (3/5) hone)].
Definition svd2 : list (@dquat XR) -> res (list (@T XR) * list (@dquat XR)) :=
  fun _ => Ok (map Fin s2, map inD v2).

Lemma kills2 c d : kills m2 (RD (hscale c hone) (hscale d hone)).
Proof.
  unfold kills, m2, trows, srows, rhalf, l2. cbn [flat_map map app combine fst snd].
  repeat (apply Forall_cons; [cbn [fst snd]; specu; field|]). apply Forall_nil.
Qed.
Lemma svd2_spec : svd_spec m2 s2 v2.
Proof.
  assert (Q : sqrt 2 * sqrt 2 = 2) by (apply sqrt_sqrt; lra).
  assert (Q1 : 1 <= sqrt 2) by (rewrite <- sqrt_1 at 1; apply sqrt_le_1; lra).
  assert (Q2 : 80 / 401 * sqrt 2 * (80 / 401 * sqrt 2) = 80 / 401 * (80 / 401) * 2).
  { transitivity (80 / 401 * (80 / 401) * (sqrt 2 * sqrt 2)); [ring|]. now rewrite Q. }
  constructor.
  - reflexivity.
  - reflexivity.
  - intros [[[a1 a2 a3] a4] [[b1 b2 b3] b4]]. unfold v2, e1, e2, e3, dqsum. cbn [map fold_right].
    apply rdq_eq; apply rq_eq; specu; cbn [fst snd]; field.
  - intros i j vi vj Hi Hj. unfold v2 in *.
    idx i Hi; idx j Hj; unfold e1, e2, e3; cbn [Nat.eqb]; specu; lra.
  - intros i j vi vj Hi Hj NE. unfold v2 in *.
    idx i Hi; idx j Hj; try (now destruct NE);
      try (apply gram_kills, kills2);
      try (rewrite image_gram; unfold m2, trows, srows, rhalf, l2, e1, e2, e3;
           cbn [flat_map map app combine fold_right fst snd]; specu; field).
  - intros i vi Hi. unfold v2, s2 in *.
    idx i Hi; cbn [nth];
      try (rewrite gram_kills by apply kills2; ring);
      try rewrite Q2;
      try (rewrite image_gram; unfold m2, trows, srows, rhalf, l2, e1, e2, e3;
           cbn [flat_map map app combine fold_right fst snd]; specu; field).
  - intros i. unfold s2.
    destruct i as [|[|[|[|[|[|[|[|[|i]]]]]]]]]; cbn [nth]; lra.
  - intros i j H. unfold s2.
    destruct j as [|[|[|[|[|[|[|[|[|j]]]]]]]]]; destruct i as [|[|[|[|[|[|[|[|[|i]]]]]]]]];
      cbn [nth]; try lra; lia.
Qed.
Lemma l2_consistent : Forall (consistent dqone) l2.
Proof. repeat constructor; unfold consistent; cbn [fst snd]; now rewrite dqmul_1_l, dqmul_1_r. Qed.
Lemma l2_axes : two_axes l2.
Proof.
  exists (nth 0 l2 (dqone, dqone)), (nth 1 l2 (dqone, dqone)). cbn [l2 nth].
  split; [now left|]. split; [right; now left|]. cbn [fst snd dr qv]. intros E. specu. injection E as E. lra.
Qed.

Theorem C74_exact_data_accepted_refuted : exists svd x l s sv,
  exact_run svd x l s sv true /\
  Forall (fun p => unitdq (fst p) /\ unitdq (snd p)) l /\
  exists n, forall k, (n <= k)%nat -> forall svd' s' sv' bad',
    exact_run svd' x (concat (repeat l k)) s' sv' bad' -> bad' = false.
Proof.
  assert (ONE : unitdq dqone) by (split; unfold dqone; specu; ring).
  assert (R : exact_run svd2 dqone l2 s2 (map Fin s2) (bad_singular_values (N:=XR) (map Fin s2))).
  { apply (run_of _ _ _ _ m2 v2); try reflexivity.
    - exact ONE.
    - cbn; lra.
    - apply l2_consistent.
    - apply l2_axes.
    - change (setup_t_matrix svd2 (hands ((dqone, dqone) :: l2)) (eyes ((dqone, dqone) :: l2)) = Ok (map inD m2)).
      apply setup_t_in; [intros; now eexists| |now eexists].
      intros p I. assert (E : fst p = snd p) by (cbn in I; destruct I as [<- | [<- | [<- | []]]]; easy).
      rewrite E. apply scalars_close_eq; [lra|easy|easy].
    - apply svd2_spec.
    - cbn [nth_error v2]. specu. lra. }
  exists svd2, dqone, l2, s2, (map Fin s2).
  assert (B : bad_singular_values (N:=XR) (map Fin s2) = true).
  { apply (C74_small _ _ _ _ _ _ R). unfold motion, l2. cbn [map fold_right fst snd]. specu. lra. }
  rewrite B in R. split; [exact R|]. split; [|exact (C74_copies _ _ _ _ _ _ R)].
  unfold l2. repeat apply Forall_cons; try apply Forall_nil; cbn [fst snd]; (split; split; specu; field).
Qed.
