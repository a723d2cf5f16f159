(** * Exact singular value decompositions: the values are determined by the matrix, the vectors of simple values up to sign. *)

From Coq Require Import Reals ZArith Bool List Lra Lia Psatz.
From Verif Require Import Num Py XReal XFacts Quat DualQuat Spec Embed QuatFacts DualFacts ScrewFacts HandEyeFacts KernelFacts.
Import ListNotations.
Local Open Scope R_scope.

(** ** Fewer equations than unknowns *)
Fixpoint dotf (n : nat) (f c : nat -> R) : R :=
  match n with
  | O => 0
  | S n => f O * c O + dotf n (fun i => f (S i)) (fun i => c (S i))
  end.
Lemma dotf_elim n f g c k : dotf n (fun i => f i - k * g i) c = dotf n f c - k * dotf n g c.
Proof. revert f g c; induction n as [|n IH]; intros; cbn [dotf]; [ring|]. rewrite (IH (fun i => f (S i)) (fun i => g (S i))). ring. Qed.
Lemma dotf_zero n f c : (forall i, c i = 0) -> dotf n f c = 0.
Proof. revert f c; induction n as [|n IH]; intros f c H; cbn [dotf]; [easy|]. rewrite H, IH by (intros; apply H). ring. Qed.

Lemma underdetermined n : forall rows : list (nat -> R), (length rows < n)%nat ->
  exists c, (exists i, (i < n)%nat /\ c i <> 0) /\ forall r, In r rows -> dotf n r c = 0.
Proof.
  induction n as [|n IH]; intros rows L; [lia|].
  assert (D : (forall r, In r rows -> r O = 0) \/ exists r, In r rows /\ r O <> 0).
  { clear. induction rows as [|r rows IH]; [left; intros r []|]. destruct (Req_EM_T (r O) 0) as [E|E].
    - destruct IH as [H|(x & I & H)]; [left|right; exists x; split; [now right|easy]]. intros x [<-|I]; auto.
    - right. exists r. split; [now left|easy]. }
  destruct D as [Z|(p & I & P)].
  - exists (fun i => match i with O => 1 | S _ => 0 end). split; [exists O; split; [lia|lra]|].
    intros r Ir. cbn [dotf]. rewrite (Z r Ir), dotf_zero by easy. ring.
  - apply in_split in I as (A & B & ->). rewrite app_length in L. cbn [length] in L.
    destruct (IH (map (fun r i => r (S i) - r O / p O * p (S i)) (A ++ B))) as (c & (j & J & C) & K).
    { rewrite map_length, app_length. lia. }
    exists (fun i => match i with O => - dotf n (fun i => p (S i)) c / p O | S i => c i end). split.
    { exists (S j). split; [lia|easy]. }
    intros r Ir. cbn [dotf]. apply in_app_or in Ir.
    assert (E : r = p \/ In r (A ++ B)).
    { destruct Ir as [Ir|[<-|Ir]]; [right|now left|right]; apply in_or_app; auto. }
    destruct E as [-> |E].
    + change (fun i => c i) with c. field. easy.
    + specialize (K _ (in_map _ _ _ E)). cbn beta in K. rewrite dotf_elim in K. change (fun i => c i) with c.
      apply Rminus_diag_uniq in K. rewrite K. field. easy.
Qed.

Definition coords (y : rdq) (i : nat) : R :=
  match i with
  | 0 => v1 (qv (dr y)) | 1 => v2 (qv (dr y)) | 2 => v3 (qv (dr y)) | 3 => qs (dr y)
  | 4 => v1 (qv (dd y)) | 5 => v2 (qv (dd y)) | 6 => v3 (qv (dd y)) | _ => qs (dd y)
  end%nat.
Definition of_coords (c : nat -> R) : rdq :=
  RD (RQ (RV (c 0%nat) (c 1%nat) (c 2%nat)) (c 3%nat)) (RQ (RV (c 4%nat) (c 5%nat) (c 6%nat)) (c 7%nat)).
Lemma dot8_coords w c : dot8 w (of_coords c) = dotf 8 (coords w) c.
Proof. destruct w as [[[a b c0] d] [[e f g] h]]. unfold of_coords. specu. cbn [dotf coords dr dd qv qs v1 v2 v3]. ring. Qed.
Lemma dot8_pos y : 0 <= dot8 y y.
Proof. destruct y as [[[a b c] d] [[e f g] h]]. specu. pose proof (Rle_0_sqr a). pose proof (Rle_0_sqr b). pose proof (Rle_0_sqr c). pose proof (Rle_0_sqr d).
  pose proof (Rle_0_sqr e). pose proof (Rle_0_sqr f). pose proof (Rle_0_sqr g). pose proof (Rle_0_sqr h). unfold Rsqr in *. lra. Qed.
Lemma orthogonal_exists (ws : list rdq) : (length ws < 8)%nat -> exists y, 0 < dot8 y y /\ forall w, In w ws -> dot8 w y = 0.
Proof.
  intros L. destruct (underdetermined 8 (map coords ws)) as (c & (i & I & C) & K); [now rewrite map_length|].
  exists (of_coords c). split.
  - rewrite dot8_coords. cbn [dotf coords of_coords dr dd qv qs v1 v2 v3].
    assert (P : forall j, 0 <= c j * c j) by (intros j; apply Rle_0_sqr).
    assert (Q : 0 < c i * c i) by (apply Rsqr_pos_lt in C; exact C).
    pose proof (P 0%nat). pose proof (P 1%nat). pose proof (P 2%nat). pose proof (P 3%nat). pose proof (P 4%nat). pose proof (P 5%nat). pose proof (P 6%nat). pose proof (P 7%nat).
    do 8 (destruct i as [|i]; [lra|]). lia.
  - intros w W. rewrite dot8_coords. apply K. now apply in_map.
Qed.

Lemma scale_0 x : dqscale 0 x = RD hzero hzero.
Proof. destruct x as [[[] ?] [[] ?]]. unfold dqscale, hscale, vscale, hzero, vzero. cbn. now rewrite !Rmult_0_l. Qed.
Lemma add_0_l x : dqadd (RD hzero hzero) x = x.
Proof. destruct x as [[[] ?] [[] ?]]. unfold dqadd, hadd, vadd, hzero, vzero. cbn. now rewrite !Rplus_0_l. Qed.
Lemma add_0_r x : dqadd x (RD hzero hzero) = x.
Proof. destruct x as [[[] ?] [[] ?]]. unfold dqadd, hadd, vadd, hzero, vzero. cbn. now rewrite !Rplus_0_r. Qed.

(** ** The values *)
Section Unique.
  Context (m : list rdq).

  Lemma eight s v : svd_spec m s v -> exists a b c d e f g h, v = [a; b; c; d; e; f; g; h].
  Proof.
    intros SP. pose proof (svd_rows _ _ _ SP) as L.
    destruct v as [|a [|b [|c [|d [|e [|f [|g [|h [|]]]]]]]]]; try discriminate L. now exists a, b, c, d, e, f, g, h.
  Qed.
  Lemma gram_swap a b : gram m a b = gram m b a.
  Proof. induction m as [|r k IH]; cbn [gram fold_right]; [easy|]. fold (gram k a b). fold (gram k b a). rewrite IH. ring. Qed.
  Lemma coeff s v y i w : svd_spec m s v -> nth_error v i = Some w -> gram m y w = dot8 y w * (nth i s 0 * nth i s 0).
  Proof.
    intros SP I. destruct (eight s v SP) as (a & b & c & d & e & f & g & h & ->).
    rewrite (svd_basis _ _ _ SP y) at 1. cbn [map dqsum fold_right]. rewrite !gram_add, !gram_scale, gram_0.
    assert (O : forall j u, nth_error [a; b; c; d; e; f; g; h] j = Some u -> gram m u w = if Nat.eqb j i then nth i s 0 * nth i s 0 else 0).
    { intros j u J. destruct (Nat.eqb_spec j i) as [->|N].
      - assert (u = w) by congruence. subst u. now apply (svd_values _ _ _ SP).
      - now apply (svd_orthogonal _ _ _ SP j i). }
    rewrite (O 0%nat a), (O 1%nat b), (O 2%nat c), (O 3%nat d), (O 4%nat e), (O 5%nat f), (O 6%nat g), (O 7%nat h) by reflexivity.
    do 8 (destruct i as [|i]; [cbn [nth_error] in I; injection I as <-; cbn [Nat.eqb]; ring|]). now destruct i.
  Qed.
  Definition energy s (v : list rdq) y : R := fold_right Rplus 0 (map (fun p => dot8 y (snd p) * dot8 y (snd p) * (nth (fst p) s 0 * nth (fst p) s 0)) (combine (seq 0 8) v)).
  Lemma gram_energy s v y : svd_spec m s v -> gram m y y = energy s v y.
  Proof.
    intros SP. destruct (eight s v SP) as (a & b & c & d & e & f & g & h & E).
    rewrite (svd_basis _ _ _ SP y) at 1. unfold energy. rewrite E at 1 2. cbn [map dqsum fold_right combine seq fst snd]. rewrite !gram_add, !gram_scale, gram_0.
    assert (O : forall j u, nth_error v j = Some u -> gram m u y = dot8 y u * (nth j s 0 * nth j s 0)).
    { intros j u J. rewrite gram_swap. now apply (coeff s v). }
    rewrite E in O.
    rewrite (O 0%nat a), (O 1%nat b), (O 2%nat c), (O 3%nat d), (O 4%nat e), (O 5%nat f), (O 6%nat g), (O 7%nat h) by reflexivity. ring.
  Qed.
  Lemma length_energy s v y : svd_spec m s v -> dot8 y y = fold_right Rplus 0 (map (fun p => dot8 y (snd p) * dot8 y (snd p)) (combine (seq 0 8) v)).
  Proof.
    intros SP. destruct (eight s v SP) as (a & b & c & d & e & f & g & h & E).
    rewrite (svd_basis _ _ _ SP y) at 2. rewrite E. cbn [map dqsum fold_right combine seq fst snd]. rewrite !dot8_add, !dot8_scale, dot8_zero. ring.
  Qed.
  Lemma sum_le {A} (f g : A -> R) l : (forall x, In x l -> f x <= g x) -> fold_right Rplus 0 (map f l) <= fold_right Rplus 0 (map g l).
  Proof. induction l as [|x l IH]; intros H; cbn [map fold_right]; [lra|]. pose proof (H x (or_introl eq_refl)). pose proof (IH (fun y I => H y (or_intror I))). lra. Qed.
  Lemma sum_scale {A} k (f : A -> R) l : k * fold_right Rplus 0 (map f l) = fold_right Rplus 0 (map (fun x => f x * k) l).
  Proof. induction l as [|x l IH]; cbn [map fold_right]; [ring|]. rewrite <- IH. ring. Qed.
  Lemma in_indexed (v : list rdq) n k j w : In (j, w) (combine (seq k n) v) -> nth_error v (j - k) = Some w /\ (k <= j)%nat.
  Proof.
    revert n k. induction v as [|x v IH]; intros [|n] k I; try easy. cbn [seq combine] in I. destruct I as [E|I].
    - injection E as -> ->. rewrite Nat.sub_diag. easy.
    - apply IH in I as [I L]. replace (j - k)%nat with (S (j - S k)) by lia. split; [easy|lia].
  Qed.
  Lemma low s v y k : svd_spec m s v -> (forall j w, (k < j)%nat -> nth_error v j = Some w -> dot8 y w = 0) ->
    nth k s 0 * nth k s 0 * dot8 y y <= gram m y y.
  Proof.
    intros SP Z. rewrite (gram_energy s v y SP), (length_energy s v y SP), sum_scale. apply sum_le. intros [j w] I. cbn [fst snd].
    apply in_indexed in I as [I _]. rewrite Nat.sub_0_r in I. destruct (Nat.le_gt_cases j k) as [L|L].
    - pose proof (svd_sorted _ _ _ SP j k L). pose proof (svd_nonneg _ _ _ SP k). apply Rmult_le_compat_l; [apply Rle_0_sqr|]. now apply Rmult_le_compat.
    - rewrite (Z j w L I). lra.
  Qed.
  Lemma high s v y k : svd_spec m s v -> (forall j w, (j < k)%nat -> nth_error v j = Some w -> dot8 y w = 0) ->
    gram m y y <= nth k s 0 * nth k s 0 * dot8 y y.
  Proof.
    intros SP Z. rewrite (gram_energy s v y SP), (length_energy s v y SP), sum_scale. apply sum_le. intros [j w] I. cbn [fst snd].
    apply in_indexed in I as [I _]. rewrite Nat.sub_0_r in I. destruct (Nat.le_gt_cases k j) as [L|L].
    - pose proof (svd_sorted _ _ _ SP k j L). pose proof (svd_nonneg _ _ _ SP j). apply Rmult_le_compat_l; [apply Rle_0_sqr|]. now apply Rmult_le_compat.
    - rewrite (Z j w L I). lra.
  Qed.
  Lemma value_le s v s' v' k : svd_spec m s v -> svd_spec m s' v' -> nth k s 0 <= nth k s' 0.
  Proof.
    intros SP SP'. destruct (Nat.le_gt_cases 8 k) as [L|L].
    { rewrite !nth_overflow; [lra| |]; [rewrite (svd_count _ _ _ SP')|rewrite (svd_count _ _ _ SP)]; lia. }
    pose proof (svd_rows _ _ _ SP) as R1. pose proof (svd_rows _ _ _ SP') as R2.
    destruct (orthogonal_exists (skipn (S k) v ++ firstn k v')) as (y & P & O).
    { rewrite app_length, skipn_length, firstn_length. lia. }
    assert (H1 : nth k s 0 * nth k s 0 * dot8 y y <= gram m y y).
    { apply (low s v); [easy|]. intros j w J W. rewrite dot8_sym. apply O. apply in_or_app. left.
      apply (nth_error_In _ (j - S k)). rewrite <- W. rewrite <- (firstn_skipn (S k) v) at 2. rewrite nth_error_app2; rewrite firstn_length_le by lia; [easy|lia]. }
    assert (H2 : gram m y y <= nth k s' 0 * nth k s' 0 * dot8 y y).
    { apply (high s' v'); [easy|]. intros j w J W. rewrite dot8_sym. apply O. apply in_or_app. right.
      apply (nth_error_In _ j). rewrite <- W. rewrite <- (firstn_skipn k v') at 2. rewrite nth_error_app1; [easy|]. rewrite firstn_length_le by lia. lia. }
    pose proof (svd_nonneg _ _ _ SP k). pose proof (svd_nonneg _ _ _ SP' k).
    assert (H3 : nth k s 0 * nth k s 0 <= nth k s' 0 * nth k s' 0) by (apply (Rmult_le_reg_r (dot8 y y)); lra).
    apply Rsqr_incr_0; unfold Rsqr; easy.
  Qed.
  Lemma values_unique s v s' v' : svd_spec m s v -> svd_spec m s' v' -> s' = s.
  Proof.
    intros SP SP'. apply (nth_ext _ _ 0 0).
    - now rewrite (svd_count _ _ _ SP), (svd_count _ _ _ SP').
    - intros k _. apply Rle_antisym; eauto using value_le.
  Qed.
  (** ** The vectors of simple values *)
  Lemma vector_unique s v v' k w w' : svd_spec m s v -> svd_spec m s v' -> nth_error v k = Some w -> nth_error v' k = Some w' ->
    (forall j, (j < 8)%nat -> j <> k -> nth j s 0 <> nth k s 0) -> w' = w \/ w' = dqneg w.
  Proof.
    intros SP SP' W W' SIMPLE.
    assert (Z : forall j u, nth_error v j = Some u -> j <> k -> dot8 w' u = 0).
    { intros j u J N. pose proof (coeff s v w' j u SP J) as E1. pose proof (coeff s v' u k w' SP' W') as E2.
      rewrite gram_swap in E2. rewrite (dot8_sym u) in E2.
      assert (J8 : (j < 8)%nat) by (rewrite <- (svd_rows _ _ _ SP); apply nth_error_Some; congruence).
      specialize (SIMPLE j J8 N). pose proof (svd_nonneg _ _ _ SP j). pose proof (svd_nonneg _ _ _ SP k).
      assert (E : dot8 w' u * ((nth j s 0 - nth k s 0) * (nth j s 0 + nth k s 0)) = 0) by lra.
      apply Rmult_integral in E as [E|E]; [easy|]. apply Rmult_integral in E as [E|E]; exfalso; apply SIMPLE; lra. }
    assert (N1 : dot8 w' w' = 1) by (pose proof (svd_orthonormal _ _ _ SP' k k w' w' W' W') as X; now rewrite Nat.eqb_refl in X).
    assert (N2 : dot8 w w = 1) by (pose proof (svd_orthonormal _ _ _ SP k k w w W W) as X; now rewrite Nat.eqb_refl in X).
    assert (B : w' = dqscale (dot8 w' w) w).
    { rewrite (svd_basis _ _ _ SP w') at 1. destruct (eight s v SP) as (a & b & c & d & e & f & g & h & E). rewrite E in Z, W |- *.
      cbn [map dqsum fold_right].
      do 8 (destruct k as [|k]; [cbn [nth_error] in W; injection W as <-;
        rewrite ?(Z 0%nat a), ?(Z 1%nat b), ?(Z 2%nat c), ?(Z 3%nat d), ?(Z 4%nat e), ?(Z 5%nat f), ?(Z 6%nat g), ?(Z 7%nat h) by easy;
        rewrite ?scale_0, ?add_0_l, ?add_0_r; easy|]). now destruct k. }
    set (t := dot8 w' w) in *. rewrite B in N1. rewrite dot8_scale, dot8_sym, dot8_scale, N2 in N1.
    assert (T : (t - 1) * (t + 1) = 0) by lra. apply Rmult_integral in T as [T|T]; [left|right]; rewrite B.
    - replace t with 1 by lra. clear. destruct w as [[[] ?] [[] ?]]. unfold dqscale, hscale, vscale. cbn. now rewrite !Rmult_1_l.
    - replace t with (-1) by lra. clear. destruct w as [[[] ?] [[] ?]]. unfold dqscale, hscale, dqneg, hneg, vscale. cbn. repeat f_equal; ring.
  Qed.
End Unique.
