(** * Perturbation of the two null vectors the calibration is built from. *)

From Coq Require Import Reals ZArith Bool List Lra Lia Psatz.
From Flocq Require Import Core.
From Verif Require Import Num Py XReal XFacts Quat DualQuat HandEye Spec Embed QuatFacts QuatTrig
  QuatRot DualFacts ScrewFacts ListFacts HandEyeFacts KernelFacts CalibFacts FloatQuat StabilityFacts PropEval.
Import ListNotations.
Local Open Scope R_scope.

Lemma gram_sym m a b : gram m a b = gram m b a.
Proof. induction m as [|r m IH]; cbn [gram fold_right]; [easy|]. fold (gram m a b). fold (gram m b a). rewrite IH. ring. Qed.
Definition dqsub (a b : rdq) : rdq := dqadd a (dqscale (-1) b).

Lemma zero_sum (c f : rdq -> R) l : (forall j b, nth_error l j = Some b -> f b = 0) ->
  fold_right (fun b acc => c b * f b + acc) 0 l = 0.
Proof.
  induction l as [|b l IH]; intros H; [easy|]. cbn [fold_right]. rewrite (H 0%nat b eq_refl), IH; [ring|].
  intros j d E. exact (H (S j) d E).
Qed.
Lemma pick (c f : rdq -> R) l : forall i a, nth_error l i = Some a ->
  (forall j b, j <> i -> nth_error l j = Some b -> f b = 0) ->
  fold_right (fun b acc => c b * f b + acc) 0 l = c a * f a.
Proof.
  induction l as [|b l IH]; intros i a E H; [destruct i; discriminate|]. cbn [fold_right]. destruct i as [|i].
  - injection E as <-. rewrite zero_sum; [ring|]. intros j d N. exact (H (S j) d ltac:(discriminate) N).
  - rewrite (H 0%nat b ltac:(discriminate) eq_refl), (IH i a E); [ring|]. intros j d NE N. apply (H (S j) d); [congruence|exact N].
Qed.
Lemma gram_combination m (c : rdq -> R) l z :
  gram m (dqsum (map (fun b => dqscale (c b) b) l)) z = fold_right (fun b acc => c b * gram m b z + acc) 0 l.
Proof. induction l as [|b l IH]; [apply gram_0|]. cbn [map dqsum fold_right]. fold (dqsum (map (fun b => dqscale (c b) b) l)). now rewrite gram_add, gram_scale, IH. Qed.
Lemma dot8_combination (c : rdq -> R) l z :
  dot8 z (dqsum (map (fun b => dqscale (c b) b) l)) = fold_right (fun b acc => c b * dot8 z b + acc) 0 l.
Proof. induction l as [|b l IH]; [apply dot8_zero|]. cbn [map dqsum fold_right]. fold (dqsum (map (fun b => dqscale (c b) b) l)). now rewrite dot8_add, dot8_scale, IH. Qed.

(** The part of k outside the span of the last two right singular vectors is small if the matrix
    nearly annihilates k and the sixth singular value is not small. *)
Lemma svd_gap m s v sg k v7 v8 : svd_spec m s v -> 0 <= sg -> sg <= nth 5 s 0 ->
  nth_error v 6 = Some v7 -> nth_error v 7 = Some v8 ->
  exists r, k = dqadd (dqadd (dqscale (dot8 k v7) v7) (dqscale (dot8 k v8) v8)) r /\
    sg * sg * dot8 r r <= gram m k k.
Proof.
  intros SV S0 S5 E7 E8. pose proof (svd_rows _ _ _ SV) as L.
  destruct v as [|w0 [|w1 [|w2 [|w3 [|w4 [|w5 [|w6 [|w7 [|? ?]]]]]]]]]; try discriminate L. clear L.
  injection E7 as ->. injection E8 as ->.
  set (w := [w0; w1; w2; w3; w4; w5; v7; v8]) in *. set (u := [w0; w1; w2; w3; w4; w5]).
  assert (B : k = dqsum (map (fun b => dqscale (dot8 k b) b) w)) by apply (svd_basis _ _ _ SV k).
  set (r := dqsum (map (fun b => dqscale (dot8 k b) b) u)).
  exists r. split.
  { rewrite B at 1. unfold r, w, u. clear. cbn [map].
    generalize (dot8 k w0), (dot8 k w1), (dot8 k w2), (dot8 k w3), (dot8 k w4), (dot8 k w5), (dot8 k v7), (dot8 k v8).
    intros. cbn [dqsum fold_right].
    destruct w0 as [[[] ?] [[] ?]], w1 as [[[] ?] [[] ?]], w2 as [[[] ?] [[] ?]], w3 as [[[] ?] [[] ?]],
      w4 as [[[] ?] [[] ?]], w5 as [[[] ?] [[] ?]], v7 as [[[] ?] [[] ?]], v8 as [[[] ?] [[] ?]].
    apply rdq_eq; apply rq_eq; specu; ring. }
  assert (G : forall i a, nth_error w i = Some a -> gram m a k = dot8 k a * (nth i s 0 * nth i s 0)).
  { intros i a H. rewrite gram_sym. rewrite B at 1. rewrite gram_combination, (pick (dot8 k) (fun b => gram m b a) w i a H).
    - now rewrite (svd_values _ _ _ SV i a H).
    - intros j b NE E. exact (svd_orthogonal _ _ _ SV j i b a E H NE). }
  assert (D : forall i a, nth_error u i = Some a -> dot8 r a = dot8 k a).
  { intros i a H. rewrite dot8_sym. unfold r. rewrite dot8_combination, (pick (dot8 k) (fun b => dot8 a b) u i a H).
    - assert (H' : nth_error w i = Some a).
      { unfold u, w in *. do 6 (destruct i as [|i]; [exact H|]). destruct i; discriminate H. }
      rewrite (svd_orthonormal _ _ _ SV i i a a H' H'), Nat.eqb_refl. ring.
    - intros j b NE E.
      assert (X : forall n c, nth_error u n = Some c -> nth_error w n = Some c).
      { clear. intros i a H. unfold u, w in *. do 6 (destruct i as [|i]; [exact H|]). destruct i; discriminate H. }
      rewrite (svd_orthonormal _ _ _ SV i j a b (X _ _ H) (X _ _ E)).
      destruct (Nat.eqb_spec i j); [congruence|easy]. }
  assert (RR : dot8 r r = fold_right (fun b acc => dot8 k b * dot8 r b + acc) 0 u) by (unfold r at 2; apply dot8_combination).
  assert (GG : gram m k k = fold_right (fun b acc => dot8 k b * gram m b k + acc) 0 w).
  { rewrite <- gram_combination, <- B. reflexivity. }
  unfold u in RR. cbn [fold_right] in RR.
  rewrite (D 0%nat w0), (D 1%nat w1), (D 2%nat w2), (D 3%nat w3), (D 4%nat w4), (D 5%nat w5) in RR by reflexivity.
  unfold w in GG. cbn [fold_right] in GG.
  rewrite (G 0%nat w0), (G 1%nat w1), (G 2%nat w2), (G 3%nat w3), (G 4%nat w4), (G 5%nat w5), (G 6%nat v7), (G 7%nat v8) in GG by reflexivity.
  assert (Q : forall i, (i <= 5)%nat -> forall c, sg * sg * (c * c) <= c * (c * (nth i s 0 * nth i s 0))).
  { intros i Hi c. pose proof (svd_sorted _ _ _ SV i 5 Hi) as H. assert (sg * sg <= nth i s 0 * nth i s 0) by (apply Rmult_le_compat; lra).
    pose proof (Rle_0_sqr c) as C. unfold Rsqr in C. replace (c * (c * (nth i s 0 * nth i s 0))) with (nth i s 0 * nth i s 0 * (c * c)) by ring.
    now apply Rmult_le_compat_r. }
  assert (P : forall i c, 0 <= c * (c * (nth i s 0 * nth i s 0))).
  { intros i c. replace (c * (c * (nth i s 0 * nth i s 0))) with (Rsqr (c * nth i s 0)) by (unfold Rsqr; ring). apply Rle_0_sqr. }
  rewrite RR, GG.
  pose proof (Q 0%nat ltac:(lia) (dot8 k w0)). pose proof (Q 1%nat ltac:(lia) (dot8 k w1)). pose proof (Q 2%nat ltac:(lia) (dot8 k w2)).
  pose proof (Q 3%nat ltac:(lia) (dot8 k w3)). pose proof (Q 4%nat ltac:(lia) (dot8 k w4)). pose proof (Q 5%nat ltac:(lia) (dot8 k w5)).
  pose proof (P 6%nat (dot8 k v7)). pose proof (P 7%nat (dot8 k v8)). lra.
Qed.


Lemma hdot_le p q : Rabs (hdot p q) <= hnorm p * hnorm q.
Proof.
  pose proof (hdot_cs p q) as H. rewrite <- !hnorm_sqr in H. pose proof (hnorm_pos p) as A. pose proof (hnorm_pos q) as B.
  assert (C : 0 <= hnorm p * hnorm q) by now apply Rmult_le_pos.
  rewrite <- (Rabs_pos_eq _ C). apply Rsqr_le_abs_0. unfold Rsqr. lra.
Qed.
Lemma hdot_le2 p q a b : hnorm p <= a -> hnorm q <= b -> Rabs (hdot p q) <= a * b.
Proof.
  intros A B. eapply Rle_trans; [apply hdot_le|]. apply Rmult_le_compat; try assumption; apply hnorm_pos.
Qed.
Lemma norm_of_sqr p d : 0 <= d -> hnorm2 p <= d * d -> hnorm p <= d.
Proof. intros D H. unfold hnorm. rewrite <- (sqrt_square d D). now apply sqrt_le_1_alt. Qed.
Lemma parts_le r d : 0 <= d -> dot8 r r <= d * d -> hnorm (dr r) <= d /\ hnorm (dd r) <= d.
Proof.
  intros D H. unfold dot8 in H. fold (hnorm2 (dr r)) in H. fold (hnorm2 (dd r)) in H.
  pose proof (hnorm2_pos (dr r)). pose proof (hnorm2_pos (dd r)).
  split; apply norm_of_sqr; lra.
Qed.
Lemma norm_two a b p q d : hnorm p <= d -> hnorm q <= d ->
  hnorm (hadd (hscale a p) (hscale b q)) <= d * (Rabs a + Rabs b).
Proof.
  intros P Q. eapply Rle_trans; [apply hnorm_triangle|]. rewrite !hnorm_scale_abs.
  pose proof (Rmult_le_compat_l _ _ _ (Rabs_pos a) P). pose proof (Rmult_le_compat_l _ _ _ (Rabs_pos b) Q). lra.
Qed.

(** the numbers: m, n the coefficients along the true calibration and along the screw displacement *)
Lemma small_case m n L d E : 0 <= m -> 0 <= n -> 0 <= L -> 0 <= d -> d * (1 + L) <= 1 / 100 ->
  E = d * (m + n) -> Rabs (m - 1) <= E -> m * n <= m * E + E * (m * L + n) + E * E -> 8 * d * n <= 1 ->
  n <= 21 / 10 * ((1 + L) * d) /\ E <= 6 / 5 * d.
Proof.
  intros M N L0 D S EQ A B C. apply Rabs_le_inv in A.
  assert (D1 : d <= 1 / 100) by (assert (0 <= d * L) by (apply Rmult_le_pos; lra); lra).
  assert (E0 : 0 <= E) by (rewrite EQ; apply Rmult_le_pos; lra).
  assert (E1 : E <= 137 / 1000).
  { assert (d * m <= d * (1 + E)) by (apply Rmult_le_compat_l; lra). assert (d * E <= 1 / 100 * E) by (apply Rmult_le_compat_r; lra). lra. }
  assert (K : n * (m - E) <= E * (m * (1 + L) + E)) by (replace (E * (m * (1 + L) + E)) with (m * E + E * (m * L) + E * E) by ring; lra).
  assert (K1 : n * (726 / 1000) <= n * (m - E)) by (apply Rmult_le_compat_l; lra).
  assert (K2 : m * (1 + L) + E <= 1274 / 1000 * (1 + L)).
  { assert (m * (1 + L) <= 1137 / 1000 * (1 + L)) by (apply Rmult_le_compat_r; lra). lra. }
  assert (K3 : E * (m * (1 + L) + E) <= E * (1274 / 1000 * (1 + L))) by (apply Rmult_le_compat_l; lra).
  set (w := (1 + L) * d) in *. replace (d * (1 + L)) with w in S by (unfold w; ring).
  assert (W0 : 0 <= w) by (unfold w; apply Rmult_le_pos; lra).
  assert (K4 : E * (1274 / 1000 * (1 + L)) = 1274 / 1000 * (w * m + w * n)) by (rewrite EQ; unfold w; ring).
  assert (w * n <= 1 / 100 * n) by (apply Rmult_le_compat_r; lra).
  assert (w * m <= w * (1137 / 1000)) by (apply Rmult_le_compat_l; lra).
  assert (R : n <= 21 / 10 * w) by lra. split; [exact R|].
  assert (d * (m + n) <= d * (6 / 5)) by (apply Rmult_le_compat_l; lra). lra.
Qed.
Lemma far_case m n L d E : 0 <= m -> 0 <= n -> 0 <= L -> 0 <= d -> d * (1 + L) <= 1 / 100 ->
  E = d * (m + n) -> Rabs (m - 1) <= E -> 1 < 8 * d * n -> 1 <= 10 * d * (n - m * L - E).
Proof.
  intros M N L0 D S EQ A C. apply Rabs_le_inv in A.
  assert (E0 : 0 <= E) by (rewrite EQ; apply Rmult_le_pos; lra).
  assert (D1 : d <= 1 / 100) by (assert (0 <= d * L) by (apply Rmult_le_pos; lra); lra).
  assert (dm : d * m <= d * (1 + E)) by (apply Rmult_le_compat_l; lra).
  assert (dE : d * E <= 1 / 100 * E) by (apply Rmult_le_compat_r; lra).
  assert (E1 : E <= 102 / 100 * (d + d * n)).
  { assert (0 <= d * n) by now apply Rmult_le_pos. lra. }
  assert (X : m * L + E <= L + (1 + L) * E).
  { assert (m * L <= (1 + E) * L) by (apply Rmult_le_compat_r; lra). lra. }
  assert (Y : (1 + L) * E <= 102 / 100 * (1 / 100) * (1 + n)).
  { assert (H : (1 + L) * E <= (1 + L) * (102 / 100 * (d + d * n))) by (apply Rmult_le_compat_l; lra).
    replace ((1 + L) * (102 / 100 * (d + d * n))) with (102 / 100 * ((d * (1 + L)) * (1 + n))) in H by ring.
    assert ((d * (1 + L)) * (1 + n) <= 1 / 100 * (1 + n)) by (apply Rmult_le_compat_r; lra). lra. }
  assert (Z : d * (98 / 100 * n - (1 + L)) <= d * (n - m * L - E)).
  { apply Rmult_le_compat_l; lra. }
  assert (d * (98 / 100 * n - (1 + L)) = 98 / 100 * (d * n) - d * (1 + L)) by ring. lra.
Qed.

(** ** Two vectors near the true calibration and near its screw displacement *)
Definition comb (a b : R) (p q : rdq) : rdq := dqadd (dqscale a p) (dqscale b q).
Definition shift (x : rdq) : rdq := RD hzero (dr x).

Section Perturbed.
  Context (x v7 v8 r1 r2 : rdq) (a1 b1 a2 b2 d : R).
  Context (U : unitdq x) (D0 : 0 <= d) (S : d * (1 + hnorm (dd x)) <= 1 / 100).
  Context (P1 : x = dqadd (comb a1 b1 v7 v8) r1) (P2 : shift x = dqadd (comb a2 b2 v7 v8) r2).
  Context (R1 : dot8 r1 r1 <= d * d) (R2 : dot8 r2 r2 <= d * d).
  Let L := hnorm (dd x).

  Lemma at_coeffs mu nu : let z := comb (mu * a1 + nu * a2) (mu * b1 + nu * b2) v7 v8 in
    let E := d * (Rabs mu + Rabs nu) in
    exists er ed, dr z = hsub (hscale mu (dr x)) er /\
      dd z = hsub (hadd (hscale mu (dd x)) (hscale nu (dr x))) ed /\ hnorm er <= E /\ hnorm ed <= E /\
      Rabs (hdot (dr z) (dd z) - mu * nu) <= Rabs mu * E + E * (Rabs mu * L + Rabs nu) + E * E.
  Proof.
    intros z E. destruct (parts_le r1 d D0 R1) as [A1 B1]. destruct (parts_le r2 d D0 R2) as [A2 B2].
    set (er := hadd (hscale mu (dr r1)) (hscale nu (dr r2))). set (ed := hadd (hscale mu (dd r1)) (hscale nu (dd r2))).
    exists er, ed.
    assert (Er : hnorm er <= E) by now apply norm_two. assert (Ed : hnorm ed <= E) by now apply norm_two.
    assert (X1 : dr x = hadd (dr (comb a1 b1 v7 v8)) (dr r1)) by (rewrite P1 at 1; reflexivity).
    assert (X2 : dd x = hadd (dd (comb a1 b1 v7 v8)) (dd r1)) by (rewrite P1 at 1; reflexivity).
    assert (X3 : hzero = hadd (dr (comb a2 b2 v7 v8)) (dr r2)) by (change hzero with (dr (shift x)); rewrite P2 at 1; reflexivity).
    assert (X4 : dr x = hadd (dd (comb a2 b2 v7 v8)) (dd r2)) by (change (dr x) with (dd (shift x)); rewrite P2 at 1; reflexivity).
    assert (Z1 : dr z = hsub (hscale mu (dr x)) er).
    { transitivity (hsub (hadd (hscale mu (dr x)) (hscale nu hzero)) er).
      - rewrite X1, X3. unfold z, er, comb. cbn [dqadd dqscale dr dd].
        destruct (dr v7) as [[] ?], (dr v8) as [[] ?], (dr r1) as [[] ?], (dr r2) as [[] ?]. apply rq_eq; specu; ring.
      - destruct (dr x) as [[] ?], er as [[] ?]. apply rq_eq; specu; ring. }
    assert (Z2 : dd z = hsub (hadd (hscale mu (dd x)) (hscale nu (dr x))) ed).
    { rewrite X2, X4. unfold z, ed, comb. cbn [dqadd dqscale dr dd].
      destruct (dd v7) as [[] ?], (dd v8) as [[] ?], (dd r1) as [[] ?], (dd r2) as [[] ?]. apply rq_eq; specu; ring. }
    split; [exact Z1|]. split; [exact Z2|]. split; [exact Er|]. split; [exact Ed|].
    rewrite Z1, Z2. destruct U as [U1 U2]. assert (UN : hnorm (dr x) = 1) by now apply unit_hnorm. unfold unitq, hnorm2 in U1.
    replace (hdot (hsub (hscale mu (dr x)) er) (hsub (hadd (hscale mu (dd x)) (hscale nu (dr x))) ed) - mu * nu)
      with (mu * nu * (hdot (dr x) (dr x) - 1) + mu * mu * hdot (dr x) (dd x) - mu * hdot (dr x) ed
            - hdot er (hadd (hscale mu (dd x)) (hscale nu (dr x))) + hdot er ed).
    2:{ clear. destruct (dr x) as [[] ?], (dd x) as [[] ?], er as [[] ?], ed as [[] ?]. specu. ring. }
    rewrite U1, U2. replace (mu * nu * (1 - 1) + mu * mu * 0) with 0 by ring.
    assert (T1 : Rabs (mu * hdot (dr x) ed) <= Rabs mu * E).
    { rewrite Rabs_mult. apply Rmult_le_compat_l; [apply Rabs_pos|].
      eapply Rle_trans; [apply hdot_le2; [right; exact UN|exact Ed]|lra]. }
    assert (T2 : Rabs (hdot er (hadd (hscale mu (dd x)) (hscale nu (dr x)))) <= E * (Rabs mu * L + Rabs nu)).
    { apply hdot_le2; [exact Er|]. eapply Rle_trans; [apply hnorm_triangle|]. rewrite !hnorm_scale_abs, UN. unfold L. lra. }
    assert (T3 : Rabs (hdot er ed) <= E * E) by now apply hdot_le2.
    apply Rabs_le_inv in T1. apply Rabs_le_inv in T2. apply Rabs_le_inv in T3. apply Rabs_le. lra.
  Qed.

  Lemma d_small : d <= 1 / 100.
  Proof. pose proof (hnorm_pos (dd x)). assert (0 <= d * hnorm (dd x)) by now apply Rmult_le_pos. lra. Qed.

  Lemma both_signs : let z1 := comb (a1 + a2) (b1 + b2) v7 v8 in let z2 := comb (a1 - a2) (b1 - b2) v7 v8 in
    0 < hdot (dr z1) (dd z1) /\ hdot (dr z2) (dd z2) < 0.
  Proof.
    intros z1 z2. pose proof d_small as DS. pose proof (hnorm_pos (dd x)) as L0. fold L in L0.
    destruct (at_coeffs 1 1) as (_ & _ & _ & _ & _ & _ & B1). destruct (at_coeffs 1 (-1)) as (_ & _ & _ & _ & _ & _ & B2).
    replace (comb (1 * a1 + 1 * a2) (1 * b1 + 1 * b2) v7 v8) with z1 in B1 by (unfold z1; f_equal; ring).
    replace (comb (1 * a1 + -1 * a2) (1 * b1 + -1 * b2) v7 v8) with z2 in B2 by (unfold z2; f_equal; ring).
    assert (G : Rabs 1 * (d * (1 + 1)) + d * (1 + 1) * (Rabs 1 * L + 1) + d * (1 + 1) * (d * (1 + 1)) <= 1 / 10).
    { rewrite Rabs_R1. assert (d * d <= d * (1 / 100)) by (apply Rmult_le_compat_l; lra). fold L in S. lra. }
    replace (Rabs (-1)) with 1 in B2 by (rewrite Rabs_left; lra). rewrite Rabs_R1 in *. apply Rabs_le_inv in B1. apply Rabs_le_inv in B2. lra.
  Qed.

  Lemma independent : a1 * b2 - a2 * b1 <> 0.
  Proof.
    intros Z. pose proof both_signs as [H1 H2]. cbv zeta in *.
    (* the four coefficients are proportional: then the form has the same sign at both vectors *)
    assert (Q : forall a b, hdot (dr (comb a b v7 v8)) (dd (comb a b v7 v8)) = a * a * qa v7 v8 + a * b * qb v7 v8 + b * b * qc v7 v8).
    { intros. unfold comb, qa, qb, qc. destruct v7 as [[[] ?] [[] ?]], v8 as [[[] ?] [[] ?]]. specu; ring. }
    rewrite Q in H1, H2. set (A := a1 + a2) in *. set (B := b1 + b2) in *. set (A' := a1 - a2) in *. set (B' := b1 - b2) in *.
    assert (P : A * B' = A' * B) by (unfold A, B, A', B'; lra).
    set (ka := qa v7 v8) in *. set (kb := qb v7 v8) in *. set (kc := qc v7 v8) in *.
    destruct (Req_dec A 0) as [ZA|NA].
    - rewrite ZA in *. destruct (Req_dec B 0) as [ZB|NB]; [rewrite ZB in H1; lra|].
      assert (A' = 0). { assert (W : A' * B = 0) by lra. apply Rmult_integral in W. tauto. }
      rewrite H in H2. assert (K : 0 < kc) by nra. assert (0 <= B' * B' * kc) by (apply Rmult_le_pos; [apply Rle_0_sqr|lra]). lra.
    - assert (E : (A' * A' * ka + A' * B' * kb + B' * B' * kc) * (A * A) = (A * A * ka + A * B * kb + B * B * kc) * (A' * A')).
      { replace ((A' * A' * ka + A' * B' * kb + B' * B' * kc) * (A * A)) with (A' * A' * A * A * ka + A' * A * (A * B') * kb + (A * B') * (A * B') * kc) by ring.
        rewrite P. ring. }
      assert (0 < A * A) by (apply Rsqr_pos_lt; exact NA). assert (0 <= A' * A') by apply Rle_0_sqr.
      assert (0 <= (A * A * ka + A * B * kb + B * B * kc) * (A' * A')) by (apply Rmult_le_pos; lra).
      assert ((A' * A' * ka + A' * B' * kb + B' * B' * kc) * (A * A) < 0) by (apply Ropp_lt_cancel; rewrite Ropp_0, Ropp_mult_distr_l; apply Rmult_lt_0_compat; lra). lra.
  Qed.

  Lemma real_root : qa v7 v8 <> 0 -> exists t, let y := dqadd (dqscale t v7) v8 in hdot (dr y) (dd y) = 0.
  Proof.
    intros NA. exists (root v7 v8). cbv zeta. rewrite quad_at. apply root_solves; [exact NA|].
    destruct (Rle_lt_dec 0 (disc v7 v8)) as [|N]; [easy|exfalso].
    pose proof both_signs as [H1 H2]. cbv zeta in *.
    assert (Q : forall a b, 4 * qa v7 v8 * hdot (dr (comb a b v7 v8)) (dd (comb a b v7 v8))
              = (2 * qa v7 v8 * a + qb v7 v8 * b) * (2 * qa v7 v8 * a + qb v7 v8 * b) - disc v7 v8 * (b * b)).
    { intros. unfold comb, disc, qa, qb, qc. destruct v7 as [[[] ?] [[] ?]], v8 as [[[] ?] [[] ?]]. specu; ring. }
    assert (POS : forall a b, 0 <= 4 * qa v7 v8 * hdot (dr (comb a b v7 v8)) (dd (comb a b v7 v8))).
    { intros a b. rewrite Q. pose proof (Rle_0_sqr (2 * qa v7 v8 * a + qb v7 v8 * b)) as X. pose proof (Rle_0_sqr b) as Y. unfold Rsqr in *.
      assert (0 <= (- disc v7 v8) * (b * b)) by (apply Rmult_le_pos; lra). lra. }
    pose proof (POS (a1 + a2) (b1 + b2)) as X. pose proof (POS (a1 - a2) (b1 - b2)) as Y.
    destruct (Rtotal_order (qa v7 v8) 0) as [G|[G|G]]; [|easy|]; nra.
  Qed.

  Lemma perturbed A B : let y := comb A B v7 v8 in unitdq y ->
    (len3 (vsub (trans_of y) (trans_of x)) <= 14 * (1 + L) * d /\
     (dist (dr y) (dr x) <= 3 * d \/ dist (dr y) (hneg (dr x)) <= 3 * d))
    \/ 1 <= 5 * d * len3 (trans_of y).
  Proof.
    intros y UY. pose proof independent as IND. pose proof d_small as DS. pose proof (hnorm_pos (dd x)) as L0. fold L in L0.
    set (mu := (A * b2 - B * a2) / (a1 * b2 - a2 * b1)). set (nu := (B * a1 - A * b1) / (a1 * b2 - a2 * b1)).
    assert (CA : mu * a1 + nu * a2 = A) by (unfold mu, nu; field; exact IND).
    assert (CB : mu * b1 + nu * b2 = B) by (unfold mu, nu; field; exact IND).
    destruct (at_coeffs mu nu) as (er & ed & Z1 & Z2 & N1 & N2 & Q). rewrite CA, CB in Z1, Z2, Q. fold y in Z1, Z2, Q.
    set (E := d * (Rabs mu + Rabs nu)) in *.
    pose proof U as [U1 U2]. assert (UN : hnorm (dr x) = 1) by now apply unit_hnorm.
    pose proof UY as [V1 V2]. assert (VN : hnorm (dr y) = 1) by now apply unit_hnorm.
    rewrite V2 in Q. replace (0 - mu * nu) with (- (mu * nu)) in Q by ring. rewrite Rabs_Ropp, Rabs_mult in Q.
    assert (M1 : Rabs (Rabs mu - 1) <= E).
    { assert (X : hnorm (hscale mu (dr x)) = Rabs mu) by (rewrite hnorm_scale_abs, UN; ring).
      pose proof (dist_norm (dr y) (hscale mu (dr x))) as T1. pose proof (dist_norm (hscale mu (dr x)) (dr y)) as T2.
      rewrite dist_sym in T2. assert (DE : dist (dr y) (hscale mu (dr x)) <= E).
      { unfold dist. rewrite Z1. replace (hsub (hsub (hscale mu (dr x)) er) (hscale mu (dr x))) with (hneg er) by (destruct er as [[] ?], (dr x) as [[] ?]; apply rq_eq; specu; ring).
        now rewrite hnorm_neg. }
      apply Rabs_le. lra. }
    pose proof (Rabs_pos mu) as MP. pose proof (Rabs_pos nu) as NP.
    assert (TL : forall z, unitdq z -> len3 (trans_of z) = 2 * hnorm (dd z)).
    { intros z [z1 z2]. apply unit_hnorm in z1. replace (hnorm (dd z)) with (hnorm (hmul (dd z) (hconj (dr z)))) by (rewrite hnorm_mul, hnorm_conj, z1; ring).
      rewrite <- hnorm_scale by lra. rewrite len3_pure. f_equal.
      unfold trans_of. apply rq_eq; [reflexivity|reflexivity|reflexivity|].
      transitivity (2 * hdot (dr z) (dd z)); [rewrite z2; cbn; ring|]. destruct (dr z) as [[] ?], (dd z) as [[] ?]. specu. ring. }
    destruct (Rle_lt_dec (8 * d * Rabs nu) 1) as [C|C].
    - left. destruct (small_case (Rabs mu) (Rabs nu) L d E MP NP L0 D0 S eq_refl M1 Q C) as [SN SE].
      assert (ALT : exists s, (s = 1 \/ s = -1) /\ Rabs (mu - s) <= E).
      { apply Rabs_le_inv in M1. destruct (Rle_lt_dec 0 mu) as [G|G].
        - exists 1. split; [now left|]. rewrite (Rabs_pos_eq mu G) in M1. apply Rabs_le. lra.
        - exists (-1). split; [now right|]. rewrite (Rabs_left mu G) in M1. apply Rabs_le. lra. }
      destruct ALT as (s & SS & MS).
      assert (DR : dist (dr y) (hscale s (dr x)) <= 2 * E).
      { unfold dist. rewrite Z1. replace (hsub (hsub (hscale mu (dr x)) er) (hscale s (dr x))) with (hadd (hscale (mu - s) (dr x)) (hneg er)) by (destruct er as [[] ?], (dr x) as [[] ?]; apply rq_eq; specu; ring).
        eapply Rle_trans; [apply hnorm_triangle|]. rewrite hnorm_neg, hnorm_scale_abs, UN. lra. }
      assert (DD : dist (dd y) (hscale s (dd x)) <= 45 / 10 * ((1 + L) * d)).
      { unfold dist. rewrite Z2. replace (hsub (hsub (hadd (hscale mu (dd x)) (hscale nu (dr x))) ed) (hscale s (dd x)))
          with (hadd (hadd (hscale (mu - s) (dd x)) (hscale nu (dr x))) (hneg ed)) by (destruct ed as [[] ?], (dr x) as [[] ?], (dd x) as [[] ?]; apply rq_eq; specu; ring).
        eapply Rle_trans; [apply hnorm_triangle|]. eapply Rle_trans; [apply Rplus_le_compat_r, hnorm_triangle|].
        rewrite hnorm_neg, !hnorm_scale_abs, UN. fold L.
        assert (Rabs (mu - s) * L <= 6 / 5 * d * L) by (apply Rmult_le_compat_r; lra).
        assert (0 <= L * d) by now apply Rmult_le_pos. lra. }
      split.
      + assert (TR : vsub (trans_of y) (trans_of x)
                 = qv (hscale 2 (hadd (hmul (hsub (dd y) (hscale s (dd x))) (hconj (dr y))) (hmul (hscale s (dd x)) (hconj (hsub (dr y) (hscale s (dr x)))))))).
        { assert (S2 : s * s = 1) by (destruct SS as [-> | ->]; ring).
          transitivity (qv (hscale 2 (hsub (hmul (dd y) (hconj (dr y))) (hscale (s * s) (hmul (dd x) (hconj (dr x))))))).
          - rewrite S2. unfold trans_of. destruct (hmul (dd y) (hconj (dr y))) as [[] ?], (hmul (dd x) (hconj (dr x))) as [[] ?]. apply rv_eq; specu; ring.
          - f_equal. f_equal. clear. destruct (dr y) as [[] ?], (dd y) as [[] ?], (dr x) as [[] ?], (dd x) as [[] ?]. apply rq_eq; specu; ring. }
        rewrite TR. eapply Rle_trans; [apply len3_qv|]. rewrite hnorm_scale by lra.
        assert (X : hnorm (hadd (hmul (hsub (dd y) (hscale s (dd x))) (hconj (dr y))) (hmul (hscale s (dd x)) (hconj (hsub (dr y) (hscale s (dr x))))))
                  <= 45 / 10 * ((1 + L) * d) * 1 + L * (2 * E)).
        { eapply Rle_trans; [apply hnorm_triangle|]. rewrite !hnorm_mul, !hnorm_conj, VN, hnorm_scale_abs.
          fold (dist (dd y) (hscale s (dd x))). fold (dist (dr y) (hscale s (dr x))). fold L.
          replace (Rabs s) with 1 by (destruct SS as [-> | ->]; [now rewrite Rabs_R1|rewrite Rabs_left; lra]).
          assert (L * dist (dr y) (hscale s (dr x)) <= L * (2 * E)) by (apply Rmult_le_compat_l; lra). lra. }
        assert (L * (2 * E) <= L * (2 * (6 / 5 * d))) by (apply Rmult_le_compat_l; lra).
        assert (0 <= L * d) by now apply Rmult_le_pos. lra.
      + destruct SS as [-> | ->]; [left|right].
        * replace (hscale 1 (dr x)) with (dr x) in DR by (destruct (dr x) as [[] ?]; apply rq_eq; specu; ring). lra.
        * replace (hscale (-1) (dr x)) with (hneg (dr x)) in DR by (destruct (dr x) as [[] ?]; apply rq_eq; specu; ring). lra.
    - right. pose proof (far_case (Rabs mu) (Rabs nu) L d E MP NP L0 D0 S eq_refl M1 C) as F.
      assert (X : Rabs nu - Rabs mu * L - E <= hnorm (dd y)).
      { pose proof (hnorm_triangle (dd y) (hadd ed (hneg (hscale mu (dd x))))) as T.
        replace (hadd (dd y) (hadd ed (hneg (hscale mu (dd x))))) with (hscale nu (dr x)) in T
          by (rewrite Z2; destruct ed as [[] ?], (dr x) as [[] ?], (dd x) as [[] ?]; apply rq_eq; specu; ring).
        pose proof (hnorm_triangle ed (hneg (hscale mu (dd x)))) as T2. rewrite hnorm_neg in T2. rewrite !hnorm_scale_abs, UN in *. fold L in T2. lra. }
      rewrite (TL y UY). assert (10 * d * (Rabs nu - Rabs mu * L - E) <= 10 * d * hnorm (dd y)) by (apply Rmult_le_compat_l; lra). lra.
  Qed.
End Perturbed.
