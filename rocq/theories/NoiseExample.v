(** * A family of noisy experiments with explicit decompositions (for C95). *)

From Coq Require Import Reals ZArith Bool List Lra Lia Psatz Nsatz.
From Flocq Require Import Core.
From Verif Require Import Num Py XReal XFacts Quat DualQuat HandEye Spec Embed QuatFacts QuatTrig
  QuatRot PropQuat DualFacts ScrewFacts PropDual ListFacts HandEyeFacts KernelFacts CalibFacts CalibExample
  PropCalib PropEval FloatQuat StabilityFacts PropStability PropAccuracy NoiseFacts PropNoise.
Import ListNotations.
Local Open Scope R_scope.

(** the calibration that was measured: no rotation, two metres along the first axis *)
Definition x95 : rdq := RD hone (RQ (RV 1 0 0) 0).

Section Family.
  (* et: size of the noise; the other numbers are square roots *)
  Context (et sj sk ta de wj wk wb f a b c s : R).
  Context (Het : 0 < et <= 1 / 20)
    (Hj : sj * sj = (1 + 2 * et) / 4) (Hk : sk * sk = (1 - 2 * et) / 4) (Ht : ta * ta = (1 - et) / 4) (Hd : de * de = et * (2 - et) / 2)
    (Pj : 0 <= sj) (Pk : 0 <= sk) (Pt : 0 < ta) (Pd : 0 < de)
    (Wj : wj * wj = 1 - sj * sj) (Wk : wk * wk = 1 - sk * sk) (Wb : wb * wb = 1 - de * de)
    (PWj : 0 < wj) (PWk : 0 < wk) (PWb : 0 < wb)
    (Hf : 4 * (ta * de) * f = 2 * et * (1 - et)) (Ha : a * a = 1 / 2) (Hb : b * b * (1 + f * f) = 1) (Pa : 0 < a) (Pb : 0 < b) (Hc : c * c + s * s = 1).
  Let L := 1 - et.

  (* a rotation about the second and one about the third axis, and a translation along the first axis with noise in the
     orientations *)
  Definition l95 : list (rdq * rdq) :=
    [(RD (RQ (RV 0 sj 0) wj) (RQ (RV 0 0 (sj * L)) 0), RD (RQ (RV 0 sj 0) wj) (RQ (RV 0 0 (- (sj * L))) 0));
     (RD (RQ (RV 0 0 sk) wk) (RQ (RV 0 (- (sk * L)) 0) 0), RD (RQ (RV 0 0 sk) wk) (RQ (RV 0 (sk * L) 0) 0));
     (RD (RQ (RV 0 de 0) wb) (RQ (RV ta 0 0) 0), RD (RQ (RV 0 (- de) 0) wb) (RQ (RV ta 0 0) 0))].
  Definition m95 : list rdq := trows ((dqone, dqone) :: l95).

  Definition form (u w u' w' : rq) : R :=
    let x := Spec.v1 (qv u) in let y := Spec.v2 (qv u) in let z := Spec.v3 (qv u) in
    let x1 := Spec.v1 (qv u') in let y1 := Spec.v2 (qv u') in let z1 := Spec.v3 (qv u') in
    let dx := Spec.v1 (qv w) in let dy := Spec.v2 (qv w) in let dz := Spec.v3 (qv w) in
    let dx1 := Spec.v1 (qv w') in let dy1 := Spec.v2 (qv w') in let dz1 := Spec.v3 (qv w') in
    2 * (x * x1) + (2 - 3 * et) * (y * y1) + (2 + et) * (z * z1) + (1 - 2 * et) * (dy * dy1) + (1 + 2 * et) * (dz * dz1)
    + 2 * (qs u * qs u') + 2 * (dx * dx1) - (2 - 2 * et) * (qs u * dx1 + dx * qs u')
    - 4 * (ta * de) * (z * qs w' + qs w * z1) + (4 * et - 2 * et * et) * (qs w * qs w').
  Lemma gram95 p q : gram m95 p q = form (dr p) (dd p) (dr q) (dd q).
  Proof.
    destruct p as [[[x y z] q0] [[dx dy dz] dq]], q as [[[x1 y1 z1] q1] [[dx1 dy1 dz1] dq1]].
    rewrite image_gram. unfold m95, trows, srows, rhalf, l95, form. cbn [flat_map map app combine fold_right fst snd]. specu. cbn [fst snd].
    transitivity (
      4 * (sj * sj) * (x * x1 + z * z1 + dz * dz1 + (L * q0 - dx) * (L * q1 - dx1)) +
      4 * (sk * sk) * (x * x1 + y * y1 + dy * dy1 + (L * q0 - dx) * (L * q1 - dx1)) +
      4 * (de * de) * (q0 * q1 + dq * dq1) + 4 * (ta * ta) * (y * y1 + z * z1) - 4 * (ta * de) * (z * dq1 + dq * z1)).
    - cbn [dr dd qv qs Spec.v1 Spec.v2 Spec.v3]. ring.
    - rewrite Hj, Hk, Hd, Ht. unfold L. cbn [dr dd qv qs Spec.v1 Spec.v2 Spec.v3]. field.
  Qed.
  Definition k95 : rdq := RD (RQ vzero a) (RQ (RV a 0 0) 0).
  Definition j95 : rdq := RD (RQ (RV 0 0 (f * b)) 0) (RQ vzero b).
  Definition v95 : list rdq :=
    [RD (RQ vzero a) (RQ (RV (- a) 0 0) 0); RD (RQ (RV 0 0 b) 0) (RQ vzero (- (f * b))); RD (RQ (RV 1 0 0) 0) hzero;
     RD (RQ (RV 0 1 0) 0) hzero; RD hzero (RQ (RV 0 0 1) 0); RD hzero (RQ (RV 0 1 0) 0); comb c s k95 j95; comb (- s) c k95 j95].
  Definition s95 : list R :=
    [sqrt (4 - 2 * et); sqrt (2 + 3 * et - 2 * et * et); sqrt 2; sqrt (2 - 3 * et); sqrt (1 + 2 * et); sqrt (1 - 2 * et); sqrt (2 * et); sqrt (2 * et)].

  Lemma f_sqr : f * f * (2 - et) = 2 * et * (1 - et).
  Proof.
    assert (K : (4 * (ta * de) * f) * (4 * (ta * de) * f) = (2 * et * (1 - et)) * (2 * et * (1 - et))) by now rewrite Hf.
    replace ((4 * (ta * de) * f) * (4 * (ta * de) * f)) with (16 * (ta * ta) * (de * de) * (f * f)) in K by ring. rewrite Ht, Hd in K.
    apply (Rmult_eq_reg_l (2 * et * (1 - et))); [|apply Rmult_integral_contrapositive; split; lra]. lra.
  Qed.
  Lemma td_f : 4 * (ta * de) = f * (2 - et).
  Proof.
    pose proof f_sqr as K. assert (f <> 0). { intros ->. assert (0 < 2 * et * (1 - et)) by (apply Rmult_lt_0_compat; lra). lra. }
    apply (Rmult_eq_reg_r f); [|easy]. lra.
  Qed.
  Lemma svd95 : svd_spec m95 s95 v95.
  Proof.
    pose proof f_sqr as F. pose proof td_f as G. assert (Ha2 : 2 * (a * a) = 1) by lra.
    constructor.
    - reflexivity.
    - reflexivity.
    - intros [[[x y z] q] [[dx dy dz] dq]]. unfold v95, k95, j95, comb, dqsum. cbn [map fold_right].
      apply rdq_eq; apply rq_eq; specu; cbn [fst snd]; clear - Ha2 Hb Hc; nsatz.
    - intros i j vi vj Hi Hj'. unfold v95, k95, j95, comb in *.
      idx i Hi; idx j Hj'; cbn [Nat.eqb]; specu; clear - Ha2 Hb Hc; nsatz.
    - intros i j vi vj Hi Hj' NE. rewrite gram95. unfold v95, k95, j95, comb in *.
      idx i Hi; idx j Hj'; try (now destruct NE); unfold form; specu; cbn [dr dd qv qs Spec.v1 Spec.v2 Spec.v3]; rewrite G; clear - Ha2 Hb Hc F; nsatz.
    - intros i vi Hi. rewrite gram95. unfold v95, k95, j95, comb, s95 in *.
      assert (E2 : 0 <= et * et <= et / 20) by (split; [apply Rle_0_sqr|]; replace (et / 20) with (et * (1 / 20)) by field; apply Rmult_le_compat_l; lra).
      idx i Hi; cbn [List.nth]; rewrite sqrt_sqrt by lra; unfold form; specu; cbn [dr dd qv qs Spec.v1 Spec.v2 Spec.v3]; rewrite ?G; clear - Ha2 Hb Hc F; nsatz.
    - intros i. unfold s95. destruct i as [|[|[|[|[|[|[|[|[|i]]]]]]]]]; cbn [List.nth]; try apply sqrt_pos; lra.
    - intros i j H. unfold s95.
      assert (E2 : 0 <= et * et <= et / 20) by (split; [apply Rle_0_sqr|]; replace (et / 20) with (et * (1 / 20)) by field; apply Rmult_le_compat_l; lra).
      destruct j as [|[|[|[|[|[|[|[|[|j]]]]]]]]]; destruct i as [|[|[|[|[|[|[|[|[|i]]]]]]]]];
        cbn [List.nth]; try lia; try apply Rle_refl; try apply sqrt_pos; apply sqrt_le_1_alt; lra.
  Qed.
End Family.
