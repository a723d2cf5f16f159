(** * The matrix of the hand-eye equation and its kernel. *)

From Coq Require Import Reals ZArith Bool List Lra Psatz.
From Verif Require Import Num Py XReal XFacts Quat DualQuat HandEye Spec Embed QuatFacts QuatTrig
  QuatRot DualFacts ScrewFacts ListFacts HandEyeFacts.
Import ListNotations.
Local Open Scope R_scope.

(** ** Rows of S *)
Definition rhalf (a b : rv) : list rq :=
  let s := vadd a b in
  let d := vsub a b in
  [RQ (RV 0 (- v3 s) (v2 s)) (v1 d); RQ (RV (v3 s) 0 (- v1 s)) (v2 d); RQ (RV (- v2 s) (v1 s) 0) (v3 d)].
Definition srows (a b : rdq) : list rdq :=
  let up := rhalf (qv (dr a)) (qv (dr b)) in
  let lo := rhalf (qv (dd a)) (qv (dd b)) in
  map (fun r => RD r hzero) up ++ map (fun p => RD (fst p) (snd p)) (combine lo up).

Lemma s_rows_in a b : s_rows (inD a) (inD b) = map inD (srows a b).
Proof. reflexivity. Qed.


(** the upper half applied to u: (a+b) x u_v + u_w (a-b) *)
Definition up_vec (a b : rv) (u : rq) : rv :=
  vadd (cross3 (vadd a b) (qv u)) (vscale (qs u) (vsub a b)).

Lemma kills_srows a b y : kills (srows a b) y <->
  up_vec (qv (dr a)) (qv (dr b)) (dr y) = vzero /\
  vadd (up_vec (qv (dd a)) (qv (dd b)) (dr y)) (up_vec (qv (dr a)) (qv (dr b)) (dd y)) = vzero.
Proof.
  destruct a as [[[ax ay az] aw] [[a'x a'y a'z] a'w]], b as [[[bx by_ bz] bw] [[b'x b'y b'z] b'w]],
           y as [[[ux uy uz] uw] [[wx wy wz] ww]].
  unfold kills, srows, rhalf, up_vec. cbn [map combine app fst snd].
  split.
  - intros H. do 6 (apply Forall_cons_iff in H; destruct H as [?E H]). specu.
    split; apply rv_eq; simpl; lra.
  - intros [A B]. specu. injection A as A1 A2 A3. injection B as B1 B2 B3.
    repeat (apply Forall_cons; [lra|]). constructor.
Qed.

(** vector part of A u - u B when the scalar parts agree *)
Lemma up_vec_commutator p q u : qs p = qs q ->
  up_vec (qv p) (qv q) u = qv (hsub (hmul p u) (hmul u q)).
Proof.
  intros E. destruct p as [[px py pz] pw], q as [[qx qy qz] qw], u as [[ux uy uz] uw].
  cbn [qs] in E. subst qw. apply rv_eq; unfold up_vec; specu; ring.
Qed.

Lemma hadd_cancel_l p q r : hadd p q = hadd p r -> q = r.
Proof.
  intros E. apply (f_equal (hadd (hneg p))) in E.
  assert (K : forall u, hadd (hneg p) (hadd p u) = u) by (intros; qring).
  now rewrite !K in E.
Qed.
Lemma hsub_zero_iff p q : hsub p q = hzero <-> p = q.
Proof.
  split.
  - destruct p as [[] ?], q as [[] ?]. intros E. specu. injection E; intros. f_equal; [f_equal|]; lra.
  - intros ->. qring.
Qed.

(** Forward direction *)
Lemma kernel_forward a b x : unitdq x -> dqmul a x = dqmul x b ->
  kills (srows a b) x /\ kills (srows a b) (RD hzero (dr x)).
Proof.
  intros U E. destruct (screw_congruence a b x U E) as [E1 E2].
  pose proof (f_equal dr E) as Er. pose proof (f_equal dd E) as Ed.
  unfold dqmul in Er, Ed; cbn [dr dd] in Er, Ed.
  rewrite !kills_srows. cbn [dr dd]. rewrite !up_vec_commutator by easy.
  assert (Z : hsub (hmul (dr a) (dr x)) (hmul (dr x) (dr b)) = hzero) by now apply hsub_zero_iff.
  rewrite Z. repeat split; try (apply rv_eq; specu; ring).
  - set (p := hmul (dr a) (dd x)) in *. set (q := hmul (dd a) (dr x)) in *.
    set (r := hmul (dr x) (dd b)) in *. set (s := hmul (dd x) (dr b)) in *.
    clearbody p q r s. pose proof (f_equal qv Ed) as H.
    destruct p as [[] ?], q as [[] ?], r as [[] ?], s as [[] ?]. specu. injection H; intros.
    apply rv_eq; simpl; lra.
Qed.

(** ** Converse *)
(** c q has no vector part only if c = 0, when q.w <> 0 and c is pure *)
Lemma pure_mul_zero c q : qs q <> 0 -> qv (hmul (RQ c 0) q) = vzero -> c = vzero.
Proof.
  intros W H. destruct c as [x y z], q as [[a b d] w]. cbn [qs] in W.
  assert (S : w * (x * x + y * y + z * z) = 0).
  { specu. injection H as H1 H2 H3.
    replace (w * (x * x + y * y + z * z))
      with (x * (0 * a + w * x + (y * d - z * b)) + y * (0 * b + w * y + (z * a - x * d))
            + z * (0 * d + w * z + (x * b - y * a))) by ring.
    rewrite H1, H2, H3. ring. }
  apply Rmult_integral in S as [S|S]; [easy|].
  assert (x = 0 /\ y = 0 /\ z = 0) as (-> & -> & ->) by (repeat split; nra).
  reflexivity.
Qed.

Lemma commutator_pure p r : hsub (hmul p r) (hmul r p) = RQ (vscale 2 (cross3 (qv p) (qv r))) 0.
Proof. destruct p as [[] ?], r as [[] ?]. apply rq_eq; specu; ring. Qed.

Lemma two_axes_zero c d p : cross3 c d <> vzero -> cross3 c p = vzero -> cross3 d p = vzero -> p = vzero.
Proof.
  intros N C D. destruct c as [c1 c2 c3], d as [d1 d2 d3], p as [x y z]. specu.
  injection C as C1 C2 C3. injection D as D1 D2 D3.
  set (P := x * x + y * y + z * z).
  destruct (Req_dec P 0) as [Z|Z].
  - unfold P in Z. assert (x = 0 /\ y = 0 /\ z = 0) as (-> & -> & ->) by (repeat split; nra). easy.
  - exfalso. apply N.
    assert (Kc : forall k, k = c1 * x + c2 * y + c3 * z ->
      P * c1 = k * x /\ P * c2 = k * y /\ P * c3 = k * z).
    { intros k ->. unfold P. repeat split.
      - replace ((x*x+y*y+z*z) * c1) with ((c1*x+c2*y+c3*z)*x - y*(c2*x - c1*y) + z * (c1*z - c3*x)) by ring.
        replace (c1*z - c3*x) with (-(c3*x - c1*z)) by ring. rewrite C2.
        replace (c2*x - c1*y) with (-(c1*y-c2*x)) by ring. rewrite C3. ring.
      - replace ((x*x+y*y+z*z) * c2) with ((c1*x+c2*y+c3*z)*y - x*(c1*y-c2*x) + z*(c2*z - c3*y)) by ring.
        rewrite C1, C3. ring.
      - replace ((x*x+y*y+z*z) * c3) with ((c1*x+c2*y+c3*z)*z + x*(c3*x-c1*z) - y*(c2*z - c3*y)) by ring.
        rewrite C1, C2. ring. }
    assert (Kd : forall k, k = d1 * x + d2 * y + d3 * z ->
      P * d1 = k * x /\ P * d2 = k * y /\ P * d3 = k * z).
    { intros k ->. unfold P. repeat split.
      - replace ((x*x+y*y+z*z) * d1) with ((d1*x+d2*y+d3*z)*x - y*(d2*x - d1*y) + z * (d1*z - d3*x)) by ring.
        replace (d1*z - d3*x) with (-(d3*x - d1*z)) by ring. rewrite D2.
        replace (d2*x - d1*y) with (-(d1*y-d2*x)) by ring. rewrite D3. ring.
      - replace ((x*x+y*y+z*z) * d2) with ((d1*x+d2*y+d3*z)*y - x*(d1*y-d2*x) + z*(d2*z - d3*y)) by ring.
        rewrite D1, D3. ring.
      - replace ((x*x+y*y+z*z) * d3) with ((d1*x+d2*y+d3*z)*z + x*(d3*x-d1*z) - y*(d2*z - d3*y)) by ring.
        rewrite D1, D2. ring. }
    destruct (Kc _ eq_refl) as (A1 & A2 & A3). destruct (Kd _ eq_refl) as (B1 & B2 & B3).
    set (k := c1*x + c2*y + c3*z) in *. set (l := d1*x + d2*y + d3*z) in *. clearbody k l.
    assert (G : forall u1 u2 w1 w2 p q, P * u1 = k * p -> P * u2 = k * q -> P * w1 = l * p -> P * w2 = l * q ->
                 u1 * w2 - u2 * w1 = 0).
    { intros u1 u2 w1 w2 p q E1 E2 E3 E4. apply Rmult_eq_reg_l with (P * P); [|nra].
      replace (P * P * (u1 * w2 - u2 * w1)) with ((P*u1)*(P*w2) - (P*u2)*(P*w1)) by ring.
      rewrite E1, E2, E3, E4. ring. }
    f_equal; [exact (G _ _ _ _ _ _ A2 A3 B2 B3) | exact (G _ _ _ _ _ _ A3 A1 B3 B1)
             | exact (G _ _ _ _ _ _ A1 A2 B1 B2)].
Qed.

(** One block: u solves the upper rows of every pair (A, q* A q) *)
Lemma upper_step a b q u : unitq q -> qs q <> 0 -> hmul a q = hmul q b ->
  up_vec (qv a) (qv b) u = vzero -> cross3 (qv a) (qv (hmul u (hconj q))) = vzero.
Proof.
  intros U W E H.
  assert (B : b = hmul (hconj q) (hmul a q)).
  { rewrite E, <- hmul_assoc, unit_conj_l, hmul_1_l by easy. easy. }
  assert (S : qs a = qs b).
  { rewrite B, qs_mul_comm, hmul_assoc, unit_conj_r, hmul_1_r; easy. }
  rewrite up_vec_commutator in H by easy.
  set (p := hmul u (hconj q)) in *.
  assert (Eu : u = hmul p q) by (unfold p; now rewrite hmul_assoc, unit_conj_l, hmul_1_r).
  assert (K : hsub (hmul a u) (hmul u b) = hmul (hsub (hmul a p) (hmul p a)) q).
  { rewrite B. rewrite Eu at 1. rewrite (Eu) at 1.
    replace (hmul (hmul p q) (hmul (hconj q) (hmul a q))) with (hmul p (hmul a q)).
    - rewrite <- !hmul_assoc. qring.
    - now rewrite hmul_assoc, <- (hmul_assoc q), unit_conj_r, hmul_1_l. }
  rewrite K, commutator_pure in H.
  apply pure_mul_zero in H; [|easy].
  destruct (cross3 (qv a) (qv p)) as [x y z]. specu. injection H; intros. f_equal; lra.
Qed.

Lemma real_multiple u q : unitq q -> qv (hmul u (hconj q)) = vzero ->
  u = hscale (qs (hmul u (hconj q))) q.
Proof.
  intros U H. set (p := hmul u (hconj q)) in *.
  assert (Eu : u = hmul p q) by (unfold p; now rewrite hmul_assoc, unit_conj_l, hmul_1_r).
  destruct p as [v w]. cbn [qv] in H. subst v. rewrite Eu. cbn [qs]. qring.
Qed.

Definition trows (l : list (rdq * rdq)) : list rdq := flat_map (fun p => srows (fst p) (snd p)) l.

Lemma kills_trows l y : kills (trows l) y <-> Forall (fun p => kills (srows (fst p) (snd p)) y) l.
Proof.
  unfold kills, trows. induction l as [|p l IH]; cbn [flat_map]; [split; constructor|].
  rewrite Forall_app, Forall_cons_iff, IH. easy.
Qed.

Lemma kernel_converse x l : unitdq x -> qs (dr x) <> 0 -> Forall (consistent x) l -> two_axes l ->
  forall y, kills (trows l) y ->
    exists al be, y = dqadd (dqscale al x) (dqscale be (RD hzero (dr x))).
Proof.
  intros U W C (p & q & Ip & Iq & NP) y K. rewrite kills_trows in K.
  rewrite Forall_forall in C, K.
  set (k := dr x) in *. pose proof (proj1 U) as Ur. fold k in Ur.
  assert (UP : forall z, In z l -> forall u, up_vec (qv (dr (fst z))) (qv (dr (snd z))) u = vzero ->
                cross3 (qv (dr (fst z))) (qv (hmul u (hconj k))) = vzero).
  { intros z Iz u H. eapply upper_step; try eassumption; try easy.
    exact (f_equal dr (C z Iz)). }
  assert (SOLVE : forall u, (forall z, In z l -> up_vec (qv (dr (fst z))) (qv (dr (snd z))) u = vzero) ->
                   exists al, u = hscale al k).
  { intros u H. exists (qs (hmul u (hconj k))). apply real_multiple; [easy|].
    eapply two_axes_zero; [exact NP| |]; apply UP; auto. }
  destruct (SOLVE (dr y)) as [al Ea].
  { intros z Iz. now apply K, kills_srows in Iz as [H _]. }
  destruct (SOLVE (hsub (dd y) (hscale al (dd x)))) as [be Eb].
  { intros z Iz. pose proof (K z Iz) as Hk. apply kills_srows in Hk as [_ H].
    destruct (kernel_forward _ _ _ U (C z Iz)) as [F _]. apply kills_srows in F as [_ F].
    rewrite Ea in H. fold k in F.
    set (A := qv (dr (fst z))) in *. set (B := qv (dr (snd z))) in *.
    set (A' := qv (dd (fst z))) in *. set (B' := qv (dd (snd z))) in *.
    assert (L : up_vec A B (hsub (dd y) (hscale al (dd x)))
      = vsub (vadd (up_vec A' B' (hscale al k)) (up_vec A B (dd y)))
             (vscale al (vadd (up_vec A' B' k) (up_vec A B (dd x))))).
    { unfold up_vec. clearbody A B A' B'. destruct A, B, A', B', (dd y) as [[] ?], (dd x) as [[] ?], k as [[] ?].
      apply rv_eq; specu; ring. }
    rewrite L, H, F. apply rv_eq; specu; ring. }
  exists al, be. apply rdq_eq; unfold dqadd, dqscale; cbn [dr dd].
  - rewrite Ea. fold k. qring.
  - fold k. destruct (dd y) as [[] ?], (dd x) as [[] ?], k as [[] ?]. specu.
    injection Eb; intros. f_equal; [f_equal|]; lra.
Qed.

(** ** SVD: the last two rows of V span the kernel *)
Lemma dot8_sym a b : dot8 a b = dot8 b a.
Proof. destruct a as [[[] ?] [[] ?]], b as [[[] ?] [[] ?]]. specu; ring. Qed.
Lemma dot8_add r a b : dot8 r (dqadd a b) = dot8 r a + dot8 r b.
Proof. destruct r as [[[] ?] [[] ?]], a as [[[] ?] [[] ?]], b as [[[] ?] [[] ?]]. specu; ring. Qed.
Lemma dot8_scale r k a : dot8 r (dqscale k a) = k * dot8 r a.
Proof. destruct r as [[[] ?] [[] ?]], a as [[[] ?] [[] ?]]. specu; ring. Qed.
Lemma dot8_zero r : dot8 r (RD hzero hzero) = 0.
Proof. destruct r as [[[] ?] [[] ?]]. specu; ring. Qed.

Lemma gram_pos m x : 0 <= gram m x x.
Proof.
  induction m as [|r m IH]; simpl; [lra|]. pose proof (Rle_0_sqr (dot8 r x)). unfold Rsqr in *. lra.
Qed.
Lemma gram_zero m x : gram m x x = 0 <-> kills m x.
Proof.
  unfold kills. induction m as [|r m IH]; simpl; [split; [constructor|easy]|].
  rewrite Forall_cons_iff, <- IH. pose proof (gram_pos m x). pose proof (Rle_0_sqr (dot8 r x)).
  unfold Rsqr in *. split.
  - intros H'. assert (dot8 r x * dot8 r x = 0) by lra. split; [|lra].
    now apply Rmult_integral in H1 as [|].
  - intros [-> ->]. ring.
Qed.
Lemma gram_kills m x y : kills m x -> gram m x y = 0.
Proof.
  unfold kills. induction m as [|r m IH]; simpl; [easy|]. rewrite Forall_cons_iff. intros [-> H].
  rewrite IH by easy. ring.
Qed.
Lemma gram_add m x y z : gram m (dqadd x y) z = gram m x z + gram m y z.
Proof. induction m as [|r m IH]; simpl; [ring|]. rewrite dot8_add, IH. ring. Qed.
Lemma gram_scale m k x z : gram m (dqscale k x) z = k * gram m x z.
Proof. induction m as [|r m IH]; simpl; [ring|]. rewrite dot8_scale, IH. ring. Qed.
Lemma gram_0 m z : gram m (RD hzero hzero) z = 0.
Proof. induction m as [|r m IH]; simpl; [ring|]. rewrite dot8_zero, IH. ring. Qed.
Lemma gram_sum m l z : gram m (dqsum l) z = fold_right (fun x acc => gram m x z + acc) 0 l.
Proof. induction l as [|x l IH]; [apply gram_0|]. simpl. now rewrite gram_add, IH. Qed.

(** coefficient of a kernel vector on a basis vector with non-zero singular value *)
Lemma svd_coeff m s v y i vi : svd_spec m s v -> kills m y -> nth_error v i = Some vi ->
  gram m vi vi <> 0 -> dot8 y vi = 0.
Proof.
  intros SV K Hi NZ.
  assert (Z : gram m y vi = 0) by now apply gram_kills.
  rewrite (svd_basis _ _ _ SV y), gram_sum in Z.
  assert (G : forall k l, (forall j w, nth_error l j = Some w -> nth_error v (k + j) = Some w) ->
     fold_right (fun x acc => gram m x vi + acc) 0 (map (fun w => dqscale (dot8 y w) w) l)
     = if ((k <=? i) && (i <? k + length l))%nat then dot8 y vi * gram m vi vi else 0).
  { intros k l; revert k; induction l as [|w l IH]; intros k H; simpl.
    - destruct (Nat.leb_spec k i), (Nat.ltb_spec i (k + 0)); simpl; try easy. lia.
    - rewrite gram_scale.
      rewrite (IH (S k)) by (intros j u Hj; rewrite <- (H (S j) u Hj); f_equal; lia).
      pose proof (H 0%nat w eq_refl) as Hw. rewrite Nat.add_0_r in Hw.
      destruct (Nat.eq_dec i k) as [->|NE].
      + assert (w = vi) by congruence. subst w.
        destruct (Nat.leb_spec k k); [|lia]. destruct (Nat.ltb_spec k (k + S (length l))); [|lia].
        destruct (Nat.leb_spec (S k) k); [lia|]. simpl. ring.
      + rewrite (svd_orthogonal _ _ _ SV k i w vi Hw Hi) by congruence.
        destruct (Nat.leb_spec k i), (Nat.leb_spec (S k) i), (Nat.ltb_spec i (S k + length l)),
          (Nat.ltb_spec i (k + S (length l))); simpl; try lia; ring. }
  rewrite (G 0%nat v) in Z by easy.
  assert (Hl : (i < length v)%nat) by (apply nth_error_Some; congruence).
  destruct (Nat.ltb_spec i (0 + length v)); [|lia]. simpl in Z.
  apply Rmult_integral in Z as [Z|Z]; [easy|]. congruence.
Qed.

Lemma svd_null m s v k1 k2 : svd_spec m s v -> kills m k1 -> kills m k2 ->
  (forall a b, dqadd (dqscale a k1) (dqscale b k2) = RD hzero hzero -> a = 0 /\ b = 0) ->
  exists v7 v8, nth_error v 6 = Some v7 /\ nth_error v 7 = Some v8 /\
    kills m v7 /\ kills m v8 /\ dot8 v7 v7 = 1 /\ dot8 v8 v8 = 1 /\ dot8 v7 v8 = 0.
Proof.
  intros SV K1 K2 IND.
  pose proof (svd_rows _ _ _ SV) as L.
  destruct v as [|w0 [|w1 [|w2 [|w3 [|w4 [|w5 [|w6 [|w7 [|? ?]]]]]]]]]; try discriminate L.
  set (v := [w0; w1; w2; w3; w4; w5; w6; w7]) in *.
  assert (N6 : gram m w6 w6 = 0).
  { destruct (Req_dec (gram m w6 w6) 0) as [|NZ]; [easy|exfalso].
    assert (ALL : forall i w, (i <= 6)%nat -> nth_error v i = Some w -> gram m w w <> 0).
    { intros i w Hi Hw. rewrite (svd_values _ _ _ SV i w Hw).
      rewrite (svd_values _ _ _ SV 6 w6 eq_refl) in NZ.
      pose proof (svd_sorted _ _ _ SV i 6 Hi). pose proof (svd_nonneg _ _ _ SV 6).
      assert (0 < nth 6 s 0) by (destruct (Req_dec (nth 6 s 0) 0) as [E|]; [rewrite E in NZ; lra|lra]).
      nra. }
    assert (COL : forall y, kills m y -> y = dqscale (dot8 y w7) w7).
    { intros y Ky. rewrite (svd_basis _ _ _ SV y) at 1. unfold v; cbn [map].
      assert (Z : forall i w, (i <= 6)%nat -> nth_error v i = Some w -> dqscale (dot8 y w) w = RD hzero hzero).
      { intros i w Hi Hw. rewrite (svd_coeff _ _ _ _ _ _ SV Ky Hw (ALL i w Hi Hw)).
        destruct w as [[[] ?] [[] ?]]. apply rdq_eq; apply rq_eq; specu; ring. }
      rewrite (Z 0%nat w0), (Z 1%nat w1), (Z 2%nat w2), (Z 3%nat w3), (Z 4%nat w4), (Z 5%nat w5), (Z 6%nat w6)
        by (try lia; reflexivity).
      cbn [dqsum fold_right]. destruct (dqscale (dot8 y w7) w7) as [[[] ?] [[] ?]].
      apply rdq_eq; apply rq_eq; specu; ring. }
    pose proof (COL _ K1) as E1. pose proof (COL _ K2) as E2.
    set (c1 := dot8 k1 w7) in *. set (c2 := dot8 k2 w7) in *.
    destruct (IND c2 (- c1)) as [Z2 Z1].
    { rewrite E1, E2. destruct w7 as [[[] ?] [[] ?]]. apply rdq_eq; apply rq_eq; specu; ring. }
    rewrite Z2 in E2.
    destruct (IND 0 1) as [_ C]; [|lra].
    rewrite E2. destruct w7 as [[[] ?] [[] ?]], k1 as [[[] ?] [[] ?]]. apply rdq_eq; apply rq_eq; specu; ring. }
  assert (N7 : gram m w7 w7 = 0).
  { rewrite (svd_values _ _ _ SV 7 w7 eq_refl). rewrite (svd_values _ _ _ SV 6 w6 eq_refl) in N6.
    pose proof (svd_sorted _ _ _ SV 6 7 ltac:(lia)). pose proof (svd_nonneg _ _ _ SV 7). pose proof (svd_nonneg _ _ _ SV 6).
    nra. }
  exists w6, w7. repeat split.
  - now apply gram_zero.
  - now apply gram_zero.
  - exact (svd_orthonormal _ _ _ SV 6 6 w6 w6 eq_refl eq_refl).
  - exact (svd_orthonormal _ _ _ SV 7 7 w7 w7 eq_refl eq_refl).
  - exact (svd_orthonormal _ _ _ SV 6 7 w6 w7 eq_refl eq_refl).
Qed.
