(** * Every matrix with eight columns has a singular value decomposition. *)

From Coq Require Import Reals ZArith Bool List Lra Lia Psatz.
From Verif Require Import Num Py XReal Quat DualQuat HandEye Spec QuatFacts KernelFacts.
Import ListNotations.
Local Open Scope R_scope.

(** ** A Lipschitz function attains its maximum on a box *)
Definition in_box (n : nat) (B : R) (x : list R) : Prop := length x = n /\ Forall (fun t => Rabs t <= B) x.
Fixpoint d1 (x y : list R) : R := match x, y with a :: x, b :: y => Rabs (a - b) + d1 x y | _, _ => 0 end.
Lemma d1_pos x : forall y, 0 <= d1 x y.
Proof. induction x as [|a x IH]; intros [|b y]; cbn [d1]; try lra. pose proof (Rabs_pos (a - b)). specialize (IH y). lra. Qed.
Lemma d1_same x : d1 x x = 0.
Proof. induction x as [|a x IH]; cbn [d1]; [easy|]. rewrite IH, Rminus_eq_0, Rabs_R0. ring. Qed.
Definition clip (B t : R) : R := Rmax (- B) (Rmin B t).
Lemma clip_box B t : 0 <= B -> Rabs (clip B t) <= B.
Proof. intros H. unfold clip. apply Rabs_le. unfold Rmax, Rmin. repeat destruct (Rle_dec _ _); lra. Qed.
Lemma clip_in B t : - B <= t <= B -> clip B t = t.
Proof. intros H. unfold clip, Rmax, Rmin. repeat destruct (Rle_dec _ _); lra. Qed.
Lemma clip_lip B s t : 0 <= B -> Rabs (clip B s - clip B t) <= Rabs (s - t).
Proof. intros H. unfold clip, Rmax, Rmin. repeat destruct (Rle_dec _ _); unfold Rabs; repeat destruct (Rcase_abs _); lra. Qed.

Lemma max_box n : forall B L f, 0 <= B -> 0 <= L ->
  (forall x y, in_box n B x -> in_box n B y -> Rabs (f x - f y) <= L * d1 x y) ->
  exists x, in_box n B x /\ forall y, in_box n B y -> f y <= f x.
Proof.
  induction n as [|n IH]; intros B L f HB HL LIP.
  - exists []. split; [split; [easy|constructor]|]. intros [|b y] [E _]; [lra|discriminate E].
  - assert (BOX : forall t x, in_box n B x -> in_box (S n) B (clip B t :: x)).
    { intros t x [E F]. split; [cbn; now rewrite E|]. constructor; [now apply clip_box|easy]. }
    assert (MAX : forall t, exists x, in_box n B x /\ forall y, in_box n B y -> f (clip B t :: y) <= f (clip B t :: x)).
    { intros t. apply (IH B L (fun y => f (clip B t :: y))); try easy. intros x y X Y.
      specialize (LIP _ _ (BOX t x X) (BOX t y Y)). cbn [d1] in LIP. rewrite Rminus_eq_0, Rabs_R0, Rplus_0_l in LIP. exact LIP. }
    set (E := fun t z => exists y, in_box n B y /\ z = f (clip B t :: y)).
    assert (BD : forall t, bound (E t)).
    { intros t. destruct (MAX t) as (x & X & H). exists (f (clip B t :: x)). intros z (y & Y & ->). now apply H. }
    assert (NE : forall t, exists z, E t z).
    { intros t. destruct (MAX t) as (x & X & _). exists (f (clip B t :: x)). now exists x. }
    set (g := fun t => proj1_sig (completeness (E t) (BD t) (NE t))).
    assert (G : forall t, exists x, in_box n B x /\ g t = f (clip B t :: x) /\ forall y, in_box n B y -> f (clip B t :: y) <= g t).
    { intros t. unfold g. destruct (completeness _ _ _) as (z & UB & LUB). cbn [proj1_sig]. destruct (MAX t) as (x & X & H).
      assert (z = f (clip B t :: x)).
      { apply Rle_antisym; [apply LUB; intros w (y & Y & ->); now apply H|]. apply UB. now exists x. }
      exists x. split; [easy|]. split; [easy|]. intros y Y. apply UB. now exists y. }
    assert (HALF : forall s t, g s <= g t + L * Rabs (s - t)).
    { intros s t. destruct (G s) as (x & X & -> & _). destruct (G t) as (_ & _ & _ & H). specialize (H x X).
      pose proof (LIP _ _ (BOX s x X) (BOX t x X)) as Q. cbn [d1] in Q. rewrite d1_same, Rplus_0_r in Q.
      pose proof (clip_lip B s t HB) as C. pose proof (Rle_abs (f (clip B s :: x) - f (clip B t :: x))). nra. }
    assert (CT : forall c, continuity_pt g c).
    { intros c e He. exists (e / (L + 1)). split; [apply Rdiv_lt_0_compat; lra|]. intros t [_ D]. unfold dist in *. cbn in *. unfold R_dist in *.
      pose proof (HALF t c) as H1. pose proof (HALF c t) as H2. rewrite (Rabs_minus_sym c t) in H2.
      assert (K : L * Rabs (t - c) < e).
      { assert (Rabs (t - c) * (L + 1) < e) by (apply Rmult_lt_reg_r with (/ (L + 1)); [apply Rinv_0_lt_compat; lra|]; rewrite Rmult_assoc, Rinv_r by lra; unfold Rdiv in D; lra).
        pose proof (Rabs_pos (t - c)). nra. }
      apply Rabs_def1; lra. }
    destruct (continuity_ab_maj g (- B) B) as (t & H & T); [lra|intros; apply CT|].
    destruct (G t) as (x & X & EX & _). exists (clip B t :: x). split; [now apply BOX|]. rewrite <- EX.
    intros [|s y] [LE FA]; [discriminate LE|]. inversion FA as [|? ? S F]; subst.
    assert (S' : - B <= s <= B). { unfold Rabs in S. destruct (Rcase_abs s); lra. }
    apply Rle_trans with (g s); [|now apply H]. destruct (G s) as (_ & _ & _ & K). rewrite <- (clip_in B s S') at 1. apply K. split; [now injection LE|easy].
Qed.

(** bounded Lipschitz functions *)
Definition nice (n : nat) (B : R) (f : list R -> R) : Prop := exists L M, 0 <= L /\ 0 <= M /\
  (forall x y, in_box n B x -> in_box n B y -> Rabs (f x - f y) <= L * d1 x y) /\ (forall x, in_box n B x -> Rabs (f x) <= M).
Lemma nice_const n B c : nice n B (fun _ => c).
Proof.
  exists 0, (Rabs c). split; [lra|]. split; [apply Rabs_pos|]. split; [|intros; lra]. intros x y _ _. rewrite Rminus_eq_0, Rabs_R0. lra.
Qed.
Lemma nth_d1 i : forall x y, length x = length y -> Rabs (nth i x 0 - nth i y 0) <= d1 x y.
Proof.
  induction i as [|i IH]; intros [|a x] [|b y] L; try discriminate L; cbn [nth d1]; try (rewrite Rminus_eq_0, Rabs_R0; lra).
  - pose proof (d1_pos x y). lra.
  - injection L as L. specialize (IH x y L). pose proof (Rabs_pos (a - b)). lra.
Qed.
Lemma nice_nth n B i : 0 <= B -> nice n B (fun x => nth i x 0).
Proof.
  intros HB. exists 1, B. split; [lra|]. split; [easy|]. split.
  - intros x y [X _] [Y _]. rewrite Rmult_1_l. apply nth_d1. congruence.
  - intros x [_ F]. destruct (nth_in_or_default i x 0) as [I | ->]; [|rewrite Rabs_R0; lra]. rewrite Forall_forall in F. now apply F.
Qed.
Lemma nice_plus n B f g : nice n B f -> nice n B g -> nice n B (fun x => f x + g x).
Proof.
  intros (L & M & L0 & M0 & HL & HM) (L' & M' & L0' & M0' & HL' & HM'). exists (L + L'), (M + M'). split; [lra|]. split; [lra|]. split.
  - intros x y X Y. specialize (HL x y X Y). specialize (HL' x y X Y). replace (f x + g x - (f y + g y)) with ((f x - f y) + (g x - g y)) by ring.
    pose proof (Rabs_triang (f x - f y) (g x - g y)). lra.
  - intros x X. specialize (HM x X). specialize (HM' x X). pose proof (Rabs_triang (f x) (g x)). lra.
Qed.
Lemma nice_mult n B f g : nice n B f -> nice n B g -> nice n B (fun x => f x * g x).
Proof.
  intros (L & M & L0 & M0 & HL & HM) (L' & M' & L0' & M0' & HL' & HM'). exists (L * M' + M * L'), (M * M'). split; [nra|]. split; [nra|]. split.
  - intros x y X Y. specialize (HL x y X Y). specialize (HL' x y X Y). pose proof (HM y Y). pose proof (HM' x X).
    replace (f x * g x - f y * g y) with ((f x - f y) * g x + f y * (g x - g y)) by ring.
    eapply Rle_trans; [apply Rabs_triang|]. rewrite !Rabs_mult. pose proof (Rabs_pos (f x - f y)). pose proof (Rabs_pos (g x - g y)).
    pose proof (Rabs_pos (f y)). pose proof (Rabs_pos (g x)). pose proof (d1_pos x y).
    assert (Rabs (f x - f y) * Rabs (g x) <= (L * d1 x y) * M') by (apply Rmult_le_compat; easy).
    assert (Rabs (f y) * Rabs (g x - g y) <= M * (L' * d1 x y)) by (apply Rmult_le_compat; easy). lra.
  - intros x X. rewrite Rabs_mult. apply Rmult_le_compat; auto using Rabs_pos.
Qed.
Lemma nice_ext n B f g : (forall x, f x = g x) -> nice n B f -> nice n B g.
Proof. intros E (L & M & L0 & M0 & HL & HM). exists L, M. split; [easy|]. split; [easy|]. split; intros; rewrite <- ?E; auto. Qed.

(** ** Eight-vectors *)
Definition vec (x : list R) : rdq :=
  RD (RQ (RV (nth 0 x 0) (nth 1 x 0) (nth 2 x 0)) (nth 3 x 0)) (RQ (RV (nth 4 x 0) (nth 5 x 0) (nth 6 x 0)) (nth 7 x 0)).
Definition coords (u : rdq) : list R := [v1 (qv (dr u)); v2 (qv (dr u)); v3 (qv (dr u)); qs (dr u); v1 (qv (dd u)); v2 (qv (dd u)); v3 (qv (dd u)); qs (dd u)].
Lemma vec_coords u : vec (coords u) = u.
Proof. destruct u as [[[a b c] d] [[e f g] h]]. reflexivity. Qed.
Lemma dot8_pos u : 0 <= dot8 u u.
Proof. destruct u as [[[a b c] d] [[e f g] h]]. unfold dot8, hdot, dot3. cbn [dr dd qv qs v1 v2 v3]. nra. Qed.
Lemma dot8_null u : dot8 u u = 0 -> u = RD hzero hzero.
Proof.
  destruct u as [[[a b c] d] [[e f g] h]]. unfold dot8, hdot, dot3, hzero, vzero. cbn [dr dd qv qs v1 v2 v3]. intros H.
  assert (a = 0) by nra. assert (b = 0) by nra. assert (c = 0) by nra. assert (d = 0) by nra.
  assert (e = 0) by nra. assert (f = 0) by nra. assert (g = 0) by nra. assert (h = 0) by nra. now subst.
Qed.
Lemma coord_le u t : In t (coords u) -> t * t <= dot8 u u.
Proof.
  destruct u as [[[a b c] d] [[e f g] h]]. unfold coords, dot8, hdot, dot3. cbn [dr dd qv qs v1 v2 v3 In].
  pose proof (Rle_0_sqr a). pose proof (Rle_0_sqr b). pose proof (Rle_0_sqr c). pose proof (Rle_0_sqr d).
  pose proof (Rle_0_sqr e). pose proof (Rle_0_sqr f). pose proof (Rle_0_sqr g). pose proof (Rle_0_sqr h). unfold Rsqr in *.
  intros IN. repeat destruct IN as [<- | IN]; try lra.
Qed.
Lemma nice_dot8 B r : 0 <= B -> nice 8 B (fun x => dot8 r (vec x)).
Proof.
  intros HB. unfold dot8, hdot, dot3, vec. cbn [dr dd qv qs v1 v2 v3].
  repeat (apply nice_plus || apply nice_mult || apply nice_const || now apply nice_nth).
Qed.
Lemma nice_norm B : 0 <= B -> nice 8 B (fun x => dot8 (vec x) (vec x)).
Proof.
  intros HB. unfold dot8, hdot, dot3, vec. cbn [dr dd qv qs v1 v2 v3].
  repeat (apply nice_plus || apply nice_mult || apply nice_const || now apply nice_nth).
Qed.
Lemma nice_gram B m : 0 <= B -> nice 8 B (fun x => gram m (vec x) (vec x)).
Proof.
  intros HB. induction m as [|r m IH]; [exact (nice_const 8 B 0)|]. cbn [gram fold_right].
  apply nice_plus; [|exact IH]. apply nice_mult; now apply nice_dot8.
Qed.
Lemma gsym m a b : gram m a b = gram m b a.
Proof. induction m as [|r m IH]; cbn [gram fold_right]; [easy|]. fold (gram m a b). fold (gram m b a). rewrite IH. ring. Qed.
Lemma expand8 a b k : dot8 (dqadd b (dqscale k a)) (dqadd b (dqscale k a)) = dot8 b b + 2 * k * dot8 a b + k * k * dot8 a a.
Proof.
  destruct a as [[[a1 a2 a3] a4] [[a5 a6 a7] a8]], b as [[[b1 b2 b3] b4] [[b5 b6 b7] b8]].
  unfold dqadd, dqscale, dot8, hdot, dot3, hadd, hscale, vadd, vscale. cbn [dr dd qv qs v1 v2 v3]. ring.
Qed.
Lemma cauchy8 a b : dot8 a b * dot8 a b <= dot8 a a * dot8 b b.
Proof.
  destruct (Req_dec (dot8 a a) 0) as [Z|NZ].
  - rewrite (dot8_null a Z), (dot8_sym _ b), !dot8_zero. lra.
  - pose proof (dot8_pos a) as P. pose proof (dot8_pos (dqadd b (dqscale (- (dot8 a b / dot8 a a)) a))) as H. rewrite expand8 in H.
    set (k := dot8 a b / dot8 a a) in *. assert (K : k * dot8 a a = dot8 a b) by (unfold k; field; easy).
    assert (E : dot8 a b * dot8 a b = dot8 a a * (k * k * dot8 a a)) by (rewrite <- K; ring).
    assert (k * dot8 a b = k * k * dot8 a a) by (rewrite <- K; ring).
    rewrite E. apply Rmult_le_compat_l; lra.
Qed.
Definition size (m : list rdq) : R := fold_right (fun r acc => dot8 r r + acc) 0 m.
Lemma size_pos m : 0 <= size m.
Proof. induction m as [|r m IH]; cbn [size fold_right]; [lra|]. fold (size m). pose proof (dot8_pos r). lra. Qed.
Lemma gram_size m u : gram m u u <= size m * dot8 u u.
Proof.
  induction m as [|r m IH]; cbn [gram size fold_right]; [lra|]. fold (gram m u u). fold (size m). pose proof (cauchy8 r u). lra.
Qed.
Lemma gram_add_r m x y z : gram m z (dqadd x y) = gram m z x + gram m z y.
Proof. now rewrite gsym, gram_add, (gsym _ x), (gsym _ y). Qed.
Lemma gram_scale_r m k x z : gram m z (dqscale k x) = k * gram m z x.
Proof. now rewrite gsym, gram_scale, gsym. Qed.

(** ** The objective *)
Definition goal (m vs : list rdq) (C K : R) (u : rdq) : R :=
  C * dot8 u u - gram m u u - dot8 u u * dot8 u u / 2 - K * gram vs u u.
Lemma goal_max m vs C K : 0 <= C -> 0 <= K -> exists u, forall w, goal m vs C K w <= goal m vs C K u.
Proof.
  intros HC HK. set (B := 2 * C + 1). assert (HB : 0 <= B) by (unfold B; lra).
  assert (N : nice 8 B (fun x => goal m vs C K (vec x))).
  { apply (nice_ext _ _ (fun x => C * dot8 (vec x) (vec x) + (-1) * gram m (vec x) (vec x) + (-1/2) * (dot8 (vec x) (vec x) * dot8 (vec x) (vec x)) + (- K) * gram vs (vec x) (vec x))).
    - intros x. unfold goal. lra.
    - repeat first [now apply nice_norm | now apply nice_gram | apply nice_const | apply nice_plus | apply nice_mult]. }
  destruct N as (L & M & L0 & _ & LIP & _).
  destruct (max_box 8 B L (fun x => goal m vs C K (vec x)) HB L0 LIP) as (x & X & H). exists (vec x). intros w.
  assert (Z : 0 <= goal m vs C K (vec x)).
  { replace 0 with (goal m vs C K (vec [0;0;0;0;0;0;0;0])).
    - apply H. split; [easy|]. repeat (apply Forall_cons; [rewrite Rabs_R0; lra|]). apply Forall_nil.
    - change (vec [0;0;0;0;0;0;0;0]) with (RD hzero hzero). unfold goal. rewrite !gram_0, dot8_zero. field. }
  destruct (Rle_dec (dot8 w w) (B * B)) as [IN|OUT].
  - rewrite <- (vec_coords w). apply H. split; [easy|]. apply Forall_forall. intros t I. apply coord_le in I.
    apply Rabs_le. split; nra.
  - apply Rnot_le_lt in OUT. apply Rle_trans with 0; [|easy]. unfold goal. pose proof (gram_pos m w). pose proof (gram_pos vs w).
    assert (2 * C <= B * B) by (unfold B; nra). pose proof (dot8_pos w). nra.
Qed.
Lemma linear_zero a b c d : (forall t, a * t + b * t ^ 2 + c * t ^ 3 + d * t ^ 4 <= 0) -> a = 0.
Proof.
  intros H. destruct (Req_dec a 0) as [|NZ]; [easy|exfalso].
  set (k := Rabs b + Rabs c + Rabs d). assert (K0 : 0 <= k) by (unfold k; pose proof (Rabs_pos b); pose proof (Rabs_pos c); pose proof (Rabs_pos d); lra).
  set (e := Rabs a + k + 1). assert (E : 0 < e) by (unfold e; pose proof (Rabs_pos a); lra).
  set (t := a / e). specialize (H t).
  assert (A2 : 0 < a * a) by nra. assert (TA : a * t = a * a / e) by (unfold t; field; lra). assert (TT : t ^ 2 = a * a / (e * e)) by (unfold t; field; lra).
  assert (AT : Rabs t <= 1).
  { unfold t, Rdiv. rewrite Rabs_mult, (Rabs_pos_eq (/ e)) by (left; now apply Rinv_0_lt_compat).
    apply Rmult_le_reg_r with e; [easy|]. rewrite Rmult_assoc, Rinv_l by lra. unfold e. lra. }
  assert (T1 : Rabs t <= 1 -> - (k * t ^ 2) <= b * t ^ 2 + c * t ^ 3 + d * t ^ 4).
  { intros _. assert (0 <= t ^ 2) by nra. replace (b * t ^ 2 + c * t ^ 3 + d * t ^ 4) with ((b + c * t + d * (t * t)) * t ^ 2) by ring.
    assert (Q1 : Rabs (c * t) <= Rabs c). { rewrite Rabs_mult. pose proof (Rabs_pos c). nra. }
    assert (Q2 : Rabs (d * (t * t)) <= Rabs d). { rewrite !Rabs_mult. pose proof (Rabs_pos d). pose proof (Rabs_pos t). assert (Rabs t * Rabs t <= 1) by nra. nra. }
    assert (- k <= b + c * t + d * (t * t)).
    { unfold k. pose proof (Rle_abs (- b)). pose proof (Rle_abs (- (c * t))). pose proof (Rle_abs (- (d * (t * t)))). rewrite Rabs_Ropp in *. lra. }
    nra. }
  specialize (T1 AT). rewrite TA in H. rewrite TT in T1, H.
  assert (a * a / e <= k * (a * a / (e * e))) by lra.
  assert (a * a * e <= k * (a * a)).
  { replace (a * a * e) with ((a * a / e) * (e * e)) by (field; lra). replace (k * (a * a)) with (k * (a * a / (e * e)) * (e * e)) by (field; lra).
    apply Rmult_le_compat_r; [nra|easy]. }
  assert (e <= k) by nra. unfold e in *. pose proof (Rabs_pos a). lra.
Qed.
Lemma goal_critical m vs C K u : (forall w, goal m vs C K w <= goal m vs C K u) ->
  forall w, C * dot8 u w - gram m u w - dot8 u u * dot8 u w - K * gram vs u w = 0.
Proof.
  intros H w. enough (2 * (C * dot8 u w - gram m u w - dot8 u u * dot8 u w - K * gram vs u w) = 0) by lra.
  set (a := dot8 u u). set (b := dot8 u w). set (c := dot8 w w).
  apply (linear_zero _ (C * c - gram m w w - K * gram vs w w - (2 * b * b + a * c)) (- (2 * b * c)) (- (c * c) / 2)).
  intros t. specialize (H (dqadd u (dqscale t w))). unfold goal in H.
  rewrite !gram_add, !gram_add_r, !gram_scale, !gram_scale_r in H.
  assert (D : dot8 (dqadd u (dqscale t w)) (dqadd u (dqscale t w)) = a + 2 * t * b + t * t * c) by (rewrite expand8, (dot8_sym w u); reflexivity).
  rewrite D, (gsym m w u), (gsym vs w u) in H. fold a in H.
  apply Rle_minus in H. match type of H with ?X <= 0 => match goal with |- ?Y <= 0 => replace Y with X; [exact H|field] end end.
Qed.

(** ** Orthonormal lists *)
Fixpoint ortho (l : list rdq) : Prop := match l with [] => True | v :: l => dot8 v v = 1 /\ Forall (fun w => dot8 v w = 0) l /\ ortho l end.
(** projection onto the span *)
Definition proj (l : list rdq) (y : rdq) : rdq := dqsum (map (fun v => dqscale (dot8 y v) v) l).
Lemma proj_dot l y z : dot8 z (proj l y) = gram l y z.
Proof.
  unfold proj. induction l as [|v l IH]; [apply dot8_zero|]. cbn [map dqsum fold_right gram]. rewrite dot8_add, dot8_scale.
  change (fold_right dqadd (RD hzero hzero) (map (fun v => dqscale (dot8 y v) v) l)) with (dqsum (map (fun v => dqscale (dot8 y v) v) l)).
  rewrite IH, (dot8_sym y v), (dot8_sym z v). reflexivity.
Qed.
Lemma gram_ortho l y v : ortho l -> In v l -> gram l y v = dot8 y v.
Proof.
  induction l as [|w l IH]; [easy|]. intros (N & F & O) I. cbn [gram fold_right]. fold (gram l y v). destruct I as [-> | I].
  - rewrite N. assert (Z : gram l y v = 0).
    { rewrite gsym. apply gram_kills. unfold kills. eapply Forall_impl; [|exact F]. cbn. intros a A. now rewrite dot8_sym. }
    rewrite Z, (dot8_sym v y). ring.
  - rewrite (IH O I). rewrite Forall_forall in F. rewrite (F v I). ring.
Qed.
Lemma rest_kills l y : ortho l -> kills l (dqadd y (dqscale (-1) (proj l y))).
Proof.
  intros O. apply Forall_forall. intros v I. rewrite dot8_add, dot8_scale, proj_dot, gram_ortho by easy. rewrite (dot8_sym v y). ring.
Qed.
Lemma rest_norm l y : ortho l -> dot8 (dqadd y (dqscale (-1) (proj l y))) (dqadd y (dqscale (-1) (proj l y))) = dot8 y y - gram l y y.
Proof.
  intros O. set (r := dqadd y _). unfold r at 2. rewrite dot8_add, dot8_scale, proj_dot.
  assert (Z : gram l y r = 0) by (rewrite gsym; apply gram_kills, rest_kills; easy). rewrite Z.
  unfold r. rewrite dot8_sym, dot8_add, dot8_scale, proj_dot. ring.
Qed.
Lemma bessel l y : ortho l -> gram l y y <= dot8 y y.
Proof. intros O. pose proof (rest_norm l y O). pose proof (dot8_pos (dqadd y (dqscale (-1) (proj l y)))). lra. Qed.
Definition axis (i : nat) : rdq := vec (repeat 0 i ++ [1]).
Lemma axis_unit i : (i < 8)%nat -> dot8 (axis i) (axis i) = 1.
Proof.
  intros H. do 8 (destruct i as [|i]; [unfold axis, vec, dot8, hdot, dot3; cbn [repeat app nth dr dd qv qs v1 v2 v3]; ring|]). lia.
Qed.
Lemma axes_sum l : gram l (axis 0) (axis 0) + gram l (axis 1) (axis 1) + gram l (axis 2) (axis 2) + gram l (axis 3) (axis 3)
  + gram l (axis 4) (axis 4) + gram l (axis 5) (axis 5) + gram l (axis 6) (axis 6) + gram l (axis 7) (axis 7) = size l.
Proof.
  induction l as [|v l IH]; [cbn; ring|]. cbn [size fold_right]. fold (size l). rewrite <- IH. clear IH.
  assert (G : forall w, gram (v :: l) w w = dot8 v w * dot8 v w + gram l w w) by reflexivity. rewrite !G.
  assert (E : dot8 v v = dot8 v (axis 0) * dot8 v (axis 0) + dot8 v (axis 1) * dot8 v (axis 1) + dot8 v (axis 2) * dot8 v (axis 2) + dot8 v (axis 3) * dot8 v (axis 3)
    + dot8 v (axis 4) * dot8 v (axis 4) + dot8 v (axis 5) * dot8 v (axis 5) + dot8 v (axis 6) * dot8 v (axis 6) + dot8 v (axis 7) * dot8 v (axis 7)).
  { destruct v as [[[a1 a2 a3] a4] [[a5 a6 a7] a8]]. unfold axis, vec, dot8, hdot, dot3. cbn [repeat app nth dr dd qv qs v1 v2 v3]. ring. }
  rewrite E. ring.
Qed.
Lemma size_ortho l : ortho l -> size l = INR (length l).
Proof.
  induction l as [|v l IH]; [easy|]. intros (N & _ & O). cbn [size fold_right]. fold (size l). rewrite IH by easy.
  change (length (v :: l)) with (S (length l)). rewrite S_INR, N. ring.
Qed.
Lemma ortho_small l : ortho l -> (length l <= 8)%nat.
Proof.
  intros O. pose proof (axes_sum l) as E. rewrite size_ortho in E by easy.
  assert (B : forall i, (i < 8)%nat -> gram l (axis i) (axis i) <= 1) by (intros i I; rewrite <- (axis_unit i I); now apply bessel).
  assert (INR (length l) <= INR 8).
  { rewrite <- E. pose proof (B 0%nat ltac:(lia)). pose proof (B 1%nat ltac:(lia)). pose proof (B 2%nat ltac:(lia)). pose proof (B 3%nat ltac:(lia)).
    pose proof (B 4%nat ltac:(lia)). pose proof (B 5%nat ltac:(lia)). pose proof (B 6%nat ltac:(lia)). pose proof (B 7%nat ltac:(lia)). cbn [INR]. lra. }
  now apply INR_le.
Qed.
(** fewer than eight: there is another direction *)
Lemma another l : ortho l -> (length l < 8)%nat -> exists y, kills l y /\ 0 < dot8 y y.
Proof.
  intros O LT.
  assert (EX : exists i, (i < 8)%nat /\ gram l (axis i) (axis i) < 1).
  { pose proof (axes_sum l) as E. rewrite size_ortho in E by easy. apply lt_INR in LT. cbn [INR] in LT.
    destruct (Rlt_dec (gram l (axis 0) (axis 0)) 1); [exists 0%nat; split; [lia|easy]|].
    destruct (Rlt_dec (gram l (axis 1) (axis 1)) 1); [exists 1%nat; split; [lia|easy]|].
    destruct (Rlt_dec (gram l (axis 2) (axis 2)) 1); [exists 2%nat; split; [lia|easy]|].
    destruct (Rlt_dec (gram l (axis 3) (axis 3)) 1); [exists 3%nat; split; [lia|easy]|].
    destruct (Rlt_dec (gram l (axis 4) (axis 4)) 1); [exists 4%nat; split; [lia|easy]|].
    destruct (Rlt_dec (gram l (axis 5) (axis 5)) 1); [exists 5%nat; split; [lia|easy]|].
    destruct (Rlt_dec (gram l (axis 6) (axis 6)) 1); [exists 6%nat; split; [lia|easy]|].
    destruct (Rlt_dec (gram l (axis 7) (axis 7)) 1); [exists 7%nat; split; [lia|easy]|]. lra. }
  destruct EX as (i & I & H). exists (dqadd (axis i) (dqscale (-1) (proj l (axis i)))). split; [now apply rest_kills|].
  rewrite rest_norm by easy. rewrite axis_unit by easy. lra.
Qed.
Definition unit8 (u : rdq) : rdq := dqscale (/ sqrt (dot8 u u)) u.
Lemma dot8_scale_l k a b : dot8 (dqscale k a) b = k * dot8 a b.
Proof. now rewrite dot8_sym, dot8_scale, dot8_sym. Qed.
Lemma unit8_norm u : 0 < dot8 u u -> dot8 (unit8 u) (unit8 u) = 1.
Proof.
  intros H. unfold unit8. rewrite dot8_scale, dot8_scale_l. pose proof (sqrt_lt_R0 _ H). pose proof (sqrt_sqrt (dot8 u u) ltac:(lra)) as E.
  rewrite <- E at 3. field. lra.
Qed.
Lemma kills_scale l k u : kills l u -> kills l (dqscale k u).
Proof. intros K. eapply Forall_impl; [|exact K]. cbn. intros a A. rewrite dot8_scale, A. ring. Qed.
Lemma kills_sym l u : kills l u -> Forall (fun w => dot8 u w = 0) l.
Proof. intros K. eapply Forall_impl; [|exact K]. cbn. intros a A. now rewrite dot8_sym. Qed.
Lemma complete8 l y : ortho l -> length l = 8%nat -> y = proj l y.
Proof.
  intros O L. pose proof (rest_norm l y O) as N. pose proof (rest_kills l y O) as K. set (r := dqadd y (dqscale (-1) (proj l y))) in *.
  destruct (Req_dec (dot8 r r) 0) as [Z|NZ].
  - apply dot8_null in Z. assert (E : y = dqadd r (proj l y)).
    { unfold r. destruct y as [[[a1 a2 a3] a4] [[a5 a6 a7] a8]], (proj l _) as [[[b1 b2 b3] b4] [[b5 b6 b7] b8]].
      unfold dqadd, dqscale, hadd, hscale, vadd, vscale. cbn [dr dd qv qs v1 v2 v3]. repeat f_equal; ring. }
    rewrite E, Z at 1. destruct (proj l y) as [[[b1 b2 b3] b4] [[b5 b6 b7] b8]]. unfold dqadd, hadd, vadd, hzero, vzero. cbn [dr dd qv qs v1 v2 v3]. repeat f_equal; ring.
  - pose proof (dot8_pos r). exfalso. assert (O' : ortho (unit8 r :: l)).
    { split; [apply unit8_norm; lra|]. split; [|easy]. apply kills_sym, kills_scale, K. }
    apply ortho_small in O'. cbn [length] in O'. lia.
Qed.

(** ** Eigenvectors, the smallest eigenvalue first *)
Definition eigen (m : list rdq) (p : R * rdq) : Prop := forall w, gram m (snd p) w = fst p * dot8 (snd p) w.
Fixpoint descending (l : list R) : Prop := match l with x :: (y :: _) as l' => y <= x /\ descending l' | _ => True end.
Lemma next_eigen m l : ortho l -> (length l < 8)%nat -> Forall (fun v => exists mu, 0 <= mu /\ eigen m (mu, v)) l ->
  exists mu v, eigen m (mu, v) /\ dot8 v v = 1 /\ kills l v /\ forall w, kills l w -> mu * dot8 w w <= gram m w w.
Proof.
  intros O LT EI. set (C := size m + 1). assert (C0 : 0 < C) by (unfold C; pose proof (size_pos m); lra).
  destruct (goal_max m l C (C + 1)) as (u & MAX); [lra|lra|].
  pose proof (goal_critical m l C (C + 1) u MAX) as CR.
  assert (P : 0 < dot8 u u).
  { destruct (Req_dec (dot8 u u) 0) as [Z|NZ]; [exfalso|pose proof (dot8_pos u); lra].
    destruct (another l O LT) as (y & KY & PY). specialize (MAX (unit8 y)). rewrite (dot8_null u Z) in MAX. unfold goal in MAX.
    rewrite !gram_0, dot8_zero, unit8_norm in MAX by easy. rewrite (gram_kills l (unit8 y) _ (kills_scale l _ y KY)) in MAX.
    pose proof (gram_size m (unit8 y)) as GS. rewrite unit8_norm in GS by easy. unfold C in MAX. lra. }
  assert (KU : kills l u).
  { apply Forall_forall. intros v I. rewrite Forall_forall in EI. destruct (EI v I) as (mu & M0 & E). specialize (CR v). specialize (E u). cbn [fst snd] in E.
    rewrite (gram_ortho l u v O I), (gsym m u v), E in CR. rewrite (dot8_sym u v) in CR.
    assert (Q : (C - mu - dot8 u u - (C + 1)) * dot8 v u = 0) by lra. apply Rmult_integral in Q as [Q|Q]; [lra|easy]. }
  set (mu := C - dot8 u u). assert (EU : forall w, gram m u w = mu * dot8 u w).
  { intros w. specialize (CR w). rewrite (gram_kills l u w KU) in CR. unfold mu. lra. }
  exists mu, (unit8 u). split; [|split; [|split]].
  - intros w. cbn [fst snd]. unfold unit8. rewrite gram_scale, dot8_scale_l, EU. ring.
  - now apply unit8_norm.
  - now apply kills_scale.
  - intros w KW. destruct (Req_dec (dot8 w w) 0) as [Z|NZ]; [rewrite Z; pose proof (gram_pos m w); lra|].
    assert (PW : 0 < dot8 w w) by (pose proof (dot8_pos w); lra).
    set (t := sqrt (dot8 u u / dot8 w w)).
    assert (T : t * t * dot8 w w = dot8 u u).
    { unfold t. rewrite sqrt_sqrt by (left; now apply Rdiv_lt_0_compat). field. easy. }
    specialize (MAX (dqscale t w)). unfold goal in MAX. rewrite (gram_kills l u u KU) in MAX.
    rewrite (gram_kills l (dqscale t w) _ (kills_scale l t w KW)) in MAX.
    rewrite gram_scale, gram_scale_r, dot8_scale, dot8_scale_l in MAX.
    replace (t * (t * dot8 w w)) with (dot8 u u) in MAX by (rewrite <- T; ring). rewrite EU in MAX.
    assert (G : mu * dot8 u u <= t * t * gram m w w) by lra. rewrite <- T in G.
    assert (T0 : 0 < t * t). { apply Rmult_lt_reg_r with (dot8 w w); [easy|]. rewrite T. lra. }
    apply Rmult_le_reg_l with (t * t); [easy|]. lra.
Qed.
Lemma eigen_value m mu v : eigen m (mu, v) -> dot8 v v = 1 -> gram m v v = mu.
Proof. intros E N. specialize (E v). cbn [fst snd] in E. rewrite E, N. ring. Qed.
Lemma eigen_list m k : (k <= 8)%nat -> exists ps, length ps = k /\ ortho (map snd ps) /\ Forall (eigen m) ps /\ Forall (fun p => 0 <= fst p) ps /\
  descending (map fst ps) /\ match ps with [] => True | p :: _ => forall w, kills (map snd ps) w -> fst p * dot8 w w <= gram m w w end.
Proof.
  induction k as [|k IH]; intros LE; [exists []; repeat split; constructor|].
  destruct IH as (ps & L & O & E & P & D & MIN); [lia|].
  destruct (next_eigen m (map snd ps)) as (mu & v & EV & N & K & MIN'); [easy|rewrite map_length; lia| |].
  { apply Forall_forall. intros v I. apply in_map_iff in I as ([mu v'] & <- & I). rewrite Forall_forall in E, P. exists mu. split; [exact (P _ I)|exact (E _ I)]. }
  pose proof (eigen_value m mu v EV N) as GV. pose proof (gram_pos m v) as GP.
  exists ((mu, v) :: ps). split; [cbn; lia|]. split; [|split; [|split; [|split]]].
  - cbn [map snd ortho]. split; [easy|]. split; [now apply kills_sym|easy].
  - now constructor.
  - constructor; [cbn; lra|easy].
  - cbn [map fst]. destruct ps as [|[nu w] ps]; [easy|]. cbn [map fst descending] in *. split; [|easy].
    specialize (MIN v K). cbn [fst] in MIN. rewrite N in MIN. lra.
  - intros w KW. cbn [map snd] in KW. inversion KW; subst. now apply MIN'.
Qed.

(** ** No more non-zero singular values than rows *)
Definition comb (ps : list (R * rdq)) (r : rdq) : rdq := dqsum (map (fun p => dqscale (dot8 r (snd p) / fst p) (snd p)) ps).
Definition share (ps : list (R * rdq)) (r : rdq) : R := fold_right (fun p acc => dot8 r (snd p) * dot8 r (snd p) / fst p + acc) 0 ps.
Lemma comb_kills ps r v : Forall (fun w => dot8 v w = 0) (map snd ps) -> dot8 v (comb ps r) = 0.
Proof.
  unfold comb. induction ps as [|[mu w] ps IH]; intros F; [apply dot8_zero|]. cbn [map dqsum fold_right fst snd] in *. inversion F as [|? ? F1 F2]; subst.
  rewrite dot8_add, dot8_scale, F1. change (fold_right dqadd _ ?l) with (dqsum l). rewrite (IH F2). ring.
Qed.
Lemma comb_share ps r : dot8 r (comb ps r) = share ps r.
Proof.
  unfold comb. induction ps as [|[mu w] ps IH]; [apply dot8_zero|]. cbn [map dqsum fold_right fst snd share]. rewrite dot8_add, dot8_scale.
  change (fold_right dqadd _ ?l) with (dqsum l). rewrite IH. unfold share. unfold Rdiv. ring.
Qed.
Lemma comb_gram m ps r : ortho (map snd ps) -> Forall (eigen m) ps -> Forall (fun p => 0 < fst p) ps -> gram m (comb ps r) (comb ps r) = share ps r.
Proof.
  induction ps as [|[mu w] ps IH]; intros O E P; [apply gram_0|]. destruct O as (N & F & O). inversion E as [|? ? E1 E2]; subst. inversion P as [|? ? P1 P2]; subst.
  specialize (IH O E2 P2). cbn [fst snd] in *. cbn [share fold_right fst snd]. fold (share ps r). rewrite <- IH.
  change (comb ((mu, w) :: ps) r) with (dqadd (dqscale (dot8 r w / mu) w) (comb ps r)).
  rewrite gram_add, !gram_add_r, gram_scale, gram_scale_r, gram_scale, gram_scale_r, (gsym m (comb ps r) w). unfold eigen in E1. cbn [fst snd] in E1. rewrite !E1.
  rewrite (comb_kills ps r w F), N. field. lra.
Qed.
Lemma gram_row m r y : In r m -> dot8 r y * dot8 r y <= gram m y y.
Proof.
  induction m as [|a m IH]; [easy|]. intros [-> | I]; cbn [gram fold_right]; fold (gram m y y).
  - pose proof (gram_pos m y). lra.
  - specialize (IH I). pose proof (Rle_0_sqr (dot8 a y)) as Q. unfold Rsqr in Q. lra.
Qed.
Lemma share_le m ps r : ortho (map snd ps) -> Forall (eigen m) ps -> Forall (fun p => 0 < fst p) ps -> In r m -> share ps r <= 1.
Proof.
  intros O E P I. pose proof (gram_row m r (comb ps r) I) as H. rewrite (comb_gram m ps r O E P), comb_share in H. nra.
Qed.
Lemma shares m ps : fold_right (fun r acc => share ps r + acc) 0 m = fold_right (fun p acc => gram m (snd p) (snd p) / fst p + acc) 0 ps.
Proof.
  induction m as [|r m IH].
  - cbn. induction ps as [|p ps IH]; [easy|]. cbn [fold_right]. rewrite <- IH. unfold Rdiv. ring.
  - cbn [fold_right]. rewrite IH. clear IH. induction ps as [|p ps IH]; [cbn; ring|]. cbn [fold_right share]. rewrite <- IH. unfold share.
    change (gram (r :: m) (snd p) (snd p)) with (dot8 r (snd p) * dot8 r (snd p) + gram m (snd p) (snd p)). unfold Rdiv. ring.
Qed.
Lemma rank_le m ps : ortho (map snd ps) -> Forall (eigen m) ps -> Forall (fun p => 0 < fst p) ps -> (length ps <= length m)%nat.
Proof.
  intros O E P. apply INR_le. pose proof (shares m ps) as H.
  replace (fold_right (fun p acc => gram m (snd p) (snd p) / fst p + acc) 0 ps) with (INR (length ps)) in H.
  2:{ clear H. induction ps as [|[mu v] ps IH]; [easy|]. destruct O as (N & _ & O). inversion E; subst. inversion P; subst. cbn [fold_right fst snd] in *. rewrite <- IH by easy.
      rewrite (eigen_value m mu v) by easy. change (length ((mu, v) :: ps)) with (S (length ps)). rewrite S_INR. field. lra. }
  rewrite <- H. assert (G : forall k, incl k m -> fold_right (fun r acc => share ps r + acc) 0 k <= INR (length k)).
  { induction k as [|r k IH]; intros I; [cbn; lra|]. cbn [fold_right]. change (length (r :: k)) with (S (length k)). rewrite S_INR.
    pose proof (share_le m ps r O E P (I r (or_introl eq_refl))). specialize (IH (fun x X => I x (or_intror X))). lra. }
  now apply G.
Qed.

(** ** The decomposition *)
Lemma ortho_nth l : ortho l -> forall i j vi vj, nth_error l i = Some vi -> nth_error l j = Some vj -> dot8 vi vj = if Nat.eqb i j then 1 else 0.
Proof.
  induction l as [|v l IH]; intros O [|i] [|j] vi vj Hi Hj; try discriminate; destruct O as (N & F & O); cbn [nth_error] in *.
  - injection Hi as <-. injection Hj as <-. exact N.
  - injection Hi as <-. cbn [Nat.eqb]. rewrite Forall_forall in F. apply F. eapply nth_error_In; eauto.
  - injection Hj as <-. cbn [Nat.eqb]. rewrite Forall_forall in F. rewrite dot8_sym. apply F. eapply nth_error_In; eauto.
  - cbn [Nat.eqb]. now apply IH.
Qed.
Lemma descending_nth l : descending l -> Forall (fun x => 0 <= x) l -> forall i j, (i <= j)%nat -> nth j l 0 <= nth i l 0.
Proof.
  intros D P. assert (S : forall i, nth (S i) l 0 <= nth i l 0).
  { induction l as [|x l IH]; [intros []; cbn; lra|]. inversion P; subst. intros i. destruct l as [|y l].
    - destruct i as [|[|i]]; cbn; lra.
    - destruct D as [D1 D2]. destruct i as [|i]; [exact D1|]. now apply (IH D2). }
  intros i j L. induction L as [|j L IH]; [lra|]. specialize (S j). lra.
Qed.
Lemma nth_firstn (l : list R) : forall k i, nth i (firstn k l) 0 = if (i <? k)%nat then nth i l 0 else 0.
Proof.
  induction l as [|x l IH]; intros [|k] i; cbn [firstn].
  - now destruct i.
  - destruct i; cbn [nth]; now destruct (_ <? _)%nat.
  - now destruct i.
  - destruct i as [|i]; [easy|]. cbn [nth]. rewrite IH. reflexivity.
Qed.
Lemma descending_firstn l : forall k, descending l -> descending (firstn k l).
Proof.
  induction l as [|x l IH]; intros [|k] D; try easy. destruct l as [|y l]; [now destruct k|]. destruct D as [D1 D2]. destruct k as [|k]; [easy|].
  split; [exact D1|]. exact (IH (S k) D2).
Qed.
Theorem svd_exists m : exists s v, svd_spec m s v.
Proof.
  destruct (eigen_list m 8 (le_n 8)) as (ps & L & O & E & P & D & _).
  set (v := map snd ps). set (s := firstn (length m) (map (fun p => sqrt (fst p)) ps)). exists s, v.
  assert (LV : length v = 8%nat) by (unfold v; now rewrite map_length).
  assert (SP : Forall (fun x => 0 <= x) (map (fun p => sqrt (fst p)) ps)) by (apply Forall_forall; intros x I; apply in_map_iff in I as (p & <- & _); apply sqrt_pos).
  assert (SD : descending (map (fun p => sqrt (fst p)) ps)).
  { clear - D. induction ps as [|p ps IH]; [easy|]. destruct ps as [|q ps]; [easy|]. destruct D as [D1 D2]. split; [|exact (IH D2)]. now apply sqrt_le_1_alt. }
  assert (SF : Forall (fun x => 0 <= x) s) by (apply Forall_forall; intros x I; unfold s in I; rewrite Forall_forall in SP; apply SP; rewrite <- (firstn_skipn (length m)); apply in_or_app; now left).
  assert (EG : forall i vi, nth_error v i = Some vi -> exists mu, nth_error ps i = Some (mu, vi) /\ eigen m (mu, vi) /\ 0 <= mu).
  { intros i vi Hi. unfold v in Hi. rewrite nth_error_map in Hi. destruct (nth_error ps i) as [[mu w]|] eqn:Q; [|discriminate Hi]. injection Hi as <-.
    exists mu. split; [easy|]. apply nth_error_In in Q. rewrite Forall_forall in E, P. split; [now apply E|now apply (P (mu, w))]. }
  constructor.
  - exact LV.
  - unfold s. rewrite firstn_length, map_length, L. reflexivity.
  - intros y. now apply complete8.
  - now apply ortho_nth.
  - intros i j vi vj Hi Hj NE. destruct (EG i vi Hi) as (mu & _ & EM & _). unfold eigen in EM. cbn [fst snd] in EM. rewrite EM. rewrite (ortho_nth v O i j vi vj Hi Hj).
    destruct (Nat.eqb_spec i j); [contradiction|ring].
  - intros i vi Hi. destruct (EG i vi Hi) as (mu & NP & EM & M0). pose proof (ortho_nth v O i i vi vi Hi Hi) as N. rewrite Nat.eqb_refl in N.
    rewrite (eigen_value m mu vi EM N). unfold s. rewrite nth_firstn.
    assert (NS : nth i (map (fun p => sqrt (fst p)) ps) 0 = sqrt mu).
    { apply nth_error_nth. rewrite nth_error_map, NP. reflexivity. }
    destruct (Nat.ltb_spec i (length m)) as [LT|GE]; [rewrite NS; symmetry; now apply sqrt_sqrt|].
    destruct (Req_dec mu 0) as [|NZ]; [lra|exfalso].
    assert (PS : forall p, In p (firstn (S i) ps) -> 0 < fst p).
    { intros p I. apply In_nth_error in I as (j & J).
      assert (JL : (j < S i)%nat). { assert ((j < length (firstn (S i) ps))%nat) by (apply nth_error_Some; congruence). rewrite firstn_length in *. lia. }
      assert (J' : nth_error ps j = Some p). { rewrite <- J. clear - JL. revert j JL. generalize (S i) as k. intros k. revert ps. induction k as [|k IH]; intros [|q ps] [|j] JL; try lia; try easy. cbn. apply IH. lia. }
      assert (PP : Forall (fun x => 0 <= x) (map fst ps)). { apply Forall_forall. intros x X. apply in_map_iff in X as (q & <- & Q). rewrite Forall_forall in P. now apply P. }
      pose proof (descending_nth (map fst ps) D PP j i ltac:(lia)) as H.
      rewrite (nth_error_nth (map fst ps) i (x := mu)) in H by (rewrite nth_error_map, NP; reflexivity).
      rewrite (nth_error_nth (map fst ps) j (x := fst p)) in H by (rewrite nth_error_map, J'; reflexivity). lra. }
    assert (R : (length (firstn (S i) ps) <= length m)%nat).
    { apply rank_le.
      - clear - O. generalize (S i) as k. induction ps as [|p ps IH]; intros [|k]; try easy. destruct O as (N & F & O). cbn [firstn map ortho]. split; [easy|]. split; [|now apply IH].
        apply Forall_forall. intros w W. rewrite Forall_forall in F. apply F. apply in_map_iff in W as (q & <- & W). apply in_map. rewrite <- (firstn_skipn k). apply in_or_app. now left.
      - apply Forall_forall. intros p I. rewrite Forall_forall in E. apply E. rewrite <- (firstn_skipn (S i)). apply in_or_app. now left.
      - now apply Forall_forall. }
    rewrite firstn_length in R. assert (IL : (i < length ps)%nat) by (apply nth_error_Some; congruence). lia.
  - intros i. destruct (nth_in_or_default i s 0) as [I | ->]; [|lra]. rewrite Forall_forall in SF. now apply SF.
  - intros i j IJ. apply descending_nth; try easy. unfold s. now apply descending_firstn.
Qed.
