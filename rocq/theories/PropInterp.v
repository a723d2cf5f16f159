(** * Property C88: how far aligned poses are from the motions that were recorded. *)

From Coq Require Import Reals ZArith Bool List Lra Lia Psatz Permutation.
From Verif Require Import Num Py XReal XFacts Quat DualQuat TimeAlign Spec TimeSpec Embed QuatFacts QuatTrig QuatRot
  ListFacts TimeFacts ResampleFacts PropTimeOffset PropResample PropAligned FloatQuat StabilityFacts.
Import ListNotations.
Local Open Scope R_scope.

(** ** Specification *)
(** orientations that differ by at most d up to their signs (for small d: by an angle of 2d) *)
Definition turned (d : R) (p q : rq) : Prop := dist p q <= d \/ dist p (hneg q) <= d.
(** a motion: at every time a position and an orientation; at most V metres and W (of [turned]) per second *)
Definition steady (V W : R) (path : R -> rv * rq) : Prop :=
  forall s t, len3 (vsub (fst (path s)) (fst (path t))) <= V * Rabs (s - t) /\ turned (W * Rabs (s - t)) (snd (path s)) (snd (path t)).
(** a time stamped pose that is the pose of the path at that time up to n metres and m in orientation *)
Definition recorded (n m : R) (path : R -> rv * rq) (r : row) : Prop :=
  len3 (vsub (fst (snd r)) (fst (path (fst r)))) <= n /\ turned m (snd (snd r)) (snd (path (fst r))).
(** consecutive stamps are at most g apart, apart from dropouts of 0.2 s and more *)
Definition steps (g : R) (l : list R) : Prop :=
  forall i a b, nth_error l i = Some a -> nth_error l (S i) = Some b -> b - a <= g \/ 1 / 5 <= b - a.

(** ** Orientations up to sign *)
Lemma turned_sym d p q : turned d p q -> turned d q p.
Proof. unfold turned. rewrite (dist_sym p q), (dist_sym p (hneg q)), dist_neg_r. easy. Qed.
Lemma hneg_hneg q : hneg (hneg q) = q.
Proof. destruct q as [[] ?]. apply rq_eq; specu; ring. Qed.
Lemma turned_neg d p q : turned d p q -> turned d (hneg p) q.
Proof. unfold turned. rewrite dist_neg_r, dist_neg. tauto. Qed.
Lemma turned_triangle d e p q r : turned d p q -> turned e q r -> turned (d + e) p r.
Proof. intros A B. apply turned_sym in A. exact (near_both p r q d e A B). Qed.
Lemma turned_weak d e p q : d <= e -> turned d p q -> turned e p q.
Proof. intros L [A|A]; [left|right]; lra. Qed.
Lemma turned_pos d p q : turned d p q -> 0 <= d.
Proof. intros [A|A]; pose proof (dist_pos p q); pose proof (dist_pos p (hneg q)); lra. Qed.
Lemma turned_refl d p : 0 <= d -> turned d p p.
Proof. intros D. left. now rewrite dist_refl. Qed.

(** ** Interpolated orientations stay on the way between the two *)
Lemma dist_sqr p q : dist p q * dist p q = hnorm2 (hsub p q).
Proof. unfold dist. apply hnorm_sqr. Qed.
Lemma slerp_body_dist p q d t : unitq p -> unitq q -> hdot p q = d -> 0 <= d <= 1 -> 0 <= t <= 1 ->
  dist p (slerp_body p q d t) <= dist p q.
Proof.
  intros Hp Hq Hd B Ht. pose proof (perp_norm2 p q d Hp Hq Hd) as N2. pose proof (perp_dot p q d Hp Hd) as P0.
  unfold slerp_body. set (th := acos d * t). set (q3 := hsub q (hscale d p)) in *.
  set (u := if Rlt_dec (1 / 100000000) (hnorm q3) then hscale (/ hnorm q3) q3 else q3).
  assert (U0 : hdot p u = 0).
  { unfold u. destruct (Rlt_dec _ _); [|easy]. unfold hdot, dot3 in *; simpl in *. transitivity (/ hnorm q3 * 0); [rewrite <- P0; ring|ring]. }
  assert (U1 : hnorm2 u <= 1).
  { unfold u. destruct (Rlt_dec _ _) as [L|L].
    - pose proof (hnormalize_unit q3 ltac:(lra)) as U. unfold unitq in U. lra.
    - rewrite <- hnorm_sqr. pose proof (hnorm_pos q3). nra. }
  pose proof (acos_bound d) as AB. pose proof (acos_le_PI2 d B) as A2. pose proof PI_RGT_0 as PP.
  assert (TH : 0 <= th <= acos d) by (unfold th; split; nra).
  assert (C : d <= cos th).
  { rewrite <- (cos_acos d) at 1 by lra. apply cos_decr_1; lra. }
  pose proof (sin2_cos2 th) as E. unfold Rsqr in E.
  assert (F : hnorm2 (hsub p (hadd (hscale (cos th) p) (hscale (sin th) u)))
     = (1 - cos th) * (1 - cos th) * hnorm2 p + sin th * sin th * hnorm2 u - 2 * (1 - cos th) * sin th * hdot p u).
  { clear. destruct p as [[] ?], u as [[] ?]. specu. ring. }
  assert (G : hnorm2 (hsub p q) = hnorm2 p + hnorm2 q - 2 * hdot p q) by (clear; destruct p as [[] ?], q as [[] ?]; specu; ring).
  unfold unitq in *. rewrite U0, Hp in F. rewrite Hp, Hq, Hd in G.
  apply Rsqr_incr_0; [|apply dist_pos|apply dist_pos]. unfold Rsqr. rewrite !dist_sqr, F, G.
  assert (0 <= sin th * sin th) by nra. nra.
Qed.
Lemma slerp_between p q t r : unitq p -> unitq q -> 0 <= t <= 1 -> quaternion_slerp (inQ p) (inQ q) (Fin t) = Ok (inQ r) ->
  forall d, turned d p q -> turned d p r.
Proof.
  intros Up Uq T E d H. rewrite slerp_in in E by easy.
  assert (IJ : forall a b : rq, Ok (inQ a) = Ok (inQ b) -> a = b).
  { intros [[a b c] w] [[a' b' c'] w'] Q. cbn in Q. injection Q as -> -> -> ->. reflexivity. }
  apply IJ in E. destruct (Req_EM_T t 0); [subst; apply turned_refl; now apply turned_pos in H|].
  destruct (Req_EM_T t 1); [now subst|].
  pose proof (near_start_dot p q) as ND. pose proof (near_start_unit p q Up) as NU. pose proof (unit_dot_bound p q Up Uq) as B.
  assert (D : 0 <= Rabs (hdot p q) <= 1) by (split; [apply Rabs_pos|apply Rabs_le; lra]).
  pose proof (slerp_body_dist (near_start p q) q (Rabs (hdot p q)) t NU Uq ND D T) as L. rewrite E in L.
  assert (S : dist (near_start p q) q <= d).
  { assert (G : forall a, unitq a -> hnorm2 (hsub a q) = 2 - 2 * hdot a q).
    { intros a Ua. assert (hnorm2 (hsub a q) = hnorm2 a + hnorm2 q - 2 * hdot a q) by (clear; destruct a as [[] ?], q as [[] ?]; specu; ring).
      unfold unitq in *. lra. }
    assert (O : forall a, (a = p \/ a = hneg p) -> dist (near_start p q) q <= dist a q).
    { intros a A. assert (Ua : unitq a) by (destruct A as [-> | ->]; [easy|unfold unitq; now rewrite hnorm2_neg]).
      apply Rsqr_incr_0; [|apply dist_pos|apply dist_pos]. unfold Rsqr. rewrite !dist_sqr, !G by easy. rewrite ND.
      assert (hdot a q <= Rabs (hdot p q)); [|lra]. destruct A as [-> | ->]; [apply Rle_abs|].
      replace (hdot (hneg p) q) with (- hdot p q) by (clear; destruct p as [[] ?], q as [[] ?]; specu; ring).
      rewrite <- Rabs_Ropp. apply Rle_abs. }
    destruct H as [H|H]; [specialize (O p (or_introl eq_refl)); lra|].
    rewrite <- dist_neg_r in H. specialize (O (hneg p) (or_intror eq_refl)). lra. }
  assert (ST : near_start p q = p \/ near_start p q = hneg p) by (unfold near_start; destruct (Rlt_dec _ _); auto).
  destruct ST as [ST|ST]; rewrite ST in *; [left; lra|]. right. rewrite <- dist_neg_r. lra.
Qed.

(** ** The place of a sample among the stamps *)
(** the last stamp that is not later than s *)
Definition place (times : list R) (s : R) (j : nat) (t : R) : Prop :=
  nth_error times j = Some t /\ t <= s /\ forall k b, (j < k)%nat -> nth_error times k = Some b -> s < b.
Lemma place_unique times s j t j' t' : place times s j t -> place times s j' t' -> j = j' /\ t = t'.
Proof.
  intros (A & B & C) (A' & B' & C'). assert (j = j').
  { destruct (Nat.lt_trichotomy j j') as [L|[L|L]]; [pose proof (C j' t' L A'); lra|easy|pose proof (C' j t L A); lra]. }
  subst. split; congruence.
Qed.
Lemma linear_place pts s v : sorted (map fst pts) -> linear_at pts s v ->
  exists j tj fj, place (map fst pts) s j tj /\ nth_error pts j = Some (tj, fj) /\
    ((tj = s /\ v = fj) \/ exists tk fk, nth_error pts (S j) = Some (tk, fk) /\ tj < s < tk /\ v = fj + (fk - fj) / (tk - tj) * (s - tj)).
Proof.
  intros SO [(t & N & ->)|(j & tj & fj & tk & fk & N1 & N2 & [L1 L2] & ->)].
  - exists (length pts - 1)%nat, t, v. split; [|split; [easy|now left]]. split; [now rewrite nth_error_map, N|]. split; [lra|].
    intros k b L E. exfalso. assert (nth_error (map fst pts) k <> None) by congruence. apply nth_error_Some in H. rewrite map_length in H. lia.
  - exists j, tj, fj. split; [|split; [easy|]].
    + split; [now rewrite nth_error_map, N1|]. split; [easy|]. intros k b L E.
      assert (tk <= b); [|lra]. apply (SO (S j) k); [lia|now rewrite nth_error_map, N2|easy].
    + destruct (Req_dec tj s) as [->|NE]; [left; split; [easy|]; rewrite Rminus_eq_0; ring|].
      right. exists tk, fk. repeat split; easy || lra.
Qed.
Lemma stamp_place times s j t : sorted times -> In s times -> place times s j t -> t = s.
Proof.
  intros SO I (A & B & C). apply In_nth_error in I as (i & I).
  destruct (Nat.le_gt_cases i j) as [L|L]; [|pose proof (C i s L I); lra].
  assert (s <= t) by (now apply (SO i j)). lra.
Qed.

(** the rows around a sample *)
Lemma on_path_place l s p q : sorted (row_times l) -> on_path l (s, (p, q)) ->
  exists j tj pj qj, nth_error l j = Some (tj, (pj, qj)) /\ place (row_times l) s j tj /\
    ((tj = s /\ p = pj) \/ exists tk pk qk, nth_error l (S j) = Some (tk, (pk, qk)) /\ tj < s < tk /\
      p = vadd pj (vscale ((s - tj) / (tk - tj)) (vsub pk pj))).
Proof.
  intros SO (X & Y & Z & _).
  assert (EF : forall f, map fst (row_coord f l) = row_times l) by (intros f; unfold row_coord, row_times; now rewrite map_map).
  assert (EN : forall f j, nth_error (row_coord f l) j = option_map (fun r : row => (fst r, f (fst (snd r)))) (nth_error l j)).
  { intros f j. unfold row_coord. now rewrite nth_error_map. }
  apply linear_place in X as (jx & tx & fx & PX & NX & CX); [|now rewrite EF].
  apply linear_place in Y as (jy & ty & fy & PY & NY & CY); [|now rewrite EF].
  apply linear_place in Z as (jz & tz & fz & PZ & NZ & CZ); [|now rewrite EF].
  rewrite EF in PX, PY, PZ. destruct (place_unique _ _ _ _ _ _ PX PY) as [<- <-]. destruct (place_unique _ _ _ _ _ _ PX PZ) as [<- <-].
  rewrite EN in NX, NY, NZ. destruct (nth_error l jx) as [[t [pj qj]]|] eqn:EJ; [|discriminate]. cbn [option_map fst snd] in NX, NY, NZ.
  injection NX as -> <-. injection NY as <-. injection NZ as <-.
  exists jx, tx, pj, qj. split; [easy|]. split; [easy|].
  destruct CX as [[E EX]|(tk & fk & KX & [L1 L2] & EX)].
  - left. split; [easy|]. destruct CY as [[_ EY]|(? & ? & _ & ? & _)]; [|lra]. destruct CZ as [[_ EZ]|(? & ? & _ & ? & _)]; [|lra].
    destruct p, pj; cbn in *; congruence.
  - right. destruct CY as [[? _]|(tk' & fk' & KY & _ & EY)]; [lra|]. destruct CZ as [[? _]|(tk'' & fk'' & KZ & _ & EZ)]; [lra|].
    rewrite EN in KX, KY, KZ. destruct (nth_error l (S jx)) as [[t [pk qk]]|] eqn:EK; [|discriminate]. cbn [option_map fst snd] in KX, KY, KZ.
    injection KX as <- <-. injection KY as <- <-. injection KZ as <- <-.
    exists t, pk, qk. split; [easy|]. split; [lra|].
    destruct p as [x y z], pj as [xj yj zj], pk as [xk yk zk]. cbn [v1 v2 v3] in *. apply rv_eq; specu; subst; field; lra.
Qed.

(** ** One interpolated pose *)
Lemma steady_pos V W path : steady V W path -> 0 <= V /\ 0 <= W.
Proof.
  intros S. destruct (S 1 0) as [A B]. rewrite Rminus_0_r, Rabs_R1, Rmult_1_r in *. apply turned_pos in B.
  split; [|easy]. pose proof (len3_pos (vsub (fst (path 1)) (fst (path 0)))). lra.
Qed.
Lemma recorded_pos n m path r : recorded n m path r -> 0 <= n /\ 0 <= m.
Proof. intros [A B]. apply turned_pos in B. split; [|easy]. pose proof (len3_pos (vsub (fst (snd r)) (fst (path (fst r))))). lra. Qed.
Lemma len3_scale k v : 0 <= k -> len3 (vscale k v) = k * len3 v.
Proof.
  intros K. unfold len3. assert (E : dot3 (vscale k v) (vscale k v) = k * k * dot3 v v) by (destruct v; specu; ring).
  rewrite E, sqrt_mult; [|nra|destruct v; specu; nra]. now rewrite sqrt_square.
Qed.
Lemma between_positions V n s a b A B P :
  a < s < b -> len3 (vsub A P) <= n + V * (s - a) -> len3 (vsub B P) <= n + V * (b - s) -> 0 <= V ->
  len3 (vsub (vadd A (vscale ((s - a) / (b - a)) (vsub B A))) P) <= n + V * (b - a) / 2.
Proof.
  intros [L1 L2] HA HB V0. set (al := (s - a) / (b - a)).
  assert (D : s - a = al * (b - a)) by (unfold al; field; lra).
  assert (AL : 0 <= al <= 1).
  { split; [unfold al; apply Rmult_le_pos; [lra|left; apply Rinv_0_lt_compat; lra]|]. apply Rmult_le_reg_r with (b - a); [lra|]. rewrite <- D. lra. }
  replace (vsub (vadd A (vscale al (vsub B A))) P) with (vadd (vscale (1 - al) (vsub A P)) (vscale al (vsub B P)))
    by (clear; destruct A, B, P; apply rv_eq; specu; ring).
  pose proof (len3_triangle (vscale (1 - al) (vsub A P)) (vscale al (vsub B P))) as T. rewrite !len3_scale in T by lra.
  assert (E : b - s = (1 - al) * (b - a)) by lra. rewrite D in HA. rewrite E in HB.
  assert (G1 : (1 - al) * len3 (vsub A P) <= (1 - al) * (n + V * (al * (b - a)))) by (apply Rmult_le_compat_l; lra).
  assert (G2 : al * len3 (vsub B P) <= al * (n + V * ((1 - al) * (b - a)))) by (apply Rmult_le_compat_l; lra).
  set (w := V * (b - a)) in *. assert (W0 : 0 <= w) by (unfold w; nra).
  assert (G3 : (1 - al) * (n + V * (al * (b - a))) + al * (n + V * ((1 - al) * (b - a))) = n + 2 * (al * (1 - al)) * w) by (unfold w; ring).
  assert (G4 : al * (1 - al) <= / 4) by (pose proof (Rle_0_sqr (al - / 2)) as Q; unfold Rsqr in Q; lra). 
  assert (G5 : 2 * (al * (1 - al)) * w <= / 2 * w) by (apply Rmult_le_compat_r; lra). lra.
Qed.

Lemma row_time l i t p q : nth_error l i = Some (t, (p, q)) -> nth_error (row_times l) i = Some t.
Proof. intros E. unfold row_times. now rewrite nth_error_map, E. Qed.
Lemma row_quat (l : list row) i q : nth_error (row_quats l) i = Some q -> exists t p, nth_error l i = Some (t, (p, q)).
Proof. intros E. unfold row_quats in E. rewrite nth_error_map in E. unfold row in *. destruct (nth_error l i) as [[t [p q']]|]; cbn in E; [|discriminate E]. injection E as ->. eauto. Qed.

(** at the stamps of the path nothing is interpolated *)
Lemma recorded_stamp n m path l r : sorted (row_times l) -> Forall (recorded n m path) l -> In (fst r) (row_times l) -> on_path l r -> recorded n m path r.
Proof.
  destruct r as [s [p q]]. cbn [fst]. intros SO F I O. rewrite Forall_forall in F.
  destruct (on_path_place l s p q SO O) as (j & tj & pj & qj & NJ & PL & C).
  pose proof (stamp_place _ _ _ _ SO I PL) as ->. split; cbn [fst snd].
  - destruct C as [[_ ->]|(? & ? & ? & _ & ? & _)]; [|lra]. apply nth_error_In in NJ. apply (F _ NJ).
  - destruct O as (_ & _ & _ & RE). apply In_nth_error in I as (i & I). destruct RE as [r t q0 (F1 & F2 & F3) Q _|k tl tr ql qr q0 (F1 & F2 & F3) _ LT _ _ _ _].
    + assert (t = s). { destruct (Nat.lt_ge_cases i r) as [L|L]; [pose proof (F3 i s L I); lra|]. pose proof (SO r i t s L F1 I). lra. }
      subst t. apply row_quat in Q as (t & p' & Q). pose proof (row_time _ _ _ _ _ Q) as Q'. rewrite F1 in Q'. injection Q' as <-.
      apply nth_error_In in Q. apply (F _ Q).
    + exfalso. destruct (Nat.lt_ge_cases i (S k)) as [L|L]; [pose proof (F3 i s L I); lra|]. pose proof (SO (S k) i tr s L F1 I). lra.
Qed.
(** between the stamps *)
Lemma recorded_between V W n m g path l r : steady V W path -> sorted (row_times l) -> Forall unitq (row_quats l) -> Forall (recorded n m path) l ->
  steps g (row_times l) -> 0 <= g -> matched (row_times l) (fst r) -> on_path l r -> recorded (n + V * g / 2) (3 * m + 2 * W * g) path r.
Proof.
  destruct r as [s [p q]]. cbn [fst]. intros ST SO UQ F GA G0 MA O. pose proof F as F'. rewrite Forall_forall in F. rewrite Forall_forall in UQ.
  destruct (steady_pos _ _ _ ST) as [V0 W0].
  assert (NM : 0 <= n /\ 0 <= m).
  { destruct O as (_ & _ & _ & RE). destruct l as [|r0 l]; [|apply (recorded_pos n m path r0), F; now left].
    exfalso. destruct MA as (j & b & (H & _) & _). now destruct j. }
  destruct NM as [N0 M0].
  destruct (in_dec Req_EM_T s (row_times l)) as [I|NI].
  { destruct (recorded_stamp n m path l (s, (p, q)) SO F' I O) as [A B]. split.
    - eapply Rle_trans; [exact A|]. assert (0 <= V * g) by now apply Rmult_le_pos. lra.
    - eapply turned_weak; [|exact B]. assert (0 <= W * g) by now apply Rmult_le_pos. lra. }
  (* the two stamps around s *)
  assert (AROUND : forall r t, first_from (row_times l) s r t -> exists k a, r = S k /\ nth_error (row_times l) k = Some a /\ a < s < t /\ t - a <= g).
  { intros r t (F1 & F2 & F3). destruct MA as (j & b & (J1 & J2 & J3) & _ & MA).
    assert (r = j). { destruct (Nat.lt_trichotomy r j) as [L|[L|L]]; [pose proof (J3 r t L F1); lra|easy|pose proof (F3 j b L J1); lra]. }
    subst r. assert (b = t) by congruence. subst b.
    destruct MA as [->|(k & a & -> & K1 & K2 & K3)]; [exfalso; apply NI; eapply nth_error_In; exact F1|].
    exists k, a. split; [easy|]. split; [easy|]. pose proof (F3 k a ltac:(lia) K1).
    assert (t <> s) by (intros ->; apply NI; eapply nth_error_In; exact F1). split; [lra|].
    destruct (GA k a t K1 F1); lra. }
  split; cbn [fst snd].
  - destruct (on_path_place l s p q SO O) as (j & tj & pj & qj & NJ & (P1 & P2 & P3) & [[E _]|(tk & pk & qk & NK & [L1 L2] & ->)]).
    { exfalso. apply NI. rewrite <- E. eapply nth_error_In; exact P1. }
    assert (FF : first_from (row_times l) s (S j) tk).
    { split; [now apply row_time in NK|]. split; [lra|]. intros i a L E. destruct (Nat.eq_dec i j) as [->|NE]; [congruence|].
      pose proof (SO i j a tj ltac:(lia) E P1). lra. }
    destruct (AROUND _ _ FF) as (k & a & E & K1 & K2 & K3). injection E as <-. rewrite P1 in K1. injection K1 as <-.
    apply Rle_trans with (n + V * (tk - tj) / 2); [|assert (V * (tk - tj) <= V * g) by (apply Rmult_le_compat_l; lra); lra].
    apply nth_error_In in NJ. apply nth_error_In in NK. pose proof (F _ NJ) as [RJ _]. pose proof (F _ NK) as [RK _]. cbn [fst snd] in RJ, RK.
    apply between_positions; [lra| | |easy].
    + pose proof (len3_triangle (vsub pj (fst (path tj))) (vsub (fst (path tj)) (fst (path s)))) as T.
      replace (vadd (vsub pj (fst (path tj))) (vsub (fst (path tj)) (fst (path s)))) with (vsub pj (fst (path s))) in T
        by (destruct pj, (fst (path tj)), (fst (path s)); apply rv_eq; specu; ring).
      destruct (ST tj s) as [S1 _]. rewrite Rabs_left in S1 by lra. replace (- (tj - s)) with (s - tj) in S1 by ring. lra.
    + pose proof (len3_triangle (vsub pk (fst (path tk))) (vsub (fst (path tk)) (fst (path s)))) as T.
      replace (vadd (vsub pk (fst (path tk))) (vsub (fst (path tk)) (fst (path s)))) with (vsub pk (fst (path s))) in T
        by (destruct pk, (fst (path tk)), (fst (path s)); apply rv_eq; specu; ring).
      destruct (ST tk s) as [S1 _]. rewrite Rabs_pos_eq in S1 by lra. lra.
  - destruct O as (_ & _ & _ & RE). destruct RE as [r t q0 FF Q _|k tl tr ql qr q0 FF NL LT QL QR _ E].
    + destruct (AROUND _ _ FF) as (k & a & _ & _ & K2 & K3). destruct FF as (F1 & _).
      apply row_quat in Q as (t' & p' & Q). pose proof (row_time _ _ _ _ _ Q) as Q'. rewrite F1 in Q'. injection Q' as <-.
      apply nth_error_In in Q. destruct (F _ Q) as [_ B]. cbn [fst snd] in B. destruct (ST t s) as [_ S1]. rewrite Rabs_pos_eq in S1 by lra.
      eapply turned_weak; [|exact (turned_triangle _ _ _ _ _ B S1)].
      assert (W * (t - s) <= W * g) by (apply Rmult_le_compat_l; lra). assert (0 <= W * g) by (apply Rmult_le_pos; lra). lra.
    + destruct (AROUND _ _ FF) as (k' & a & EQ & K1 & K2 & K3). injection EQ as <-. rewrite NL in K1. injection K1 as <-. destruct FF as (F1 & _).
      pose proof (UQ ql (nth_error_In _ _ QL)) as Ul. pose proof (UQ qr (nth_error_In _ _ QR)) as Ur.
      apply row_quat in QL as (t1 & p1 & QL). pose proof (row_time _ _ _ _ _ QL) as Q'. rewrite NL in Q'. injection Q' as <-.
      apply row_quat in QR as (t2 & p2 & QR). pose proof (row_time _ _ _ _ _ QR) as Q'. rewrite F1 in Q'. injection Q' as <-.
      apply nth_error_In in QL. apply nth_error_In in QR. destruct (F _ QL) as [_ BL]. destruct (F _ QR) as [_ BR]. cbn [fst snd] in BL, BR.
      destruct (ST tl tr) as [_ S1]. rewrite Rabs_left in S1 by lra. replace (- (tl - tr)) with (tr - tl) in S1 by ring.
      destruct (ST tl s) as [_ S2]. rewrite Rabs_left in S2 by lra. replace (- (tl - s)) with (s - tl) in S2 by ring.
      assert (T1 : turned (m + (W * (tr - tl) + m)) ql qr).
      { eapply turned_triangle; [exact BL|]. eapply turned_triangle; [exact S1|]. now apply turned_sym. }
      assert (T2 : turned (m + (W * (tr - tl) + m)) ql q0).
      { refine (slerp_between ql qr ((s - tl) / (tr - tl)) q0 Ul Ur _ E _ T1). split.
        - apply Rmult_le_pos; [lra|left; apply Rinv_0_lt_compat; lra].
        - apply Rmult_le_reg_r with (tr - tl); [lra|]. unfold Rdiv. rewrite Rmult_assoc, Rinv_l by lra. lra. }
      apply turned_sym in T2. eapply turned_weak; [|exact (turned_triangle _ _ _ _ _ T2 (turned_triangle _ _ _ _ _ BL S2))].
      assert (W * (s - tl) <= W * g) by (apply Rmult_le_compat_l; lra). assert (W * (tr - tl) <= W * g) by (apply Rmult_le_compat_l; lra). lra.
Qed.

(** ** C88 *)
Theorem C88_aligned : forall (A B : list row) (o : R) (pathA pathB : R -> rv * rq) (VA WA VB WB nA mA nB mB gA gB : R),
  A <> [] -> B <> [] -> sorted (row_times A) -> sorted (row_times B) ->
  Forall unitq (row_quats A) -> Forall unitq (row_quats B) ->
  steady VA WA pathA -> steady VB WB pathB -> 0 <= gA -> 0 <= gB -> steps gA (row_times A) -> steps gB (row_times B) ->
  Forall (recorded nA mA pathA) (shift_rows o A) -> Forall (recorded nB mB pathB) B ->
  exists outA outB, compute_aligned_poses (inS A) (inS B) (Fin o) = Ok (inS outA, inS outB) /\
    row_times outA = row_times outB /\
    Forall (recorded (nA + VA * gA / 2) (3 * mA + 2 * WA * gA) pathA) outA /\
    Forall (recorded (nB + VB * gB / 2) (3 * mB + 2 * WB * gB) pathB) outB /\
    (Forall (recorded nA mA pathA) outA \/ Forall (recorded nB mB pathB) outB).
Proof.
  intros A B o pathA pathB VA WA VB WB nA mA nB mB gA gB NA NB SA SB UA UB STA STB GA GB PA PB RA RB.
  set (A' := shift_rows o A) in *.
  assert (SA' : sorted (row_times A')).
  { unfold A', shift_rows, row_times. rewrite map_map. cbn [fst]. rewrite <- (map_map fst (fun t => t + o)). now apply sorted_map_add. }
  assert (UA' : Forall unitq (row_quats A')) by (unfold A', shift_rows, row_quats in *; rewrite map_map; exact UA).
  assert (PA' : steps gA (row_times A')).
  { assert (E : row_times A' = map (fun t => t + o) (row_times A)) by (unfold A', shift_rows, row_times; now rewrite !map_map).
    rewrite E. intros i a b H1 H2. rewrite nth_error_map in H1, H2.
    destruct (nth_error (row_times A) i) as [a'|] eqn:E1; [|discriminate]. destruct (nth_error (row_times A) (S i)) as [b'|] eqn:E2; [|discriminate].
    cbn in H1, H2. injection H1 as <-. injection H2 as <-. replace (b' + o - (a' + o)) with (b' - a') by ring. now apply (PA i). }
  destruct (steady_pos _ _ _ STA) as [VA0 WA0]. destruct (steady_pos _ _ _ STB) as [VB0 WB0].
  assert (NA' : A' <> []) by (unfold A', shift_rows; now destruct A).
  assert (MA : 0 <= mA) by (destruct A' as [|r A'']; [easy|]; inversion RA; subst; now apply recorded_pos in H1).
  assert (MB : 0 <= mB) by (destruct B as [|r B']; [easy|]; inversion RB; subst; now apply recorded_pos in H1).
  assert (WG : forall n m V W g path r, 0 <= V -> 0 <= W -> 0 <= g -> 0 <= m -> recorded n m path r -> recorded (n + V * g / 2) (3 * m + 2 * W * g) path r).
  { intros n m V W g path r V0 W0 G0 M0 [X Y]. split; [|eapply turned_weak; [|exact Y]].
    - assert (0 <= V * g) by now apply Rmult_le_pos. lra.
    - assert (0 <= W * g) by now apply Rmult_le_pos. lra. }
  destruct (C41_contract A B o NA NB SA SB UA UB) as (samples & outA & outB & E & TA & TB & OA & OB & F1 & F2).
  fold A' in OA, F1, F2. exists outA, outB. split; [exact E|]. split; [congruence|].
  assert (IN : forall (out : list row) r, row_times out = samples -> In r out -> In (fst r) samples).
  { intros out r T I. rewrite <- T. now apply in_map. }
  assert (CASE : (2 <= length A /\ 2 <= length B /\ low_is_A (row_times A') (row_times B))%nat \/
                 (~ low_is_A (row_times A') (row_times B) \/ (length A < 2)%nat \/ (length B < 2)%nat)).
  { destruct (Nat.lt_ge_cases (length A) 2); [auto|]. destruct (Nat.lt_ge_cases (length B) 2); [auto|].
    destruct (Classical_Prop.classic (low_is_A (row_times A') (row_times B))); auto. }
  rewrite Forall_forall in OA, OB. destruct CASE as [(L1 & L2 & LO)|NL].
  - specialize (F1 L1 L2 LO).
    assert (X : Forall (recorded nA mA pathA) outA).
    { apply Forall_forall. intros r I. apply (recorded_stamp nA mA pathA A' r SA' RA); [|now apply OA].
      apply (filtered_in _ _ _ F1). now apply (IN outA). }
    split; [eapply Forall_impl; [|exact X]; intros r; apply WG; assumption|]. split; [|now left].
    apply Forall_forall. intros r I. apply (recorded_between VB WB nB mB gB pathB B r); auto.
    apply (filtered_in _ _ _ F1). now apply (IN outB).
  - specialize (F2 NL).
    assert (X : Forall (recorded nB mB pathB) outB).
    { apply Forall_forall. intros r I. apply (recorded_stamp nB mB pathB B r SB RB); [|now apply OB].
      apply (filtered_in _ _ _ F2). now apply (IN outB). }
    split; [|split; [eapply Forall_impl; [|exact X]; intros r; apply WG; assumption|now right]].
    apply Forall_forall. intros r I. apply (recorded_between VA WA nA mA gA pathA A' r); auto.
    apply (filtered_in _ _ _ F2). now apply (IN outA).
Qed.
