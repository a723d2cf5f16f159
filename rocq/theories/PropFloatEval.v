(** * Property C111: the poses compared by the evaluation of a calibration, and their errors, in double precision. *)

From Coq Require Import Reals ZArith Bool List Arith Lra Lia Psatz.
From Flocq Require Import Core BinarySingleNaN.
From Verif Require Import Num Py Quat DualQuat HandEye Ransac F64 Spec ListFacts QuatFacts QuatTrig DualFacts F64Facts FloatFacts PropFloat FloatQuat FloatDual PropFloatDual HandEyeFacts XFacts StabilityFacts PropNoise PropEval PropFloatPose.
Import ListNotations.
Local Open Scope R_scope.

(** ** Specification *)
(** the dual quaternion d holds the motion D, whose translation is at most K, up to 1e-13 (rotation) and 1e-13 K (dual part) *)
Definition tracked {L} (K : R) (d : @dquat (F64 L)) (D : rdq) : Prop :=
  unitdq D /\ len3 (trans_of D) <= K /\ approx (1 / 10000000000000) (1 / 10000000000000 * K) d D.
(** the pose p is the motion D up to 4e-11 K in position and 3e-12 in orientation (either sign of the quaternion) *)
Definition tells {L} (K : R) (p : @pose (F64 L)) (D : rdq) : Prop :=
  finv (pos p) /\ len3 (vsub (valv (pos p)) (trans_of D)) <= 4 / 100000000000 * K /\
  exists s, (s = dr D \/ s = hneg (dr D)) /\ finq (ori p) /\ dist (val (ori p)) s <= 3 / 1000000000000.
(** the hand in the camera's world, for calibration X, seen from its first pose *)
Definition hand_path (X : rdq) (Ws : list rdq) : list rdq :=
  match Ws with [] => [] | W0 :: _ => map (fun W => dqmul (dqconj (dqmul W0 (dqconj X))) (dqmul W (dqconj X))) Ws end.

(** ** The steps *)
Lemma conj_dual D : unitdq D -> RD (hconj (dr D)) (hmul (hmul (hneg (hconj (dr D))) (dd D)) (hconj (dr D))) = dqconj D.
Proof.
  intros U. rewrite <- (unitdq_inv_conj _ U). unfold dqinv. assert (HE : hinv (dr D) = hconj (dr D)).
  { unfold hinv. rewrite (proj1 U). replace (/ 1) with 1 by field. apply hscale_1. }
  now rewrite HE.
Qed.
Lemma unit_rot D : unitdq D -> hnorm (dr D) = 1.
Proof. intros [U _]. now apply unit_hnorm. Qed.
Lemma unit_dual D K : unitdq D -> len3 (trans_of D) <= K -> hnorm (dd D) <= 1 / 2 * K.
Proof. intros U H. rewrite (trans_len D U) in H. lra. Qed.
Lemma conj_trans D : unitdq D -> hnorm (dd (dqconj D)) = hnorm (dd D).
Proof. intros U. cbn [dqconj dd]. apply hnorm_conj. Qed.
Lemma mul_dual A B : unitdq A -> unitdq B -> hnorm (dd (dqmul A B)) <= hnorm (dd A) + hnorm (dd B).
Proof.
  intros UA UB. cbn [dqmul dd]. eapply Rle_trans; [apply hnorm_triangle|]. rewrite !hnorm_mul, (unit_rot A UA), (unit_rot B UB). lra.
Qed.
(** after a division by the norm the rotation part is a unit to 6e-15 *)
Lemma divided_unit {L} e f (d : @dquat (F64 L)) D : approx e f d D -> hnorm (dr D) = 1 -> e <= 1 / 1000000 ->
  Rabs (hnorm (val (rot (dnormalize d))) - 1) <= 6 / 1000000000000000.
Proof.
  intros A N E. destruct (rot_normal e f d D A N E) as [[F G] _]. destruct (C70_divided L (rot d) F G) as (_ & C & _).
  pose proof (close_dist (3 / 1000000000000000) _ _ ltac:(lra) C) as Q. assert (U : hnorm (direction (val (rot d))) = 1) by (apply direction_norm, normal_pos; exact (conj F G)).
  change (rot (dnormalize d)) with (qdivs (rot d) (qnorm (rot d))). set (r := qdivs (rot d) (qnorm (rot d))) in *.
  pose proof (dist_norm (val r) (direction (val (rot d)))) as N1. pose proof (dist_norm (direction (val (rot d))) (val r)) as N2. rewrite dist_sym in N2.
  absle; lra.
Qed.
(** the alignment at the first pose does not raise *)
Lemma align_first {L} (d : @dquat (F64 L)) l inv : finq (rot d) -> finq (dual d) ->
  Rabs (hnorm (val (rot d)) - 1) <= 1 / 10000000000000 -> hnorm (val (dual d)) <= 600000 ->
  dinv d = Ok inv -> inv = mkDQ (qinv (rot d)) (qmul (qmul (qneg (qinv (rot d))) (dual d)) (qinv (rot d))) ->
  align_paths_at_index (d :: l) 0 = Ok (map (fun x => flip_negative (dmul inv x)) (d :: l)).
Proof.
  intros FR FD NR ND EI EI'. unfold align_paths_at_index. unfold index at 1. cbn [nth_error bind]. rewrite EI. cbn [bind].
  cbn [skipn firstn]. rewrite app_nil_r. cbn [map]. unfold index. cbn [nth_error bind].
  assert (DM : dmul inv d = mkDQ (qmul (qinv (rot d)) (rot d)) (qadd (qmul (qinv (rot d)) (dual d)) (qmul (qmul (qmul (qneg (qinv (rot d))) (dual d)) (qinv (rot d))) (rot d)))) by (rewrite EI'; reflexivity).
  destruct (inverse_product (rot d) (dual d) _ FR FD NR ND) as (_ & _ & F1 & D1 & F2 & D2); [unfold e25; lra|].
  set (a := qmul (qinv (rot d)) (rot d)) in *. set (b := qadd _ _) in *.
  assert (FW : flip_negative (dmul inv d) = mkDQ a b).
  { rewrite DM. unfold flip_negative. cbn [rot]. destruct (of_Z_V 0 ltac:(lia)) as [FZ VZ].
    change (ltb (Num:=F64 L) (qw a) (n0 (N:=F64 L))) with (Bltb (qw a) (f_of_Z 0)).
    destruct (Bltb (qw a) (f_of_Z 0)) eqn:B; [|reflexivity]. pose proof (proj1 (ltb_V (qw a) (f_of_Z 0) (proj2 (proj2 (proj2 F1))) FZ) B) as B'. rewrite VZ in B'.
    destruct (dist_close _ _ _ D1) as (_ & _ & _ & W). cbn [hone qs val] in W. apply Rabs_le_inv in W. lra. }
  assert (OR : is_origin (flip_negative (dmul inv d)) = true).
  { rewrite FW. destruct (dist_close _ _ _ D1) as (w1 & w2 & w3 & w4).
    assert (D3 : dist (val b) hzero <= 9 / 1000000000) by (rewrite dist_zero; eapply Rle_trans; [exact D2|]; clear; nums; lra).
    destruct (dist_close _ _ _ D3) as (y1 & y2 & y3 & y4).
    destruct F1 as (g1 & g2 & g3 & g4). destruct F2 as (k1 & k2 & k3 & k4). cbn [hone hzero vzero qv qs v1 v2 v3 val] in *.
    assert (T6 : 6 / 1000000000000000 <= 9 / 1000000000) by lra.
    apply is_origin_8; cbn [rot dual].
    - exact (close_8 L _ 0 g1 (or_introl eq_refl) (Rle_trans _ _ _ w1 T6)).
    - exact (close_8 L _ 0 g2 (or_introl eq_refl) (Rle_trans _ _ _ w2 T6)).
    - exact (close_8 L _ 0 g3 (or_introl eq_refl) (Rle_trans _ _ _ w3 T6)).
    - exact (close_8 L _ 1 g4 (or_intror eq_refl) (Rle_trans _ _ _ w4 T6)).
    - exact (close_8 L _ 0 k1 (or_introl eq_refl) y1).
    - exact (close_8 L _ 0 k2 (or_introl eq_refl) y2).
    - exact (close_8 L _ 0 k3 (or_introl eq_refl) y3).
    - exact (close_8 L _ 0 k4 (or_introl eq_refl) y4). }
  rewrite OR. reflexivity.
Qed.

Lemma pm_c a b : (a = b \/ a = dqneg b) -> dqconj a = dqconj b \/ dqconj a = dqneg (dqconj b).
Proof.
  intros [-> | ->]; [now left|right]. destruct b as [[[] ?] [[] ?]]. unfold dqconj, dqneg. specu. apply rdq_eq; cbn [dr dd]; reflexivity.
Qed.
Definition pm (a b : rdq) : Prop := a = b \/ a = dqneg b.
(** the calibration turned around *)
Lemma turned_around {L} K (x : @dquat (F64 L)) X : 1 <= K <= 500000 -> tracked K x X ->
  exists i z S, dinv x = Ok i /\ enforce_positive_w (dnormalize i) = Ok z /\ pm S (dqconj X) /\
    approx (22 / 100000000000000) (43 / 100000000000000 * K) z S.
Proof.
  intros KB (UX & TX & AX). pose proof (unit_rot X UX) as NX. pose proof (unit_dual X K UX TX) as DX. pose proof eta_pos as EP.
  destruct (dinv_approx x X _ _ _ AX NX DX) as (i & EI & _ & AI); [lra|unfold e25; lra|]. rewrite (conj_dual X UX) in AI.
  pose proof (unitdq_conj X UX) as UC. pose proof (unit_rot _ UC) as NC. assert (DC : hnorm (dd (dqconj X)) <= 1 / 2 * K) by (rewrite conj_trans by exact UX; exact DX).
  apply (approx_weaken _ _ (105 / 1000000000000000) (31 / 100000000000000 * K)) in AI; [|lra|clear - KB; nums; lra].
  destruct (dnormalize_approx i _ _ _ _ AI NC DC) as (AN & _); [lra|unfold e25; lra|].
  apply (approx_weaken _ _ (22 / 100000000000000) (43 / 100000000000000 * K)) in AN; [|lra|clear - KB; nums; lra].
  destruct (flip_approx _ _ _ _ AN) as [(S & PS & AS) _]. exists i, (flip_negative (dnormalize i)), S. split; [exact EI|]. split; [|split; [exact PS|exact AS]].
  unfold enforce_positive_w. destruct (dnorm_approx _ _ _ _ AN NC) as [y ->]; [lra|]. cbn [bind fst].
  destruct (rot_normal _ _ _ _ AN NC) as [[_ G] _]; [lra|]. rewrite G. reflexivity.
Qed.
(** a pose of the hand computed from one of the eye *)
Lemma hand_pose {L} K (b w z : @dquat (F64 L)) W X S : 1 <= K <= 500000 -> tracked K w W -> unitdq X -> len3 (trans_of X) <= K -> pm S (dqconj X) ->
  approx (22 / 100000000000000) (43 / 100000000000000 * K) z S ->
  let n := dnormalize (dmul w z) in let h := if opposite_signs n b then dneg n else n in
  exists H, pm H (dqmul W (dqconj X)) /\ approx (66 / 100000000000000) (14 / 10000000000000 * K) h H /\
    Rabs (hnorm (val (rot h)) - 1) <= 6 / 1000000000000000.
Proof.
  intros KB (UW & TW & AW) UX TX PS AZ n h. pose proof (unit_rot W UW) as NW. pose proof (unit_dual W K UW TW) as DW. pose proof eta_pos as EP.
  pose proof (unitdq_conj X UX) as UC. pose proof (pm_unit _ _ UC PS) as US. pose proof (unit_rot _ US) as NS.
  assert (DS : hnorm (dd S) <= 1 / 2 * K).
  { destruct PS as [-> | ->]; cbn [dqneg dd]; rewrite ?hnorm_neg, conj_trans by exact UX; now apply unit_dual. }
  pose proof (dmul_approx _ _ _ _ _ _ _ _ _ _ AW AZ NW NS DW DS ltac:(lra) ltac:(lra) ltac:(unfold e25; lra) ltac:(unfold e25; lra)) as M. unfold tol3 in M.
  apply (approx_weaken _ _ (325 / 1000000000000000) (70 / 100000000000000 * K)) in M; [|lra|clear - KB; nums; lra].
  pose proof (unitdq_mul _ _ UW US) as UM. pose proof (unit_rot _ UM) as NM. assert (DM : hnorm (dd (dqmul W S)) <= K) by (eapply Rle_trans; [now apply mul_dual|lra]).
  destruct (dnormalize_approx _ _ _ _ _ M NM DM) as (AN & _); [lra|unfold e25; lra|].
  apply (approx_weaken _ _ (66 / 100000000000000) (14 / 10000000000000 * K)) in AN; [|lra|clear - KB; nums; lra].
  pose proof (divided_unit _ _ _ _ M NM ltac:(lra)) as DU. fold n in AN, DU.
  assert (P : pm (dqmul W S) (dqmul W (dqconj X))) by (apply pm_mul; [now left|exact PS]).
  unfold h. destruct (opposite_signs n b).
  - exists (dqneg (dqmul W S)). split; [now apply pm_neg|]. split; [now apply approx_neg|]. cbn [dneg rot].
    rewrite (proj2 (finq_neg (rot n) (proj1 AN))), hnorm_neg. exact DU.
  - exists (dqmul W S). split; [exact P|]. split; [exact AN|exact DU].
Qed.
(** a motion read as a pose *)
Lemma told {L} (K : R) e f P (a : @dquat (F64 L)) A D : approx e f a A -> unitdq D -> pm A D -> hnorm (dd D) <= P -> e <= 14 / 10000000000000 -> P + f <= e25 ->
  2 * f + (9 * e + 30 / 1000000000000000) * (P + f) + 100 * eta <= 4 / 100000000000 * K -> tells K (snd (to_pose a)) D.
Proof.
  intros AP UD PM NP E BP LE. pose proof (pm_unit _ _ UD PM) as UA. pose proof (unit_rot A UA) as NA.
  assert (NP' : hnorm (dd A) <= P) by (destruct PM as [-> | ->]; cbn [dqneg dd]; rewrite ?hnorm_neg; exact NP).
  destruct (to_pose_approx a A e f P AP NA NP' ltac:(lra) BP) as (F1 & D1 & (s & S & D2) & _).
  destruct (dnormalize_approx a A e f P AP NA NP' ltac:(lra) BP) as ((F3 & _) & _).
  assert (TR : trans_of A = trans_of D) by (destruct PM as [-> | ->]; rewrite ?trans_of_neg; reflexivity). rewrite TR in D1.
  split; [exact F1|]. split; [lra|]. exists s. split; [|split; [|lra]].
  - destruct PM as [-> | ->]; cbn [dqneg dr] in S; [exact S|]. rewrite hneg_neg in S. tauto.
  - unfold to_pose. cbn [snd ori]. destruct (ltb (Num:=F64 L) (qw (rot (dnormalize a))) n0); [exact (proj1 (finq_neg _ F3))|exact F3].
Qed.

(** ** C111 *)
Theorem C111_poses : forall L K (bs ws : list (@dquat (F64 L))) x Bs Ws X, 1 <= K <= 500000 ->
  tracked K x X -> Forall2 (tracked K) bs Bs -> Forall2 (tracked K) ws Ws -> length bs = length ws -> bs <> [] ->
  exists bs' pb pw, get_aligned_poses bs ws x = Ok (bs', pb, pw) /\
    Forall2 (tells K) pb Bs /\ Forall2 (tells K) pw (hand_path X Ws).
Proof.
  intros L K bs ws x Bs Ws X KB TX FB FW LEN NE. pose proof eta_pos as EP.
  destruct (turned_around K x X KB TX) as (i & z & S & E1 & E2 & PS & AZ). pose proof TX as (UX & LX & _).
  unfold get_aligned_poses. rewrite LEN, Nat.eqb_refl. cbn [assert_ bind]. rewrite E1. cbn [bind]. rewrite E2. cbn [bind].
  set (g := fun b w : @dquat (F64 L) => _).
  assert (HS : exists hs, for_pairs g bs ws = Ok hs /\ Forall2 (fun h W => exists H, pm H (dqmul W (dqconj X)) /\ approx (66 / 100000000000000) (14 / 10000000000000 * K) h H /\ Rabs (hnorm (val (rot h)) - 1) <= 6 / 1000000000000000) hs Ws).
  { clear NE FB Bs TX E1 E2. revert bs LEN. induction FW as [|w W ws Ws TW FW IH]; intros bs LEN; destruct bs as [|b bs]; try discriminate LEN.
    - exists []. split; [reflexivity|constructor].
    - injection LEN as LEN. destruct (IH bs LEN) as (hs & EH & FH). pose proof (hand_pose K b w z W X S KB TW UX LX PS AZ) as HP.
      cbn [for_pairs]. unfold g at 1. cbn [bind]. rewrite EH. cbn [bind]. eexists. split; [reflexivity|]. constructor; [exact HP|exact FH]. }
  destruct HS as (hs & EH & FH). rewrite EH. cbn [bind].
  assert (UW : Forall (fun W => unitdq W /\ len3 (trans_of W) <= K) Ws) by (clear - FW; induction FW as [|? ? ? ? (A & B & _)]; constructor; auto).
  destruct FH as [|h0 W0 hs Ws (H0 & P0 & A0 & N0) FH]; [inversion FW; subst; destruct bs; [now elim NE|discriminate LEN]|].
  inversion UW as [|? ? (UW0 & LW0) UW']; subst.
  pose proof (unitdq_conj X UX) as UC. assert (DC : hnorm (dd (dqconj X)) <= 1 / 2 * K) by (rewrite conj_trans by exact UX; now apply unit_dual).
  assert (UM : forall W, unitdq W -> unitdq (dqmul W (dqconj X))) by (intros; now apply unitdq_mul).
  assert (DM : forall W, unitdq W -> len3 (trans_of W) <= K -> hnorm (dd (dqmul W (dqconj X))) <= K).
  { intros W U T. eapply Rle_trans; [now apply mul_dual|]. pose proof (unit_dual W K U T). lra. }
  pose proof (pm_unit _ _ (UM W0 UW0) P0) as UH0. pose proof (unit_rot _ UH0) as NH0.
  assert (PD : forall A D, pm A D -> hnorm (dd A) = hnorm (dd D)) by (intros A D [-> | ->]; cbn [dqneg dd]; rewrite ?hnorm_neg; reflexivity).
  assert (DH0 : hnorm (dd H0) <= K) by (rewrite (PD _ _ P0); now apply DM).
  destruct (dinv_approx h0 H0 _ _ _ A0 NH0 DH0) as (iv & EI & EI' & AI); [lra|unfold e25; lra|]. rewrite (conj_dual H0 UH0) in AI.
  apply (approx_weaken _ _ (665 / 1000000000000000) (41 / 10000000000000 * K)) in AI; [|lra|clear - KB; nums; lra].
  rewrite (align_first h0 hs iv (proj1 A0) (proj1 (proj2 A0)) ltac:(lra)).
  2: { destruct A0 as (_ & _ & _ & D0). eapply Rle_trans; [apply (dist_norm _ (dd H0))|]. lra. }
  2: exact EI. 2: exact EI'. cbn [bind].
  eexists _, _, _. split; [reflexivity|]. split.
  - clear - FB KB EP. induction FB as [|b B bs Bs (UB & LB & AB) FB IH]; [constructor|]. cbn [map]. constructor; [|exact IH].
    apply (told K _ _ (1 / 2 * K) b B B AB UB); [now left|now apply unit_dual|lra|unfold e25; lra|nums; lra].
  - unfold hand_path. rewrite map_map.
    assert (G : forall h W, unitdq W /\ len3 (trans_of W) <= K -> (exists H, pm H (dqmul W (dqconj X)) /\ approx (66 / 100000000000000) (14 / 10000000000000 * K) h H /\ Rabs (hnorm (val (rot h)) - 1) <= 6 / 1000000000000000) ->
      tells K (snd (to_pose (flip_negative (dmul iv h)))) (dqmul (dqconj (dqmul W0 (dqconj X))) (dqmul W (dqconj X)))).
    { intros h W (U & T) (H & P & A & _). pose proof (pm_unit _ _ (UM W U) P) as UH. assert (DH : hnorm (dd H) <= K) by (rewrite (PD _ _ P); now apply DM).
      pose proof (unitdq_conj _ UH0) as UI. assert (DI : hnorm (dd (dqconj H0)) <= K) by (rewrite conj_trans by exact UH0; exact DH0).
      pose proof (dmul_approx _ _ _ _ _ _ _ _ _ _ AI A (unit_rot _ UI) (unit_rot _ UH) DI DH ltac:(lra) ltac:(lra) ltac:(unfold e25; lra) ltac:(unfold e25; lra)) as M. unfold tol3 in M.
      apply (approx_weaken _ _ (133 / 100000000000000) (69 / 10000000000000 * K)) in M; [|lra|clear - KB; nums; lra].
      destruct (flip_approx _ _ _ _ M) as [(Q & PQ & AQ) _].
      assert (PP : pm (dqmul (dqconj H0) H) (dqmul (dqconj (dqmul W0 (dqconj X))) (dqmul W (dqconj X)))) by (apply pm_mul; [now apply pm_c|exact P]).
      apply (told K _ _ (2 * K) _ Q _ AQ).
      - apply unitdq_mul; [apply unitdq_conj|]; now apply UM.
      - exact (pm_trans _ _ _ PQ PP).
      - eapply Rle_trans; [apply mul_dual; [apply unitdq_conj|]; now apply UM|]. rewrite conj_trans by now apply UM. pose proof (DM W0 UW0 LW0). pose proof (DM W U T). lra.
      - lra.
      - unfold e25; lra.
      - clear - KB. nums. lra. }
    cbn [map]. constructor; [apply G; [exact (conj UW0 LW0)|exists H0; exact (conj P0 (conj A0 N0))]|].
    clear - FH UW' G. induction FH as [|h W hs Ws HH FH IH]; [constructor|]. inversion UW' as [|? ? U1 U2]; subst. cbn [map]. constructor; [exact (G h W U1 HH)|exact (IH U2)].
Qed.

(** ** Errors and flags *)
Lemma dot_norm p q : Rabs (hdot p q) <= hnorm p * hnorm q.
Proof.
  rewrite <- qs_mul_conj. destruct (component_le (hmul p (hconj q))) as (_ & _ & _ & W). eapply Rle_trans; [exact W|]. rewrite hnorm_mul, hnorm_conj. lra.
Qed.
Lemma dot_near p q p' q' e : hnorm p = 1 -> hnorm q' = 1 -> dist p p' <= e -> dist q q' <= e -> Rabs (hdot p q - hdot p' q') <= 2 * e.
Proof.
  intros NP NQ DP DQ. replace (hdot p q - hdot p' q') with (hdot p (hsub q q') + hdot (hsub p p') q') by (destruct p as [[] ?], q as [[] ?], p' as [[] ?], q' as [[] ?]; unfold hdot, dot3, hsub; cbn; ring).
  eapply Rle_trans; [apply Rabs_triang|]. pose proof (dot_norm p (hsub q q')) as A. pose proof (dot_norm (hsub p p') q') as B. unfold dist in *. rewrite NP in A. rewrite NQ in B. lra.
Qed.
Lemma direction_near v s e : hnorm s = 1 -> dist v s <= e -> e <= 1 / 2 -> dist (direction v) s <= 2 * e /\ hnorm (direction v) = 1.
Proof.
  intros NS D E. pose proof (dist_norm v s) as A. pose proof (dist_norm s v) as B. rewrite dist_sym in B. assert (P : 0 < hnorm v) by lra.
  split; [|now apply direction_norm]. eapply Rle_trans; [apply (dist_triangle _ v)|].
  assert (Q : dist (direction v) v <= e); [|lra].
  unfold dist, direction. replace (hsub (hscale (/ hnorm v) v) v) with (hscale (/ hnorm v - 1) v) by (destruct v as [[] ?]; unfold hsub, hscale, vscale, vsub; cbn; f_equal; [f_equal|]; ring).
  assert (SC : forall k q, hnorm (hscale k q) = Rabs k * hnorm q).
  { intros k q. unfold hnorm. rewrite hnorm2_scale. rewrite sqrt_mult_alt by nra. f_equal. change (k * k) with (Rsqr k). apply sqrt_Rsqr_abs. }
  rewrite SC. rewrite <- (Rabs_pos_eq (hnorm v)) at 2 by lra. rewrite <- Rabs_mult. replace ((/ hnorm v - 1) * hnorm v) with (1 - hnorm v) by (field; lra). absle; lra.
Qed.
Lemma unit_direction s : hnorm s = 1 -> direction s = s.
Proof. intros N. unfold direction. rewrite N. replace (/ 1) with 1 by field. apply hscale_1. Qed.
Lemma degree_bound : 57 <= 180 / PI <= 58.
Proof.
  pose proof (proj1 PI_near) as P1. pose proof (proj2 PI_near) as P2. assert (EK : 180 / PI * PI = 180) by (field; lra).
  split; apply Rmult_le_reg_r with PI; try lra; rewrite EK; lra.
Qed.
Lemma geodesic_near a b s t : hnorm s = 1 -> hnorm t = 1 -> (exists s', (s' = s \/ s' = hneg s) /\ dist a s' <= 3 / 1000000000000) -> (exists t', (t' = t \/ t' = hneg t) /\ dist b t' <= 3 / 1000000000000) ->
  Rabs (geodesic a b - geodesic s t) <= 6 / 10000.
Proof.
  intros NS NT (s' & S & DA) (t' & T & DB).
  assert (NS' : hnorm s' = 1) by (destruct S as [-> | ->]; rewrite ?hnorm_neg; exact NS). assert (NT' : hnorm t' = 1) by (destruct T as [-> | ->]; rewrite ?hnorm_neg; exact NT).
  destruct (direction_near a s' _ NS' DA ltac:(lra)) as [DA' UA]. destruct (direction_near b t' _ NT' DB ltac:(lra)) as [DB' UB].
  pose proof (dot_near _ _ _ _ _ UA NT' DA' DB') as C.
  assert (G1 : geodesic a b = 2 * acos (Rabs (hdot (direction a) (direction b))) * (180 / PI)) by (unfold geodesic; now rewrite (rotations_dot _ _ _ _ (canon_rotation a) (canon_rotation b))).
  assert (G2 : geodesic s t = 2 * acos (Rabs (hdot s' t')) * (180 / PI)).
  { unfold geodesic. rewrite (rotations_dot _ _ _ _ (canon_rotation s) (canon_rotation t)). do 3 f_equal. symmetry. apply rotations_dot; unfold same_rotation; rewrite unit_direction by assumption; assumption. }
  rewrite G1, G2. pose proof (dot_norm (direction a) (direction b)) as M1. pose proof (dot_norm s' t') as M2. rewrite UA, UB in M1. rewrite NS', NT' in M2.
  set (c := hdot (direction a) (direction b)) in *. set (c' := hdot s' t') in *. pose proof (Rabs_pos c). pose proof (Rabs_pos c').
  assert (A : Rabs (acos (Rabs c) - acos (Rabs c')) <= 5 / 1000000).
  { apply acos_near; [lra|lra|lra|]. eapply Rle_trans; [apply Rabs_triang_inv2|]. eapply Rle_trans; [exact C|]. lra. }
  apply Rabs_le_inv in A. pose proof degree_bound as DB0.
  assert (M : -(5 / 1000000 * 58) <= (acos (Rabs c) - acos (Rabs c')) * (180 / PI) <= 5 / 1000000 * 58) by (split; nra). absle; lra.
Qed.
Lemma len_sub_near a b a' b' e : len3 (vsub a a') <= e -> len3 (vsub b b') <= e -> Rabs (len3 (vsub a b) - len3 (vsub a' b')) <= 2 * e.
Proof.
  intros A B.
  assert (T : forall x y z w, len3 (vsub x y) <= len3 (vsub x z) + len3 (vsub z w) + len3 (vsub w y)).
  { intros x y z w. rewrite <- !len_norm. change (RQ (vsub x y) 0) with (RQ (vsub x y) 0).
    assert (E : forall p q, RQ (vsub p q) 0 = hsub (RQ p 0) (RQ q 0)) by (intros [] []; unfold hsub, vsub; cbn; f_equal; ring). rewrite !E.
    pose proof (dist_triangle (RQ x 0) (RQ z 0) (RQ y 0)). pose proof (dist_triangle (RQ z 0) (RQ w 0) (RQ y 0)). unfold dist in *. lra. }
  assert (SY : forall x y, len3 (vsub x y) = len3 (vsub y x)) by (intros [] []; unfold len3, dot3, vsub; cbn; f_equal; ring).
  pose proof (T a b a' b') as T1. pose proof (T a' b' a b) as T2. rewrite (SY b' b), (SY a' a) in *. absle; lra.
Qed.
Lemma tells_usable {L} K (p : @pose (F64 L)) D : 1 <= K <= 500000 -> unitdq D -> len3 (trans_of D) <= 4 * K -> tells K p D -> usable e24 p.
Proof.
  intros KB U T (F & DP & s & S & FO & DO). split; [exact F|].
  assert (NS : hnorm s = 1) by (pose proof (unit_rot D U); destruct S as [-> | ->]; rewrite ?hnorm_neg; assumption).
  pose proof (dist_norm (val (ori p)) s) as A. pose proof (dist_norm s (val (ori p))) as B. rewrite dist_sym in B. split.
  - assert (Q : len3 (valv (pos p)) <= len3 (vsub (valv (pos p)) (trans_of D)) + len3 (trans_of D)).
    { rewrite <- !len_norm. pose proof (hnorm_triangle (RQ (vsub (valv (pos p)) (trans_of D)) 0) (RQ (trans_of D) 0)) as HT.
      replace (hadd (RQ (vsub (valv (pos p)) (trans_of D)) 0) (RQ (trans_of D) 0)) with (RQ (valv (pos p)) 0) in HT; [exact HT|].
      destruct (valv (pos p)), (trans_of D). unfold hadd, vadd, vsub. cbn. f_equal; [f_equal|]; ring. }
    unfold e24. lra.
  - assert (H : Rabs (hnorm (val (ori p)) - 1) <= 3 / 1000000000000) by (absle; lra).
    pose proof (norm_range _ _ H ltac:(lra)) as R. rewrite hnorm_sqr in R. destruct (norm_near (ori p) FO R) as (_ & FN & BN). split; [exact FN|]. apply lit_lt; [exact FN|].
    apply Rabs_le_inv in BN. lra.
Qed.
Lemma path_bounds X Ws K : unitdq X -> len3 (trans_of X) <= K -> Forall (fun W => unitdq W /\ len3 (trans_of W) <= K) Ws ->
  Forall (fun H => unitdq H /\ len3 (trans_of H) <= 4 * K) (hand_path X Ws).
Proof.
  intros UX TX F. destruct Ws as [|W0 Ws]; [constructor|]. unfold hand_path. apply Forall_forall. intros H I. apply in_map_iff in I as (W & <- & I).
  rewrite Forall_forall in F. destruct (F W0 (or_introl eq_refl)) as [U0 T0]. destruct (F W I) as [U T].
  pose proof (unitdq_conj X UX) as UC. pose proof (unitdq_mul _ _ U0 UC) as UA. pose proof (unitdq_mul _ _ U UC) as UB. pose proof (unitdq_conj _ UA) as UA'.
  assert (UM : unitdq (dqmul (dqconj (dqmul W0 (dqconj X))) (dqmul W (dqconj X)))) by now apply unitdq_mul.
  split; [exact UM|]. rewrite (trans_len _ UM). pose proof (mul_dual _ _ UA' UB) as M. rewrite (conj_trans _ UA) in M.
  pose proof (mul_dual _ _ U0 UC) as M1. pose proof (mul_dual _ _ U UC) as M2. rewrite (conj_trans _ UX) in M1, M2.
  pose proof (unit_dual _ _ UX TX). pose proof (unit_dual _ _ U0 T0). pose proof (unit_dual _ _ U T). lra.
Qed.
Lemma tracked_bounds {L} K (l : list (@dquat (F64 L))) Ds : Forall2 (tracked K) l Ds -> Forall (fun D => unitdq D /\ len3 (trans_of D) <= K) Ds.
Proof. induction 1 as [|? ? ? ? (A & B & _)]; constructor; auto. Qed.
Lemma told_usable {L} K (l : list (@pose (F64 L))) Ds : 1 <= K <= 500000 -> Forall (fun D => unitdq D /\ len3 (trans_of D) <= 4 * K) Ds -> Forall2 (tells K) l Ds -> Forall (usable e24) l.
Proof. intros KB F H. induction H as [|p D l Ds T H IH]; constructor; inversion F as [|? ? (U & B) F']; subst; [exact (tells_usable K p D KB U B T)|exact (IH F')]. Qed.
Lemma Forall2_nth {A B} (P : A -> B -> Prop) l m : Forall2 P l m -> forall i y, nth_error m i = Some y -> exists x, nth_error l i = Some x /\ P x y.
Proof. induction 1 as [|x y l m H F IH]; intros [|i] z E; cbn in *; try discriminate E; [injection E as <-; now exists x|now apply IH]. Qed.

(** What the flag of a pair says about the exact errors of the calibration *)
Theorem C111_flags : forall L K (bs ws : list (@dquat (F64 L))) x Bs Ws X (cfg : config (F64 L)), 1 <= K <= 500000 -> arccosine L ->
  tracked K x X -> Forall2 (tracked K) bs Bs -> Forall2 (tracked K) ws Ws -> length bs = length ws -> bs <> [] ->
  fin (ransac_position_error_threshold_m cfg : f64) -> fin (ransac_orientation_error_threshold_deg cfg : f64) ->
  exists bs' pb pw rp ro flags, get_aligned_poses bs ws x = Ok (bs', pb, pw) /\ evaluate_alignment cfg pb pw = Ok (rp, ro, flags) /\
    length flags = length Bs /\
    forall i B H, nth_error Bs i = Some B -> nth_error (hand_path X Ws) i = Some H ->
    let distance := len3 (vsub (trans_of B) (trans_of H)) in let angle := geodesic (dr B) (dr H) in
    exists flag, nth_error flags i = Some flag /\
      (flag = true -> distance < V (ransac_position_error_threshold_m cfg) + 1 / 10000000000 * K /\ angle < V (ransac_orientation_error_threshold_deg cfg) + 3 / 1000) /\
      (flag = false -> V (ransac_position_error_threshold_m cfg) - 1 / 10000000000 * K <= distance \/ V (ransac_orientation_error_threshold_deg cfg) - 1 / 1000 <= angle \/ angle <= 1 / 1000).
Proof.
  intros L K bs ws x Bs Ws X cfg KB AC TX FB FW LEN NE FP FO.
  destruct (C111_poses L K bs ws x Bs Ws X KB TX FB FW LEN NE) as (bs' & pb & pw & E & TB & TW).
  pose proof TX as (UX & LX & _). pose proof (tracked_bounds K bs Bs FB) as BB. pose proof (path_bounds X Ws K UX LX (tracked_bounds K ws Ws FW)) as BW.
  assert (BB4 : Forall (fun D => unitdq D /\ len3 (trans_of D) <= 4 * K) Bs) by (eapply Forall_impl; [|exact BB]; intros D (A & B); split; [exact A|lra]).
  pose proof (told_usable K pb Bs KB BB4 TB) as UB. pose proof (told_usable K pw _ KB BW TW) as UW.
  assert (LP : length pb = length pw).
  { rewrite (Forall2_len _ _ _ TB), (Forall2_len _ _ _ TW). rewrite <- (Forall2_len _ _ _ FB), LEN, (Forall2_len _ _ _ FW). destruct Ws; [reflexivity|]. unfold hand_path. now rewrite map_length. }
  destruct (C108_evaluation_total L cfg pb pw LP) as [[[rp ro] flags] EV].
  exists bs', pb, pw, rp, ro, flags. split; [exact E|]. split; [exact EV|].
  split; [destruct (C31_flags cfg pb pw rp ro flags EV) as (LF1 & LF2 & _); pose proof (Forall2_len _ _ _ TB); congruence|].
  intros i B H HB HH distance angle. destruct (Forall2_nth _ _ _ TB i B HB) as (a & HA & TA). destruct (Forall2_nth _ _ _ TW i H HH) as (b & HBb & Tb).
  destruct (C108_flags L cfg pb pw rp ro flags AC UB UW FP FO EV i a b HA HBb) as (flag & EF & Y & N). exists flag. split; [exact EF|].
  assert (UBi : unitdq B /\ len3 (trans_of B) <= 4 * K) by (rewrite Forall_forall in BB4; apply BB4; eapply nth_error_In; exact HB).
  assert (UHi : unitdq H /\ len3 (trans_of H) <= 4 * K) by (rewrite Forall_forall in BW; apply BW; eapply nth_error_In; exact HH).
  destruct TA as (_ & DA & s & S & _ & DS). destruct Tb as (_ & Db & t & T & _ & DT).
  pose proof (len_sub_near _ _ _ _ _ DA Db) as D1. fold distance in D1.
  pose proof (geodesic_near (val (ori a)) (val (ori b)) (dr B) (dr H) (unit_rot _ (proj1 UBi)) (unit_rot _ (proj1 UHi)) (ex_intro _ s (conj S DS)) (ex_intro _ t (conj T DT))) as G. fold angle in G.
  assert (D8 : distance <= 8 * K).
  { assert (Z : len3 (vsub (trans_of B) (trans_of H)) <= len3 (trans_of B) + len3 (trans_of H)); [|unfold distance; lra].
    rewrite <- !len_norm. pose proof (hnorm_triangle (RQ (trans_of B) 0) (hneg (RQ (trans_of H) 0))) as HT. rewrite hnorm_neg in HT.
    replace (hadd (RQ (trans_of B) 0) (hneg (RQ (trans_of H) 0))) with (RQ (vsub (trans_of B) (trans_of H)) 0) in HT; [exact HT|].
    destruct (trans_of B), (trans_of H). unfold hadd, hneg, vadd, vsub, vscale. cbn. f_equal; [f_equal|]; ring. }
  cbv zeta in Y, N. set (d' := len3 (vsub (valv (pos a)) (valv (pos b)))) in *. set (g' := geodesic (val (ori a)) (val (ori b))) in *.
  apply Rabs_le_inv in D1. apply Rabs_le_inv in G.
  split; intros EQ.
  - destruct (Y EQ) as [Y1 Y2]. split; [clear - Y1 D1 D8 KB|clear - Y2 G]; lra.
  - destruct (N EQ) as [N1|[N1|N1]]; [left; clear - N1 D1 D8 KB; lra|right; left; clear - N1 G; lra|right; right; clear - N1 G; lra].
Qed.

(** ** From recorded poses *)
Lemma usable_tracked {L} K (p : @pose (F64 L)) : 1 <= K <= 500000 -> usable K p -> tracked K (from_pose_vector p) (exact_motion p).
Proof.
  intros KB U. assert (U' : usable e24 p) by (revert U; apply usable_weaken; unfold e24; lra). pose proof U as (_ & FB & _). fold (far p) in FB. pose proof (far_pos p) as F0.
  pose proof (exact_unit _ p U') as UD. split; [exact UD|]. split.
  - rewrite (trans_len _ UD), (exact_dual _ p U'). lra.
  - eapply approx_weaken; [exact (usable_approx p U')|lra|]. clear - KB FB F0. nums. lra.
Qed.
(** the poses relative to the first one *)
Definition from_first {L} (poses : list (@pose (F64 L))) : list rdq :=
  match poses with [] => [] | p :: _ => map (fun q => dqmul (dqconj (exact_motion p)) (exact_motion q)) poses end.
Lemma Forall2_of_nth {A B} (P : A -> B -> Prop) : forall l m, length l = length m -> (forall i y, nth_error m i = Some y -> exists x, nth_error l i = Some x /\ P x y) -> Forall2 P l m.
Proof.
  induction l as [|x l IH]; intros [|y m] E H; try discriminate E; [constructor|]. injection E as E. constructor.
  - destruct (H 0%nat y eq_refl) as (z & Q & Z). cbn in Q. injection Q as <-. exact Z.
  - apply IH; [exact E|]. intros i z Q. exact (H (S i) z Q).
Qed.
Lemma aligned_tracked {L} K (poses : list (@pose (F64 L))) : 1 <= K <= 500000 -> poses <> [] -> Forall (usable (K / 2)) poses ->
  exists l Ds, align_paths_at_index (map from_pose_vector poses) 0 = Ok l /\ length l = length poses /\ Forall2 (tracked K) l Ds /\ Forall2 pm Ds (from_first poses).
Proof.
  intros KB NE F. destruct poses as [|p poses]; [now elim NE|]. inversion F as [|? ? UP F']; subst.
  assert (UM : usable million p) by (revert UP; apply usable_weaken; unfold million; lra).
  destruct (C72_align L (p :: poses) 0 p eq_refl UM) as (l & EA & LL & _ & H). exists l.
  assert (G : Forall2 (fun x D => exists s, pm s D /\ tracked K x s) l (from_first (p :: poses))).
  { apply Forall2_of_nth; [unfold from_first; now rewrite map_length|]. intros j D E. unfold from_first in E. rewrite nth_error_map in E.
    destruct (nth_error (p :: poses) j) as [q|] eqn:EJ; [|discriminate E]. cbn in E. injection E as <-.
    assert (UQ : usable (K / 2) q) by (rewrite Forall_forall in F; apply F; eapply nth_error_In; exact EJ).
    assert (UQ' : usable e24 q) by (revert UQ; apply usable_weaken; unfold e24; lra). assert (UP' : usable e24 p) by (revert UP; apply usable_weaken; unfold e24; lra).
    destruct (H j q EJ UQ') as (x & EX & (s & S & AX) & _).
    assert (JL : (j < length (p :: poses))%nat) by (apply nth_error_Some; congruence).
    replace ((j + length (p :: poses) - 0) mod length (p :: poses))%nat with j in EX.
    2: { rewrite Nat.sub_0_r. replace (j + length (p :: poses))%nat with (j + 1 * length (p :: poses))%nat by lia. rewrite Nat.mod_add by (cbn; lia). now rewrite Nat.mod_small. }
    exists x. split; [exact EX|]. exists s. split; [exact S|].
    pose proof (exact_unit _ p UP') as U1. pose proof (exact_unit _ q UQ') as U2. pose proof (unitdq_mul _ _ (unitdq_conj _ U1) U2) as U3. pose proof (pm_unit _ _ U3 S) as US.
    pose proof UP as (_ & BP & _). fold (far p) in BP. pose proof UQ as (_ & BQ & _). fold (far q) in BQ.
    split; [exact US|]. split.
    - assert (TT : trans_of s = trans_of (dqmul (dqconj (exact_motion p)) (exact_motion q))) by (destruct S as [-> | ->]; rewrite ?trans_of_neg; reflexivity).
      rewrite TT, (trans_len _ U3). pose proof (mul_dual _ _ (unitdq_conj _ U1) U2) as M. rewrite (conj_trans _ U1), (exact_dual _ p UP'), (exact_dual _ q UQ') in M. lra.
    - eapply approx_weaken; [exact AX|lra|]. pose proof (far_pos p). pose proof (far_pos q). clear - KB BP BQ. unfold tiny50. lra. }
  clear - G EA LL.
  assert (K2 : exists Ds, Forall2 (tracked K) l Ds /\ Forall2 pm Ds (from_first (p :: poses))).
  { revert G. generalize (from_first (p :: poses)). clear. induction 1 as [|x D l Es (s & S & T) G (Ds & A & B)]; [exists []; split; constructor|]. exists (s :: Ds). split; constructor; assumption. }
  destruct K2 as (Ds & A & B). exists Ds. split; [exact EA|]. split; [exact LL|]. split; [exact A|exact B].
Qed.
Lemma tells_pm {L} K (p : @pose (F64 L)) A D : pm A D -> tells K p A -> tells K p D.
Proof.
  intros PM (F & DP & s & S & R). assert (T : trans_of A = trans_of D) by (destruct PM as [-> | ->]; rewrite ?trans_of_neg; reflexivity). rewrite T in DP.
  split; [exact F|]. split; [exact DP|]. exists s. split; [|exact R]. destruct PM as [-> | ->]; cbn [dqneg dr] in S; [exact S|]. rewrite hneg_neg in S. tauto.
Qed.
Lemma tells_all {L} K (l : list (@pose (F64 L))) As : Forall2 (tells K) l As -> forall Ds, Forall2 pm As Ds -> Forall2 (tells K) l Ds.
Proof. induction 1 as [|p A l As T H IH]; intros Ds F; inversion F; subst; constructor; [eapply tells_pm; eassumption|now apply IH]. Qed.
Lemma path_pm X As Ds : Forall2 pm As Ds -> Forall2 pm (hand_path X As) (hand_path X Ds).
Proof.
  intros F. destruct F as [|A0 D0 As Ds P0 F]; [constructor|]. unfold hand_path.
  assert (G : forall A D, pm A D -> pm (dqmul (dqconj (dqmul A0 (dqconj X))) (dqmul A (dqconj X))) (dqmul (dqconj (dqmul D0 (dqconj X))) (dqmul D (dqconj X)))).
  { intros A D P. apply pm_mul; [apply pm_c; apply pm_mul; [exact P0|now left]|apply pm_mul; [exact P|now left]]. }
  cbn [map]. constructor; [now apply G|]. induction F as [|A D As Ds P F IH]; cbn [map]; constructor; [now apply G|exact IH].
Qed.
(** Both recordings are expressed relative to their first pose and compared: nothing raises, and the poses compared are, up to
    4e-11 K in position and 3e-12 in orientation, those of the hand and those of the eye carried over by the calibration. *)
Theorem C111_recorded : forall L K (A B : list (@pose (F64 L))) c, 1 <= K <= 500000 -> A <> [] -> length A = length B ->
  Forall (usable (K / 2)) A -> Forall (usable (K / 2)) B -> usable K c ->
  exists bs ws bs' pb pw,
    align_paths_at_index (map from_pose_vector A) 0 = Ok bs /\ align_paths_at_index (map from_pose_vector B) 0 = Ok ws /\
    get_aligned_poses bs ws (from_pose_vector c) = Ok (bs', pb, pw) /\
    Forall2 (tells K) pb (from_first A) /\ Forall2 (tells K) pw (hand_path (exact_motion c) (from_first B)).
Proof.
  intros L K A B c KB NE LEN FA FB UC.
  destruct (aligned_tracked K A KB NE FA) as (bs & Bs & EA & LA & TA & PA).
  destruct (aligned_tracked K B KB ltac:(destruct A, B; try discriminate LEN; [now elim NE|discriminate]) FB) as (ws & Ws & EB & LB & TB & PB).
  destruct (C111_poses L K bs ws (from_pose_vector c) Bs Ws (exact_motion c) KB (usable_tracked K c KB UC) TA TB) as (bs' & pb & pw & E & T1 & T2).
  - congruence.
  - destruct bs; [destruct A; [now elim NE|discriminate LA]|discriminate].
  - exists bs, ws, bs', pb, pw. split; [exact EA|]. split; [exact EB|]. split; [exact E|]. split; [exact (tells_all K pb Bs T1 _ PA)|]. exact (tells_all K pw _ T2 _ (path_pm _ _ _ PB)).
Qed.

(** ** Example *)
Definition turned L : @pose (F64 L) := mkPose (spot L) (mkQ (N:=F64 L) (f_of_Z 1) (f_of_Z (-2)) (f_of_Z 3) (f_of_Z 4)).
Lemma spot_usable L (q : @quat (F64 L)) : normal q -> usable 6 (mkPose (spot L) q).
Proof.
  intros N. split; [exact (proj1 (spot_near L))|]. split; [|exact N].
  destruct (of_Z_V 1 ltac:(lia)) as [F1 V1]. destruct (of_Z_V 2 ltac:(lia)) as [F2 V2]. destruct (of_Z_V 3 ltac:(lia)) as [F3 V3].
  cbn [pos]. unfold valv, spot. cbn [vx vy vz]. rewrite V1, V2, V3. rewrite <- len_norm.
  eapply Rle_trans; [apply (norm_components _ 3)|]; cbn; try lra; absle; lra.
Qed.
Lemma example_usable L : usable 6 (left_pose L) /\ usable 6 (right_pose L) /\ usable 6 (turned L).
Proof. split; [|split]; apply spot_usable; split; vm_compute; reflexivity. Qed.
Example C111_example : forall L, exists bs ws bs' pb pw,
  align_paths_at_index (map from_pose_vector [left_pose L; turned L; right_pose L]) 0 = Ok bs /\
  align_paths_at_index (map from_pose_vector [turned L; turned L; left_pose L]) 0 = Ok ws /\
  get_aligned_poses bs ws (from_pose_vector (turned L)) = Ok (bs', pb, pw) /\ length pb = 3%nat /\ length pw = 3%nat.
Proof.
  intros L. destruct (example_usable L) as (UL & UR & UT).
  assert (H : 12 / 2 = 6) by lra. rewrite <- H in UL, UR, UT.
  assert (UT' : usable 12 (turned L)) by (revert UT; apply usable_weaken; lra).
  destruct (C111_recorded L 12 [left_pose L; turned L; right_pose L] [turned L; turned L; left_pose L] (turned L) ltac:(lra) ltac:(discriminate) eq_refl
    (Forall_cons _ UL (Forall_cons _ UT (Forall_cons _ UR (Forall_nil _)))) (Forall_cons _ UT (Forall_cons _ UT (Forall_cons _ UL (Forall_nil _)))) UT')
    as (bs & ws & bs' & pb & pw & E1 & E2 & E3 & T1 & T2).
  exists bs, ws, bs', pb, pw. split; [exact E1|]. split; [exact E2|]. split; [exact E3|]. split; [exact (Forall2_len _ _ _ T1)|exact (Forall2_len _ _ _ T2)].
Qed.
Example C111_example_tracked : forall L, tracked 12 (from_pose_vector (turned L)) (exact_motion (turned L)).
Proof. intros L. apply usable_tracked; [lra|]. apply (usable_weaken 6); [lra|]. apply (example_usable L). Qed.
