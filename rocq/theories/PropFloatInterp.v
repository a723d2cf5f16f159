(** * Property C113: interpolated poses in double precision. *)

From Coq Require Import Reals ZArith Bool List Arith Lra Lia Psatz.
From Flocq Require Import Core BinarySingleNaN.
From Verif Require Import Num Py Quat DualQuat HandEye TimeAlign F64 Spec TimeSpec ListFacts QuatFacts QuatTrig DualFacts F64Facts FloatFacts PropFloat FloatQuat FloatTime FloatGrid PropFloatTime FloatDual PropFloatDual HandEyeFacts XFacts PropEval NoiseFacts PropFloatPose PropFloatScrew PropFloatRms.
Import ListNotations.
Local Open Scope R_scope.

(** ** Linear interpolation of numbers *)
(** the exact straight line through (a, x) and (b, y) at the time t *)
Definition line (a x b y t : R) : R := x + (y - x) * ((t - a) / (b - a)).
Lemma prod_le a b A B : Rabs a <= A -> Rabs b <= B -> Rabs (a * b) <= A * B.
Proof. intros HA HB. rewrite Rabs_mult. apply Rmult_le_compat; try apply Rabs_pos; assumption. Qed.

Definition gap : R := 1 / 10000000000000000000000000.
Definition e23 : R := 100000000000000000000000.
Definition e30 : R := 1000000000000000000000000000000.
Lemma line_near (xj xk x fj fk : f64) : fin xj -> fin xk -> fin x -> fin fj -> fin fk ->
  gap <= V xk - V xj <= e30 -> V xj <= V x <= V xk -> Rabs (V fj) <= e23 -> Rabs (V fk) <= e23 ->
  let r := Bplus mode_NE (Bmult mode_NE (Bdiv mode_NE (Bminus mode_NE fk fj) (Bminus mode_NE xk xj)) (Bminus mode_NE x xj)) fj in
  fin r /\ Rabs (V r - line (V xj) (V fj) (V xk) (V fk) (V x)) <= 1 / 1000000000000000 * (Rabs (V fj) + Rabs (V fk)) + 1 / e30 * 10.
Proof.
  intros Fj Fk Fx Ffj Ffk GH GX Bj Bk. cbv zeta. unfold gap, e23, e30 in *. pose proof u_pos as UP. pose proof eta_pos as EP. pose proof big_huge as BH.
  set (J := Rabs (V fj)) in *. set (K := Rabs (V fk)) in *. assert (J0 : 0 <= J) by apply Rabs_pos. assert (K0 : 0 <= K) by apply Rabs_pos.
  assert (HJ : - J <= V fj <= J) by (apply Rabs_le_inv; unfold J; lra). assert (HK : - K <= V fk <= K) by (apply Rabs_le_inv; unfold K; lra).
  set (A := V fk - V fj). set (H := V xk - V xj) in *. set (G := V x - V xj).
  assert (AB : Rabs A <= J + K) by (unfold A; absle; lra). set (M := Rabs A) in *. assert (M0 : 0 <= M) by apply Rabs_pos.
  assert (HA : - M <= A <= M) by (apply Rabs_le_inv; unfold M; lra).
  (* the difference of the values *)
  destruct (sub_ok fk fj Ffk Ffj) as [Fa Ea]; [fold A; fold M; lra|]. set (a := Bminus mode_NE fk fj) in *. fold A in Ea.
  pose proof (rnd_error A) as RA. rewrite <- Ea in RA. fold M in RA.
  (* the differences of the times *)
  destruct (sub_ok xk xj Fk Fj) as [Fh Eh]; [fold H; rewrite Rabs_pos_eq by lra; lra|]. set (h := Bminus mode_NE xk xj) in *. fold H in Eh.
  pose proof (rnd_error H) as RH. rewrite <- Eh, (Rabs_pos_eq H) in RH by lra.
  destruct (sub_ok x xj Fx Fj) as [Fg Eg]; [fold G; rewrite Rabs_pos_eq by (unfold G; lra); unfold G, H in *; lra|]. set (g := Bminus mode_NE x xj) in *. fold G in Eg.
  pose proof (rnd_error G) as RG. rewrite <- Eg, (Rabs_pos_eq G) in RG by (unfold G; lra).
  assert (GH' : 0 <= G <= H) by (unfold G, H in *; lra). assert (GE : V x - V xj = G) by reflexivity. clearbody G.
  assert (HP : 0 < H) by lra. assert (IH : 0 < / H) by now apply Rinv_0_lt_compat.
  assert (EH : eta <= 1 / 10 * u * H) by (assert (1 / 10 * u * (1 / 10000000000000000000000000) <= 1 / 10 * u * H) by (apply Rmult_le_compat_l; lra); nums; lra).
  apply Rabs_le_inv in RH. assert (hB : (1 - 11 / 10 * u) * H <= V h <= (1 + 11 / 10 * u) * H) by lra.
  assert (UH : 0 <= u * H) by (apply Rmult_le_pos; lra). assert (UH1 : u * H <= 1 / 1000000 * H) by (apply Rmult_le_compat_r; nums; lra).
  assert (hP : 0 < V h) by lra.
  set (rho := H / V h). assert (RHO : Rabs (rho - 1) <= 12 / 10 * u).
  { assert (E : (rho - 1) * V h = H - V h) by (unfold rho; field; lra).
    assert (D : Rabs (H - V h) <= 12 / 10 * u * V h).
    { assert (P : 12 / 10 * u * ((1 - 11 / 10 * u) * H) <= 12 / 10 * u * V h) by (apply Rmult_le_compat_l; lra).
      replace (12 / 10 * u * ((1 - 11 / 10 * u) * H)) with (12 / 10 * (u * H) - 132 / 100 * (u * (u * H))) in P by field.
      assert (u * (u * H) <= 1 / 1000000 * (u * H)) by (apply Rmult_le_compat_r; [lra|nums; lra]). absle; lra. }
    rewrite <- E, Rabs_mult, (Rabs_pos_eq (V h)) in D by lra. now apply Rmult_le_reg_r in D. }
  assert (Ma : Rabs (V a) <= M + (u * M + eta)).
  { apply Rabs_le_inv in RA. absle; lra. }
  assert (UM : 0 <= u * M) by (apply Rmult_le_pos; lra). assert (UM1 : u * M <= 1 / 1000000 * M) by (apply Rmult_le_compat_r; nums; lra).
  assert (UE : 0 <= u * eta) by (apply Rmult_le_pos; lra). assert (UE1 : u * eta <= 1 / 1000000 * eta) by (apply Rmult_le_compat_r; nums; lra).
  assert (UUM : u * (u * M) <= 1 / 1000000 * (u * M)) by (apply Rmult_le_compat_r; nums; lra).
  (* the slope *)
  assert (Q1 : Rabs (V a * rho - A) <= 23 / 10 * (u * M) + 2 * eta).
  { replace (V a * rho - A) with (V a * (rho - 1) + (V a - A)) by ring. eapply Rle_trans; [apply Rabs_triang|].
    pose proof (prod_le _ _ _ _ Ma RHO) as P. replace ((M + (u * M + eta)) * (12 / 10 * u)) with (12 / 10 * (u * M + u * (u * M) + u * eta)) in P by field. lra. }
  set (q := V a / V h). assert (Eq : q * H = V a * rho) by (unfold q, rho; field; lra).
  assert (QB : Rabs (q * H) <= 11 / 10 * M + 2 * eta) by (rewrite Eq; apply Rabs_le_inv in Q1; absle; lra).
  assert (QB2 : Rabs q <= big).
  { rewrite Rabs_mult, (Rabs_pos_eq H) in QB by lra. apply Rle_trans with (10000000000000000000000000000000000000000000000000000000000); [|lra].
    destruct (Rle_lt_dec (Rabs q) 10000000000000000000000000000000000000000000000000000000000) as [|C]; [assumption|exfalso].
    assert (10000000000000000000000000000000000000000000000000000000000 * (1 / 10000000000000000000000000) <= Rabs q * H) by (apply Rmult_le_compat; lra). nums. lra. }
  destruct (div_ok a h Fa ltac:(lra) QB2) as [Fs Es]. fold q in Es. set (s := Bdiv mode_NE a h) in *.
  pose proof (rnd_error q) as RQ. rewrite <- Es in RQ.
  set (y := V s * H). set (W := eta * H). assert (W0 : 0 <= W) by (apply Rmult_le_pos; lra). assert (W1 : W <= 1 / 1000000000000000000000000000000) by (assert (eta * H <= eta * 1000000000000000000000000000000) by (apply Rmult_le_compat_l; lra); unfold W; nums; lra).
  assert (Y1 : Rabs (y - A) <= 35 / 10 * (u * M) + 3 * eta + W).
  { assert (Y0 : Rabs (y - q * H) <= u * Rabs (q * H) + W).
    { replace (y - q * H) with ((V s - q) * H) by (unfold y; ring). rewrite !Rabs_mult, (Rabs_pos_eq H) by lra. unfold W.
      replace (u * (Rabs q * H) + eta * H) with ((u * Rabs q + eta) * H) by ring. apply Rmult_le_compat_r; [lra|exact RQ]. }
    assert (u * Rabs (q * H) <= u * (11 / 10 * M + 2 * eta)) by (apply Rmult_le_compat_l; lra).
    rewrite <- Eq in Q1. apply Rabs_le_inv in Q1. apply Rabs_le_inv in Y0. absle; lra. }
  assert (YB : Rabs y <= 11 / 10 * M + 3 * eta + W) by (apply Rabs_le_inv in Y1; absle; lra).
  (* the fraction *)
  set (t := G / H). set (k := V g / H). assert (T01 : 0 <= t <= 1) by (unfold t, Rdiv; split; [apply Rmult_le_pos; lra|apply Rmult_le_reg_r with H; [lra|]; rewrite Rmult_assoc, Rinv_l by lra; lra]).
  assert (KT : Rabs (k - t) <= 11 / 10 * u).
  { replace (k - t) with ((V g - G) * / H) by (unfold k, t; field; lra). rewrite Rabs_mult, (Rabs_pos_eq (/ H)) by lra. replace (11 / 10 * u) with (11 / 10 * u * H * / H) by (field; lra).
    apply Rmult_le_compat_r; [lra|]. assert (u * G <= u * H) by (apply Rmult_le_compat_l; lra). lra. }
  assert (P1 : Rabs (y * k - A * t) <= 49 / 10 * (u * M) + 4 * eta + 2 * W).
  { replace (y * k - A * t) with (y * (k - t) + (y - A) * t) by ring. eapply Rle_trans; [apply Rabs_triang|].
    pose proof (prod_le _ _ _ _ YB KT) as P. pose proof (prod_le (y - A) t _ 1 Y1 ltac:(rewrite Rabs_pos_eq; lra)) as P2.
    assert (UW : 0 <= u * W <= 1 / 1000000 * W) by (split; [apply Rmult_le_pos; lra|apply Rmult_le_compat_r; nums; lra]).
    replace ((11 / 10 * M + 3 * eta + W) * (11 / 10 * u)) with (121 / 100 * (u * M) + 33 / 10 * (u * eta) + 11 / 10 * (u * W)) in P by field. lra. }
  assert (AT : Rabs (A * t) <= M) by (pose proof (prod_le A t M 1 (Rle_refl _) ltac:(rewrite Rabs_pos_eq; lra)); lra).
  assert (EP1 : V s * V g = y * k) by (unfold y, k; field; lra).
  assert (PB : Rabs (V s * V g) <= 11 / 10 * M + 4 * eta + 2 * W) by (rewrite EP1; apply Rabs_le_inv in P1; apply Rabs_le_inv in AT; absle; lra).
  destruct (mul_ok s g Fs Fg) as [Fp Ep]; [nums; lra|]. set (p := Bmult mode_NE s g) in *.
  pose proof (rnd_error (V s * V g)) as RP. rewrite <- Ep in RP.
  assert (UPB : u * Rabs (V s * V g) <= u * (11 / 10 * M + 4 * eta + 2 * W)) by (apply Rmult_le_compat_l; lra).
  assert (UW : 0 <= u * W <= 1 / 1000000 * W) by (split; [apply Rmult_le_pos; lra|apply Rmult_le_compat_r; nums; lra]).
  assert (P2 : Rabs (V p - A * t) <= 61 / 10 * (u * M) + 6 * eta + 3 * W).
  { rewrite EP1 in RP at 1. rewrite EP1 in UPB. rewrite EP1 in RP. apply Rabs_le_inv in P1. apply Rabs_le_inv in RP. absle; lra. }
  (* the sum *)
  assert (LN : Rabs (A * t + V fj) <= J + K).
  { replace (A * t + V fj) with (V fk * t + V fj * (1 - t)) by (unfold A; ring). eapply Rle_trans; [apply Rabs_triang|].
    pose proof (prod_le (V fk) t K 1 (Rle_refl _) ltac:(rewrite Rabs_pos_eq; lra)). pose proof (prod_le (V fj) (1 - t) J 1 (Rle_refl _) ltac:(rewrite Rabs_pos_eq; lra)). lra. }
  assert (SB : Rabs (V p + V fj) <= 11 / 10 * (J + K) + 6 * eta + 3 * W).
  { apply Rabs_le_inv in P2. apply Rabs_le_inv in LN. assert (u * M <= 1 / 1000000 * (J + K)) by lra. absle; lra. }
  destruct (add_ok p fj Fp Ffj) as [Fr Er]; [nums; lra|]. set (r := Bplus mode_NE p fj) in *. split; [exact Fr|].
  pose proof (rnd_error (V p + V fj)) as RR. rewrite <- Er in RR.
  assert (URB : u * Rabs (V p + V fj) <= u * (11 / 10 * (J + K) + 6 * eta + 3 * W)) by (apply Rmult_le_compat_l; lra).
  assert (EL : line (V xj) (V fj) (V xk) (V fk) (V x) = A * t + V fj).
  { unfold line, t. fold A. fold H. rewrite GE. ring. }
  rewrite EL. assert (UMJ : u * M <= u * (J + K)) by (apply Rmult_le_compat_l; lra).
  apply Rabs_le_inv in RR. apply Rabs_le_inv in P2. absle; nums; lra.
Qed.

(** ** np.interp *)
(** a recorded coordinate: finite stamps within 1e29 that are at least 1e-25 apart, values of at most M *)
Definition recorded (M : R) (pts : list (f64 * f64)) : Prop :=
  Forall (fun p : f64 * f64 => fin (fst p) /\ Rabs (V (fst p)) <= 100000000000000000000000000000 /\ fin (snd p) /\ Rabs (V (snd p)) <= M) pts /\ spaced gap (map fst pts).
Lemma recorded_tl M p pts : recorded M (p :: pts) -> recorded M pts.
Proof. intros [F S]. inversion F; subst. split; [assumption|]. exact (spaced_tl _ _ _ S). Qed.
Lemma recorded_after M p pts q : recorded M (p :: pts) -> In q pts -> V (fst p) + gap <= V (fst q).
Proof.
  revert p. induction pts as [|r pts IH]; intros p R I; [easy|]. destruct R as [F S]. assert (D : gap <= V (fst r) - V (fst p)) by exact (S 0%nat _ _ eq_refl eq_refl).
  destruct I as [<-|I]; [lra|]. assert (Rr : recorded M (r :: pts)) by (apply recorded_tl with p; split; assumption). pose proof (IH r Rr I). unfold gap in *. lra.
Qed.
Lemma line_end a x b y : b - a <> 0 -> line a x b y b = y. Proof. intros H. unfold line. field. exact H. Qed.
Lemma line_start a x b y : line a x b y a = x. Proof. unfold line, Rdiv. rewrite Rminus_eq_0. ring. Qed.

Section Interp.
Context (L : libm) (M : R) (MB : M <= e23).
Lemma interp_from_near (x : f64) : fin x -> forall rest (xj fj : f64), recorded M ((xj, fj) :: rest) -> V xj <= V x ->
  fin (interp_from (N:=F64 L) x xj fj rest : f64) /\
  (forall l a fa b fb r, (xj, fj) :: rest = l ++ (a, fa) :: (b, fb) :: r -> V a <= V x <= V b ->
    Rabs (V (interp_from (N:=F64 L) x xj fj rest) - line (V a) (V fa) (V b) (V fb) (V x)) <= 2 / 1000000000000000 * M + 1 / e30 * 10) /\
  (V x = V xj -> Rabs (V (interp_from (N:=F64 L) x xj fj rest) - V fj) <= 2 / 1000000000000000 * M + 1 / e30 * 10) /\
  (forall l a fa, (xj, fj) :: rest = l ++ [(a, fa)] -> V a <= V x -> interp_from (N:=F64 L) x xj fj rest = fa).
Proof.
  intros FX. induction rest as [|[xk fk] rest IH]; intros xj fj R XJ.
  - destruct R as [F _]. inversion F as [|? ? (F1 & B1 & F2 & B2) _]; subst. cbn [interp_from fst snd] in *. split; [exact F2|]. pose proof (Rabs_pos (V fj)) as RP. split; [|split].
    + intros l a fa b fb r E. exfalso. apply (f_equal (@length _)) in E. rewrite app_length in E. cbn in E. lia.
    + intros _. rewrite Rminus_eq_0, Rabs_R0. unfold e30. lra.
    + intros l a fa E _. destruct l as [|p l]; [injection E as -> ->; reflexivity|]. exfalso. apply (f_equal (@length _)) in E. cbn [length app] in E. rewrite app_length in E. cbn in E. lia.
  - pose proof (recorded_tl _ _ _ R) as R'. pose proof R as [F S]. inversion F as [|? ? (F1 & B1 & F2 & B2) F']; subst. inversion F' as [|? ? (F3 & B3 & F4 & B4) _]; subst. cbn [fst snd] in *.
    assert (D : gap <= V xk - V xj) by exact (S 0%nat _ _ eq_refl eq_refl). pose proof (Rabs_pos (V fj)) as RP.
    cbn [interp_from]. change (leb (Num:=F64 L) xk x) with (Bleb xk x). destruct (Bleb xk x) eqn:C.
    + apply leb_V in C; [|exact F3|exact FX]. destruct (IH xk fk R' C) as (I1 & I2 & I3 & I4). split; [exact I1|]. split; [|split].
      * intros l a fa b fb r E AB. destruct l as [|p l].
        -- injection E as <- <- <- <- <-. assert (Q : V x = V xk) by lra. rewrite Q. rewrite line_end by (unfold gap in D; lra). exact (I3 Q).
        -- injection E as _ E. exact (I2 l a fa b fb r E AB).
      * intros Q. exfalso. unfold gap in D. lra.
      * intros l a fa E AX. destruct l as [|p l]; [discriminate E|]. injection E as _ E. exact (I4 l a fa E AX).
    + assert (CX : V x < V xk). { destruct (Rlt_le_dec (V x) (V xk)) as [|G]; [assumption|]. apply (proj2 (leb_V xk x F3 FX)) in G. congruence. }
      apply Rabs_le_inv in B1. apply Rabs_le_inv in B3.
      destruct (line_near xj xk x fj fk F1 F3 FX F2 F4 ltac:(unfold e30; lra) ltac:(lra) ltac:(lra) ltac:(lra)) as [FR DR].
      split; [exact FR|].
      assert (DR' : Rabs (V (interp_from (N:=F64 L) x xj fj ((xk, fk) :: rest)) - line (V xj) (V fj) (V xk) (V fk) (V x)) <= 2 / 1000000000000000 * M + 1 / e30 * 10).
      { cbn [interp_from]. change (leb (Num:=F64 L) xk x) with (Bleb xk x). rewrite C. eapply Rle_trans; [exact DR|]. lra. }
      cbn [interp_from] in DR'. change (leb (Num:=F64 L) xk x) with (Bleb xk x) in DR'. rewrite C in DR'.
      split; [|split].
      * intros l a fa b fb r E AB. destruct l as [|p l]; [injection E as <- <- <- <- <-; exact DR'|]. exfalso. injection E as _ E.
        assert (I : In (a, fa) ((xk, fk) :: rest)) by (rewrite E; apply in_or_app; right; now left). destruct I as [I|I]; [injection I as -> _; lra|].
        pose proof (recorded_after _ _ _ _ R' I) as G. cbn [fst] in G. unfold gap in G. lra.
      * intros Q. rewrite Q in DR'. rewrite line_start in DR'. exact DR'.
      * intros l a fa E AX. exfalso. destruct l as [|p l]; [discriminate E|]. injection E as _ E.
        assert (I : In (a, fa) ((xk, fk) :: rest)) by (rewrite E; apply in_or_app; right; now left). destruct I as [I|I]; [injection I as -> _; lra|].
        pose proof (recorded_after _ _ _ _ R' I) as G. cbn [fst] in G. unfold gap in G. lra.
Qed.
Lemma interp_near (x y : f64) pts l a fa b fb r : fin x -> recorded M pts -> interp (N:=F64 L) x pts = Ok y -> pts = l ++ (a, fa) :: (b, fb) :: r -> V a <= V x <= V b ->
  fin y /\ Rabs (V y - line (V a) (V fa) (V b) (V fb) (V x)) <= 2 / 1000000000000000 * M + 1 / e30 * 10.
Proof.
  intros FX R E D AB. destruct pts as [|[x0 f0] rest]; [destruct l; discriminate D|]. cbn [interp] in E. change (ltb (Num:=F64 L) x x0) with (Bltb x x0) in E.
  assert (X0 : V x0 <= V x).
  { destruct l as [|p l]; [injection D as -> _ _; lra|]. injection D as _ D. assert (I : In (a, fa) rest) by (rewrite D; apply in_or_app; right; now left).
    pose proof (recorded_after _ _ _ _ R I) as G. cbn [fst] in G. unfold gap in G. lra. }
  pose proof R as [F _]. inversion F as [|? ? (F0 & _) _]; subst. cbn [fst] in F0.
  destruct (Bltb x x0) eqn:C; [apply (ltb_V x x0 FX F0) in C; lra|].
  destruct (interp_from_near x FX rest x0 f0 R X0) as (I1 & I2 & _). assert (Q : interp_from (N:=F64 L) x x0 f0 rest = y) by congruence. rewrite <- Q.
  split; [exact I1|]. exact (I2 l a fa b fb r D AB).
Qed.
End Interp.

(** ** The rows of interpolate_poses_from_samples *)
Lemma interpolated_row {N : Num} (poses : list (@stamped N)) samples out : interpolate_poses_from_samples poses samples = Ok out ->
  forall row, In row out -> In (fst row) samples /\
    interp (fst row) (map (fun p => (fst p, vx (pos (snd p)))) poses) = Ok (vx (pos (snd row))) /\
    interp (fst row) (map (fun p => (fst p, vy (pos (snd p)))) poses) = Ok (vy (pos (snd row))) /\
    interp (fst row) (map (fun p => (fst p, vz (pos (snd p)))) poses) = Ok (vz (pos (snd row))) /\
    resample_one (stamps poses) (map (fun p => ori (snd p)) poses) (fst row) = Ok (ori (snd row)).
Proof.
  unfold interpolate_poses_from_samples. intros H row I. apply bind_ok in H as (qs & HQ & H). apply bind_ok in H as (xs & HX & H). apply bind_ok in H as (ys & HY & H). apply bind_ok in H as (zs & HZ & H).
  unfold resample_quaternions_from_samples in HQ. apply mapM_Forall2 in HQ, HX, HY, HZ, H.
  assert (K : forall {A B} (R : A -> B -> Prop) l m, Forall2 R l m -> forall y, In y m -> exists x, In x l /\ R x y).
  { clear. intros A B R l m F. induction F as [|a b l m P F IH]; intros y [].
    - subst. exists a. split; [now left|exact P].
    - destruct (IH y H) as (x & I & Q). exists x. split; [now right|exact Q]. }
  assert (J : forall {B} (f : T -> res B) m s y i, Forall2 (fun s y => f s = Ok y) samples m -> index samples i = Ok s -> index m i = Ok y -> f s = Ok y).
  { clear. intros B f m s y i F. revert i. induction F as [|a b l m P F IH]; intros i A C; [destruct i; discriminate A|].
    destruct i as [|i]; [cbn in A, C; injection A as <-; injection C as <-; exact P|]. exact (IH i A C). }
  destruct (K _ _ _ _ _ H row I) as (i & _ & E). apply bind_ok in E as (s & S & E). apply bind_ok in E as (x & X & E). apply bind_ok in E as (y & Y & E). apply bind_ok in E as (z & Z & E). apply bind_ok in E as (q & Q & E).
  injection E as <-. cbn [fst snd pos ori vx vy vz].
  split; [|repeat split].
  - unfold index in S. destruct (nth_error samples i) eqn:NE; [|discriminate S]. injection S as <-. now apply nth_error_In in NE.
  - exact (J _ _ _ _ _ _ HX S X).
  - exact (J _ _ _ _ _ _ HY S Y).
  - exact (J _ _ _ _ _ _ HZ S Z).
  - exact (J _ _ _ _ _ _ HQ S Q).
Qed.

(** ** Spherical interpolation *)
(** the exact answer: the unit quaternion whose angle from [p] is the fraction [f] of the angle between [p] and [q], and
    whose angle from [q] is the rest *)
Definition between (p q : rq) (f : R) (r : rq) : Prop :=
  unitq r /\ hdot p r = cos (f * acos (hdot p q)) /\ hdot r q = cos ((1 - f) * acos (hdot p q)).
Definition cosine (L : libm) : Prop := forall x : f64, fin x -> Rabs (V x) <= 4 -> fin (m_cos L x) /\ Rabs (V (m_cos L x) - cos (V x)) <= 1 / 1000000000000000.

Lemma cos_lipschitz x y : Rabs (cos x - cos y) <= Rabs (x - y).
Proof. rewrite !cos_sin. replace (x - y) with ((PI / 2 + x) - (PI / 2 + y)) by ring. apply sin_lipschitz. Qed.
Lemma hdot_lin a b x y z : hdot (hadd (hscale a x) (hscale b y)) z = a * hdot x z + b * hdot y z.
Proof. destruct x as [[] ?], y as [[] ?], z as [[] ?]. unfold hdot, dot3, hadd, hscale, vadd, vscale. cbn. ring. Qed.
Lemma hdot_comm x y : hdot x y = hdot y x.
Proof. destruct x as [[] ?], y as [[] ?]. unfold hdot, dot3. cbn. ring. Qed.
Lemma hdot_sub x y z : hdot (hsub x y) z = hdot x z - hdot y z.
Proof. destruct x as [[] ?], y as [[] ?], z as [[] ?]. unfold hdot, dot3, hsub, vsub. cbn. ring. Qed.
Lemma hdot_scale a x z : hdot (hscale a x) z = a * hdot x z.
Proof. destruct x as [[] ?], z as [[] ?]. unfold hdot, dot3, hscale, vscale. cbn. ring. Qed.
Lemma dot_dist p q P Q : Rabs (hdot p q - hdot P Q) <= dist p P * hnorm q + hnorm P * dist q Q.
Proof.
  replace (hdot p q - hdot P Q) with (hdot (hsub p P) q + hdot P (hsub q Q)) by (destruct p as [[] ?], q as [[] ?], P as [[] ?], Q as [[] ?]; unfold hdot, dot3, hsub, vsub; cbn; ring).
  eapply Rle_trans; [apply Rabs_triang|]. apply Rplus_le_compat; apply hdot_le.
Qed.

Lemma part_norm q d s : hnorm2 (hsub q (hscale d s)) = hnorm2 q - 2 * d * hdot s q + d * d * hnorm2 s.
Proof. destruct q as [[] ?], s as [[] ?]. unfold hnorm2, hdot, dot3, hsub, hscale, vsub, vscale. cbn. ring. Qed.
Lemma self_dot_pos {L} (q : @quat (F64 L)) : fin (qdot q q) -> 0 <= V (qdot q q).
Proof.
  unfold qdot. cbn [add mul F64 T]. intros F.
  apply add_fin in F as (F3 & Fw & ->). apply add_fin in F3 as (F2 & Fz & ->). apply add_fin in F2 as (Fx & Fy & ->).
  apply mul_fin in Fx as (_ & _ & ->). apply mul_fin in Fy as (_ & _ & ->). apply mul_fin in Fz as (_ & _ & ->). apply mul_fin in Fw as (_ & _ & ->).
  apply rnd_pos. apply Rplus_le_le_0_compat; [apply rnd_pos, Rplus_le_le_0_compat; [apply rnd_pos, Rplus_le_le_0_compat|]|]; apply rnd_pos, Rle_0_sqr.
Qed.
(** the arc from [s] to [q] *)
Lemma arc s q f : unitq s -> unitq q -> - (1 / 10) <= hdot s q -> 0 <= f <= 1 ->
  let W := hsub q (hscale (hdot s q) s) in let A := f * acos (hdot s q) in
  exists k, 0 <= k <= 2 /\ k * hnorm W = sin A /\ between s q f (hadd (hscale (cos A) s) (hscale k W)) /\ hnorm W <= 1.
Proof.
  intros US UQ D0 F. cbv zeta. set (D := hdot s q) in *. set (W := hsub q (hscale D s)). set (Th := acos D).
  assert (D1 : -1 <= D <= 1).
  { pose proof (hdot_le s q) as C. rewrite (proj1 (unit_hnorm s) US), (proj1 (unit_hnorm q) UQ) in C. fold D in C. apply Rabs_le_inv in C. lra. }
  assert (WW : hnorm W * hnorm W = 1 - D * D).
  { rewrite hnorm_sqr. unfold W. rewrite part_norm, US, UQ. fold D. ring. }
  assert (WS : hdot s W = 0). { unfold W. rewrite hdot_comm, hdot_sub, hdot_scale. change (hdot s s) with (hnorm2 s). rewrite US, (hdot_comm q s). fold D. ring. }
  assert (WQ : hdot W q = 1 - D * D). { unfold W. rewrite hdot_sub, hdot_scale. change (hdot q q) with (hnorm2 q). rewrite UQ. fold D. ring. }
  assert (W0 : 0 <= hnorm W) by apply hnorm_pos. assert (W1 : hnorm W <= 1) by nra.
  assert (SW : sin Th = hnorm W). { unfold Th. rewrite sin_acos by lra. unfold hnorm. f_equal. rewrite <- hnorm_sqr, WW. unfold Rsqr. ring. }
  assert (CT : cos Th = D) by (apply cos_acos; lra). pose proof (acos_bound D) as TB. fold Th in TB. pose proof PI_RGT_0 as PP.
  assert (AB : 0 <= f * Th <= Th) by (split; [apply Rmult_le_pos; lra|]; assert (f * Th <= 1 * Th) by (apply Rmult_le_compat_r; lra); lra).
  assert (S0 : 0 <= sin (f * Th)) by (apply sin_ge_0; lra).
  assert (S2 : sin (f * Th) <= 2 * hnorm W).
  { destruct (Rle_lt_dec Th (PI / 2)) as [G|G].
    - assert (sin (f * Th) <= sin Th) by (apply sin_incr_1; lra). lra.
    - pose proof (SIN_bound (f * Th)) as SB. assert (C : cos Th <= 0) by (apply cos_le_0; lra). rewrite CT in C. assert (1 / 2 <= hnorm W) by nra. lra. }
  assert (FIN : forall k, k * hnorm W = sin (f * Th) -> between s q f (hadd (hscale (cos (f * Th)) s) (hscale k W))).
  { intros k EK. unfold between. fold D. fold Th. split; [|split].
    - unfold unitq, hnorm2. rewrite hdot_lin, !(hdot_comm _ (hadd _ _)), !hdot_lin. rewrite (hdot_comm W s), WS. change (hdot s s) with (hnorm2 s). change (hdot W W) with (hnorm2 W). rewrite US, <- hnorm_sqr.
      pose proof (sin2_cos2 (f * Th)) as SC. unfold Rsqr in SC. rewrite <- EK in SC. eapply eq_trans; [|exact SC]. ring.
    - rewrite hdot_comm, hdot_lin, (hdot_comm W s), WS. change (hdot s s) with (hnorm2 s). rewrite US. ring.
    - rewrite hdot_lin. fold D. rewrite WQ, <- WW. replace ((1 - f) * Th) with (Th - f * Th) by ring. rewrite cos_minus, CT, SW, <- EK. ring. }
  destruct (Req_dec (hnorm W) 0) as [Z|NZ].
  - exists 0. assert (sin (f * Th) = 0) by lra. split; [lra|]. split; [rewrite H; ring|]. split; [apply FIN; rewrite H; ring|exact W1].
  - assert (WP : 0 < hnorm W) by lra. assert (E : sin (f * Th) / hnorm W * hnorm W = sin (f * Th)) by (field; lra).
    exists (sin (f * Th) / hnorm W). split; [|split; [exact E|split; [apply FIN; exact E|exact W1]]].
    split; [apply Rmult_le_pos; [exact S0|left; now apply Rinv_0_lt_compat]|]. apply Rmult_le_reg_r with (hnorm W); [exact WP|]. rewrite E. exact S2.
Qed.

Lemma qscale_near {L} (p : @quat (F64 L)) (t : f64) : finq p -> fin t -> hnorm (val p) <= 2 -> Rabs (V t) <= 2 ->
  finq (qscale (N:=F64 L) p t) /\ dist (val (qscale (N:=F64 L) p t)) (hscale (V t) (val p)) <= 1 / 1000000000000000.
Proof.
  intros (P1 & P2 & P3 & P4) FT HP HT. pose proof big_huge as BH. destruct (component_le (val p)) as (C1 & C2 & C3 & C4). cbn [val qv qs v1 v2 v3] in C1, C2, C3, C4.
  assert (G : forall a : f64, fin a -> Rabs (V a) <= hnorm (val p) -> fin (Bmult mode_NE a t) /\ Rabs (V (Bmult mode_NE a t) - V t * V a) <= 1 / 2000000000000000).
  { intros a FA HA. pose proof (prod_le (V a) (V t) 2 2 ltac:(lra) HT) as PL. destruct (mul_ok a t FA FT) as [F E]; [lra|]. split; [exact F|]. rewrite E, (Rmult_comm (V t)). pose proof (rnd_within _ _ PL). absle; nums; lra. }
  destruct (G _ P1 C1) as [F1 E1]. destruct (G _ P2 C2) as [F2 E2]. destruct (G _ P3 C3) as [F3 E3]. destruct (G _ P4 C4) as [F4 E4].
  split; [exact (conj F1 (conj F2 (conj F3 F4)))|]. replace (1 / 1000000000000000) with (2 * (1 / 2000000000000000)) by lra.
  unfold dist. apply norm_components; [lra|exact E1|exact E2|exact E3|exact E4].
Qed.
Lemma qsub_near {L} (p q : @quat (F64 L)) : finq p -> finq q -> hnorm (val p) <= 2 -> hnorm (val q) <= 2 ->
  finq (qsub p q) /\ dist (val (qsub p q)) (hsub (val p) (val q)) <= 1 / 1000000000000000.
Proof.
  intros (P1 & P2 & P3 & P4) (Q1 & Q2 & Q3 & Q4) HP HQ. pose proof big_huge as BH.
  destruct (component_le (val p)) as (C1 & C2 & C3 & C4). destruct (component_le (val q)) as (D1 & D2 & D3 & D4). cbn [val qv qs v1 v2 v3] in C1, C2, C3, C4, D1, D2, D3, D4.
  assert (G : forall a b : f64, fin a -> fin b -> Rabs (V a) <= hnorm (val p) -> Rabs (V b) <= hnorm (val q) -> fin (Bminus mode_NE a b) /\ Rabs (V (Bminus mode_NE a b) - (V a - V b)) <= 1 / 2000000000000000).
  { intros a b FA FB HA HB. apply Rabs_le_inv in HA. apply Rabs_le_inv in HB. assert (PL : Rabs (V a - V b) <= 4) by (absle; lra). destruct (sub_ok a b FA FB) as [F E]; [lra|]. split; [exact F|]. rewrite E. pose proof (rnd_within _ _ PL). absle; nums; lra. }
  destruct (G _ _ P1 Q1 C1 D1) as [F1 E1]. destruct (G _ _ P2 Q2 C2 D2) as [F2 E2]. destruct (G _ _ P3 Q3 C3 D3) as [F3 E3]. destruct (G _ _ P4 Q4 C4 D4) as [F4 E4].
  split; [exact (conj F1 (conj F2 (conj F3 F4)))|]. replace (1 / 1000000000000000) with (2 * (1 / 2000000000000000)) by lra.
  unfold dist. apply norm_components; [lra|exact E1|exact E2|exact E3|exact E4].
Qed.
Lemma dist_scales a b x : dist (hscale a x) (hscale b x) = Rabs (a - b) * hnorm x.
Proof. unfold dist. rewrite <- hnorm_scale_abs. f_equal. destruct x as [[] ?]. apply rq_eq; cbn; ring. Qed.
Lemma scale_dist a x y : dist (hscale a x) (hscale a y) = Rabs a * dist x y.
Proof. unfold dist. rewrite <- hnorm_scale_abs. f_equal. destruct x as [[] ?], y as [[] ?]. apply rq_eq; cbn; ring. Qed.

(** the perpendicular part, divided by its norm unless that is below 1e-8 *)
Lemma unit_part L (pp : @quat (F64 L)) W : finq pp -> dist (val pp) W <= 1 / 1000000000000 -> hnorm W <= 1 ->
  finq (qnormalize pp) /\ hnorm (val (qnormalize pp)) <= 1 + 1 / 1000000000000 /\
  dist W (hscale (hnorm W) (val (qnormalize pp))) <= 1 / 20000000.
Proof.
  intros F D W1. pose proof (dist_norm (val pp) W) as N1. pose proof (dist_norm W (val pp)) as N2. rewrite dist_sym in N2. pose proof (hnorm_pos W) as W0. pose proof (hnorm_pos (val pp)) as H0.
  destruct (component_le (val pp)) as (C1 & C2 & C3 & C4). cbn [val qv qs v1 v2 v3] in C1, C2, C3, C4.
  assert (FD : fin (qdot pp pp)) by (apply (dot_ok pp pp 2 2); try assumption; lra).
  destruct (sqnorm_error pp FD) as [_ SE]. assert (X0 := hnorm2_pos (val pp)).
  assert (P : 0 <= V (qdot pp pp)) by now apply self_dot_pos.
  destruct (sqrt_fine _ FD P) as [FN EN]. change (Bsqrt mode_NE (qdot pp pp)) with (qnorm pp) in FN, EN.
  unfold qnormalize. cbv zeta. destruct (ltb (Num:=F64 L) (lit (Num:=F64 L) 1 (-8)) (qnorm pp)) eqn:C.
  - destruct (C70_divided L pp FN C) as (FR & CL & _). apply close_dist in CL; [|lra]. set (r := qdivs pp (qnorm pp)) in *. split; [exact FR|].
    destruct (norm_error pp FN C) as (_ & HB & _).
    assert (DN : hnorm (direction (val pp)) = 1) by (apply direction_norm; lra).
    pose proof (dist_norm (val r) (direction (val pp))) as NR. rewrite DN in NR. split; [lra|].
    eapply Rle_trans; [apply (dist_triangle _ (val pp))|]. rewrite dist_sym in D.
    pose proof (dist_triangle (val pp) (hscale (hnorm W) (direction (val pp))) (hscale (hnorm W) (val r))) as T1.
    assert (E : val pp = hscale (hnorm (val pp)) (direction (val pp))).
    { unfold direction. destruct (val pp) as [[x y z] w] eqn:EV. assert (HN : hnorm (RQ (RV x y z) w) <> 0) by lra. apply rq_eq; cbn [hscale vscale qv qs v1 v2 v3]; field; exact HN. }
    assert (T2 : dist (val pp) (hscale (hnorm W) (direction (val pp))) = Rabs (hnorm (val pp) - hnorm W) * hnorm (direction (val pp))) by (rewrite <- dist_scales, <- E; reflexivity).
    rewrite T2, DN, scale_dist, (Rabs_pos_eq (hnorm W)), (dist_sym (direction _)) in T1 by exact W0.
    assert (T3 : Rabs (hnorm (val pp) - hnorm W) <= 1 / 1000000000000) by (rewrite dist_sym in D; absle; lra).
    assert (T4 : hnorm W * dist (val r) (direction (val pp)) <= 1 * (2 * (3 / 1000000000000000))) by (apply Rmult_le_compat; try lra; apply dist_pos). lra.
  - split; [exact F|].
    assert (HS : hnorm (val pp) <= 1 / 50000000).
    { destruct (Rle_lt_dec (hnorm (val pp)) (1 / 50000000)) as [|G]; [assumption|exfalso].
      assert (X1 : 1 / 50000000 * (1 / 50000000) <= hnorm2 (val pp)) by (rewrite <- hnorm_sqr; apply Rmult_le_compat; lra).
      assert (SE' : Rabs (V (qdot pp pp) - hnorm2 (val pp)) <= 11 / 10000000000000000 * hnorm2 (val pp)) by (apply Rabs_le_inv in SE; absle; nums; lra).
      pose proof (sqrt_error _ _ _ (11 / 10000000000000000) P ltac:(lra) SE' EN ltac:(lra)) as R. change (sqrt (hnorm2 (val pp))) with (hnorm (val pp)) in R.
      destruct lit_8 as [F8 B8]. apply Rabs_le_inv in R. assert (UB : u <= 1 / 1000000) by (nums; lra).
      assert (V8 : V (f_lit 1 (-8)) < V (qnorm pp)) by nra.
      apply (proj2 (ltb_V _ _ F8 FN)) in V8. change (Bltb (f_lit 1 (-8)) (qnorm pp)) with (ltb (Num:=F64 L) (lit (Num:=F64 L) 1 (-8)) (qnorm pp)) in V8. congruence. }
    split; [lra|]. pose proof (dist_triangle W hzero (hscale (hnorm W) (val pp))) as T.
    assert (Z1 : dist W hzero = hnorm W). { unfold dist. f_equal. destruct W as [[] ?]. apply rq_eq; cbn; ring. }
    assert (Z2 : dist hzero (hscale (hnorm W) (val pp)) = hnorm W * hnorm (val pp)).
    { rewrite dist_sym. replace hzero with (hscale (hnorm W) hzero) by (apply rq_eq; cbn; ring). rewrite scale_dist, (Rabs_pos_eq _ W0). f_equal. unfold dist. f_equal. destruct (val pp) as [[] ?]. apply rq_eq; cbn; ring. }
    rewrite Z1, Z2 in T. assert (hnorm W * hnorm (val pp) <= 1 * (1 / 50000000)) by (apply Rmult_le_compat; lra).
    assert (hnorm W * hnorm (val pp) <= (1 / 50000000 + 1 / 1000000000000) * (1 / 50000000)) by (apply Rmult_le_compat; lra). lra.
Qed.

Definition tau : R := 1 / 100000000000000.
Definition micro : R := 1 / 1000000.
Lemma dist_sub a b c d : dist (hsub a b) (hsub c d) <= dist a c + dist b d.
Proof.
  unfold dist. replace (hsub (hsub a b) (hsub c d)) with (hadd (hsub a c) (hneg (hsub b d))) by (destruct a as [[] ?], b as [[] ?], c as [[] ?], d as [[] ?]; apply rq_eq; cbn; ring).
  eapply Rle_trans; [apply hnorm_triangle|]. rewrite hnorm_neg. lra.
Qed.
Lemma scaled_near a b x y : dist (hscale a x) (hscale b y) <= Rabs a * dist x y + Rabs (a - b) * hnorm y.
Proof. eapply Rle_trans; [apply (dist_triangle _ (hscale a y))|]. rewrite scale_dist, dist_scales. lra. Qed.
Lemma slerp_core L (p1 q : @quat (F64 L)) (d f : f64) s Q : arccosine L -> sine L -> cosine L ->
  unitq s -> unitq Q -> finq p1 -> finq q -> dist (val p1) s <= tau -> dist (val q) Q <= tau ->
  fin d -> 0 <= V d <= 1 -> Rabs (V d - hdot s Q) <= 3 * tau -> fin f -> 0 <= V f <= 1 ->
  let th := mul (Num:=F64 L) (acosn (Num:=F64 L) d) f in
  let r := qadd (qscale p1 (cosn th)) (qscale (qnormalize (qsub q (qscale p1 d))) (sinn th)) in
  finq r /\ exists R, between s Q (V f) R /\ dist (val r) R <= micro.
Proof.
  intros AC SI CO US UQ FP FQ DP DQ Fd d01 DD Ff f01. cbv zeta. unfold tau, micro in *. pose proof big_huge as BH. pose proof PI_near as PN.
  pose proof (proj1 (unit_hnorm s) US) as NS. pose proof (proj1 (unit_hnorm Q) UQ) as NQ. pose proof (dist_pos (val p1) s) as P0. pose proof (dist_pos (val q) Q) as Q0.
  pose proof (dist_norm (val p1) s) as NP. rewrite NS in NP. pose proof (dist_norm (val q) Q) as Nq. rewrite NQ in Nq.
  set (D := hdot s Q) in *.
  assert (D1 : -1 <= D <= 1). { pose proof (hdot_le s Q) as C. rewrite NS, NQ in C. fold D in C. apply Rabs_le_inv in C. lra. }
  pose proof (Rabs_le_inv _ _ DD) as DD'.
  destruct (arc s Q (V f) US UQ ltac:(fold D; lra) f01) as (k & K2 & KS & BT & W1). cbv zeta in *. fold D in KS, BT, W1. set (W := hsub Q (hscale D s)) in *. set (Th := acos D) in *. set (A := V f * Th) in *.
  (* the angle *)
  destruct (AC d Fd) as [AC1 _]. destruct (AC1 ltac:(rewrite Rabs_pos_eq; lra)) as [Fa Da]. clear AC1. cbn [acosn F64 mul T cosn sinn].
  set (a := m_acos L d) in *. clearbody a. pose proof (acos_near (V d) D ltac:(lra) D1 (3 / 10000000) ltac:(lra) ltac:(lra)) as AN. fold Th in AN.
  pose proof (acos_bound D) as TB. fold Th in TB. apply Rabs_le_inv in AN. apply Rabs_le_inv in Da.
  assert (AT : Rabs (V a - Th) <= 301 / 1000000000) by (absle; lra).
  pose proof (prod_le (V a) (V f) 32 1 ltac:(apply Rabs_le_inv in AT; absle; lra) ltac:(rewrite Rabs_pos_eq; lra)) as PB0.
  pose proof (prod_le (V a - Th) (V f) _ 1 AT ltac:(rewrite Rabs_pos_eq; lra)) as PB1. replace ((V a - Th) * V f) with (V a * V f - A) in PB1 by (unfold A; ring).
  destruct (mul_ok a f Fa Ff) as [Fth Eth]; [lra|]. set (th := Bmult mode_NE a f) in *.
  pose proof (rnd_within _ _ PB0) as RT. rewrite <- Eth in RT. clearbody th.
  assert (A0 : 0 <= A <= Th) by (unfold A; split; [apply Rmult_le_pos; lra|]; assert (V f * Th <= 1 * Th) by (apply Rmult_le_compat_r; lra); lra).
  assert (TH : Rabs (V th - A) <= 302 / 1000000000) by (apply Rabs_le_inv in PB1; absle; nums; lra).
  assert (TH4 : Rabs (V th) <= 4) by (apply Rabs_le_inv in TH; absle; lra).
  destruct (CO th Fth TH4) as [Fc Dc]. destruct (SI th Fth TH4) as [Fs Ds]. pose proof (cos_lipschitz (V th) A) as LC. pose proof (sin_lipschitz (V th) A) as LS.
  set (c := m_cos L th) in *. set (sn := m_sin L th) in *. clearbody c sn.
  assert (Ec : Rabs (V c - cos A) <= 303 / 1000000000) by (apply Rabs_le_inv in Dc; assert (LC' := Rabs_le_inv _ _ (Rle_trans _ _ _ LC TH)); absle; lra).
  assert (Es : Rabs (V sn - sin A) <= 303 / 1000000000) by (apply Rabs_le_inv in Ds; assert (LS' := Rabs_le_inv _ _ (Rle_trans _ _ _ LS TH)); absle; lra).
  clear Dc Ds LC LS. pose proof (COS_bound A) as CB. pose proof (SIN_bound A) as SB.
  assert (Bc : Rabs (V c) <= 1 + 1 / 1000000) by (apply Rabs_le_inv in Ec; absle; lra). assert (Bs : Rabs (V sn) <= 1 + 1 / 1000000) by (apply Rabs_le_inv in Es; absle; lra).
  (* the perpendicular part *)
  destruct (qscale_near p1 d FP Fd ltac:(lra) ltac:(rewrite Rabs_pos_eq; lra)) as [Fm Dm]. set (m := qscale (N:=F64 L) p1 d) in *. clearbody m.
  assert (Mm : dist (val m) (hscale D s) <= 42 / 1000000000000000).
  { pose proof (dist_triangle (val m) (hscale (V d) (val p1)) (hscale D s)) as T. pose proof (scaled_near (V d) D (val p1) s) as S. rewrite NS, (Rabs_pos_eq (V d)) in S by lra.
    assert (V d * dist (val p1) s <= 1 * (1 / 100000000000000)) by (apply Rmult_le_compat; lra). lra. }
  assert (Hm : hnorm (val m) <= 2).
  { pose proof (dist_norm (val m) (hscale D s)) as N. rewrite hnorm_scale_abs, NS in N. assert (Rabs D <= 1) by (absle; lra). lra. }
  destruct (qsub_near q m FQ Fm ltac:(lra) Hm) as [Fpp Dpp]. set (pp := qsub q m) in *. clearbody pp.
  assert (PW : dist (val pp) W <= 1 / 1000000000000).
  { pose proof (dist_triangle (val pp) (hsub (val q) (val m)) W) as T. pose proof (dist_sub (val q) (val m) Q (hscale D s)) as S. fold W in S. lra. }
  destruct (unit_part L pp W Fpp PW W1) as (F3 & H3 & U3). set (q3 := qnormalize pp) in *. clearbody q3.
  (* the sum *)
  destruct (qscale_near p1 c FP Fc ltac:(lra) ltac:(lra)) as [Fx Dx]. destruct (qscale_near q3 sn F3 Fs ltac:(lra) ltac:(lra)) as [Fy Dy].
  set (x := qscale (N:=F64 L) p1 c) in *. set (y := qscale (N:=F64 L) q3 sn) in *. clearbody x y.
  assert (X1 : dist (val x) (hscale (cos A) s) <= 304 / 1000000000).
  { pose proof (dist_triangle (val x) (hscale (V c) (val p1)) (hscale (cos A) s)) as T. pose proof (scaled_near (V c) (cos A) (val p1) s) as S. rewrite NS in S.
    assert (Rabs (V c) * dist (val p1) s <= (1 + 1 / 1000000) * (1 / 100000000000000)) by (apply Rmult_le_compat; try lra; apply Rabs_pos). lra. }
  assert (Y1 : dist (val y) (hscale k W) <= 405 / 1000000000).
  { pose proof (dist_triangle (val y) (hscale (V sn) (val q3)) (hscale k W)) as T. pose proof (dist_triangle (hscale (V sn) (val q3)) (hscale (sin A) (val q3)) (hscale k W)) as T2. rewrite dist_scales in T2.
    assert (E : hscale (sin A) (val q3) = hscale k (hscale (hnorm W) (val q3))) by (rewrite <- KS; destruct (val q3) as [[] ?]; apply rq_eq; cbn; ring).
    rewrite E, scale_dist, (Rabs_pos_eq k), (dist_sym _ W) in T2 by lra.
    assert (Rabs (V sn - sin A) * hnorm (val q3) <= 303 / 1000000000 * (1 + 1 / 1000000000000)) by (apply Rmult_le_compat; try lra; [apply Rabs_pos|apply hnorm_pos]).
    assert (k * dist W (hscale (hnorm W) (val q3)) <= 2 * (1 / 20000000)) by (apply Rmult_le_compat; try lra; apply dist_pos). lra. }
  assert (Hx : hnorm (val x) <= 2).
  { pose proof (dist_norm (val x) (hscale (cos A) s)) as N. rewrite hnorm_scale_abs, NS in N. assert (Rabs (cos A) <= 1) by (absle; lra). lra. }
  assert (Hy : hnorm (val y) <= 4).
  { pose proof (dist_norm (val y) (hscale k W)) as N. rewrite hnorm_scale_abs, (Rabs_pos_eq k) in N by lra. assert (k * hnorm W <= 2 * 1) by (apply Rmult_le_compat; try lra; apply hnorm_pos). lra. }
  destruct (qadd_near x y Fx Fy ltac:(unfold M50; lra)) as [Fr Dr]. split; [exact Fr|]. exists (hadd (hscale (cos A) s) (hscale k W)). split; [exact BT|].
  pose proof (hnorm_triangle (val x) (val y)) as HT. assert (2 * u * hnorm (hadd (val x) (val y)) <= 2 * u * 6) by (apply Rmult_le_compat_l; [nums; lra|lra]).
  pose proof (dist_triangle (val (qadd x y)) (hadd (val x) (val y)) (hadd (hscale (cos A) s) (hscale k W))) as T. pose proof (dist_add (val x) (hscale (cos A) s) (val y) (hscale k W)) as T2. nums. lra.
Qed.

(** the condition [between] fixes the point of the arc *)
Lemma apart_zero x y : unitq x -> unitq y -> hdot x y = 1 -> x = y.
Proof.
  intros UX UY D. destruct x as [[x1 x2 x3] x0], y as [[y1 y2 y3] y0]. unfold unitq, hnorm2, hdot, dot3 in *. cbn [qv qs v1 v2 v3] in *.
  assert (Z : (x1 - y1) * (x1 - y1) + (x2 - y2) * (x2 - y2) + (x3 - y3) * (x3 - y3) + (x0 - y0) * (x0 - y0) = 0) by lra.
  pose proof (Rle_0_sqr (x1 - y1)) as A. pose proof (Rle_0_sqr (x2 - y2)) as B. pose proof (Rle_0_sqr (x3 - y3)) as C. pose proof (Rle_0_sqr (x0 - y0)) as E. unfold Rsqr in *.
  assert (K : forall t, t * t = 0 -> t = 0) by (intros t H; destruct (Rmult_integral _ _ H); assumption).
  apply rq_eq; cbn [qv qs v1 v2 v3]; apply Rminus_diag_uniq, K; lra.
Qed.
Theorem C113_between : forall s q f, unitq s -> unitq q -> - (1 / 1000000000000) <= hdot s q -> 0 <= f <= 1 -> exists R, between s q f R /\ forall R', between s q f R' -> R' = R.
Proof.
  intros s q f US UQ D F. destruct (arc s q f US UQ ltac:(lra) F) as (k & _ & _ & BX & _). cbv zeta in BX. set (a := cos _) in BX. set (W := hsub q (hscale (hdot s q) s)) in *. set (X := hadd (hscale a s) (hscale k W)) in *.
  exists X. split; [exact BX|]. intros R (UR & R1 & R2). destruct BX as (UX & X1 & X2). symmetry. apply apart_zero; [exact UX|exact UR|].
  assert (E : forall Z, hdot s Z = cos (f * acos (hdot s q)) -> hdot Z q = cos ((1 - f) * acos (hdot s q)) -> hdot X Z = a * cos (f * acos (hdot s q)) + k * (cos ((1 - f) * acos (hdot s q)) - hdot s q * cos (f * acos (hdot s q)))).
  { intros Z Z1 Z2. unfold X. rewrite hdot_lin. unfold W. rewrite hdot_sub, hdot_scale, (hdot_comm q Z), Z1, Z2. ring. }
  rewrite (E R R1 R2), <- (E X X1 X2). exact UX.
Qed.

Lemma between_start s q : unitq s -> -1 <= hdot s q <= 1 -> between s q 0 s.
Proof. intros U D. unfold between. rewrite Rmult_0_l, cos_0, Rminus_0_r, Rmult_1_l, cos_acos by exact D. split; [exact U|]. split; [exact U|reflexivity]. Qed.
Lemma between_end s q : unitq q -> -1 <= hdot s q <= 1 -> between s q 1 q.
Proof. intros U D. unfold between. rewrite Rmult_1_l, Rminus_eq_0, Rmult_0_l, cos_0, cos_acos by exact D. split; [exact U|]. split; [reflexivity|exact U]. Qed.
Lemma unit_dots p q : unitq p -> unitq q -> -1 <= hdot p q <= 1.
Proof.
  intros UP UQ. pose proof (hdot_le p q) as C. rewrite (proj1 (unit_hnorm p) UP), (proj1 (unit_hnorm q) UQ) in C. apply Rabs_le_inv in C. lra.
Qed.
Lemma unit_neg p : unitq p -> unitq (hneg p). Proof. unfold unitq. now rewrite hnorm2_neg. Qed.
Lemma dot_neg p q : hdot (hneg p) q = - hdot p q.
Proof. destruct p as [[] ?], q as [[] ?]. unfold hdot, dot3, hneg, vscale. cbn. ring. Qed.
Lemma neg_neg p : hneg (hneg p) = p. Proof. destruct p as [[] ?]. apply rq_eq; cbn; ring. Qed.
(** what the interpolation of the rotations [P] and [Q] may return: a quaternion within 1e-6 of the exact one on the shorter
    arc or of its negative; if the two arcs are equally long up to 1e-12, either may be taken *)
Definition interpolates (P Q : rq) (f : R) (r : rq) : Prop :=
  exists s R, (s = P \/ s = hneg P) /\ - (1 / 1000000000000) <= hdot s Q /\ between s Q f R /\ (dist r R <= micro \/ dist r (hneg R) <= micro).
Lemma lit_minus_one : fin (f_lit (-1) 0) /\ V (f_lit (-1) 0) = -1.
Proof. change (f_lit (-1) 0) with (f_of_Z (-1)). destruct (of_Z_V (-1) ltac:(lia)) as [A B]. split; [exact A|exact B]. Qed.
Lemma flip_near {L} (p : @quat (F64 L)) : finq p -> finq (qscale (N:=F64 L) p (lit (Num:=F64 L) (-1) 0)) /\ val (qscale (N:=F64 L) p (lit (Num:=F64 L) (-1) 0)) = hneg (val p).
Proof.
  intros (A & B & C & D). destruct lit_minus_one as [FL VL]. pose proof big_huge as BH.
  assert (G : forall a : f64, fin a -> fin (Bmult mode_NE a (f_lit (-1) 0)) /\ V (Bmult mode_NE a (f_lit (-1) 0)) = - V a).
  { intros a FA. pose proof (Bmult_correct 53 1024 f64_prec f64_emax mode_NE a (f_lit (-1) 0)) as H.
    assert (E : V a * V (f_lit (-1) 0) = V (Bopp a)) by (rewrite VL, opp_V; ring). fold (V a) in H. fold (V (f_lit (-1) 0)) in H. rewrite E in H.
    change (Generic_fmt.round radix2 (SpecFloat.fexp 53 1024) (round_mode mode_NE) (V (Bopp a))) with (rnd (V (Bopp a))) in H. rewrite rnd_self in H.
    rewrite Rlt_bool_true in H by apply V_bound. destruct H as (H1 & H2 & _). split; [|etransitivity; [exact H1|apply opp_V]].
    change (is_finite (Bmult mode_NE a (f_lit (-1) 0)) = true). rewrite H2. change (is_finite a = true) in FA. change (is_finite (f_lit (-1) 0) = true) in FL. rewrite FA, FL. reflexivity. }
  destruct (G _ A) as [F1 E1]. destruct (G _ B) as [F2 E2]. destruct (G _ C) as [F3 E3]. destruct (G _ D) as [F4 E4]. split; [exact (conj F1 (conj F2 (conj F3 F4)))|].
  apply rq_eq; cbn [val hneg vscale qv qs v1 v2 v3]; [etransitivity; [exact E1|ring]|etransitivity; [exact E2|ring]|etransitivity; [exact E3|ring]|exact E4].
Qed.
Lemma clip_unit {L} (d : f64) : fin d -> 0 <= V d -> let c := clip (N:=F64 L) (lit (Num:=F64 L) (-1) 0) (n1 (N:=F64 L)) d in fin (c : f64) /\ V c = Rmin 1 (V d).
Proof.
  intros F D0. cbv zeta. unfold clip. destruct lit_minus_one as [FL VL]. destruct (of_Z_V 1 ltac:(lia)) as [F1 V1].
  change (ltb (Num:=F64 L) d (lit (Num:=F64 L) (-1) 0)) with (Bltb d (f_lit (-1) 0)). destruct (Bltb d (f_lit (-1) 0)) eqn:C; [apply ltb_V in C; [lra|exact F|exact FL]|].
  change (n1 (N:=F64 L)) with (f_of_Z 1). change (ltb (Num:=F64 L) (f_of_Z 1) d) with (Bltb (f_of_Z 1) d). destruct (Bltb (f_of_Z 1) d) eqn:C1.
  - apply ltb_V in C1; [|exact F1|exact F]. split; [exact F1|]. rewrite V1 in *. unfold Rmin. destruct (Rle_dec 1 (V d)); lra.
  - split; [exact F|]. assert (V d <= 1). { destruct (Rle_lt_dec (V d) 1) as [|G]; [assumption|]. rewrite <- V1 in G. apply (proj2 (ltb_V _ _ F1 F)) in G. congruence. }
    unfold Rmin. destruct (Rle_dec 1 (V d)); lra.
Qed.
Theorem C113_slerp : forall L (p q r : @quat (F64 L)) P Q (f : @T (F64 L)), arccosine L -> sine L -> cosine L -> unitq P -> unitq Q ->
  finq p -> finq q -> dist (val p) P <= tau -> dist (val q) Q <= tau -> fin (f : f64) -> quaternion_slerp p q f = Ok r ->
  finq r /\ 0 <= V f <= 1 /\ interpolates P Q (V f) (val r).
Proof.
  intros L p q r P Q f AC SI CO UP UQ FP FQ DP DQ FF H. unfold quaternion_slerp in H. apply assert_ok in H as [F01 H]. apply assert_ok in H as [_ H]. apply assert_ok in H as [_ H].
  destruct (of_Z_V 1 ltac:(lia)) as [F1 V1]. destruct (of_Z_V 0 ltac:(lia)) as [F0 V0].
  apply andb_true_iff in F01 as [G0 G1]. change (Bleb (f_of_Z 0) f = true) in G0. change (Bleb f (f_of_Z 1) = true) in G1. apply leb_V in G0; [|exact F0|exact FF]. apply leb_V in G1; [|exact FF|exact F1]. rewrite V0 in G0. rewrite V1 in G1.
  pose proof (unit_dots P Q UP UQ) as D1. unfold tau, micro in *.
  assert (SGN : exists s, (s = P \/ s = hneg P) /\ 0 <= hdot s Q).
  { destruct (Rle_lt_dec 0 (hdot P Q)) as [G|G]; [exists P; split; [now left|exact G]|exists (hneg P); split; [now right|rewrite dot_neg; lra]]. }
  change (eqb (Num:=F64 L) f (n0 (N:=F64 L))) with (Beqb f (f_of_Z 0)) in H. destruct (Beqb f (f_of_Z 0)) eqn:E0.
  { assert (r = p) by congruence. subst r. apply eqb_V in E0; [|exact FF|exact F0]. rewrite V0 in E0. split; [exact FP|]. split; [lra|]. destruct SGN as (s & S & SD). exists s, s.
    split; [exact S|]. split; [lra|]. rewrite E0. split; [apply between_start; [destruct S; subst; [exact UP|now apply unit_neg]|destruct S; subst; [exact D1|rewrite dot_neg in *; lra]]|].
    unfold micro. destruct S; subst; [left|right; rewrite neg_neg]; lra. }
  change (eqb (Num:=F64 L) f (n1 (N:=F64 L))) with (Beqb f (f_of_Z 1)) in H. destruct (Beqb f (f_of_Z 1)) eqn:E1.
  { assert (r = q) by congruence. subst r. apply eqb_V in E1; [|exact FF|exact F1]. rewrite V1 in E1. split; [exact FQ|]. split; [lra|]. destruct SGN as (s & S & SD). exists s, Q.
    split; [exact S|]. split; [lra|]. rewrite E1. split; [apply between_end; [exact UQ|destruct S; subst; [exact D1|rewrite dot_neg in *; lra]]|]. left. unfold micro. lra. }
  clear SGN. cbv zeta in H.
  (* the scalar product *)
  pose proof (proj1 (unit_hnorm P) UP) as NP. pose proof (proj1 (unit_hnorm Q) UQ) as NQ.
  pose proof (dist_norm (val p) P) as Np. rewrite NP in Np. pose proof (dist_norm (val q) Q) as Nq. rewrite NQ in Nq.
  destruct (component_le (val p)) as (C1 & C2 & C3 & C4). destruct (component_le (val q)) as (B1 & B2 & B3 & B4). cbn [val qv qs v1 v2 v3] in C1, C2, C3, C4, B1, B2, B3, B4.
  assert (FD : fin (qdot p q)) by (apply (dot_ok p q 2 2); try assumption; lra).
  destruct (dot_error p q FD) as (_ & _ & DE).
  assert (DD : Rabs (V (qdot p q) - hdot P Q) <= 3 / 100000000000000).
  { pose proof (dot_dist (val p) (val q) P Q) as T. rewrite NP in T. pose proof (dist_pos (val p) P) as P0. pose proof (dist_pos (val q) Q) as Q0. pose proof (hnorm_pos (val q)) as H0.
    assert (dist (val p) P * hnorm (val q) <= 1 / 100000000000000 * (1 + 1 / 100000000000000)) by (apply Rmult_le_compat; lra).
    assert (PX : forall a b, Rabs a <= hnorm (val p) -> Rabs b <= hnorm (val q) -> Rabs (a * b) <= 1 + 1 / 1000000000000).
    { intros a b X Y. pose proof (prod_le a b (1 + 1 / 100000000000000) (1 + 1 / 100000000000000) ltac:(lra) ltac:(lra)). lra. }
    pose proof (PX _ _ C1 B1). pose proof (PX _ _ C2 B2). pose proof (PX _ _ C3 B3). pose proof (PX _ _ C4 B4).
    replace (V (qdot p q) - hdot P Q) with ((V (qdot p q) - hdot (val p) (val q)) + (hdot (val p) (val q) - hdot P Q)) by ring. eapply Rle_trans; [apply Rabs_triang|]. nums. lra. }
  clear DE C1 C2 C3 C4 B1 B2 B3 B4. set (d := qdot p q) in *.
  assert (CORE : forall (d1 : f64) (p1 : @quat (F64 L)) s, (s = P \/ s = hneg P) -> fin d1 -> 0 <= V d1 -> Rabs (V d1 - hdot s Q) <= 3 / 100000000000000 -> finq p1 -> dist (val p1) s <= 1 / 100000000000000 ->
    let c := clip (N:=F64 L) (lit (Num:=F64 L) (-1) 0) (n1 (N:=F64 L)) d1 in
    let th := mul (Num:=F64 L) (acosn (Num:=F64 L) c) f in
    r = qadd (qscale p1 (cosn th)) (qscale (qnormalize (qsub q (qscale p1 c))) (sinn th)) -> finq r /\ 0 <= V f <= 1 /\ interpolates P Q (V f) (val r)).
  { intros d1 p1 s S F1' D0 DS F1p DSp. cbv zeta. destruct (clip_unit (L:=L) d1 F1' D0) as [FC EC]. cbv zeta in FC, EC. set (c := clip (N:=F64 L) (lit (Num:=F64 L) (-1) 0) (n1 (N:=F64 L)) d1) in *. clearbody c. intros ER.
    assert (US : unitq s) by (destruct S; subst; [exact UP|now apply unit_neg]). pose proof (unit_dots s Q US UQ) as DSB. apply Rabs_le_inv in DS.
    assert (CB : 0 <= V c <= 1 /\ Rabs (V c - hdot s Q) <= 3 * tau) by (rewrite EC; unfold Rmin, tau; destruct (Rle_dec 1 (V d1)); split; try lra; absle; lra).
    destruct (slerp_core L p1 q c f s Q AC SI CO US UQ F1p FQ DSp DQ FC (proj1 CB) (proj2 CB) FF (conj G0 G1)) as (FR & R & BT & DR). cbv zeta in FR, DR. rewrite <- ER in FR, DR.
    split; [exact FR|]. split; [lra|]. exists s, R. split; [exact S|]. split; [lra|]. split; [exact BT|]. now left. }
  change (ltb (Num:=F64 L) d (n0 (N:=F64 L))) with (Bltb d (f_of_Z 0)) in H. destruct (Bltb d (f_of_Z 0)) eqn:CD.
  - apply ltb_V in CD; [|exact FD|exact F0]. rewrite V0 in CD. destruct (flip_near p FP) as [Ff Vf].
    apply (CORE (Bopp d) (qscale (N:=F64 L) p (lit (Num:=F64 L) (-1) 0)) (hneg P)).
    + now right.
    + change (fin (Bopp d)). rewrite opp_fin. exact FD.
    + rewrite opp_V. lra.
    + rewrite opp_V, dot_neg. apply Rabs_le_inv in DD. absle; lra.
    + exact Ff.
    + rewrite Vf, dist_neg. exact DP.
    + apply (f_equal (fun z => match z with Ok y => y | Err _ => r end)) in H. symmetry. exact H.
  - assert (CD' : 0 <= V d). { destruct (Rle_lt_dec 0 (V d)) as [|G]; [assumption|]. rewrite <- V0 in G. apply (proj2 (ltb_V _ _ FD F0)) in G. congruence. }
    apply (CORE d p P); [now left|exact FD|exact CD'|exact DD|exact FP|exact DP|]. apply (f_equal (fun z => match z with Ok y => y | Err _ => r end)) in H. symmetry. exact H.
Qed.

(** ** The interpolated poses *)
(** finite stamps within 1e29 that are at least 1e-25 apart *)
Definition timeline {L} (poses : list (@stamped (F64 L))) : Prop :=
  Forall (fun p : @stamped (F64 L) => fin (fst p : f64) /\ Rabs (V (fst p)) <= 100000000000000000000000000000) poses /\ spaced gap (map (fun p : @stamped (F64 L) => (fst p : f64)) poses).
(** the point at the time [t] of the straight line that is in [v] at [a] and in [w] at [b] *)
Definition line3 (a : R) (v : rv) (b : R) (w : rv) (t : R) : rv := RV (line a (v1 v) b (v1 w) t) (line a (v2 v) b (v2 w) t) (line a (v3 v) b (v3 w) t).
Lemma column {L} (c : @vec3 (F64 L) -> f64) M (poses : list (@stamped (F64 L))) : timeline poses -> Forall (fun p : @stamped (F64 L) => fin (c (pos (snd p))) /\ Rabs (V (c (pos (snd p)))) <= M) poses ->
  recorded M (map (fun p : @stamped (F64 L) => (fst p : f64, c (pos (snd p)))) poses).
Proof.
  intros [T S] F. split.
  - rewrite Forall_forall in *. intros x I. apply in_map_iff in I as (p & <- & I). cbn [fst snd]. destruct (T p I), (F p I). tauto.
  - rewrite map_map. cbn [fst]. exact S.
Qed.
Theorem C113_position : forall L (poses out : list (@stamped (F64 L))) samples M, interpolate_poses_from_samples poses samples = Ok out -> timeline poses -> M <= e23 ->
  Forall (fun p : @stamped (F64 L) => finv (pos (snd p)) /\ len3 (valv (pos (snd p))) <= M) poses -> Forall (fun s : @T (F64 L) => fin (s : f64)) samples ->
  forall row, In row out -> In (fst row) samples /\
    forall l p q r, poses = l ++ p :: q :: r -> V (fst p) <= V (fst row) <= V (fst q) ->
      finv (pos (snd row)) /\
      len3 (vsub (valv (pos (snd row))) (line3 (V (fst p)) (valv (pos (snd p))) (V (fst q)) (valv (pos (snd q))) (V (fst row)))) <= 4 / 1000000000000000 * M + 2 / 100000000000000000000000000000.
Proof.
  intros L poses out samples M H T MB F FS row I. destruct (interpolated_row _ _ _ H row I) as (IS & X & Y & Z & _). split; [exact IS|]. intros l p q r D AB.
  rewrite Forall_forall in FS. pose proof (FS _ IS) as FT.
  assert (CX : Forall (fun p : @stamped (F64 L) => fin (vx (pos (snd p)) : f64) /\ Rabs (V (vx (pos (snd p)))) <= M) poses /\ Forall (fun p : @stamped (F64 L) => fin (vy (pos (snd p)) : f64) /\ Rabs (V (vy (pos (snd p)))) <= M) poses /\ Forall (fun p : @stamped (F64 L) => fin (vz (pos (snd p)) : f64) /\ Rabs (V (vz (pos (snd p)))) <= M) poses).
  { assert (G : forall x : @stamped (F64 L), In x poses -> (fin (vx (pos (snd x)) : f64) /\ Rabs (V (vx (pos (snd x)))) <= M) /\ (fin (vy (pos (snd x)) : f64) /\ Rabs (V (vy (pos (snd x)))) <= M) /\ (fin (vz (pos (snd x)) : f64) /\ Rabs (V (vz (pos (snd x)))) <= M)).
    { intros x J. rewrite Forall_forall in F. destruct (F x J) as ((A & B & C) & E). rewrite <- len_norm in E. destruct (component_le (RQ (valv (pos (snd x))) 0)) as (C1 & C2 & C3 & _).
      unfold valv in C1, C2, C3, E. cbn [qv v1 v2 v3] in C1, C2, C3, E. repeat split; try assumption; lra. }
    repeat split; apply Forall_forall; intros x J; apply (G x J). }
  destruct CX as (CX & CY & CZ).
  pose proof (column (fun v => vx v) M poses T CX) as RX. pose proof (column (fun v => vy v) M poses T CY) as RY. pose proof (column (fun v => vz v) M poses T CZ) as RZ.
  assert (DX : forall c : @vec3 (F64 L) -> f64, map (fun p : @stamped (F64 L) => (fst p : f64, c (pos (snd p)))) poses = map (fun p : @stamped (F64 L) => (fst p : f64, c (pos (snd p)))) l ++ (fst p : f64, c (pos (snd p))) :: (fst q : f64, c (pos (snd q))) :: map (fun p : @stamped (F64 L) => (fst p : f64, c (pos (snd p)))) r) by (intros c; rewrite D, map_app; reflexivity).
  destruct (interp_near L M MB _ _ _ _ _ _ _ _ _ FT RX X (DX (fun v => vx v)) AB) as [F1 E1]. destruct (interp_near L M MB _ _ _ _ _ _ _ _ _ FT RY Y (DX (fun v => vy v)) AB) as [F2 E2]. destruct (interp_near L M MB _ _ _ _ _ _ _ _ _ FT RZ Z (DX (fun v => vz v)) AB) as [F3 E3].
  split; [exact (conj F1 (conj F2 F3))|]. rewrite <- len_norm.
  assert (M0 : 0 <= M). { assert (J : In p poses) by (rewrite D; apply in_or_app; right; now left). rewrite Forall_forall in F. destruct (F p J) as [_ E]. eapply Rle_trans; [|exact E]. apply sqrt_pos. }
  unfold e30 in *. eapply Rle_trans; [apply (norm_components _ (2 / 1000000000000000 * M + 1 / 1000000000000000000000000000000 * 10))|lra]; [lra|exact E1|exact E2|exact E3|cbn [qs]; rewrite Rabs_R0; lra].
Qed.
Lemma fraction_near (a b t : f64) : fin a -> fin b -> fin t -> Rabs (V a) <= 100000000000000000000000000000 -> Rabs (V b) <= 100000000000000000000000000000 -> gap <= V b - V a -> V a <= V t <= V b ->
  let f := Bdiv mode_NE (Bminus mode_NE t a) (Bminus mode_NE b a) in fin f /\ Rabs (V f - (V t - V a) / (V b - V a)) <= 1 / 1000000000000000.
Proof.
  intros FA FB FT BA BB G I. cbv zeta. unfold gap in G. pose proof big_huge as BH. apply Rabs_le_inv in BA, BB. pose proof u_pos as UP. pose proof eta_pos as EP.
  destruct (sub_ok t a FT FA) as [F1 E1]; [absle; lra|]. destruct (sub_ok b a FB FA) as [F2 E2]; [absle; lra|].
  pose proof (rnd_error (V t - V a)) as R1. rewrite <- E1 in R1. pose proof (rnd_error (V b - V a)) as R2. rewrite <- E2 in R2.
  set (A' := V (Bminus mode_NE t a)) in *. set (B' := V (Bminus mode_NE b a)) in *. set (A := V t - V a) in *. set (B := V b - V a) in *.
  assert (0 <= A <= B) by (unfold A, B; lra). rewrite (Rabs_pos_eq A) in R1 by lra. rewrite (Rabs_pos_eq B) in R2 by lra. apply Rabs_le_inv in R1, R2.
  assert (UA : u * A <= u * B) by (apply Rmult_le_compat_l; lra).
  assert (UB : u * B <= 12 / 100000000000000000 * B) by (apply Rmult_le_compat_r; [lra|nums; lra]).
  assert (ETB : eta <= 1 / 1000000000000000000000 * B) by (unfold eta; nums; lra).
  set (g := A / B). assert (GB : A = g * B) by (unfold g; field; lra). assert (g01 : 0 <= g <= 1) by (unfold g; split; [apply Rmult_le_pos; [lra|left; apply Rinv_0_lt_compat; lra]|apply Rmult_le_reg_r with B; [lra|]; unfold Rdiv; rewrite Rmult_assoc, Rinv_l, Rmult_1_r by lra; lra]).
  assert (B0 : 0 < B') by lra.
  assert (Q : Rabs (A' / B' - g) <= 5 / 10000000000000000).
  { replace (A' / B' - g) with ((A' - g * B') / B') by (field; lra). unfold Rdiv at 1. rewrite Rabs_mult, (Rabs_pos_eq (/ B')) by (left; now apply Rinv_0_lt_compat).
    apply Rmult_le_reg_r with B'; [exact B0|]. rewrite Rmult_assoc, Rinv_l, Rmult_1_r by lra.
    assert (K : Rabs (g * (B' - B)) <= 1 * (u * B + eta)) by (apply prod_le; absle; lra). apply Rabs_le_inv in K.
    replace (A' - g * B') with ((A' - A) - g * (B' - B)) by (rewrite GB; ring). absle; lra. }
  apply Rabs_le_inv in Q. destruct (div_ok (Bminus mode_NE t a) (Bminus mode_NE b a) F1) as [FF EF]; [fold B'; lra|fold A' B'; absle; lra|]. fold A' B' in EF.
  split; [exact FF|]. rewrite EF. pose proof (rnd_within (A' / B') 2 ltac:(absle; lra)) as W. absle; nums; lra.
Qed.
Lemma some_eq {A} (a b : A) : Some a = Some b -> a = b. Proof. congruence. Qed.
(** the orientation of a row: the recorded one of the next stamp if np.isclose takes the time for that stamp, else the
    interpolation of the two neighbours *)
Theorem C113_orientation : forall L (poses out : list (@stamped (F64 L))) samples (exact : list rq), arccosine L -> sine L -> cosine L ->
  interpolate_poses_from_samples poses samples = Ok out -> timeline poses -> Forall (fun s : @T (F64 L) => fin (s : f64)) samples ->
  Forall2 (fun (p : @stamped (F64 L)) P => unitq P /\ finq (ori (snd p)) /\ dist (val (ori (snd p))) P <= tau) poses exact ->
  forall row, In row out ->
    exists k q Q, nth_error poses k = Some q /\ nth_error exact k = Some Q /\ V (fst row) <= V (fst q) /\
      (forall j p, (j < k)%nat -> nth_error poses j = Some p -> V (fst p) < V (fst row)) /\
      if isclose (lit (Num:=F64 L) 1 (-16)) (fst row) (fst q) then ori (snd row) = ori (snd q)
      else exists j p P f, k = S j /\ nth_error poses j = Some p /\ nth_error exact j = Some P /\
        Rabs (f - (V (fst row) - V (fst p)) / (V (fst q) - V (fst p))) <= 1 / 1000000000000000 /\ 0 <= f <= 1 /\
        finq (ori (snd row)) /\ interpolates P Q f (val (ori (snd row))).
Proof.
  intros L poses out samples ex AC SI CO H T FS FE row I. destruct (interpolated_row _ _ _ H row I) as (IS & _ & _ & _ & RS). rewrite Forall_forall in FS. pose proof (FS _ IS) as FT. clear H I IS FS. destruct row as [t [rp ro]]. cbn [fst snd ori] in *. clear rp.
  destruct T as [TF TS]. unfold resample_one in RS. apply bind_ok in RS as (tl & _ & RS). apply assert_ok in RS as [_ RS]. apply bind_ok in RS as (th & _ & RS). apply assert_ok in RS as [_ RS].
  assert (AF : allfin (stamps poses)) by (apply Forall_forall; intros x J; unfold stamps in J; apply in_map_iff in J as (p & <- & J); rewrite Forall_forall in TF; exact (proj1 (TF p J))).
  assert (SO : sorted (map V (stamps poses))) by (apply (spaced_sorted gap); [unfold gap; lra|exact TS]).
  destruct (bisect_V L (stamps poses) t AF FT SO) as (k & EB & LE & B & A). change (@T (F64 L)) with f64 in *. rewrite EB in RS. cbn [bind] in RS. apply bind_ok in RS as (tr & ET & RS).
  assert (IDX : forall {X} (l : list X) i x, index l i = Ok x -> nth_error l i = Some x) by (intros X l i x E; unfold index in E; destruct (nth_error l i); [now injection E as ->|discriminate E]).
  assert (ST : forall i x, nth_error (stamps poses) i = Some x -> exists p, nth_error poses i = Some p /\ fst p = x).
  { intros i x E. unfold stamps in E. destruct (nth_error poses i) as [p|] eqn:EP; [rewrite (map_nth_error _ _ _ EP) in E; injection E as <-; now exists p|]. apply nth_error_None in EP. assert (G : nth_error (map fst poses) i = None) by (apply nth_error_None; rewrite map_length; exact EP). rewrite G in E. discriminate E. }
  assert (EX : forall i p, nth_error poses i = Some p -> exists P, nth_error ex i = Some P /\ unitq P /\ finq (ori (snd p)) /\ dist (val (ori (snd p))) P <= tau).
  { clear -FE. induction FE as [|p P l m R F IH]; intros i x E; [destruct i; discriminate E|]. destruct i as [|i]; [injection E as <-; exists P; split; [reflexivity|exact R]|exact (IH i x E)]. }
  apply IDX in ET. destruct (ST _ _ ET) as (q & EQ & Eq). subst tr. destruct (EX _ _ EQ) as (Q & EQ' & UQ & FQ & DQ). exists k, q, Q. split; [exact EQ|]. split; [exact EQ'|].
  split; [exact (A k _ (Nat.le_refl _) ET)|]. split; [intros j p J E; apply (B j); [exact J|unfold stamps; now apply map_nth_error]|].
  match type of RS with (if ?c then _ else _) = _ => match goal with |- if ?d then _ else _ => change d with c; destruct c eqn:C end end.
  { apply IDX in RS. rewrite (map_nth_error _ _ _ EQ) in RS. exact (eq_sym (some_eq _ _ RS)). }
  destruct k as [|j]; [discriminate RS|]. apply bind_ok in RS as (ql & EL & RS). apply bind_ok in RS as (tj & EJ & RS). apply bind_ok in RS as (qr & ER & RS). apply bind_ok in RS as (res & EI & RS).
  apply IDX in EL, EJ, ER, RS. destruct (ST _ _ EJ) as (p & EP & Ep). subst tj. rewrite (map_nth_error _ _ _ EP) in EL. rewrite (map_nth_error _ _ _ EQ) in ER. assert (Eql : ori (snd p) = ql) by exact (some_eq _ _ EL). assert (Eqr : ori (snd q) = qr) by exact (some_eq _ _ ER). subst ql qr. clear EL ER.
  destruct (EX _ _ EP) as (P & EP' & UP & FP & DP).
  unfold quaternions_interpolate in EI. cbn [mapM] in EI. apply bind_ok in EI as (r & EI & ER). apply (f_equal (fun z => match z with Ok y => y | Err _ => res end)) in ER. cbn in ER. rewrite <- ER in RS. cbn [nth_error] in RS. apply some_eq in RS. subst ro. clear ER res.
  rewrite Forall_forall in TF. destruct (TF _ (nth_error_In _ _ EP)) as [FA BA]. destruct (TF _ (nth_error_In _ _ EQ)) as [FB BB].
  assert (GP : gap <= V (fst q) - V (fst p)) by (apply (TS j); [exact EJ|exact ET]).
  pose proof (B j _ (Nat.lt_succ_diag_r j) EJ) as LT. pose proof (A (S j) _ (Nat.le_refl _) ET) as GT.
  destruct (fraction_near (fst p) (fst q) t FA FB FT BA BB GP (conj (Rlt_le _ _ LT) GT)) as [FF EF]. cbv zeta in FF, EF.
  change (div (Num:=F64 L) (sub (Num:=F64 L) t (fst p)) (sub (Num:=F64 L) (fst q) (fst p))) with (Bdiv mode_NE (Bminus mode_NE t (fst p)) (Bminus mode_NE (fst q) (fst p))) in EI.
  set (f := Bdiv mode_NE (Bminus mode_NE t (fst p)) (Bminus mode_NE (fst q) (fst p))) in *.
  destruct (C113_slerp L _ _ r P Q f AC SI CO UP UQ FP FQ DP DQ FF EI) as (FR & F01 & IN).
  exists j, p, P, (V f). split; [reflexivity|]. split; [exact EP|]. split; [exact EP'|]. split; [exact EF|]. split; [exact F01|]. split; [exact FR|exact IN].
Qed.

(** ** The two aligned trajectories *)
Lemma select_in {N : Num} start (high : list T) : forall low samples, select_samples start high low = Ok samples -> forall s, In s samples -> In s low.
Proof.
  induction low as [|t low IH]; intros samples H s I; [injection H as <-; exact I|]. cbn [select_samples] in H.
  assert (STEP : forall m, (do rest <- m; Ok (t :: rest)) = Ok samples -> m = select_samples start high low -> In s (t :: low)).
  { intros m E ->. apply bind_ok in E as (rest & E & Q). injection Q as <-. destruct I as [<-|I]; [now left|right; exact (IH _ E s I)]. }
  destruct (ltb t start); [right; exact (IH _ H s I)|]. apply bind_ok in H as (idx & _ & H). destruct (_ <=? _)%Z; [injection H as <-; destruct I|].
  apply bind_ok in H as (tr & _ & H). destruct (eqb t tr); [exact (STEP _ H eq_refl)|]. apply bind_ok in H as (tl & _ & H). destruct (ltb t tl); [right; exact (IH _ H s I)|].
  destruct (_ && _); [exact (STEP _ H eq_refl)|right; exact (IH _ H s I)].
Qed.
Lemma aligned_parts {N : Num} (A B a b : list (@stamped N)) off : compute_aligned_poses A B off = Ok (a, b) ->
  exists samples, (forall s, In s samples -> In s (stamps (map (fun p => (add (fst p) off, snd p)) A)) \/ In s (stamps B)) /\
    interpolate_poses_from_samples (map (fun p => (add (fst p) off, snd p)) A) samples = Ok a /\ interpolate_poses_from_samples B samples = Ok b.
Proof.
  intros H. unfold compute_aligned_poses in H. set (sh := map (fun p => (add (fst p) off, snd p)) A) in *. cbv zeta in H.
  apply bind_ok in H as (fa & _ & H). apply bind_ok in H as (fb & _ & H).
  match type of H with (let '(_, _) := if ?c then _ else _ in _) = _ => destruct c end; apply bind_ok in H as (samples & ES & H); apply bind_ok in H as (oa & EA & H); apply bind_ok in H as (ob & EB & H); apply assert_ok in H as [_ H]; apply assert_ok in H as [_ H]; injection H as -> ->;
    exists samples; (split; [|split; assumption]); intros s I; pose proof (select_in _ _ _ _ ES s I); tauto.
Qed.
(** the first trajectory with the time offset added to its stamps *)
Definition later {L} (off : @T (F64 L)) (poses : list (@stamped (F64 L))) : list (@stamped (F64 L)) := map (fun p : @stamped (F64 L) => ((Bplus mode_NE (fst p) off : f64) : @T (F64 L), snd p)) poses.
Theorem C113_aligned : forall L (A B a b : list (@stamped (F64 L))) off M, compute_aligned_poses A B off = Ok (a, b) -> timeline (later off A) -> timeline B -> M <= e23 ->
  Forall (fun p : @stamped (F64 L) => finv (pos (snd p)) /\ len3 (valv (pos (snd p))) <= M) (A ++ B) ->
  forall poses out, (poses, out) = (later off A, a) \/ (poses, out) = (B, b) -> forall row, In row out ->
    forall l p q r, poses = l ++ p :: q :: r -> V (fst p) <= V (fst row) <= V (fst q) ->
      finv (pos (snd row)) /\
      len3 (vsub (valv (pos (snd row))) (line3 (V (fst p)) (valv (pos (snd p))) (V (fst q)) (valv (pos (snd q))) (V (fst row)))) <= 4 / 1000000000000000 * M + 2 / 100000000000000000000000000000.
Proof.
  intros L A B a b off M H TA TB MB F. destruct (aligned_parts _ _ _ _ _ H) as (samples & IS & EA & EB). clear H.
  change (map (fun p => (add (Num:=F64 L) (fst p) off, snd p)) A) with (later off A) in IS, EA. set (sh := later off A) in *.
  assert (FX : forall P : list (@stamped (F64 L)), timeline P -> forall s, In s (stamps P) -> fin (s : f64)) by (intros P [T _] x J; unfold stamps in J; apply in_map_iff in J as (p & <- & J); rewrite Forall_forall in T; exact (proj1 (T p J))).
  assert (FS : Forall (fun s : @T (F64 L) => fin (s : f64)) samples) by (apply Forall_forall; intros s I; destruct (IS s I) as [J|J]; [exact (FX _ TA s J)|exact (FX _ TB s J)]).
  apply Forall_app in F as [FA FB].
  assert (FA' : Forall (fun p : @stamped (F64 L) => finv (pos (snd p)) /\ len3 (valv (pos (snd p))) <= M) sh) by (apply Forall_forall; intros x J; apply in_map_iff in J as (p & <- & J); cbn [snd]; rewrite Forall_forall in FA; exact (FA p J)).
  intros poses out [E|E]; apply pair_equal_spec in E as [-> ->]; intros row I.
  - exact (proj2 (C113_position L sh a samples M EA TA MB FA' FS row I)).
  - exact (proj2 (C113_position L B b samples M EB TB MB FB FS row I)).
Qed.

(** ** Examples *)
Definition trig_libm : libm := Build_libm (fun x => on_grid (sin (V x))) (fun x => on_grid (cos (V x))) (fun x => if Bleb (Babs x) (f_of_Z 1) then on_grid (acos (V x)) else B754_nan) (fun _ => f_of_Z 0) (fun x _ => x).
Example C113_libm_example : arccosine trig_libm /\ sine trig_libm /\ cosine trig_libm.
Proof.
  split; [exact (proj1 C109_accurate_example)|]. split; intros x F H; cbn [m_sin m_cos trig_libm].
  - destruct (on_grid_V (sin (V x))) as (A & B & _); [pose proof (SIN_bound (V x)); absle; lra|]. exact (conj A B).
  - destruct (on_grid_V (cos (V x))) as (A & B & _); [pose proof (COS_bound (V x)); absle; lra|]. exact (conj A B).
Qed.
(** half a second between a pose at rest and one turned about the x axis and moved by two metres *)
Definition two_poses : list (@stamped (F64 trig_libm)) :=
  [((f_of_Z 0 : @T (F64 trig_libm)), mkPose (N:=F64 trig_libm) (mkV (N:=F64 trig_libm) (f_of_Z 0) (f_of_Z 0) (f_of_Z 0)) (mkQ (N:=F64 trig_libm) (f_of_Z 0) (f_of_Z 0) (f_of_Z 0) (f_of_Z 1)));
   ((f_of_Z 1 : @T (F64 trig_libm)), mkPose (N:=F64 trig_libm) (mkV (N:=F64 trig_libm) (f_of_Z 2) (f_of_Z 0) (f_of_Z 0)) (mkQ (N:=F64 trig_libm) six (f_of_Z 0) (f_of_Z 0) eight))].
Lemma spaced_two g (x y : f64) : g <= V y - V x -> spaced g [x; y].
Proof. intros H [|[|i]] a b A B; [apply some_eq in A, B; subst; exact H|discriminate B|destruct i; discriminate B]. Qed.
Example C113_example :
  (exists out, interpolate_poses_from_samples two_poses [(f_lit 5 (-1) : @T (F64 trig_libm))] = Ok out /\ stamps out = [(f_lit 5 (-1) : @T (F64 trig_libm))]) /\ timeline two_poses /\
  Forall (fun p : @stamped (F64 trig_libm) => finv (pos (snd p)) /\ len3 (valv (pos (snd p))) <= 4) two_poses /\
  Forall2 (fun (p : @stamped (F64 trig_libm)) P => unitq P /\ finq (ori (snd p)) /\ dist (val (ori (snd p))) P <= tau) two_poses [RQ (RV 0 0 0) 1; RQ (RV (3 / 5) 0 0) (4 / 5)] /\
  isclose (lit (Num:=F64 trig_libm) 1 (-16)) (f_lit 5 (-1)) (f_of_Z 1) = false.
Proof.
  destruct (tenth_V 6 ltac:(lia)) as [F6 V6]. destruct (tenth_V 8 ltac:(lia)) as [F8 V8]. destruct (tenth_V 5 ltac:(lia)) as [F5 V5]. destruct (of_Z_V 0 ltac:(lia)) as [F0 V0]. destruct (of_Z_V 1 ltac:(lia)) as [F1 V1]. destruct (of_Z_V 2 ltac:(lia)) as [F2 V2].
  fold six in *. fold eight in *. apply Rabs_le_inv in V5, V6, V8. pose proof big_huge as BH.
  assert (TL : timeline two_poses).
  { split.
    - apply Forall_cons; [|apply Forall_cons; [|apply Forall_nil]]; cbn [fst]; (split; [assumption|]); rewrite ?V0, ?V1; absle; lra.
    - apply spaced_two. change (gap <= V (f_of_Z 1) - V (f_of_Z 0)). rewrite V0, V1. unfold gap. lra. }
  split; [|split; [exact TL|split; [|split]]].
  - apply interpolate_ok.
    + discriminate.
    + apply Forall_cons; [exact F0|apply Forall_cons; [exact F1|apply Forall_nil]].
    + apply (spaced_sorted gap); [unfold gap; lra|exact (proj2 TL)].
    + apply Forall_cons; [|apply Forall_cons; [|apply Forall_nil]]; vm_compute; reflexivity.
    + apply sub_ok; [exact F1|exact F0|]. change (Rabs (V (f_of_Z 1) - V (f_of_Z 0)) <= big). rewrite V0, V1. absle; lra.
    + constructor; [|constructor]. split; [exact F5|]. change (V (f_of_Z 0) <= V (f_lit 5 (-1)) <= V (f_of_Z 1)). rewrite V0, V1. lra.
  - assert (G : forall x : f64, fin x -> Rabs (V x) <= 2 -> finv (mkV (N:=F64 trig_libm) x (f_of_Z 0) (f_of_Z 0)) /\ len3 (valv (mkV (N:=F64 trig_libm) x (f_of_Z 0) (f_of_Z 0))) <= 4).
    { intros x FX BX. split; [exact (conj FX (conj F0 F0))|]. rewrite <- len_norm. eapply Rle_trans; [apply (norm_components _ 2)|lra]; unfold valv; cbn [qv qs v1 v2 v3 vx vy vz]; [lra|exact BX| | |]; rewrite ?V0, Rabs_R0; lra. }
    constructor; [|constructor; [|constructor]]; apply G; try assumption; rewrite ?V0, ?V2; absle; lra.
  - constructor; [|constructor; [|constructor]]; (split; [unfold unitq, hnorm2, hdot, dot3; cbn [qv qs v1 v2 v3]; lra|]); unfold tau.
    + split; [exact (conj F0 (conj F0 (conj F0 F1)))|]. eapply Rle_trans; [apply (close_dist (1 / 1000000000000000)); [lra|]|lra]. unfold PropFloat.close_to. cbn [snd ori val qx qy qz qw qv qs v1 v2 v3]. rewrite V0, V1. repeat split; absle; lra.
    + split; [exact (conj F6 (conj F0 (conj F0 F8)))|]. eapply Rle_trans; [apply (close_dist (1 / 1000000000000000)); [lra|]|lra]. unfold PropFloat.close_to. cbn [snd ori val qx qy qz qw qv qs v1 v2 v3]. rewrite V0. repeat split; absle; lra.
  - vm_compute. reflexivity.
Qed.
