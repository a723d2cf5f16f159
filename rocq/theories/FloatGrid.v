(** * The sampling grid and the mean step of a recording in double precision. *)

From Coq Require Import Reals ZArith Bool List Lra Lia Psatz.
From Flocq Require Import Core BinarySingleNaN.
From Verif Require Import Num Py Quat DualQuat TimeAlign F64 Spec TimeSpec ListFacts ResampleFacts F64Facts FloatFacts PropFloat FloatTime.
Import ListNotations.
Local Open Scope R_scope.

Lemma lit_int L z : (Z.abs z <= 2 ^ 53)%Z -> fin (lit (Num:=F64 L) z 0 : f64) /\ V (lit (Num:=F64 L) z 0) = IZR z.
Proof.
  intros H. change (lit (Num:=F64 L) z 0) with (f_lit z 0). Transparent f_lit. unfold f_lit. cbn [Z.ltb Z.compare]. Opaque f_lit.
  change (10 ^ 0)%Z with 1%Z. rewrite Z.mul_1_r. now apply of_Z_V.
Qed.
Lemma of_nat_V L i : (Z.of_nat i <= 2 ^ 53)%Z -> fin (of_nat (N:=F64 L) i : f64) /\ V (of_nat (N:=F64 L) i) = INR i.
Proof. intros H. unfold of_nat. rewrite INR_IZR_INZ. apply lit_int. lia. Qed.
Lemma INR_Z n b : INR n <= IZR b -> (Z.of_nat n <= b)%Z.
Proof. rewrite INR_IZR_INZ. apply le_IZR. Qed.

(** strictly increasing values *)
Definition rising (l : list f64) : Prop := forall i (a b : f64), nth_error l i = Some a -> nth_error l (S i) = Some b -> V a < V b.

Section Grid.
  Context (L : libm) (a b : f64) (d : nat).
  Context (FA : fin a) (FB : fin b) (A : Rabs (V a) <= 10000000000) (B : Rabs (V b) <= 10000000000).
  Context (D1 : (1 <= d)%nat) (DD : INR d * (5 / 100000) <= V b - V a).
  Notation step := (Bdiv mode_NE (Bminus mode_NE b a) (of_nat (N:=F64 L) d)).
  Notation point i := (Bplus mode_NE (Bmult mode_NE (of_nat (N:=F64 L) i) step) a).

  Lemma grid_d : 1 <= INR d <= 400000000000000.
  Proof. split; [apply (le_INR 1); exact D1|]. apply Rabs_le_inv in A. apply Rabs_le_inv in B. lra. Qed.
  Lemma grid_point i : (i < d)%nat -> fin (point i) /\ V a <= V (point i) /\
    Rabs (V (point i) - (V a + INR i * ((V b - V a) / INR d))) <= 12 / 1000000.
  Proof.
    intros I. pose proof grid_d as GD. pose proof big_huge as BH. assert (A' := Rabs_le_inv _ _ A). assert (B' := Rabs_le_inv _ _ B).
    set (D := V b - V a) in *. assert (D0 : 0 <= D <= 20000000000) by (clear - A' B' DD GD; subst D; split; lra).
    assert (I0 : 0 <= INR i <= INR d) by (split; [apply pos_INR|apply le_INR; lia]).
    destruct (of_nat_V L d) as [Fd Ed]; [apply INR_Z; lra|]. destruct (of_nat_V L i) as [Fi Ei]; [apply INR_Z; lra|].
    destruct (sub_ok b a FB FA) as [FD ED]; [fold D; absle; lra|]. fold D in ED.
    pose proof (rnd_within D 20000000000 ltac:(absle; lra)) as RD. pose proof (rnd_pos D ltac:(lra)) as RD0. rewrite <- ED in RD, RD0. set (delta := Bminus mode_NE b a) in *.
    assert (W : 0 <= V delta <= 20000001000) by (nums; lra).
    assert (Q0 : 0 <= V delta / INR d <= V delta).
    { split; [apply Rmult_le_pos; [lra|left; apply Rinv_0_lt_compat; lra]|]. apply Rmult_le_reg_r with (INR d); [lra|]. unfold Rdiv. rewrite Rmult_assoc, Rinv_l, Rmult_1_r by lra.
      replace (V delta) with (V delta * 1) at 1 by ring. apply Rmult_le_compat_l; lra. }
    destruct (div_ok delta (of_nat (N:=F64 L) d) FD) as [FS ES]; [rewrite Ed; lra|rewrite Ed, Rabs_pos_eq; lra|]. rewrite Ed in ES.
    set (q := V delta / INR d) in *. assert (DQ : INR d * q = V delta) by (unfold q; field; lra).
    pose proof (rnd_error q) as RQ. rewrite (Rabs_pos_eq q) in RQ by lra. apply Rabs_le_inv in RQ. rewrite <- ES in RQ.
    pose proof (rnd_pos q ltac:(lra)) as S0. rewrite <- ES in S0. set (st := Bdiv mode_NE delta (of_nat (N:=F64 L) d)) in *.
    assert (IQ : Rabs (INR i * V st - INR i * q) <= 23 / 10000000).
    { rewrite <- Rmult_minus_distr_l, Rabs_mult, Rabs_pos_eq by lra. apply Rle_trans with (INR d * (u * q + eta)).
      - apply Rmult_le_compat; [lra|apply Rabs_pos|lra|]. absle; lra.
      - rewrite Rmult_plus_distr_l. replace (INR d * (u * q)) with (u * (INR d * q)) by ring. rewrite DQ. nums. lra. }
    apply Rabs_le_inv in IQ.
    assert (ID : Rabs (INR i * q - INR i * (D / INR d)) <= 23 / 10000000).
    { replace (INR i * q - INR i * (D / INR d)) with ((INR i / INR d) * (V delta - D)) by (unfold q; field; lra). rewrite Rabs_mult.
      apply Rle_trans with (1 * (23 / 10000000)); [|lra]. apply Rmult_le_compat; try apply Rabs_pos.
      - rewrite Rabs_pos_eq by (apply Rmult_le_pos; [lra|left; apply Rinv_0_lt_compat; lra]). apply Rmult_le_reg_r with (INR d); [lra|]. unfold Rdiv. rewrite Rmult_assoc, Rinv_l, Rmult_1_r by lra. lra.
      - absle; nums; lra. }
    apply Rabs_le_inv in ID.
    assert (IB : 0 <= INR i * q <= 20000001000).
    { split; [apply Rmult_le_pos; lra|]. apply Rle_trans with (INR d * q); [apply Rmult_le_compat_r; lra|lra]. }
    assert (IS : 0 <= INR i * V st) by (apply Rmult_le_pos; lra).
    destruct (mul_ok (of_nat (N:=F64 L) i) st Fi FS) as [FM EM]; [rewrite Ei, Rabs_pos_eq; lra|]. rewrite Ei in EM.
    pose proof (rnd_within (INR i * V st) 20000002000 ltac:(absle; lra)) as RM. pose proof (rnd_pos _ IS) as M0. rewrite <- EM in RM, M0.
    set (m := Bmult mode_NE (of_nat (N:=F64 L) i) st) in *. assert (MB : V m <= 20000003000) by (nums; lra).
    change (Bplus mode_NE (Bmult mode_NE (of_nat (N:=F64 L) i) step) a) with (Bplus mode_NE m a). destruct (add_ok m a FM FA) as [FP EP]; [absle; lra|]. rewrite EP.
    split; [exact FP|]. split; [rewrite <- (rnd_self a) at 1; apply rnd_le; lra|].
    pose proof (rnd_within (V m + V a) 30000003000 ltac:(absle; lra)) as RP. absle; nums; lra.
  Qed.
  Definition grid : list f64 := map (fun i => point i) (seq 0 d) ++ [b].
  Lemma grid_length : length grid = S d.
  Proof. unfold grid. rewrite app_length, map_length, seq_length. cbn. lia. Qed.
  Lemma grid_nth i : (i < d)%nat -> nth_error grid i = Some (point i).
  Proof.
    intros I. unfold grid. rewrite nth_error_app1 by (rewrite map_length, seq_length; exact I).
    change (point i) with ((fun i => point i) i). apply map_nth_error. rewrite (nth_error_nth' _ 0%nat) by (rewrite seq_length; exact I). now rewrite seq_nth by exact I.
  Qed.
  Lemma grid_last : nth_error grid d = Some b.
  Proof. unfold grid. rewrite nth_error_app2 by (rewrite map_length, seq_length; lia). rewrite map_length, seq_length, Nat.sub_diag. reflexivity. Qed.
  (** every point is close to the exact one *)
  Lemma grid_near i x : nth_error grid i = Some x -> fin x /\ V a <= V x <= V b /\ Rabs (V x - (V a + INR i * ((V b - V a) / INR d))) <= 12 / 1000000.
  Proof.
    intros E. assert (LI : (i < S d)%nat) by (rewrite <- grid_length; apply nth_error_Some; congruence).
    pose proof grid_d as GD. assert (SD : 5 / 100000 <= (V b - V a) / INR d).
    { apply Rmult_le_reg_r with (INR d); [lra|]. unfold Rdiv at 2. rewrite Rmult_assoc, Rinv_l, Rmult_1_r by lra. lra. }
    assert (DS : INR d * ((V b - V a) / INR d) = V b - V a) by (field; lra). set (w := (V b - V a) / INR d) in *.
    assert (i < d \/ i = d)%nat as [I | ->] by lia.
    - rewrite (grid_nth i I) in E. assert (EX : point i = x) by exact (f_equal (fun o => match o with Some z => z | None => x end) E). rewrite <- EX. clear E EX x. destruct (grid_point i I) as (F & G & H). fold w in H. split; [exact F|]. split; [|exact H]. split; [exact G|].
      apply Rabs_le_inv in H. assert (INR i + 1 <= INR d) by (rewrite <- S_INR; apply le_INR; lia).
      assert ((INR i + 1) * w <= INR d * w) by (apply Rmult_le_compat_r; lra). lra.
    - rewrite grid_last in E. injection E as <-. split; [exact FB|]. rewrite DS. split; [|absle; lra].
      assert (0 <= INR d * w) by (apply Rmult_le_pos; lra). lra.
  Qed.
  Lemma grid_gap i (x y : f64) : nth_error grid i = Some x -> nth_error grid (S i) = Some y -> 25 / 1000000 <= V y - V x.
  Proof.
    intros EX EY. destruct (grid_near _ _ EX) as (_ & _ & NX). destruct (grid_near _ _ EY) as (_ & _ & NY).
    pose proof grid_d as GD. assert (SD : 5 / 100000 <= (V b - V a) / INR d).
    { apply Rmult_le_reg_r with (INR d); [lra|]. unfold Rdiv at 2. rewrite Rmult_assoc, Rinv_l, Rmult_1_r by lra. lra. }
    rewrite S_INR in NY. apply Rabs_le_inv in NX. apply Rabs_le_inv in NY. lra.
  Qed.
End Grid.

(** ** The number of samples *)
Lemma count_ok L (a b dt : f64) m : fin a -> fin b -> Rabs (V a) <= 10000000000 -> Rabs (V b) <= 10000000000 -> fin dt -> 1 / 10000 <= V dt ->
  (1 <= m <= 10)%Z -> IZR m * V dt <= V (Bminus mode_NE b a) ->
  exists d, trunc (Num:=F64 L) (Bplus mode_NE (Bdiv mode_NE (Bminus mode_NE b a) dt) (n1 (N:=F64 L))) = Some (Z.of_nat (S d)) /\
    (m <= Z.of_nat d)%Z /\ INR d * (5 / 100000) <= V b - V a.
Proof.
  intros FA FB A B FT DT M MD. pose proof big_huge as BH. apply Rabs_le_inv in A. apply Rabs_le_inv in B.
  assert (M' : 1 <= IZR m <= 10) by (split; apply IZR_le; lia).
  destruct (sub_ok b a FB FA) as [FD ED]; [absle; lra|].
  assert (I0 : 1 / 10000 <= V (Bminus mode_NE b a)) by nra.
  pose proof (rnd_error (V b - V a)) as RE. rewrite <- ED in RE. set (I := Bminus mode_NE b a) in *.
  assert (D0 : 9 / 100000 <= V b - V a <= 20000000000).
  { split; [|lra]. apply Rabs_le_inv in RE. destruct (Rle_lt_dec 0 (V b - V a)).
    - rewrite (Rabs_pos_eq (V b - V a)) in RE by lra. nums. lra.
    - rewrite (Rabs_left (V b - V a)) in RE by lra. nums. lra. }
  rewrite (Rabs_pos_eq (V b - V a)) in RE by lra. apply Rabs_le_inv in RE. set (D := V b - V a) in *.
  assert (ID : V I <= 101 / 100 * D <= 30000000000) by (nums; lra).
  assert (QB : IZR m <= V I / V dt <= 300000000000000).
  { split; apply Rmult_le_reg_r with (V dt); try lra; unfold Rdiv; rewrite Rmult_assoc, Rinv_l, Rmult_1_r by lra; [lra|].
    apply Rle_trans with (300000000000000 * (1 / 10000)); [lra|apply Rmult_le_compat_l; lra]. }
  destruct (div_ok I dt FD) as [FQ EQ]; [lra|rewrite Rabs_pos_eq; lra|].
  pose proof (rnd_within (V I / V dt) 300000000000000 ltac:(absle; lra)) as RQ. rewrite <- EQ in RQ.
  destruct (of_Z_V m ltac:(lia)) as [Fm Vm]. destruct (of_Z_V (m + 1) ltac:(lia)) as [Fm1 Vm1].
  assert (QM : IZR m <= V (Bdiv mode_NE I dt)) by (rewrite EQ, <- Vm, <- (rnd_self (f_of_Z m)), Vm; apply rnd_le; lra).
  set (q := Bdiv mode_NE I dt) in *. destruct (lit_int L 1 ltac:(lia)) as [F1 V1]. change (lit (Num:=F64 L) 1 0) with (n1 (N:=F64 L)) in F1, V1.
  assert (QU : V q <= 300000000000001) by (nums; lra).
  destruct (add_ok q (n1 (N:=F64 L)) FQ F1) as [FN EN]; [rewrite V1; absle; lra|]. rewrite V1 in EN.
  assert (NM : IZR (m + 1) <= V (Bplus mode_NE q (n1 (N:=F64 L)))) by (rewrite EN, <- Vm1, <- (rnd_self (f_of_Z (m + 1))), Vm1; apply rnd_le; rewrite plus_IZR; lra).
  pose proof (rnd_within (V q + 1) 300000000000002 ltac:(absle; lra)) as RN. rewrite <- EN in RN. set (num := Bplus mode_NE q (n1 (N:=F64 L))) in *.
  assert (ET : trunc (Num:=F64 L) num = Some (Ztrunc (V num))).
  { change (trunc (Num:=F64 L) num) with (if is_finite num then Some (Btrunc num) else None). rewrite FN. f_equal. apply eq_IZR. rewrite Btrunc_correct, round_FIX_IZR. reflexivity. exact f64_prec. }
  rewrite plus_IZR in NM. rewrite Ztrunc_floor in ET by lra.
  assert (K1 : (m + 1 <= Zfloor (V num))%Z) by (apply Zfloor_lub; rewrite plus_IZR; exact NM). pose proof (Zfloor_lb (V num)) as K2.
  exists (Z.to_nat (Zfloor (V num) - 1)). split; [rewrite ET; f_equal; lia|]. split; [lia|].
  rewrite INR_IZR_INZ, Z2Nat.id by lia. rewrite minus_IZR. set (k := IZR (Zfloor (V num))) in *.
  assert (KQ : k - 1 <= 107 / 100 * (V I / V dt)) by (nums; lra).
  assert (KD : (k - 1) * V dt <= 107 / 100 * V I).
  { apply Rle_trans with (107 / 100 * (V I / V dt) * V dt); [apply Rmult_le_compat_r; lra|]. right. field. lra. }
  assert (0 <= k - 1) by (apply IZR_le in K1; fold k in K1; rewrite plus_IZR in K1; lra).
  assert ((k - 1) * (1 / 10000) <= (k - 1) * V dt) by (apply Rmult_le_compat_l; lra). lra.
Qed.

(** ** The mean step *)
(** consecutive stamps are at least g apart *)
Definition spaced (g : R) (l : list f64) : Prop := forall i (a b : f64), nth_error l i = Some a -> nth_error l (S i) = Some b -> g <= V b - V a.
Lemma spaced_tl g x l : spaced g (x :: l) -> spaced g l.
Proof. intros H i a b A B. exact (H (S i) a b A B). Qed.
Lemma spaced_firstn g l : forall k, spaced g l -> spaced g (firstn k l).
Proof.
  intros k H i a b A B. assert (S i < k)%nat.
  { assert (S i < length (firstn k l))%nat by (apply nth_error_Some; congruence). rewrite firstn_length in H0. lia. }
  rewrite nth_error_firstn in A, B by lia. exact (H i a b A B).
Qed.
Lemma spaced_sorted g l : 0 <= g -> spaced g l -> sorted (map V l).
Proof.
  intros G. induction l as [|x l IH]; intros H; [intros [|i] [|j] a b _ A; discriminate A|].
  change (map V (x :: l)) with (V x :: map V l). specialize (IH (spaced_tl _ _ _ H)). apply sorted_cons; [|exact IH].
  destruct l as [|y l]; [apply Forall_nil|]. pose proof (H 0%nat x y eq_refl eq_refl).
  change (map V (y :: l)) with (V y :: map V l) in *. apply Forall_cons; [lra|]. apply sorted_hd in IH. eapply Forall_impl; [|exact IH]. cbn. intros; lra.
Qed.

Lemma sum_diff L g t0 : 25 / 1000000 <= g -> Rabs t0 <= 10000000000 -> forall (t : list f64) (x acc : f64) k,
  fin acc -> Forall (fun y : f64 => fin y /\ Rabs (V y) <= 10000000000) (x :: t) -> spaced g (x :: t) ->
  INR k * g <= V x - t0 -> Rabs (V acc - (V x - t0)) <= 4 * u * INR k * (V x - t0) ->
  let S := fold_left (add (Num:=F64 L)) (diff (N:=F64 L) (x :: t)) acc in let e := V (last (x :: t) zerof) - t0 in
  fin (S : f64) /\ INR (k + length t) * g <= e /\ Rabs (V S - e) <= 4 * u * INR (k + length t) * e.
Proof.
  intros G T0. induction t as [|y t IH]; intros x acc k FA FT SP K E.
  - cbn [diff fold_left last length]. rewrite Nat.add_0_r. exact (conj FA (conj K E)).
  - cbv zeta. change (last (x :: y :: t) zerof) with (last (y :: t) zerof). change (diff (N:=F64 L) (x :: y :: t)) with (Bminus mode_NE y x :: diff (N:=F64 L) (y :: t)). cbn [fold_left].
    change (add (Num:=F64 L) acc (Bminus mode_NE y x)) with (Bplus mode_NE acc (Bminus mode_NE y x)).
    inversion FT as [|? ? [FX BX] FT']; subst. inversion FT' as [|? ? [FY BY] _]; subst. pose proof (SP 0%nat x y eq_refl eq_refl) as GAP.
    replace (k + length (y :: t))%nat with (S k + length t)%nat by (cbn; lia).
    pose proof big_huge as BH. apply Rabs_le_inv in T0. apply Rabs_le_inv in BX. apply Rabs_le_inv in BY. assert (K0 := pos_INR k).
    assert (KB : INR k <= 800000000000000) by nra.
    destruct (sub_ok y x FY FX) as [FD ED]; [absle; lra|].
    pose proof (rnd_error (V y - V x)) as RD. rewrite <- ED, (Rabs_pos_eq (V y - V x)) in RD by lra. set (D := Bminus mode_NE y x) in *.
    set (s := V x - t0) in *. set (s' := V y - t0). set (h := V y - V x) in *. assert (SS : s' = s + h) by (unfold s', s, h; ring).
    assert (S0 : 0 <= s) by (apply Rle_trans with (INR k * g); [apply Rmult_le_pos; lra|exact K]).
    set (c := 4 * u * INR k) in *. assert (C0 : 0 <= c <= 36 / 100) by (unfold c; nums; lra).
    assert (CS : 0 <= c * s <= 36 / 100 * s) by (split; [apply Rmult_le_pos; lra|apply Rmult_le_compat_r; lra]).
    assert (CH : 0 <= c * h) by (apply Rmult_le_pos; lra).
    apply Rabs_le_inv in E. apply Rabs_le_inv in RD.
    assert (AB : Rabs (V acc + V D) <= 14 / 10 * s') by (absle; nums; unfold s', s, h in *; lra).
    destruct (add_ok acc D FA FD) as [FP EP]; [apply Rle_trans with (14 / 10 * s'); [exact AB|unfold s'; lra]|].
    pose proof (rnd_within _ _ AB) as RP. rewrite <- EP in RP. set (P := Bplus mode_NE acc D) in *.
    apply (IH y P (S k) FP FT' (spaced_tl _ _ _ SP)).
    + fold s'. rewrite S_INR, SS. rewrite Rmult_plus_distr_r, Rmult_1_l. lra.
    + fold s'. rewrite S_INR. replace (4 * u * (INR k + 1) * s') with (c * s + c * h + 4 * u * s') by (unfold c; rewrite SS; ring).
      absle; nums; rewrite SS in *; lra.
Qed.
Lemma diff_length {N : Num} (l : list T) : length (diff l) = (length l - 1)%nat.
Proof.
  induction l as [|x l IH]; [reflexivity|]. destruct l as [|y l]; [reflexivity|].
  change (S (length (diff (y :: l))) = length (x :: y :: l) - 1)%nat. rewrite IH. cbn [length]. lia.
Qed.
Lemma mean_near L g (l : list f64) : 25 / 1000000 <= g -> (2 <= length l)%nat -> Forall (fun y : f64 => fin y /\ Rabs (V y) <= 10000000000) l -> spaced g l ->
  let n := INR (length l - 1) in let e := V (last l zerof) - V (hd zerof l) in
  fin (mean (N:=F64 L) (diff (N:=F64 L) l) : f64) /\ n * g <= e /\ 1 <= n /\
  Rabs (V (mean (N:=F64 L) (diff (N:=F64 L) l)) - e / n) <= (4 * u * n + 1 / 1000) * (e / n).
Proof.
  intros G LL FT SP. destruct l as [|x t]; [cbn in LL; lia|].
  assert (N1 : (1 <= length t)%nat) by (cbn in LL; lia). cbv zeta. cbn [hd].
  assert (BX : fin x /\ Rabs (V x) <= 10000000000) by now inversion FT.
  destruct BX as [FX BX]. destruct (of_Z_V 0 ltac:(lia)) as [F0 V0].
  destruct (sum_diff L g (V x) G BX t x zerof 0 F0 FT SP) as (FS & K & E).
  { change (INR 0) with 0. lra. } { change (INR 0) with 0. rewrite V0. replace (V x - V x) with 0 by ring. rewrite Rminus_0_r, Rabs_R0. lra. }
  rewrite Nat.add_0_l in *. replace (length (x :: t) - 1)%nat with (length t) by (cbn; lia).
  assert (N1' : 1 <= INR (length t)) by (apply (le_INR 1); exact N1).
  assert (BL : Rabs (V (last (x :: t) zerof)) <= 10000000000).
  { rewrite Forall_forall in FT. apply (FT (last (x :: t) zerof)). apply last_In. discriminate. }
  apply Rabs_le_inv in BX. apply Rabs_le_inv in BL. set (e := V (last (x :: t) zerof) - V x) in *. set (n := INR (length t)) in *.
  assert (EU : e <= 20000000000) by (unfold e; lra). assert (NG : n * (25 / 1000000) <= n * g) by (apply Rmult_le_compat_l; lra).
  assert (NB : n <= 800000000000000) by lra. pose proof big_huge as BH.
  unfold mean. rewrite diff_length. cbn [length]. rewrite !Nat.sub_succ, !Nat.sub_0_r. change (@length (@T (F64 L)) t) with (length t).
  destruct (of_nat_V L (length t)) as [Fn Vn]; [apply INR_Z; fold n; lra|]. fold n in Vn.
  change (div (Num:=F64 L) ?a ?b) with (Bdiv mode_NE a b). unfold sumn. change (n0 (N:=F64 L)) with zerof.
  set (S := fold_left (add (Num:=F64 L)) (diff (N:=F64 L) (x :: t)) zerof) in *.
  assert (c0 : 0 <= 4 * u * n <= 36 / 100) by (nums; lra). set (c := 4 * u * n) in *.
  assert (E0 : 0 <= e <= 20000000000) by (split; [apply Rle_trans with (n * g); [apply Rmult_le_pos; lra|exact K]|exact EU]). assert (CE : 0 <= c * e <= 36 / 100 * e) by (split; [apply Rmult_le_pos; lra|apply Rmult_le_compat_r; lra]).
  assert (I : / n * n = 1) by (apply Rinv_l; lra). assert (I0 : 0 < / n) by (apply Rinv_0_lt_compat; lra).
  assert (Q : Rabs (V S / n - e / n) <= c * (e / n)).
  { replace (V S / n - e / n) with ((V S - e) * / n) by (unfold Rdiv; ring). rewrite Rabs_mult, (Rabs_pos_eq (/ n)) by lra. unfold Rdiv. rewrite <- Rmult_assoc. apply Rmult_le_compat_r; lra. }
  assert (M0 : 25 / 1000000 <= e / n <= 20000000000).
  { assert (EN : e / n * n = e) by (unfold Rdiv; rewrite Rmult_assoc, I; ring). split; apply Rmult_le_reg_r with n; lra. }
  set (w := e / n) in *. assert (CW : 0 <= c * w <= 36 / 100 * w) by (split; [apply Rmult_le_pos; lra|apply Rmult_le_compat_r; lra]).
  apply Rabs_le_inv in Q.
  assert (VB : Rabs (V S / n) <= 2 * w) by (absle; lra).
  destruct (div_ok S (of_nat (N:=F64 L) (length t)) FS) as [FM EM]; [rewrite Vn; lra|rewrite Vn; lra|]. rewrite Vn in EM.
  split; [exact FM|]. split; [exact K|]. split; [exact N1'|]. rewrite EM. pose proof (rnd_within _ _ VB) as R. absle; nums; lra.
Qed.
