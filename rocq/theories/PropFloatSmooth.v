(** * Property C115: clipping and smoothing of the angular velocities in double precision. *)

From Coq Require Import Reals ZArith Bool List Arith Lra Lia Psatz Permutation.
From Flocq Require Import Core BinarySingleNaN.
From Verif Require Import Num Py XReal Quat DualQuat HandEye TimeAlign F64 Spec TimeSpec ListFacts TimeFacts ResampleFacts QuatFacts QuatTrig RateFacts DualFacts F64Facts FloatFacts PropFloat FloatQuat FloatTime FloatGrid PropFloatTime PropTimeOffset PropNoisySignal PropFloatOffset FloatDual PropFloatDual PropFilter HandEyeFacts XFacts PropEval NoiseFacts StabilityFacts PropFloatPose PropFloatScrew PropFloatInterp PropFloatRate.
Import ListNotations.
Local Open Scope R_scope.

(** ** The percentile *)
Definition order_line (s : list R) (k : nat) (w : R) : R := (1 - w) * nth k s 0 + w * nth (Nat.min (S k) (length s - 1)) s 0.
Lemma nth_bound s B i : 0 <= B -> Forall (fun x => Rabs x <= B) s -> - B <= nth i s 0 <= B.
Proof.
  intros B0 F. apply Rabs_le_inv. destruct (Nat.lt_ge_cases i (length s)) as [H|H]; [|rewrite nth_overflow by exact H; now rewrite Rabs_R0].
  rewrite Forall_forall in F. apply F. now apply nth_In.
Qed.
Lemma slope a b B e : - B <= a <= B -> - B <= b <= B -> 0 <= e -> - (2 * B * e) <= e * (a - b) <= 2 * B * e.
Proof. intros. split; nra. Qed.
(** the line through the order statistics has a slope of at most 2 B *)
Lemma order_line_lipschitz s B k w k' w' : 0 <= B -> Forall (fun x => Rabs x <= B) s -> 0 <= w < 1 -> 0 <= w' < 1 ->
  INR k + w <= INR (length s - 1) -> INR k' + w' <= INR (length s - 1) -> Rabs (INR k + w - (INR k' + w')) < 1 ->
  Rabs (order_line s k w - order_line s k' w') <= 2 * B * Rabs (INR k + w - (INR k' + w')).
Proof.
  assert (K : forall k w k' w', 0 <= B -> Forall (fun x => Rabs x <= B) s -> 0 <= w < 1 -> 0 <= w' < 1 ->
    INR k' + w' <= INR (length s - 1) -> INR k + w <= INR k' + w' -> INR k' + w' - (INR k + w) < 1 ->
    Rabs (order_line s k w - order_line s k' w') <= 2 * B * (INR k' + w' - (INR k + w))).
  { clear. intros k w k' w' B0 F W W' M LE D.
    assert (C : k' = k \/ k' = S k).
    { assert (INR k < INR (S k')) by (rewrite S_INR; lra). assert (INR k' < INR (S (S k))) by (rewrite !S_INR; lra). apply INR_lt in H, H0. lia. }
    unfold order_line. destruct C as [-> | ->].
    - set (a := nth k s 0). set (b := nth (Nat.min (S k) (length s - 1)) s 0).
      pose proof (slope a b B (w' - w) (nth_bound _ _ _ B0 F) (nth_bound _ _ _ B0 F) ltac:(lra)). absle; lra.
    - assert (L : (S k <= length s - 1)%nat) by (apply INR_le; lra). rewrite (Nat.min_l (S k)) by exact L.
      set (a := nth k s 0). set (b := nth (S k) s 0). set (c := nth (Nat.min (S (S k)) (length s - 1)) s 0). rewrite S_INR in *.
      pose proof (slope a b B (1 - w) (nth_bound _ _ _ B0 F) (nth_bound _ _ _ B0 F) ltac:(lra)).
      pose proof (slope b c B w' (nth_bound _ _ _ B0 F) (nth_bound _ _ _ B0 F) ltac:(lra)). absle; lra. }
  intros B0 F W W' M M' D. destruct (Rle_lt_dec (INR k + w) (INR k' + w')) as [LE|LE].
  - rewrite (Rabs_left1 (INR k + w - (INR k' + w'))) in D |- * by lra. replace (- (INR k + w - (INR k' + w'))) with (INR k' + w' - (INR k + w)) in * by ring. apply K; assumption || lra.
  - rewrite (Rabs_pos_eq (INR k + w - (INR k' + w'))) in D |- * by lra. rewrite Rabs_minus_sym. apply K; assumption || lra.
Qed.
Definition xv (x : f64) : xr := Fin (V x).
Lemma insert_float L (x : f64) (l : list f64) : fin x -> Forall (fun y : f64 => fin y) l ->
  map xv (insert (N:=F64 L) x l) = insert (N:=XR) (xv x) (map xv l) /\ Forall (fun y : f64 => fin y) (insert (N:=F64 L) x l).
Proof.
  intros FX F. induction F as [|y l FY F [IH1 IH2]]; [split; [reflexivity|now apply Forall_cons]|].
  cbn [insert map]. change (ltb (Num:=F64 L) y x) with (Bltb y x). cbn [ltb XR xltb xv]. unfold Rltb. pose proof (ltb_V y x FY FX) as C.
  destruct (Rlt_dec (V y) (V x)) as [D|D].
  - rewrite (proj2 C D). split; [cbn [map]; now rewrite IH1|now apply Forall_cons].
  - destruct (Bltb y x); [exfalso; apply D, C; reflexivity|]. split; [reflexivity|]. now repeat apply Forall_cons.
Qed.
Lemma sort_float L (l : list f64) : Forall (fun y : f64 => fin y) l ->
  Forall (fun y : f64 => fin y) (sort (N:=F64 L) l) /\ Permutation (map V l) (map V (sort (N:=F64 L) l)) /\ sorted (map V (sort (N:=F64 L) l)).
Proof.
  intros F. assert (K : map xv (sort (N:=F64 L) l) = sort (N:=XR) (map xv l) /\ Forall (fun y : f64 => fin y) (sort (N:=F64 L) l)).
  { induction F as [|x l FX F [IH1 IH2]]; [split; [reflexivity|apply Forall_nil]|]. unfold sort in *. cbn [fold_right map].
    destruct (insert_float L x _ FX IH2) as [I1 I2]. split; [|exact I2]. rewrite <- IH1. exact I1. }
  destruct K as [K1 K2]. split; [exact K2|]. destruct (sort_in (map V l)) as (s & E & P & SO). rewrite map_map in E.
  assert (ES : map V (sort (N:=F64 L) l) = s).
  { assert (E' : map xv (sort (N:=F64 L) l) = map Fin s) by (etransitivity; [exact K1|exact E]). clear - E'. rename E' into E. revert s E. generalize (sort (N:=F64 L) l). intros r. induction r as [|x r IH]; intros [|y s] E; try discriminate E; [reflexivity|].
    cbn [map] in E |- *. injection E as E1 E2. f_equal; [exact E1|now apply IH]. }
  now rewrite ES.
Qed.
Lemma trunc_parts (x : f64) : 0 <= V x -> exists w, 0 <= w < 1 /\ V x = INR (Z.to_nat (Btrunc x)) + w.
Proof.
  intros X0. assert (E : Btrunc x = Zfloor (V x)).
  { rewrite <- Ztrunc_floor by exact X0. apply eq_IZR. rewrite Btrunc_correct, round_FIX_IZR. reflexivity. exact f64_prec. }
  rewrite E. exists (V x - IZR (Zfloor (V x))). pose proof (Zfloor_lb (V x)). pose proof (Zfloor_ub (V x)).
  assert (0 <= Zfloor (V x))%Z by (apply Zfloor_lub; exact X0). split; [lra|]. rewrite INR_IZR_INZ, Z2Nat.id by assumption. ring.
Qed.
Lemma no_nan L (l : list f64) : Forall (fun y : f64 => fin y) l -> existsb (isnan (N:=F64 L)) l = false.
Proof.
  induction 1 as [|x l FX F IH]; [reflexivity|]. cbn [existsb]. rewrite IH, orb_false_r. unfold isnan. change (eqb (Num:=F64 L) x x) with (Beqb x x).
  rewrite Beqb_correct by exact FX. now rewrite Req_bool_true.
Qed.
Lemma rnd_below_1 r : r <= 1 -> rnd r <= 1.
Proof. intros H. destruct (of_Z_V 1 ltac:(lia)) as [_ V1]. pose proof (rnd_self (f_of_Z 1)) as S. rewrite V1 in S. apply rnd_le in H. lra. Qed.
(** the last steps: the weighted mean of two neighbours *)
Lemma weighted (a b pos lo one : f64) B w : fin a -> fin b -> fin pos -> fin lo -> fin one -> V one = 1 -> 0 <= B <= 1000000000000000000000000000000 ->
  Rabs (V a) <= B -> Rabs (V b) <= B -> V pos - V lo = w -> 0 <= w < 1 ->
  let v := Bminus mode_NE pos lo in let m := Bplus mode_NE (Bmult mode_NE a (Bminus mode_NE one v)) (Bmult mode_NE b v) in
  fin m /\ Rabs (V m - ((1 - w) * V a + w * V b)) <= 9 * u * B + 100000000000000000000000000000000 * eta.
Proof.
  intros FA FB FP FL F1 V1 BB HA HB E W. cbv zeta. pose proof big_huge as BH. pose proof u_pos as UP. apply Rabs_le_inv in HA, HB.
  destruct (sub_ok pos lo FP FL) as [Fv Ev]; [rewrite E; absle; lra|]. rewrite E in Ev. pose proof (rnd_within w 1 ltac:(absle; lra)) as Rv. rewrite <- Ev in Rv.
  assert (P1 : 0 <= V (Bminus mode_NE pos lo)) by (rewrite Ev; apply rnd_pos; lra).
  set (v := Bminus mode_NE pos lo) in *. destruct (sub_ok one v F1 Fv) as [Fc Ec]; [rewrite V1; nums; absle; lra|]. rewrite V1 in Ec.
  assert (P2 : V v <= 1) by (rewrite Ev; apply rnd_below_1; lra).
  assert (P3 : 0 <= V (Bminus mode_NE one v)) by (rewrite Ec; apply rnd_pos; lra).
  assert (P4 : V (Bminus mode_NE one v) <= 1) by (rewrite Ec; apply rnd_below_1; lra).
  pose proof (rnd_within (1 - V v) 1 ltac:(absle; lra)) as Rc. rewrite <- Ec in Rc. set (c := Bminus mode_NE one v) in *.
  assert (X1 : - B <= V a * V c <= B) by (split; nra). assert (X2 : - B <= V b * V v <= B) by (split; nra).
  destruct (mul_ok a c FA Fc) as [Fx Ex]; [absle; lra|]. pose proof (rnd_within (V a * V c) B ltac:(absle; lra)) as Rx. rewrite <- Ex in Rx.
  destruct (mul_ok b v FB Fv) as [Fy Ey]; [absle; lra|]. pose proof (rnd_within (V b * V v) B ltac:(absle; lra)) as Ry. rewrite <- Ey in Ry.
  set (x := Bmult mode_NE a c) in *. set (y := Bmult mode_NE b v) in *.
  assert (UB : 0 <= u * B <= 1 / 1000 * B) by (split; [apply Rmult_le_pos; lra|apply Rmult_le_compat_r; [lra|nums; lra]]).
  assert (SB : Rabs (V x + V y) <= 3 * B + 2 * eta) by (absle; lra).
  destruct (add_ok x y Fx Fy) as [Fm Em]; [eapply Rle_trans; [exact SB|]; nums; lra|]. 
  (* the exact sum is at most B + a little *)
  set (dv := V v - w) in *. assert (Dv : - (u + eta) <= dv <= u + eta) by (unfold dv; lra).
  set (dc := V c - (1 - V v)) in *. assert (Dc : - (u + eta) <= dc <= u + eta) by (unfold dc; lra).
  assert (M1 : V a * V c + V b * V v = (1 - w) * V a + w * V b + V a * dc + (V b - V a) * dv) by (unfold dv, dc; ring).
  assert (M2 : - (B * (u + eta)) <= V a * dc <= B * (u + eta)) by (split; nra).
  assert (M3 : - (2 * B * (u + eta)) <= (V b - V a) * dv <= 2 * B * (u + eta)) by (split; nra).
  assert (M4 : - B <= (1 - w) * V a + w * V b <= B) by (split; nra).
  assert (BE : 0 <= B * eta <= 1000000000000000000000000000000 * eta) by (split; [apply Rmult_le_pos; nums; lra|apply Rmult_le_compat_r; [nums; lra|lra]]).
  assert (T : Rabs (V x + V y) <= 11 / 10 * B + 6000000000000000000000000000000 * eta).
  { rewrite Rmult_plus_distr_l in M2, M3. replace (2 * B * u) with (2 * (u * B)) in M3 by ring. replace (2 * B * eta) with (2 * (B * eta)) in M3 by ring. replace (B * u) with (u * B) in M2 by ring. absle; lra. }
  pose proof (rnd_within _ _ T) as Rm. rewrite <- Em in Rm. split; [exact Fm|].
  rewrite Rmult_plus_distr_l in M2, M3, Rm. replace (2 * B * u) with (2 * (u * B)) in M3 by ring. replace (2 * B * eta) with (2 * (B * eta)) in M3 by ring. replace (B * u) with (u * B) in M2 by ring.
  replace (u * (11 / 10 * B)) with (11 / 10 * (u * B)) in Rm by ring. replace (9 * u * B) with (9 * (u * B)) by ring.
  assert (u * (6000000000000000000000000000000 * eta) <= 6000000000000000000000000000000 * eta) by (nums; lra).
  assert (0 <= eta) by (nums; lra). absle; lra.
Qed.
Lemma nth_fin (l : list f64) i d : (i < length l)%nat -> Forall (fun y : f64 => fin y) l -> fin (nth i l d).
Proof. intros H F. rewrite Forall_forall in F. apply F. now apply nth_In. Qed.
Lemma nth_V (l : list f64) i d : (i < length l)%nat -> V (nth i l d) = nth i (map V l) 0.
Proof. intros H. rewrite (nth_indep (map V l) 0 (V d)) by now rewrite map_length. symmetry. apply (map_nth V). Qed.
Lemma percentile_near L (l : list (@T (F64 L))) (p : @T (F64 L)) B : l <> [] -> INR (length l) <= 1200000000000000 -> Forall (fun x : f64 => fin x /\ Rabs (V x) <= B) l -> 0 <= B <= 1000000000000000000000000000000 ->
  fin (p : f64) -> 0 <= V p <= 100 ->
  exists (m : @T (F64 L)) m', percentile l p = Ok m /\ fin (m : f64) /\ is_percentile (map V l) (V p) m' /\ Rabs m' <= B /\
    Rabs (V m - m') <= (6 * u * INR (length l) + 9 * u) * B + 1 / 10000000000000000000000000.
Proof.
  intros NE LB F BB FP P. unfold percentile. destruct l as [|x l]; [contradiction|]. set (xs := x :: l) in *.
  assert (L1 : (1 <= length xs)%nat) by (cbn; lia). clearbody xs. clear NE x l.
  destruct (lit_int L 0 ltac:(lia)) as [F0 V0]. destruct (lit_int L 100 ltac:(lia)) as [F100 V100].
  assert (C0 : ltb (Num:=F64 L) p (n0 (N:=F64 L)) = false).
  { destruct (ltb (Num:=F64 L) p (n0 (N:=F64 L))) eqn:C; [|reflexivity]. change (Bltb p (lit (Num:=F64 L) 0 0) = true) in C. apply ltb_V in C; [lra|exact FP|exact F0]. }
  assert (C1 : ltb (Num:=F64 L) (lit (Num:=F64 L) 100 0) p = false).
  { destruct (ltb (Num:=F64 L) (lit (Num:=F64 L) 100 0) p) eqn:C; [|reflexivity]. change (Bltb (lit (Num:=F64 L) 100 0) p = true) in C. apply ltb_V in C; [lra|exact F100|exact FP]. }
  rewrite C0, C1. cbn [orb].
  assert (FF : Forall (fun x : f64 => fin x) xs) by (eapply Forall_impl; [|exact F]; now intros a []).
  pose proof (no_nan L xs FF) as NN. change (@T (F64 L)) with f64 in *. rewrite NN.
  destruct (sort_float L xs FF) as (FS & PE & SO). set (s := sort (N:=F64 L) xs) in *.
  assert (LS : length s = length xs) by (apply Permutation_length in PE; rewrite !map_length in PE; symmetry; exact PE).
  assert (BS : Forall (fun r => Rabs r <= B) (map V s)).
  { apply Forall_forall. intros r I. apply (Permutation_in _ (Permutation_sym PE)) in I. apply in_map_iff in I as (y & <- & I). rewrite Forall_forall in F. now apply F. }
  cbv zeta. change (sort (N:=F64 L) xs) with s. clearbody s. assert (LS2 : @length f64 s = @length f64 xs) by exact LS. rewrite LS2.
  destruct (of_nat_V L (length xs - 1)) as [Fn Vn]; [apply INR_Z in LB; lia|]. pose proof big_huge as BH. pose proof u_pos as UP.
  set (fn := of_nat (N:=F64 L) (length xs - 1)) in *. set (n := INR (length xs - 1)) in *.
  assert (NB : 0 <= n <= 1200000000000000) by (unfold n; split; [apply pos_INR|eapply Rle_trans; [apply le_INR|exact LB]; lia]).
  assert (PQ : 0 <= V p / 100 <= 1) by lra.
  destruct (div_ok p (lit (Num:=F64 L) 100 0) FP) as [FD ED]; [lra|rewrite V100, Rabs_pos_eq; lra|]. rewrite V100 in ED.
  destruct (of_Z_V 1 ltac:(lia)) as [F1 V1].
  change (div (Num:=F64 L) p (lit (Num:=F64 L) 100 0)) with (Bdiv mode_NE p (lit (Num:=F64 L) 100 0)).
  assert (DB : 0 <= V (Bdiv mode_NE p (lit (Num:=F64 L) 100 0)) <= 1).
  { rewrite ED. split; [apply rnd_pos; lra|]. rewrite <- V1, <- (rnd_self (f_of_Z 1)), V1. apply rnd_le. lra. }
  pose proof (rnd_within (V p / 100) 1 ltac:(absle; lra)) as RD. rewrite <- ED in RD.
  set (dv := Bdiv mode_NE p (lit (Num:=F64 L) 100 0)) in *.
  assert (PB : 0 <= V dv * n <= n) by nra.
  destruct (mul_ok dv fn FD Fn) as [FM EM]; [rewrite Vn; absle; lra|]. rewrite Vn in EM. pose proof (rnd_within (V dv * n) n ltac:(absle; lra)) as RM. rewrite <- EM in RM.
  change (mul (Num:=F64 L) dv ?y) with (Bmult mode_NE dv y). assert (M0 : 0 <= V (Bmult mode_NE dv fn)) by (rewrite EM; apply rnd_pos; lra).
  assert (MN : V (Bmult mode_NE dv fn) <= n) by (rewrite EM; pose proof (rnd_self fn) as RS; rewrite Vn in RS; pose proof (rnd_le (V dv * n) n ltac:(lra)); lra).
  set (pos := Bmult mode_NE dv fn) in *. change (trunc (Num:=F64 L) pos) with (if is_finite pos then Some (Btrunc pos) else None). rewrite FM.
  destruct (trunc_parts pos M0) as (w & W & EW). set (lo := Z.to_nat (Btrunc pos)) in *. clearbody lo.
  assert (LO : (lo <= length xs - 1)%nat) by (apply INR_le; fold n; lra).
  destruct (of_nat_V L lo) as [Fl Vl]; [apply INR_Z in LB; lia|]. 
  set (hi := Nat.min (S lo) (length xs - 1)). assert (HI : (hi < length s)%nat) by (unfold hi; lia). assert (LO' : (lo < length s)%nat) by lia.
  destruct (weighted (nth lo s (nan (N:=F64 L))) (nth hi s (nan (N:=F64 L))) pos (of_nat (N:=F64 L) lo) (f_of_Z 1) B w) as [Fm Em].
  - now apply nth_fin.
  - now apply nth_fin.
  - exact FM.
  - exact Fl.
  - exact F1.
  - exact V1.
  - exact BB.
  - rewrite nth_V by exact LO'. apply Rabs_le, nth_bound; [lra|exact BS].
  - rewrite nth_V by exact HI. apply Rabs_le, nth_bound; [lra|exact BS].
  - rewrite Vl. lra.
  - exact W.
  - rewrite !nth_V in Em by assumption.
    set (q := V p / 100 * n). assert (Q0 : 0 <= q <= n) by (unfold q; nra).
    assert (QE : exists k w', 0 <= w' < 1 /\ q = INR k + w').
    { exists (Z.to_nat (Zfloor q)), (q - IZR (Zfloor q)). pose proof (Zfloor_lb q). pose proof (Zfloor_ub q). assert (0 <= Zfloor q)%Z by (apply Zfloor_lub; lra). split; [lra|]. rewrite INR_IZR_INZ, Z2Nat.id by assumption. ring. }
    destruct QE as (k & w' & W' & EQ). set (m' := order_line (map V s) k w').
    assert (LM : length (map V s) = length xs) by now rewrite map_length.
    assert (DQ : Rabs (INR lo + w - (INR k + w')) <= 3 * u * INR (length xs)).
    { rewrite <- EW, <- EQ. unfold q.
      assert (X : V dv * n - V p / 100 * n = (V dv - V p / 100) * n) by ring.
      assert (X2 : - ((u * 1 + eta) * n) <= (V dv - V p / 100) * n <= (u * 1 + eta) * n) by (split; [rewrite Ropp_mult_distr_l|]; apply Rmult_le_compat_r; lra).
      assert (INR (length xs) = n + 1) by (unfold n; rewrite minus_INR by exact L1; cbn; ring).
      rewrite H. assert (eta * n <= u / 2) by (nums; lra). assert (eta <= u / 2) by (nums; lra). 
      rewrite Rmult_plus_distr_r in X2. rewrite Rmult_1_r in X2. assert (0 <= u * n) by (apply Rmult_le_pos; lra).
      replace (3 * u * (n + 1)) with (3 * (u * n) + 3 * u) by ring. absle; lra. }
    assert (DQ1 : Rabs (INR lo + w - (INR k + w')) < 1) by (eapply Rle_lt_trans; [exact DQ|]; nums; lra).
    eexists. exists m'. split; [reflexivity|]. split; [exact Fm|]. split; [|split].
    + exists (map V s), k, w'. split; [exact PE|]. split; [exact SO|]. split; [exact W'|]. rewrite LM. fold n. split; [exact EQ|]. unfold m', order_line. now rewrite LM.
    + unfold m', order_line. pose proof (nth_bound (map V s) B k ltac:(lra) BS). pose proof (nth_bound (map V s) B (Nat.min (S k) (length (map V s) - 1)) ltac:(lra) BS). absle; nra.
    + pose proof (order_line_lipschitz (map V s) B lo w k w' ltac:(lra) BS W W') as LI. rewrite LM in LI. fold n in LI. specialize (LI ltac:(lra) ltac:(lra) DQ1). fold m' in LI.
      unfold order_line in LI at 1. rewrite LM in LI. fold hi in LI. change (V (@add (F64 L) ?a ?b)) with (V (Bplus mode_NE a b)). 
      match type of Em with Rabs (V ?m - _) <= _ => match goal with |- Rabs (V ?m0 - _) <= _ => change m0 with m end end.
      assert (G : 2 * B * Rabs (INR lo + w - (INR k + w')) <= 2 * B * (3 * u * INR (length xs))) by (apply Rmult_le_compat_l; lra).
      assert (E9 : 100000000000000000000000000000000 * eta <= 1 / 10000000000000000000000000) by (nums; lra).
      apply Rabs_le_inv in LI, Em. replace ((6 * u * INR (length xs) + 9 * u) * B) with (2 * B * (3 * u * INR (length xs)) + 9 * u * B) by ring. absle; lra.
Qed.

(** ** Clipping *)
Lemma clip_exact L (m x : f64) : fin m -> fin x -> fin (clip (N:=F64 L) (Bopp m) m x : f64) /\ V (clip (N:=F64 L) (Bopp m) m x) = clamp (V m) (V x).
Proof.
  intros FM FX. assert (FO : fin (Bopp m)) by (change (fin (Bopp m)); rewrite opp_fin; exact FM). unfold clip, clamp.
  change (ltb (Num:=F64 L) x (Bopp m)) with (Bltb x (Bopp m)). pose proof (ltb_V x (Bopp m) FX FO) as C. rewrite opp_V in C.
  destruct (Bltb x (Bopp m)).
  - rewrite Rmax_right by (pose proof (proj1 C eq_refl); lra). change (ltb (Num:=F64 L) m (Bopp m)) with (Bltb m (Bopp m)). pose proof (ltb_V m (Bopp m) FM FO) as D. rewrite opp_V in D.
    destruct (Bltb m (Bopp m)); [rewrite Rmin_right by (pose proof (proj1 D eq_refl); lra); now split|].
    rewrite Rmin_left by (destruct (Rlt_le_dec (V m) (- V m)) as [H|H]; [apply D in H; discriminate H|exact H]). split; [exact FO|apply opp_V].
  - rewrite Rmax_left by (destruct (Rlt_le_dec (V x) (- V m)) as [H|H]; [apply C in H; discriminate H|exact H]).
    change (ltb (Num:=F64 L) m x) with (Bltb m x). pose proof (ltb_V m x FM FX) as D.
    destruct (Bltb m x); [rewrite Rmin_right by (pose proof (proj1 D eq_refl); lra); now split|].
    rewrite Rmin_left by (destruct (Rlt_le_dec (V m) (V x)) as [H|H]; [apply D in H; discriminate H|exact H]). now split.
Qed.
Lemma clamp_lipschitz m m' x : Rabs (clamp m x - clamp m' x) <= Rabs (m - m').
Proof. unfold clamp, Rmin, Rmax. repeat destruct (Rle_dec _ _); unfold Rabs; repeat destruct (Rcase_abs _); lra. Qed.

(** ** Moving averages *)
Lemma sum_bound {A} (f : A -> R) l M : (forall x, Rabs (f x) <= M) -> Rabs (Rsum (map f l)) <= INR (length l) * M.
Proof.
  intros H. induction l as [|x l IH]; [cbn; rewrite Rabs_R0; lra|]. change (Rsum (map f (x :: l))) with (f x + Rsum (map f l)). change (length (x :: l)) with (S (length l)). rewrite S_INR.
  eapply Rle_trans; [apply Rabs_triang|]. specialize (H x). lra.
Qed.
Lemma sum_scale {A} c (f : A -> R) l : Rsum (map (fun x => c * f x) l) = c * Rsum (map f l).
Proof. induction l as [|x l IH]; cbn [map Rsum fold_right]; [lra|]. unfold Rsum in IH. rewrite IH. lra. Qed.
Lemma sum_minus {A} (f g : A -> R) l : Rsum (map f l) - Rsum (map g l) = Rsum (map (fun x => f x - g x) l).
Proof. induction l as [|x l IH]; cbn [map Rsum fold_right]; [lra|]. unfold Rsum in IH. rewrite <- IH. lra. Qed.
Lemma sig_bound c z M : 0 <= M -> Forall (fun x => Rabs x <= M) c -> Rabs (sig_at c z) <= M.
Proof.
  intros M0 F. unfold sig_at. destruct (z <? 0)%Z; [now rewrite Rabs_R0|]. apply Rabs_le, nth_bound; assumption.
Qed.
Lemma sig_map {A} (f g : A -> R) l z d : 0 <= d -> (forall x, Rabs (f x - g x) <= d) -> Rabs (sig_at (map f l) z - sig_at (map g l) z) <= d.
Proof.
  intros D0 H. unfold sig_at. destruct (z <? 0)%Z; [rewrite Rminus_0_r, Rabs_R0; exact D0|].
  generalize (Z.to_nat z). induction l as [|x l IH]; intros [|n]; cbn [map nth]; try (rewrite Rminus_0_r, Rabs_R0; exact D0); [apply H|apply IH].
Qed.
Lemma average_map {A} (f g : A -> R) l k i d : (1 <= k)%nat -> 0 <= d -> (forall x, Rabs (f x - g x) <= d) -> Rabs (moving_average (map f l) k i - moving_average (map g l) k i) <= d.
Proof.
  intros K D0 H. assert (KP : 0 < INR k) by (apply lt_0_INR; lia). unfold moving_average. unfold Rdiv. rewrite <- Rmult_minus_distr_r, sum_minus, Rabs_mult, (Rabs_pos_eq (/ INR k)) by (left; now apply Rinv_0_lt_compat).
  apply Rmult_le_reg_r with (INR k); [exact KP|]. rewrite Rmult_assoc, Rinv_l, Rmult_1_r by lra. rewrite (Rmult_comm d). 
  eapply Rle_trans; [apply (sum_bound _ _ d)|rewrite seq_length; lra]. intros j. apply sig_map; assumption.
Qed.
Lemma xcorr_flat c k b i : (1 <= k)%nat -> xcorr (repeat c k) b (Z.of_nat ((k - 1) / 2 + i) - Z.of_nat k + 1) = c * Rsum (map (fun j => sig_at b (Z.of_nat i - Z.of_nat (k / 2) + Z.of_nat j)) (seq 0 k)).
Proof.
  intros K. unfold xcorr. rewrite repeat_length, <- sum_scale. f_equal. apply map_ext_in. intros j J. apply in_seq in J. f_equal.
  - rewrite sig_nat. rewrite (nth_indep _ 0 c) by (rewrite repeat_length; lia). apply nth_repeat.
  - f_equal. assert (HH : ((k - 1) / 2 + k / 2 = k - 1)%nat).
    { clear - K. destruct k as [|k]; [lia|]. rewrite Nat.sub_succ, Nat.sub_0_r.
      pose proof (Nat.div_mod_eq k 2). pose proof (Nat.div_mod_eq (S k) 2).
      pose proof (Nat.mod_upper_bound k 2). pose proof (Nat.mod_upper_bound (S k) 2). lia. }
    lia.
Qed.
Lemma map_repeat_ {A B} (f : A -> B) x k : map f (repeat x k) = repeat (f x) k.
Proof. induction k; cbn; congruence. Qed.
Lemma pairs_weight_eq L a b k : weight (pairs L a b k) = xcorr (map Rabs (map V a)) (map Rabs (map V b)) (Z.of_nat k - Z.of_nat (length (map Rabs (map V a))) + 1).
Proof.
  rewrite xcorr_terms, !map_length. unfold weight, pairs. rewrite map_map. f_equal. apply map_ext. intros l. cbn [fst snd]. now rewrite Rabs_mult, !sig_abs, !sig_padded.
Qed.
(** one value of the smoothed signal *)
Lemma average_near L (kv : f64) k (b : list f64) i C : (1 <= k)%nat -> INR k <= 400000000000000 -> INR (length b) <= 400000000000000 -> fin kv -> Rabs (V kv - / INR k) <= u * / INR k + eta ->
  Forall (fun x : f64 => fin x /\ Rabs (V x) <= C) b -> 0 <= C <= 300000000000000000000 ->
  fin (corr L (repeat kv k) b ((k - 1) / 2 + i)) /\
  Rabs (V (corr L (repeat kv k) b ((k - 1) / 2 + i)) - moving_average (map V b) k i) <= (31 / 10 * INR (length b) + 1) * u * C + 1 / 1000000000000000000000000.
Proof.
  intros K KB LB FK DK FB CB. destruct (of_Z_V 0 ltac:(lia)) as [F0 V0]. assert (K1 : 1 <= INR k) by (change 1 with (INR 1); now apply le_INR).
  set (a := repeat kv k). set (n := ((k - 1) / 2 + i)%nat). assert (LA : length a = k) by apply repeat_length. pose proof u_pos as UP.
  set (ik := / INR k) in *. assert (IK : 0 < ik) by (apply Rinv_0_lt_compat; lra). assert (IKK : ik * INR k = 1) by (unfold ik; field; lra).
  assert (BV : Forall (fun x => Rabs x <= C) (map V b)) by (rewrite Forall_map; eapply Forall_impl; [|exact FB]; now intros x []).
  set (S := Rsum (map (fun j => sig_at (map V b) (Z.of_nat i - Z.of_nat (k / 2) + Z.of_nat j)) (seq 0 k))).
  assert (SB : Rabs S <= INR k * C).
  { unfold S. eapply Rle_trans; [apply (sum_bound _ _ C)|rewrite seq_length; lra]. intros j. apply sig_bound; [lra|exact BV]. }
  assert (TS : true_sum (pairs L a b n) = V kv * S).
  { rewrite pairs_true. unfold a. rewrite map_repeat_, repeat_length. unfold n. apply xcorr_flat. exact K. }
  apply Rabs_le_inv in DK. assert (DK2 : - (u + eta * INR k) <= (V kv - ik) * INR k <= u + eta * INR k).
  { replace (u + eta * INR k) with ((u * ik + eta) * INR k) by (rewrite Rmult_plus_distr_r, Rmult_assoc, IKK; ring). split; [rewrite Ropp_mult_distr_l|]; apply Rmult_le_compat_r; lra. }
  assert (EK : 0 <= eta * INR k <= 1 / 1000000000000000000000000000000000000000000000) by (split; [apply Rmult_le_pos; [nums|]; lra|nums; lra]).
  assert (KK : Rabs (V kv) * INR k <= 101 / 100).
  { rewrite <- (Rabs_pos_eq (INR k)) at 1 by lra. rewrite <- Rabs_mult. replace (V kv * INR k) with ((V kv - ik) * INR k + 1) by lra. nums. absle; lra. }
  assert (WA : weight (pairs L a b n) <= 101 / 100 * C).
  { rewrite pairs_weight_eq, !map_length. unfold a. rewrite !map_repeat_, repeat_length. unfold n. rewrite xcorr_flat by exact K.
    assert (AV : Forall (fun x => Rabs x <= C) (map Rabs (map V b))) by (rewrite Forall_map; eapply Forall_impl; [|exact BV]; cbn; intros x; rewrite Rabs_Rabsolu; easy).
    set (S' := Rsum _). assert (SB' : Rabs S' <= INR k * C).
    { unfold S'. eapply Rle_trans; [apply (sum_bound _ _ C)|rewrite seq_length; lra]. intros j. apply sig_bound; [lra|exact AV]. }
    apply Rle_trans with (Rabs (V kv) * (INR k * C)); [apply Rmult_le_compat_l; [apply Rabs_pos|]; apply Rle_trans with (Rabs S'); [apply Rle_abs|exact SB']|].
    rewrite <- Rmult_assoc. apply Rmult_le_compat_r; lra. }
  assert (LP : length (pairs L a b n) = length b) by (unfold pairs; now rewrite map_length, seq_length).
  destruct (sum_products (101 / 100 * C) (pairs L a b n) zerof 0 0 0) as [F E].
  - lra.
  - change (INR 0 + INR (@length (f64 * f64) (pairs L a b n)) <= 400000000000000). rewrite LP. change (INR 0) with 0. lra.
  - unfold pairs. rewrite Forall_map. apply Forall_forall. intros l _. cbn [fst snd].
    split; apply padded_fin; [apply Forall_impl with (2 := FB); now intros x []|]. apply Forall_forall. intros x I. apply repeat_spec in I. now rewrite I.
  - exact F0.
  - rewrite Rabs_R0. lra.
  - rewrite Rplus_0_l. exact WA.
  - lra.
  - rewrite V0, Rminus_0_r, Rabs_R0. change (INR 0) with 0. lra.
  - fold (corr L a b n) in F, E. split; [exact F|]. rewrite Rplus_0_l, TS in E. change (INR 0) with 0 in E. rewrite Rplus_0_l in E. change (INR (length (pairs L a b n))) with (INR (@length (f64 * f64) (pairs L a b n))) in E. rewrite LP in E.
    pose proof (pos_INR (length b)) as L0. set (N := INR (length b)) in *.
    assert (M : moving_average (map V b) k i = ik * S) by (unfold moving_average; fold S; unfold Rdiv; fold ik; ring). rewrite M.
    assert (D : Rabs (V kv * S - ik * S) <= (u + eta * INR k) * C).
    { replace (V kv * S - ik * S) with ((V kv - ik) * S) by ring. rewrite Rabs_mult. apply Rle_trans with (Rabs (V kv - ik) * (INR k * C)); [apply Rmult_le_compat_l; [apply Rabs_pos|exact SB]|].
      rewrite <- Rmult_assoc. apply Rmult_le_compat_r; [lra|]. rewrite <- (Rabs_pos_eq (INR k)) at 1 by lra. rewrite <- Rabs_mult. apply Rabs_le. exact DK2. }
    assert (T1 : eta * INR k * C <= 3 / 10000000000000000000000000) by (apply Rle_trans with (1 / 1000000000000000000000000000000000000000000000 * 300000000000000000000); [apply Rmult_le_compat; lra|lra]).
    assert (T2 : N * (3 * eta) <= 1 / 10000000000000000000000000000) by (nums; lra).
    assert (UC : 0 <= N * (u * C)) by (apply Rmult_le_pos; [exact L0|apply Rmult_le_pos; lra]).
    assert (E2 : N * (3 * u * (101 / 100 * C) + 3 * eta) = 303 / 100 * (N * (u * C)) + N * (3 * eta)) by lra. pose proof (Rle_trans _ _ _ E (Req_le _ _ E2)) as E3. clear E. rename E3 into E. rewrite Rmult_plus_distr_r in D.
    replace ((31 / 10 * N + 1) * u * C) with (31 / 10 * (N * (u * C)) + u * C) by ring. apply Rabs_le_inv in D, E. absle; lra.
Qed.

(** ** The filter *)
(** how far rounding can change a smoothed component, for n vectors with components of at most B *)
Definition slack (n : nat) (B : R) : R := 3 / 1000000000000000 * (INR n + 1) * B + 1 / 100000000000000000000000.
Lemma column_values L (c : list f64) (kv : f64) k : c <> [] -> (1 <= k)%nat ->
  correlate_same (N:=F64 L) c (repeat kv k) = map (fun i => corr L (repeat kv k) c ((k - 1) / 2 + i)) (seq 0 (length c)).
Proof.
  intros NC K. unfold correlate_same. assert (NA : repeat kv k <> []) by (destruct k; [lia|discriminate]).
  pose proof (correlate_pairs L (repeat kv k) c NC NA) as E. rewrite E. rewrite !repeat_length.
  assert (1 <= length c)%nat by (destruct c; [contradiction|cbn; lia]). apply window_seq. pose proof (Nat.div_le_upper_bound (k - 1) 2 (k - 1)). lia.
Qed.
Lemma combine_seq {A B} (f : nat -> A) (g : nat -> B) l : combine (map f l) (map g l) = map (fun i => (f i, g i)) l.
Proof. induction l as [|x l IH]; [reflexivity|]. cbn [map combine]. now rewrite IH. Qed.
Lemma column_near L {A} (v : list A) (f : A -> f64) (m : f64) m' k i B : v <> [] -> (1 <= k)%nat -> INR k <= 400000000000000 -> INR (length v) <= 400000000000000 ->
  Forall (fun r => fin (f r) /\ Rabs (V (f r)) <= B) v -> 0 <= B <= 100000000000000000000 -> fin m -> Rabs m' <= B -> Rabs (V m - m') <= (6 * u * (3 * INR (length v)) + 9 * u) * B + 1 / 10000000000000000000000000 ->
  let x := corr L (repeat (Bdiv mode_NE (f_of_Z 1) (of_nat (N:=F64 L) k)) k) (map (fun r => clip (N:=F64 L) (Bopp m) m (f r)) v) ((k - 1) / 2 + i) in
  fin x /\ Rabs (V x - moving_average (map (fun r => clamp m' (V (f r))) v) k i) <= slack (length v) B.
Proof.
  intros NE K KB LB F BB FM MB DM. cbv zeta. pose proof big_huge as BH. pose proof u_pos as UP. assert (K1 : 1 <= INR k) by (change 1 with (INR 1); now apply le_INR).
  destruct (of_Z_V 1 ltac:(lia)) as [F1 V1]. destruct (of_nat_V L k) as [Fk Vk]; [apply INR_Z in KB; lia|].
  assert (IK : 0 < / INR k <= 1) by (split; [apply Rinv_0_lt_compat; lra|apply Rle_trans with (/ 1); [apply Rinv_le_contravar; lra|lra]]).
  destruct (div_ok (f_of_Z 1) (of_nat (N:=F64 L) k) F1) as [FD ED]; [rewrite Vk; lra|rewrite Vk, V1; unfold Rdiv; rewrite Rmult_1_l; absle; lra|].
  rewrite Vk, V1 in ED. unfold Rdiv in ED. rewrite Rmult_1_l in ED. pose proof (rnd_within (/ INR k) (/ INR k) ltac:(absle; lra)) as RD. rewrite <- ED in RD.
  set (kv := Bdiv mode_NE (f_of_Z 1) (of_nat (N:=F64 L) k)) in *. set (n := INR (length v)) in *. assert (N0 : 0 <= n) by apply pos_INR.
  set (b := map (fun r => clip (N:=F64 L) (Bopp m) m (f r)) v : list f64). change (map (fun r => clip (N:=F64 L) (Bopp m) m (f r)) v) with b. assert (LE : @length f64 b = length v) by apply (map_length (fun r => clip (N:=F64 L) (Bopp m) m (f r) : f64)).
  assert (UN : 0 <= u * n <= 4441 / 100000) by (split; [apply Rmult_le_pos; lra|nums; lra]).
  set (d := Rabs (V m - m')) in *. assert (D0 : 0 <= d) by apply Rabs_pos.
  assert (UNB : 0 <= u * n * B) by (apply Rmult_le_pos; lra). assert (UB : 0 <= u * B <= 1 / 1000000 * B) by (split; [apply Rmult_le_pos; lra|apply Rmult_le_compat_r; [lra|nums; lra]]).
  assert (UNB2 : u * n * B <= 4441 / 100000 * B) by (apply Rmult_le_compat_r; lra).
  assert (DM2 : d <= 18 * (u * n * B) + 9 * (u * B) + 1 / 10000000000000000000000000) by lra.
  set (C := 18 / 10 * B + 1 / 10000000000000000000000000).
  assert (MC : Rabs (V m) <= C).
  { replace (V m) with (V m - m' + m') by ring. eapply Rle_trans; [apply Rabs_triang|]. fold d. unfold C. lra. }
  assert (FB : Forall (fun x : f64 => fin x /\ Rabs (V x) <= C) b).
  { unfold b. rewrite Forall_map. eapply Forall_impl; [|exact F]. cbn beta. intros r [FR BR]. destruct (clip_exact L m (f r) FM FR) as [FC EC]. split; [exact FC|]. rewrite EC. eapply Rle_trans; [apply clamp_bound|exact MC]. }
  assert (EV : map V b = map (fun r => clamp (V m) (V (f r))) v).
  { unfold b. rewrite map_map. apply map_ext_in. intros r I. rewrite Forall_forall in F. destruct (F r I) as [FR _]. now apply clip_exact. }
  destruct (average_near L kv k b i C K KB) as [FX EX]; [eapply Rle_trans; [apply Req_le, f_equal; exact LE|exact LB]|exact FD|absle; lra|exact FB|unfold C; lra|].
  split; [exact FX|]. rewrite EV in EX. change (INR (length b)) with (INR (@length f64 b)) in EX. rewrite LE in EX. fold n in EX.
  pose proof (average_map (fun r => clamp (V m) (V (f r))) (fun r => clamp m' (V (f r))) v k i d K D0 (fun r => clamp_lipschitz (V m) m' (V (f r)))) as AM.
  assert (E2 : (31 / 10 * n + 1) * u * C <= 558 / 100 * (u * n * B) + 18 / 10 * (u * B) + 1 / 1000000000000000000000000).
  { unfold C. replace ((31 / 10 * n + 1) * u * (18 / 10 * B + 1 / 10000000000000000000000000)) with (558 / 100 * (u * n * B) + 18 / 10 * (u * B) + (31 / 10 * (u * n) + u) * (1 / 10000000000000000000000000)) by field. nums. lra. }
  apply Rabs_le_inv in AM, EX. unfold slack. fold n. 
  assert (E3 : 24 * (u * n * B) + 24 * (u * B) <= 3 / 1000000000000000 * (n + 1) * B).
  { replace (24 * (u * n * B) + 24 * (u * B)) with (24 * u * ((n + 1) * B)) by ring. replace (3 / 1000000000000000 * (n + 1) * B) with (3 / 1000000000000000 * ((n + 1) * B)) by ring. apply Rmult_le_compat_r; [apply Rmult_le_pos; lra|nums; lra]. }
  match type of EX with _ <= ?x - _ <= _ => match goal with |- Rabs (?y - _) <= _ => change y with x; set (X := x) in * end end. clearbody X.
  absle; lra.
Qed.
Lemma flatten_components L (v : list (@vec3 (F64 L))) : map V (flatten3 v) = components (map valv v).
Proof. induction v as [|x v IH]; [reflexivity|]. exact (f_equal (fun t => V (vx x) :: V (vy x) :: V (vz x) :: t) IH). Qed.
Lemma flatten_length L (v : list (@vec3 (F64 L))) : length (flatten3 v) = (3 * length v)%nat.
Proof. induction v as [|x v IH]; [reflexivity|]. change (flatten3 (x :: v)) with ([vx x; vy x; vz x] ++ flatten3 v). rewrite app_length, IH. cbn [length]. lia. Qed.

(** two vectors whose components differ by at most d *)
Definition near3 (d : R) (a b : rv) : Prop := Rabs (v1 a - v1 b) <= d /\ Rabs (v2 a - v2 b) <= d /\ Rabs (v3 a - v3 b) <= d.
(** in double precision the filter clips at a limit next to the exact percentile and returns the moving averages, up to a
    bound that grows with the number of the vectors *)
Theorem C115_smooth : forall L (v : list (@vec3 (F64 L))) k (p : @T (F64 L)) B, v <> [] -> (1 <= k)%nat -> INR k <= 400000000000000 -> INR (length v) <= 400000000000000 ->
  Forall (fun w => finv w /\ near3 B (valv w) vzero) v -> 0 <= B <= 100000000000000000000 -> fin (p : f64) -> 0 <= V p <= 100 ->
  exists out m, filter_and_smooth v k p = Ok out /\ length out = length v /\ is_percentile (components (map valv v)) (V p) m /\
    forall i w, nth_error out i = Some w -> finv w /\ near3 (slack (length v) B) (valv w) (smoothed m k (map valv v) i).
Proof.
  intros L v k p B NE K KB LB F BB FP P.
  assert (FX : Forall (fun r : @vec3 (F64 L) => (fin (vx r : f64) /\ Rabs (V (vx r)) <= B) /\ (fin (vy r : f64) /\ Rabs (V (vy r)) <= B) /\ (fin (vz r : f64) /\ Rabs (V (vz r)) <= B)) v).
  { eapply Forall_impl; [|exact F]. cbn beta. intros r [(A1 & A2 & A3) (B1 & B2 & B3)]. cbn [valv vzero v1 v2 v3] in B1, B2, B3. rewrite Rminus_0_r in B1, B2, B3. now repeat split. }
  assert (FF : Forall (fun x : f64 => fin x /\ Rabs (V x) <= B) (flatten3 v)).
  { clear -FX. induction FX as [|r v (A & A2 & A3) FX IH]; [apply Forall_nil|]. change (flatten3 (r :: v)) with (vx r :: vy r :: vz r :: flatten3 v). apply Forall_cons; [exact A|]. apply Forall_cons; [exact A2|]. apply Forall_cons; [exact A3|exact IH]. }
  assert (NF : flatten3 v <> []) by (destruct v; [contradiction|discriminate]).
  assert (LF : INR (length (flatten3 v)) = 3 * INR (length v)) by (rewrite flatten_length, mult_INR; cbn [INR]; lra).
  destruct (percentile_near L (flatten3 v) p B NF ltac:(lra) FF ltac:(lra) FP P) as (m & m' & E & FM & PM & MB & DM).
  rewrite LF in DM. rewrite flatten_components in PM.
  assert (FC : forall f : @vec3 (F64 L) -> f64, (forall r, f r = vx r) \/ (forall r, f r = vy r) \/ (forall r, f r = vz r) -> Forall (fun r => fin (f r) /\ Rabs (V (f r)) <= B) v).
  { intros f H. eapply Forall_impl; [|exact FX]. cbn beta. intros r (A1 & A2 & A3). destruct H as [H|[H|H]]; rewrite H; assumption. }
  set (kv := Bdiv mode_NE (f_of_Z 1) (of_nat (N:=F64 L) k)).
  set (g := fun (f : @vec3 (F64 L) -> f64) i => corr L (repeat kv k) (map (fun r => clip (N:=F64 L) (Bopp m) m (f r)) v) ((k - 1) / 2 + i)).
  exists (map (fun i => mkV (N:=F64 L) (g vx i) (g vy i) (g vz i)) (seq 0 (length v))), m'.
  split; [|split; [now rewrite map_length, seq_length|split; [exact PM|]]].
  - unfold filter_and_smooth. rewrite E. cbn [bind]. destruct k as [|k']; [lia|]. set (k := S k') in *.
    assert (CV : forall f : @vec3 (F64 L) -> f64, correlate_same (N:=F64 L) (map (fun r => clip (N:=F64 L) (Bopp m) m (f r)) v) (repeat kv k) = map (g f) (seq 0 (length v))).
    { intros f. rewrite column_values by (exact K || (destruct v; [contradiction|discriminate])). now rewrite map_length. }
    f_equal. etransitivity; [|]. 
    { apply f_equal. apply f_equal2; [apply f_equal2; [exact (CV vx)|exact (CV vy)]|exact (CV vz)]. }
    rewrite !combine_seq, map_map. reflexivity.
  - intros i w I. rewrite nth_error_map in I. destruct (nth_error (seq 0 (length v)) i) as [j|] eqn:J; [|discriminate I]. 
    assert (IJ : j = i).
    { assert (HL : (i < length v)%nat) by (rewrite <- (seq_length (length v) 0); apply nth_error_Some; rewrite J; discriminate). rewrite (nth_error_nth' _ 0%nat) in J by now rewrite seq_length. rewrite seq_nth in J by exact HL. now injection J. }
    subst j. cbn [option_map] in I. assert (W : w = mkV (N:=F64 L) (g vx i) (g vy i) (g vz i)) by (injection I as <-; reflexivity). subst w.
    assert (G : forall f : @vec3 (F64 L) -> f64, (forall r, f r = vx r) \/ (forall r, f r = vy r) \/ (forall r, f r = vz r) -> fin (g f i) /\ Rabs (V (g f i) - moving_average (map (fun r => clamp m' (V (f r))) v) k i) <= slack (length v) B).
    { intros f H. exact (column_near L v f m m' k i B NE K KB LB (FC f H) BB FM MB DM). }
    destruct (G vx ltac:(now left)) as [G1 H1]. destruct (G vy ltac:(now right; left)) as [G2 H2]. destruct (G vz ltac:(now right; right)) as [G3 H3].
    split; [exact (conj G1 (conj G2 G3))|]. unfold near3, smoothed. cbn [valv v1 v2 v3 vx vy vz]. rewrite !map_map. cbn [valv v1 v2 v3]. exact (conj H1 (conj H2 H3)).
Qed.

(** ** The norms *)
Lemma percentile_bound l p m B : 0 <= B -> Forall (fun x => Rabs x <= B) l -> is_percentile l p m -> Rabs m <= B.
Proof.
  intros B0 F (s & k & w & PE & _ & W & _ & ->). assert (FS : Forall (fun x => Rabs x <= B) s).
  { apply Forall_forall. intros x I. apply (Permutation_in _ (Permutation_sym PE)) in I. rewrite Forall_forall in F. now apply F. }
  pose proof (nth_bound s B k B0 FS). pose proof (nth_bound s B (Nat.min (S k) (length s - 1)) B0 FS). absle; nra.
Qed.
Lemma len3_small a B : 0 <= B -> Rabs (v1 a) <= B -> Rabs (v2 a) <= B -> Rabs (v3 a) <= B -> len3 a <= 2 * B.
Proof.
  intros B0 A1 A2 A3. unfold len3. rewrite <- (sqrt_square (2 * B)) by lra. apply sqrt_le_1_alt. unfold dot3. apply Rabs_le_inv in A1, A2, A3.
  assert (K : forall x, - B <= x <= B -> x * x <= B * B) by (intros x H; nra). pose proof (K _ A1). pose proof (K _ A2). pose proof (K _ A3). nra.
Qed.
Lemma len3_near a b d : 0 <= d -> near3 d a b -> Rabs (len3 a - len3 b) <= 2 * d.
Proof.
  intros D0 (A1 & A2 & A3). pose proof (len3_small (vsub a b) d D0 A1 A2 A3) as S.
  pose proof (len3_triangle (vsub a b) b) as T1. pose proof (len3_triangle (vsub b a) a) as T2. rewrite (len3_sym b a) in T2.
  replace (vadd (vsub a b) b) with a in T1 by (destruct a, b; apply rv_eq; specu; ring). replace (vadd (vsub b a) a) with b in T2 by (destruct a, b; apply rv_eq; specu; ring). absle; lra.
Qed.
Lemma parts_len3 a : Rabs (v1 a) <= len3 a /\ Rabs (v2 a) <= len3 a /\ Rabs (v3 a) <= len3 a.
Proof.
  assert (K : forall x, x * x <= dot3 a a -> Rabs x <= len3 a) by (intros x H; unfold len3; rewrite <- sqrt_Rsqr_abs; apply sqrt_le_1_alt; exact H).
  destruct a as [x y z]. unfold dot3 in K. cbn [v1 v2 v3] in *. repeat split; apply K; nra.
Qed.
Lemma half_vector_bound D : unitq D -> - (1 / 1000000000000) <= qs D -> qs D <= 1 - 99998 / 10000000000 -> near3 4 (half_turn_vector D) vzero.
Proof.
  intros U L H. destruct (unit_parts D U) as (P1 & P2 & P3). unfold near3, half_turn_vector, vscale, vzero. cbn [v1 v2 v3]. rewrite !Rminus_0_r.
  assert (S0 : 0 < sqrt (1 - qs D * qs D)) by (apply sqrt_lt_R0; nra). set (s := sqrt (1 - qs D * qs D)) in *. pose proof (acos_bound (qs D)) as AB. pose proof PI_4.
  assert (K : forall x, Rabs x <= s -> Rabs (acos (qs D) / s * x) <= 4).
  { intros x X. replace (acos (qs D) / s * x) with (acos (qs D) * (x / s)) by (unfold Rdiv; ring). rewrite Rabs_mult. pose proof (fraction x s S0 X). rewrite (Rabs_pos_eq (acos (qs D))) by lra.
    pose proof (Rabs_pos (x / s)). nra. }
  repeat split; now apply K.
Qed.
Lemma rate_bound P Q dt w g : unitq P -> unitq Q -> rate_near P Q dt w -> 0 < g -> 9 / 10 * g <= dt -> near3 (5 / g) w vzero.
Proof.
  intros UP UQ (D & (TD & WD) & H) G DT. assert (G0 : 0 < / g) by now apply Rinv_0_lt_compat.
  assert (UD : unitq D).
  { assert (U0 : unitq (hmul P (hconj Q))) by (unfold unitq; rewrite hnorm2_mul, hnorm2_conj, UP, UQ; ring). destruct TD as [-> | ->]; [exact U0|]. unfold unitq in *. rewrite <- U0. destruct (hmul P (hconj Q)) as [[a1 a2 a3] a4]. unfold hneg, hnorm2, hdot, dot3, vscale. cbn [qv qs v1 v2 v3]. ring. }
  destruct H as [[-> _]|[WL H]].
  - unfold near3, vzero. cbn [v1 v2 v3]. rewrite !Rminus_0_r, !Rabs_R0. unfold Rdiv. repeat split; lra.
  - destruct (half_vector_bound D UD WD WL) as (B1 & B2 & B3). destruct (parts_len3 (vsub w (vscale (/ dt) (half_turn_vector D)))) as (C1 & C2 & C3).
    set (h := half_turn_vector D) in *. set (e := len3 (vsub w (vscale (/ dt) h))) in *. clearbody e. unfold near3 in *. cbn [vsub vscale vzero v1 v2 v3] in *. rewrite Rminus_0_r in B1, B2, B3. rewrite (Rminus_0_r (v1 w)), (Rminus_0_r (v2 w)), (Rminus_0_r (v3 w)).
    assert (ID : 0 < / dt <= 112 / 100 * / g).
    { split; [apply Rinv_0_lt_compat; lra|]. apply Rle_trans with (/ (9 / 10 * g)); [apply Rinv_le_contravar; lra|]. rewrite Rinv_mult. lra. }
    unfold Rdiv in H. assert (K : forall x y, Rabs y <= 4 -> Rabs (x - / dt * y) <= 1 * / 10000000 * / dt -> Rabs x <= 5 / g).
    { intros x y Y X. apply Rabs_le_inv in X, Y. assert (- (4 * / dt) <= / dt * y <= 4 * / dt) by (split; nra). unfold Rdiv. absle; lra. }
    split; [|split]; [apply (K _ (v1 h))|apply (K _ (v2 h))|apply (K _ (v3 h))]; try assumption; lra.
Qed.
(** the norms that are correlated to find the time offset: v are the reported rates, one per pair of neighbours *)
Theorem C115_norms : forall L (quats : list (@quat (F64 L))) samples k (p : @T (F64 L)) norms exact g, arccosine L ->
  compute_angular_velocity_norms quats samples k p = Ok norms -> (2 <= length quats)%nat -> INR (length quats) <= 400000000000000 -> (1 <= k)%nat -> INR k <= 400000000000000 -> fin (p : f64) -> 0 <= V p <= 100 ->
  Forall2 (fun q Q => unitq Q /\ finq q /\ dist (val q) Q <= tau) quats exact ->
  Forall (fun s : @T (F64 L) => fin (s : f64) /\ Rabs (V s) <= 10000000000000000000) samples -> 1 / 10000000000000000000 <= g -> spaced g (map (fun s : @T (F64 L) => (s : f64)) samples) ->
  exists v m, length v = (length quats - 1)%nat /\ length norms = (length quats - 1)%nat /\ is_percentile (components v) (V p) m /\
  (forall i w, nth_error v i = Some w -> exists P Q s s' dt, nth_error exact i = Some P /\ nth_error exact (S i) = Some Q /\
    nth_error samples i = Some s /\ nth_error samples (S i) = Some s' /\ Rabs (dt - (V s' - V s)) <= 2 / 10000000000000000 * (V s' - V s) /\ rate_near P Q dt w) /\
  (forall i x, nth_error norms i = Some x -> fin (x : f64) /\ Rabs (V x - len3 (smoothed m k v i)) <= 1 / 10000000000000 * INR (length quats) / g + 1 / 100000000000000000 /\
    len3 (smoothed m k v i) <= 10 / g).
Proof.
  intros L quats samples k p norms ex g AC H L2 LB K KB FP P FQ FS G SP.
  assert (SP0 : spaced (1 / 10000000000000000000) (map (fun s : @T (F64 L) => (s : f64)) samples)) by (intros i a b A B; specialize (SP i a b A B); lra).
  unfold compute_angular_velocity_norms in H. destruct quats as [|q0 qt]; [cbn in L2; lia|]. set (quats := q0 :: qt) in *.
  apply bind_ok in H as (vel & EV & H). apply bind_ok in H as (filt & EF & H). apply bind_ok in H as (nn & EN & H). apply assert_ok in H as [_ H].
  assert (nn = norms) by (injection H as <-; reflexivity). subst nn. clear H.
  destruct (C114_velocities L quats samples vel ex AC EV FQ FS SP0) as [LV RV].
  assert (LN : length norms = (length quats - 1)%nat) by (rewrite (mapM_length _ _ _ EN); apply seq_length).
  clearbody quats. clear q0 qt. set (n := INR (length quats)) in *. assert (N2 : 2 <= n) by (unfold n; change 2 with (INR 2); now apply le_INR).
  assert (UE : forall i P, nth_error ex i = Some P -> unitq P).
  { intros i x E. clear -FQ E. revert i E. induction FQ as [|q Q l m R F IH]; intros i E; [destruct i; discriminate E|]. destruct i as [|i]; [injection E as <-; apply R|exact (IH i E)]. }
  set (B := 5 / g). assert (IG : 0 < / g) by (apply Rinv_0_lt_compat; lra). assert (BE : B = 5 * / g) by reflexivity.
  assert (BB : 0 <= B <= 100000000000000000000).
  { rewrite BE. split; [lra|]. assert (/ g <= 10000000000000000000); [|lra]. apply Rle_trans with (/ (1 / 10000000000000000000)); [apply Rinv_le_contravar; lra|]. apply Req_le. field. }
  assert (FV : Forall (fun w => finv w /\ near3 B (valv w) vzero) vel).
  { apply Forall_forall. intros w I. apply In_nth_error in I as (i & I). destruct (RV i w I) as (P0 & Q0 & s & s' & dt & E1 & E2 & E3 & E4 & DT & F & R). split; [exact F|].
    assert (GS : g <= V s' - V s) by (apply (SP i); [exact (map_nth_error _ _ _ E3)|exact (map_nth_error _ _ _ E4)]).
    apply (rate_bound P0 Q0 dt); [exact (UE _ _ E1)|exact (UE _ _ E2)|exact R|lra|]. apply Rabs_le_inv in DT. lra. }
  assert (NV : vel <> []) by (intros E; rewrite E in LV; cbn in LV; lia).
  assert (NN : INR (length vel) = n - 1) by (rewrite LV, minus_INR by lia; reflexivity).
  destruct (C115_smooth L vel k p B NV K KB ltac:(lra) FV BB FP P) as (out & m & EO & LO & PM & SM).
  assert (out = filt) by (rewrite EO in EF; injection EF as <-; reflexivity). subst out.
  exists (map valv vel), m. split; [now rewrite map_length|]. split; [exact LN|]. split; [exact PM|]. split.
  - intros i w I. rewrite nth_error_map in I. destruct (nth_error vel i) as [x|] eqn:E; [|discriminate I]. assert (w = valv x) by (injection I as <-; reflexivity). subst w.
    destruct (RV i x E) as (P0 & Q0 & s & s' & dt & E1 & E2 & E3 & E4 & DT & _ & R). exists P0, Q0, s, s', dt. now repeat split.
  - intros i x I. assert (HI : (i < length quats - 1)%nat) by (rewrite <- LN; apply nth_error_Some; rewrite I; discriminate).
    assert (HW : exists w, nth_error filt i = Some w /\ x = vnorm w).
    { apply mapM_Forall2 in EN. clear -EN I HI.
      assert (KK : forall l a, Forall2 (fun x y => (do v <- index filt x; Ok (vnorm v)) = Ok y) (seq a l) norms -> (i < l)%nat -> (do v <- index filt (a + i); Ok (vnorm v)) = Ok x).
      { clear EN HI. revert i I. induction norms as [|y ns IH]; intros i I l a F HI; [destruct i; discriminate I|]. destruct l as [|l]; [lia|]. cbn [seq] in F. inversion F as [|? ? ? ? F1 F2]; subst.
        destruct i as [|i]; [rewrite Nat.add_0_r, F1; cbn [nth_error] in I; injection I as <-; reflexivity|]. replace (a + S i)%nat with (S a + i)%nat by lia. apply (IH i I l (S a) F2). lia. }
      specialize (KK _ _ EN HI). cbn [Nat.add] in KK. unfold index in KK. destruct (nth_error filt i) as [w|]; [|discriminate KK]. exists w. split; [reflexivity|]. cbn [bind] in KK. injection KK as <-. reflexivity. }
    destruct HW as (w & W & ->). destruct (SM i w W) as [FW NW]. set (r := smoothed m k (map valv vel) i) in *.
    set (sl := slack (length vel) B) in *. assert (SE : sl = 15 / 1000000000000000 * (n * / g) + 1 / 100000000000000000000000) by (unfold sl, slack; rewrite NN, BE; field; lra).
    assert (NG : 0 <= n * / g) by (apply Rmult_le_pos; lra). assert (NG2 : n * / g <= 400000000000000 * / g) by (apply Rmult_le_compat_r; lra). assert (NG3 : 2 * / g <= n * / g) by (apply Rmult_le_compat_r; lra).
    assert (S0 : 0 <= sl) by lra. assert (SB : sl <= 6 * / g + 1 / 100000000000000000000000) by lra.
    assert (CB : Forall (fun x => Rabs x <= B) (components (map valv vel))).
    { clear -FV. induction FV as [|y l [_ (A1 & A2 & A3)] F IH]; [apply Forall_nil|]. cbn [vzero v1 v2 v3] in A1, A2, A3. rewrite Rminus_0_r in A1, A2, A3.
      change (components (map valv (y :: l))) with (v1 (valv y) :: v2 (valv y) :: v3 (valv y) :: components (map valv l)). apply Forall_cons; [exact A1|]. apply Forall_cons; [exact A2|]. apply Forall_cons; [exact A3|exact IH]. }
    pose proof (percentile_bound _ _ _ _ (proj1 BB) CB PM) as MB.
    assert (RB : Rabs (v1 r) <= B /\ Rabs (v2 r) <= B /\ Rabs (v3 r) <= B).
    { unfold r, smoothed. cbn [v1 v2 v3]. repeat split; (apply avg_bound; [exact K|apply BB|]); rewrite Forall_map; apply Forall_forall; intros y _; (eapply Rle_trans; [apply clamp_bound|exact MB]). }
    destruct RB as (R1 & R2 & R3). pose proof (len3_small r B (proj1 BB) R1 R2 R3) as LR. pose proof (len3_near _ _ _ S0 NW) as D. apply Rabs_le_inv in D.
    assert (LW : len3 (valv w) <= 22 * / g + 3 / 100000000000000000000000) by lra. pose proof (len3_pos (valv w)) as LP.
    assert (IG2 : / g <= 20000000000000000000) by lra.
    destruct (vnorm_near L w FW) as [FX EX]; [unfold e24; lra|]. split; [exact FX|]. apply Rabs_le_inv in EX. split; [|unfold Rdiv; lra]. unfold Rdiv at 2. rewrite Rmult_assoc. absle; lra.
Qed.

(** ** The offset of two recordings *)
(** doubles quats near the unit quaternions [exact], at times at least g apart, and sensible filter settings *)
Definition sampled {L} (quats : list (@quat (F64 L))) (exact : list rq) (samples : list (@T (F64 L))) (k : nat) (p : @T (F64 L)) (g : R) : Prop :=
  (3 <= length quats)%nat /\ (length quats <= length samples)%nat /\ INR (length quats) <= 1000000000000 /\ (1 <= k)%nat /\ INR k <= 400000000000000 /\ fin (p : f64) /\ 0 <= V p <= 100 /\
  Forall2 (fun q Q => unitq Q /\ finq q /\ dist (val q) Q <= tau) quats exact /\
  Forall (fun s : @T (F64 L) => fin (s : f64) /\ Rabs (V s) <= 10000000000) samples /\ spaced g (map (fun s : @T (F64 L) => (s : f64)) samples).
(** a is the list of the exact norms, one for each pair of neighbours, of the smoothed clipped rates, for rates that are accurate up to the bounds of C114 *)
Definition exact_norms {L} (exact : list rq) (samples : list (@T (F64 L))) (k : nat) (p : R) (a : list R) : Prop :=
  exists v m, S (length v) = length exact /\ a = map (fun i => len3 (smoothed m k v i)) (seq 0 (length v)) /\ is_percentile (components v) p m /\
  forall i w, nth_error v i = Some w -> exists P Q s s' dt, nth_error exact i = Some P /\ nth_error exact (S i) = Some Q /\
    nth_error samples i = Some s /\ nth_error samples (S i) = Some s' /\ Rabs (dt - (V s' - V s)) <= 2 / 10000000000000000 * (V s' - V s) /\ rate_near P Q dt w.
Definition matching (a : list f64) (a' : list R) (e X : R) : Prop :=
  length a = length a' /\ forall i (x : f64) y, nth_error a i = Some x -> nth_error a' i = Some y -> fin x /\ Rabs (V x - y) <= e /\ Rabs y <= X.
Lemma norms_matching L (quats : list (@quat (F64 L))) ex samples k p g norms : arccosine L -> sampled quats ex samples k p g -> 25 / 1000000 <= g <= 1 ->
  compute_angular_velocity_norms quats samples k p = Ok norms ->
  exists a, exact_norms ex samples k (V p) a /\ length norms = (length quats - 1)%nat /\ matching norms a (101 / 1000000000000000 * INR (length quats) / g) (10 / g).
Proof.
  intros AC (L3 & LS & LB & K & KB & FP & P & FQ & FS & SP) G H.
  assert (FS' : Forall (fun s : @T (F64 L) => fin (s : f64) /\ Rabs (V s) <= 10000000000000000000) samples) by (eapply Forall_impl; [|exact FS]; cbn beta; intros s [F B]; split; [exact F|lra]).
  destruct (C115_norms L quats samples k p norms ex g AC H ltac:(lia) ltac:(lra) K KB FP P FQ FS' ltac:(lra) SP) as (v & m & LV & LN & PM & RN & NN).
  exists (map (fun i => len3 (smoothed m k v i)) (seq 0 (length v))). split; [exists v, m; split; [rewrite LV; assert (length quats = length ex) by (clear -FQ; induction FQ; cbn; congruence); lia|now repeat split]|]. split; [exact LN|]. split; [rewrite map_length, seq_length; etransitivity; [exact LN|now symmetry]|].
  intros i x y X Y. destruct (NN i x X) as (FX & DX & BX). rewrite nth_error_map in Y.
  destruct (nth_error (seq 0 (length v)) i) as [j|] eqn:J; [|discriminate Y].
  assert (IJ : j = i).
  { assert (HL : (i < length v)%nat) by (rewrite <- (seq_length (length v) 0); apply nth_error_Some; rewrite J; discriminate). rewrite (nth_error_nth' _ 0%nat) in J by now rewrite seq_length. rewrite seq_nth in J by exact HL. now injection J. }
  subst j. cbn [option_map] in Y. assert (y = len3 (smoothed m k v i)) by (injection Y as <-; reflexivity). subst y. clear Y. split; [exact FX|]. split.
  - eapply Rle_trans; [exact DX|]. set (n := INR (length quats)) in *. assert (N3 : 3 <= n) by (unfold n; replace 3 with (INR 3) by (cbn; lra); now apply le_INR).
    assert (IG : 1 <= / g) by (rewrite <- Rinv_1; apply Rinv_le_contravar; lra). assert (NG : 3 <= n * / g) by nra. unfold Rdiv. rewrite !(Rmult_assoc _ n). lra.
  - rewrite Rabs_pos_eq by apply len3_pos. exact BX.
Qed.
Lemma sig_matching a a' e X z : 0 <= e -> 0 <= X -> matching a a' e X -> Rabs (sig_at (map V a) z - sig_at a' z) <= e /\ Rabs (sig_at a' z) <= X.
Proof.
  intros E0 X0 [LE M]. unfold sig_at. destruct (z <? 0)%Z; [rewrite Rminus_0_r, Rabs_R0; now split|].
  set (i := Z.to_nat z). destruct (nth_error a' i) as [y|] eqn:Y.
  - assert (HI : (i < length a')%nat) by (apply nth_error_Some; rewrite Y; discriminate). destruct (nth_error a i) as [x|] eqn:XX; [|apply nth_error_None in XX; lia].
    destruct (M i x y XX Y) as (_ & D & B). rewrite (nth_error_nth _ _ 0 Y). rewrite (nth_error_nth (map V a) i 0 (map_nth_error V i a XX)). now split.
  - apply nth_error_None in Y. rewrite (nth_overflow a' 0 Y), (nth_overflow (map V a) 0) by (rewrite map_length; eapply Nat.le_trans; [apply Nat.eq_le_incl; exact LE|exact Y]). rewrite Rminus_0_r, Rabs_R0. now split.
Qed.
Lemma xcorr_matching a a' b b' e X j : 0 <= e <= X -> matching a a' e X -> matching b b' e X -> Rabs (xcorr (map V a) (map V b) j - xcorr a' b' j) <= INR (length a') * (3 * X * e).
Proof.
  intros [E0 EX] MA MB. unfold xcorr. replace (length (map V a)) with (length a') by (rewrite map_length; symmetry; exact (proj1 MA)). rewrite sum_minus.
  eapply Rle_trans; [apply (sum_bound _ _ (3 * X * e))|rewrite seq_length; lra]. intros i.
  destruct (sig_matching a a' e X (Z.of_nat i) E0 ltac:(lra) MA) as [A1 A2]. destruct (sig_matching b b' e X (Z.of_nat i + j) E0 ltac:(lra) MB) as [B1 B2].
  set (x := sig_at (map V a) (Z.of_nat i)) in *. set (y := sig_at (map V b) (Z.of_nat i + j)) in *. set (x' := sig_at a' (Z.of_nat i)) in *. set (y' := sig_at b' (Z.of_nat i + j)) in *.
  replace (x * y - x' * y') with ((x - x') * (y - y') + ((x - x') * y' + x' * (y - y'))) by ring.
  pose proof (prod_le _ _ _ _ A1 B1) as P1. pose proof (prod_le _ _ _ _ A1 B2) as P2. pose proof (prod_le _ _ _ _ A2 B1) as P3. 
  eapply Rle_trans; [apply Rabs_triang|]. pose proof (Rabs_triang ((x - x') * y') (x' * (y - y'))). assert (e * e <= X * e) by (apply Rmult_le_compat_r; lra). lra.
Qed.
Lemma strength_matching a a' e X : 0 <= e -> 0 <= X -> matching a a' e X -> strength (map V a) <= sqrt (INR (length a)) * (X + e).
Proof.
  intros E0 X0 [LE M]. unfold strength. rewrite <- (sqrt_square (X + e)) by lra. rewrite <- sqrt_mult by (apply pos_INR || nra). apply sqrt_le_1_alt. rewrite map_map.
  eapply Rle_trans; [apply Rle_abs|]. revert a' LE M. induction a as [|x a IH]; intros a' LE M; [cbn; rewrite Rabs_R0; lra|]. destruct a' as [|y a']; [discriminate LE|].
  change (length (x :: a)) with (S (length a)). rewrite S_INR. cbn [map]. change (Rsum (V x * V x :: ?l)) with (V x * V x + Rsum l).
  eapply Rle_trans; [apply Rabs_triang|]. destruct (M 0%nat x y eq_refl eq_refl) as (_ & D & B). specialize (IH a' ltac:(cbn in LE; lia) (fun i => M (S i))).
  assert (XB : Rabs (V x) <= X + e) by (replace (V x) with (V x - y + y) by ring; eapply Rle_trans; [apply Rabs_triang|lra]).
  pose proof (prod_le _ _ _ _ XB XB). lra.
Qed.
(** the offset computed from the norms of two recordings belongs to a lag at which the exact correlation of the exact norms
    falls short of its maximum by no more than rounding allows *)
Theorem C115_offset : forall L (qA qB : list (@quat (F64 L))) exA exB sA sB kA kB pA pB nA nB g, arccosine L -> 25 / 1000000 <= g <= 1 ->
  sampled qA exA sA kA pA g -> sampled qB exB sB kB pB g ->
  compute_angular_velocity_norms qA sA kA pA = Ok nA -> compute_angular_velocity_norms qB sB kB pB = Ok nB ->
  exists a b m o, exact_norms exA sA kA (V pA) a /\ exact_norms exB sB kB (V pB) b /\
    calculate_time_offset_from_signals (firstn (length nA) sA) nA (firstn (length nB) sB) nB = Ok o /\ fin (o : f64) /\ lag_range a b m /\
    (forall j, lag_range a b j -> xcorr a b j <= xcorr a b m + 1 / 100000000000 * ((INR (length qA) + INR (length qB)) * (INR (length qA) + INR (length qB))) / (g * g)) /\
    Rabs (V o - (mean_step (map V (firstn (length nA) sA)) * IZR m + hd 0 (map V sB) - hd 0 (map V sA))) <= rounding_time (firstn (length nA) sA) sB m.
Proof.
  intros L qA qB exA exB sA sB kA kB pA pB nA nB g AC G SA SB HA HB.
  destruct (norms_matching L qA exA sA kA pA g nA AC SA G HA) as (a & EA & LA & MA). destruct (norms_matching L qB exB sB kB pB g nB AC SB G HB) as (b & EB & LB & MB).
  destruct SA as (A3 & ALS & ALB & _ & _ & _ & _ & _ & AFS & ASP). destruct SB as (B3 & BLS & BLB & _ & _ & _ & _ & _ & BFS & BSP).
  set (n := INR (length qA) + INR (length qB)). assert (NA3 : 3 <= INR (length qA)) by (replace 3 with (INR 3) by (cbn; lra); now apply le_INR). assert (NB3 : 3 <= INR (length qB)) by (replace 3 with (INR 3) by (cbn; lra); now apply le_INR).
  assert (IG : 1 <= / g) by (rewrite <- Rinv_1; apply Rinv_le_contravar; lra). assert (IG2 : / g <= 40000) by (replace 40000 with (/ (25 / 1000000)) by (field; lra); apply Rinv_le_contravar; lra).
  set (e := 101 / 1000000000000000 * n * / g). set (X := 10 * / g).
  assert (NB : 6 <= n <= 2000000000000) by (unfold n; lra).
  assert (E0 : 0 <= e <= 3 / 10 * / g) by (unfold e; split; [apply Rmult_le_pos; lra|apply Rmult_le_compat_r; lra]).
  assert (W : forall l l' q, q <= n -> matching l l' (101 / 1000000000000000 * q / g) (10 / g) -> matching l l' e X).
  { intros l l' q Q [W1 W2]. split; [exact W1|]. intros i x y I J. destruct (W2 i x y I J) as (F & D & B). split; [exact F|]. split; [|exact B]. eapply Rle_trans; [exact D|]. unfold e, Rdiv. apply Rmult_le_compat_r; [lra|]. lra. }
  assert (MA' : matching nA a e X) by (apply (W _ _ (INR (length qA))); [unfold n; lra|exact MA]). assert (MB' : matching nB b e X) by (apply (W _ _ (INR (length qB))); [unfold n; lra|exact MB]). clear W MA MB.
  assert (EX : 0 <= e <= X) by (unfold X; lra).
  assert (MO : forall (l : list f64) l', matching l l' e X -> (1 <= length l)%nat -> INR (length l) <= 400000000000000 -> moderate l).
  { intros l l' [W1 W2] N1 N4. split; [|split; [destruct l; [cbn in N1; lia|discriminate]|exact N4]]. apply Forall_forall. intros x I. apply In_nth_error in I as (i & I).
    assert (HI : (i < length l)%nat) by (apply nth_error_Some; rewrite I; discriminate). destruct (nth_error l' i) as [y|] eqn:Y; [|apply nth_error_None in Y; lia].
    destruct (W2 i x y I Y) as (F & D & B). split; [exact F|]. replace (V x) with (V x - y + y) by ring. eapply Rle_trans; [apply Rabs_triang|]. unfold X in B. lra. }
  assert (RA : INR (@length f64 nA) <= INR (length qA)) by (apply le_INR; change (@length f64 nA) with (length nA); lia). assert (RB : INR (@length f64 nB) <= INR (length qB)) by (apply le_INR; change (@length f64 nB) with (length nB); lia).
  pose proof (MO nA a MA' ltac:(change (@length f64 nA) with (length nA); lia) ltac:(lra)) as DA. pose proof (MO nB b MB' ltac:(change (@length f64 nB) with (length nB); lia) ltac:(lra)) as DB.
  set (tA := firstn (length nA) sA). set (tB := firstn (length nB) sB).
  assert (FN : forall (s : list (@T (F64 L))) c, Forall (fun s : @T (F64 L) => fin (s : f64) /\ Rabs (V s) <= 10000000000) s -> Forall (fun t : f64 => fin t /\ Rabs (V t) <= 10000000000) (firstn c s)).
  { intros s c F. apply Forall_forall. intros x I. rewrite Forall_forall in F. apply F. rewrite <- (firstn_skipn c s). apply in_or_app. now left. }
  assert (SPA : spaced (25 / 1000000) tA).
  { apply spaced_firstn. intros i x y I J. pose proof (ASP i x y) as Z. assert (g <= V y - V x); [|lra]. apply Z; [exact (map_nth_error _ _ _ I)|exact (map_nth_error _ _ _ J)]. }
  assert (LTA : length tA = (length qA - 1)%nat) by (unfold tA; rewrite firstn_length; lia).
  assert (NTB : tB <> []) by (intros Z; assert (length tB = 0%nat) by (rewrite Z; reflexivity); unfold tB in *; rewrite firstn_length in *; lia).
  destruct (C100_lag L tA nA tB nB ltac:(lia) NTB DA DB (FN _ _ AFS) SPA (FN _ _ BFS)) as (m & o & EO & FO & LM & MX & RT).
  assert (LVA : length (map V nA) = length a) by (rewrite map_length; apply MA'). assert (LVB : length (map V nB) = length b) by (rewrite map_length; apply MB').
  assert (LR : forall j, lag_range (map V nA) (map V nB) j <-> lag_range a b j) by (intros j; unfold lag_range; rewrite LVA, LVB; reflexivity).
  exists a, b, m, o. split; [exact EA|]. split; [exact EB|]. split; [exact EO|]. split; [exact FO|]. split; [now apply LR|].
  assert (HD : forall (l : list (@T (F64 L))) c, (1 <= c)%nat -> hd 0 (map V (firstn c l)) = hd 0 (map V l)) by (intros [|x l] [|c] C; try lia; reflexivity).
  split.
  - intros j J. apply LR in J. specialize (MX j J).
    pose proof (xcorr_matching nA a nB b e X j EX MA' MB') as D1. pose proof (xcorr_matching nA a nB b e X m EX MA' MB') as D2.
    set (q := n * / g * (n * / g)). assert (NG : 6 <= n * / g) by nra. assert (Q0 : 36 <= q) by (unfold q; nra).
    assert (LA' : INR (length a) <= n) by (rewrite <- LVA, map_length; unfold n; change (INR (length nA)) with (INR (@length f64 nA)); lra).
    assert (PT : INR (length a) * (3 * X * e) <= 304 / 100000000000000 * q * 1).
    { apply Rle_trans with (n * (3 * X * e)); [apply Rmult_le_compat_r; [apply Rmult_le_pos; lra|exact LA']|]. unfold X, e, q. apply Rle_trans with (3030 / 1000000000000000 * (n * / g * (n * / g))); [apply Req_le; field; lra|fold q; lra]. }
    assert (RO : rounding nA nB <= 50 / 1000000000000000 * q).
    { unfold rounding. pose proof (strength_matching nA a e X (proj1 EX) ltac:(lra) MA') as S1. pose proof (strength_matching nB b e X (proj1 EX) ltac:(lra) MB') as S2.
      assert (C1 : sqrt (INR (@length f64 nA)) * (X + e) <= sqrt n * (103 / 10 * / g)) by (apply Rmult_le_compat; [apply sqrt_pos|lra|apply sqrt_le_1_alt; unfold n; lra|unfold X; lra]).
      assert (C2 : sqrt (INR (@length f64 nB)) * (X + e) <= sqrt n * (103 / 10 * / g)) by (apply Rmult_le_compat; [apply sqrt_pos|lra|apply sqrt_le_1_alt; unfold n; lra|unfold X; lra]).
      assert (C3 : strength (map V nA) * strength (map V nB) <= n * (10609 / 100 * (/ g * / g))).
      { apply Rle_trans with (sqrt n * (103 / 10 * / g) * (sqrt n * (103 / 10 * / g))); [apply Rmult_le_compat; [apply strength_pos|apply strength_pos|eapply Rle_trans; [exact S1|exact C1]|eapply Rle_trans; [exact S2|exact C2]]|].
        replace (sqrt n * (103 / 10 * / g) * (sqrt n * (103 / 10 * / g))) with (sqrt n * sqrt n * (10609 / 100 * (/ g * / g))) by (field; lra). rewrite sqrt_sqrt by lra. lra. }
      assert (C4 : INR (@length f64 nB) / 2 ^ 51 * (strength (map V nA) * strength (map V nB)) <= n / 2 ^ 51 * (n * (10609 / 100 * (/ g * / g)))).
      { apply Rmult_le_compat; [apply Rmult_le_pos; [apply pos_INR|left; apply Rinv_0_lt_compat; lra]|apply Rmult_le_pos; apply strength_pos|apply Rmult_le_compat_r; [left; apply Rinv_0_lt_compat; lra|unfold n; lra]|exact C3]. }
      assert (C5 : n / 2 ^ 51 * (n * (10609 / 100 * (/ g * / g))) = 10609 / 100 / 2 ^ 51 * q) by (unfold q; field; lra). rewrite C5 in C4.
      eapply Rle_trans; [apply Rplus_le_compat_r; exact C4|]. assert (10609 / 100 / 2 ^ 51 <= 48 / 1000000000000000) by lra. assert (10609 / 100 / 2 ^ 51 * q <= 48 / 1000000000000000 * q) by (apply Rmult_le_compat_r; lra). lra. }
    replace (1 / 100000000000 * (n * n) / (g * g)) with (1 / 100000000000 * q) by (unfold q; field; lra). apply Rabs_le_inv in D1, D2. lra.
  - unfold tA, tB in RT |- *. rewrite (HD sA), (HD sB) in RT by lia.
    assert (RE : rounding_time (firstn (length nA) sA) (firstn (length nB) sB) m = rounding_time (firstn (length nA) sA) sB m) by (unfold rounding_time; rewrite (HD sB) by lia; reflexivity).
    rewrite RE in RT. exact RT.
Qed.

(** ** Non-vacuity *)
(** one turn by acos(4/5) in one second, smoothed with a kernel of one sample and clipped at the 99th percentile; and two
    vectors of different size, smoothed with a kernel of two samples *)
Example C115_example :
  (exists norms, compute_angular_velocity_norms [rest_q; turned_q] [(f_of_Z 0 : @T (F64 trig_libm)); (f_of_Z 1 : @T (F64 trig_libm))] 1 (f_of_Z 99) = Ok norms /\ length norms = 1%nat) /\
  Forall2 (fun q Q => unitq Q /\ finq q /\ dist (val q) Q <= tau) [rest_q; turned_q] [rest_r; turned_r] /\
  Forall (fun s : @T (F64 trig_libm) => fin (s : f64) /\ Rabs (V s) <= 10000000000000000000) [(f_of_Z 0 : @T (F64 trig_libm)); (f_of_Z 1 : @T (F64 trig_libm))] /\
  spaced 1 [f_of_Z 0; f_of_Z 1] /\ fin (f_of_Z 99) /\ V (f_of_Z 99) = 99 /\
  Forall (fun w => finv w /\ near3 3 (valv w) vzero) [mkV (N:=F64 trig_libm) (f_of_Z 1) (f_of_Z 0) (f_of_Z (-2)); mkV (N:=F64 trig_libm) (f_of_Z 3) (f_of_Z 1) (f_of_Z 0)].
Proof.
  destruct C114_example as ((out & E & LO) & F & FS & _ & _). destruct (of_Z_V 99 ltac:(lia)) as [F99 V99].
  destruct (of_Z_V 0 ltac:(lia)) as [F0 V0]. destruct (of_Z_V 1 ltac:(lia)) as [F1 V1]. destruct (of_Z_V 3 ltac:(lia)) as [F3 V3]. destruct (of_Z_V (-2) ltac:(lia)) as [F2 V2].
  split; [|split; [exact F|split; [exact FS|split; [|split; [exact F99|split; [exact V99|]]]]]].
  - assert (NO : out <> []) by (intros ->; discriminate LO).
    destruct (filter_ok trig_libm out 1 (f_of_Z 99) NO) as (filt & EF & LF); [lia|rewrite LO; cbn; lra|exact F99|rewrite V99; lra|].
    rewrite LO in LF. destruct filt as [|w [|? ?]]; try discriminate LF. exists [vnorm w]. split; [|reflexivity].
    unfold compute_angular_velocity_norms. rewrite E. cbn [bind]. rewrite EF. reflexivity.
  - apply spaced_two. rewrite V0, V1. lra.
  - apply Forall_cons; [|apply Forall_cons; [|apply Forall_nil]]; (split; [repeat split; assumption|]); unfold near3; cbn [valv vx vy vz vzero v1 v2 v3]; rewrite ?V0, ?V1, ?V2, ?V3; repeat split; absle; lra.
Qed.
(** there and back: a turn by acos(4/5) in one second, and the turn back in the next *)
Example C115_offset_example :
  let quats := [rest_q; turned_q; rest_q] in let samples := [(f_of_Z 0 : @T (F64 trig_libm)); (f_of_Z 1 : @T (F64 trig_libm)); (f_of_Z 2 : @T (F64 trig_libm))] in
  sampled quats [rest_r; turned_r; rest_r] samples 1 (f_of_Z 99) 1 /\ exists norms, compute_angular_velocity_norms quats samples 1 (f_of_Z 99) = Ok norms /\ length norms = 2%nat.
Proof.
  intros quats samples. destruct C114_example as (_ & F & _). destruct (of_Z_V 99 ltac:(lia)) as [F99 V99].
  destruct (of_Z_V 0 ltac:(lia)) as [F0 V0]. destruct (of_Z_V 1 ltac:(lia)) as [F1 V1]. destruct (of_Z_V 2 ltac:(lia)) as [F2 V2]. pose proof big_huge as BH. split.
  - split; [cbn; lia|]. split; [cbn; lia|]. split; [cbn; lra|]. split; [lia|]. split; [cbn; lra|]. split; [exact F99|]. split; [rewrite V99; lra|]. split; [|split].
    + inversion F as [|? ? ? ? R1 R2]; subst. inversion R2 as [|? ? ? ? R3 R4]; subst. repeat apply Forall2_cons; assumption || apply Forall2_nil.
    + repeat apply Forall_cons; try apply Forall_nil; (split; [assumption|]); rewrite ?V0, ?V1, ?V2; absle; lra.
    + intros [|[|i]] x y X Y; [apply some_eq in X, Y; subst x y; rewrite V0, V1; lra|apply some_eq in X, Y; subst x y; rewrite V1, V2; lra|destruct i; discriminate Y].
  - assert (G : forall a b : f64, fin a -> fin b -> V b - V a = 1 -> ltb (Num:=F64 trig_libm) (n0 (N:=F64 trig_libm)) (sub (Num:=F64 trig_libm) b a) = true).
    { intros a b FA FB E. change (Bltb (f_of_Z 0) (Bminus mode_NE b a) = true). destruct (sub_ok b a FB FA) as [FS ES]; [rewrite E; absle; lra|]. apply ltb_V; [exact F0|exact FS|]. rewrite ES, V0, E, <- V1, rnd_self, V1. lra. }
    set (out := [angular_velocity_between_quaternions rest_q turned_q (sub (Num:=F64 trig_libm) (f_of_Z 1) (f_of_Z 0)); angular_velocity_between_quaternions turned_q rest_q (sub (Num:=F64 trig_libm) (f_of_Z 2) (f_of_Z 1))]).
    assert (E : angular_velocities quats samples = Ok out).
    { unfold quats, samples. cbn [angular_velocities index nth_error bind tl]. rewrite (G (f_of_Z 0) (f_of_Z 1) F0 F1) by lra. cbn [assert_ bind]. rewrite (G (f_of_Z 1) (f_of_Z 2) F1 F2) by lra. cbn [assert_ bind]. reflexivity. }
    destruct (filter_ok trig_libm out 1 (f_of_Z 99)) as (filt & EF & LF); [discriminate|lia|cbn; lra|exact F99|rewrite V99; lra|].
    destruct filt as [|w [|w' [|? ?]]]; try discriminate LF. exists [vnorm w; vnorm w']. split; [|reflexivity].
    unfold compute_angular_velocity_norms, quats at 1. fold quats. rewrite E. cbn [bind]. rewrite EF. reflexivity.
Qed.
