(** * C100: the time offset computed in double precision. *)

From Coq Require Import Reals ZArith Bool List Lra Lia Psatz.
From Flocq Require Import Core BinarySingleNaN.
From Verif Require Import Num Py XReal Quat DualQuat TimeAlign F64 Spec TimeSpec ListFacts TimeFacts F64Facts FloatFacts PropFloat FloatTime FloatGrid PropFloatTime PropTimeOffset PropNoisySignal.
Import ListNotations.
Local Open Scope R_scope.

(** ** Specification *)
(** a signal of finite doubles of moderate size *)
Definition moderate (l : list f64) : Prop := Forall (fun x : f64 => fin x /\ Rabs (V x) <= 10000000000) l /\ l <> [] /\ INR (length l) <= 400000000000000.
(** how far rounding can change one value of the correlation of the signals a and b *)
Definition rounding (a b : list f64) : R :=
  INR (length b) / 2 ^ 51 * (strength (map V a) * strength (map V b)) + / 10 ^ 40.
(** how far rounding can change the offset that belongs to the lag m *)
Definition rounding_time (tA tB : list f64) (m : Z) : R :=
  (INR (length tA) * (mean_step (map V tA) * Rabs (IZR m)) + Rabs (hd 0 (map V tA)) + Rabs (hd 0 (map V tB))) / 2 ^ 50 + / 10 ^ 40.

(** ** Sums of products *)
Definition products (ps : list (f64 * f64)) : list f64 := map (fun p => Bmult mode_NE (fst p) (snd p)) ps.
Definition true_sum (ps : list (f64 * f64)) : R := Rsum (map (fun p => V (fst p) * V (snd p)) ps).
Definition weight (ps : list (f64 * f64)) : R := Rsum (map (fun p => Rabs (V (fst p) * V (snd p))) ps).
Lemma weight_pos ps : 0 <= weight ps.
Proof.
  induction ps as [|p ps IH]; [unfold weight; cbn; lra|]. change (weight (p :: ps)) with (Rabs (V (fst p) * V (snd p)) + weight ps).
  pose proof (Rabs_pos (V (fst p) * V (snd p))). lra.
Qed.
Lemma true_weight ps : Rabs (true_sum ps) <= weight ps.
Proof.
  induction ps as [|p ps IH]; [unfold true_sum, weight; cbn; rewrite Rabs_R0; lra|]. change (weight (p :: ps)) with (Rabs (V (fst p) * V (snd p)) + weight ps).
  change (true_sum (p :: ps)) with (V (fst p) * V (snd p) + true_sum ps). eapply Rle_trans; [apply Rabs_triang|]. lra.
Qed.
Lemma sum_products (A : R) (ps : list (f64 * f64)) : forall (acc : f64) (j : nat) (E W : R), A <= 1000000000000000000000000000000000000 -> INR j + INR (length ps) <= 400000000000000 ->
  Forall (fun p => fin (fst p) /\ fin (snd p)) ps -> fin acc -> Rabs E <= W -> W + weight ps <= A -> 0 <= W ->
  Rabs (V acc - E) <= INR j * (3 * u * A + 3 * eta) ->
  let r := fold_left (Bplus mode_NE) (products ps) acc in
  fin r /\ Rabs (V r - (E + true_sum ps)) <= (INR j + INR (length ps)) * (3 * u * A + 3 * eta).
Proof.
  induction ps as [|[x y] ps IH]; intros acc j E W AB LB FP FA EW WA W0 B; cbn zeta.
  - cbn. split; [exact FA|]. replace (E + 0) with E by ring. change (INR 0) with 0. rewrite Rplus_0_r. exact B.
  - inversion FP as [|p ps' Fp Fps]; subst. destruct Fp as [Fx Fy]. cbn [fst snd] in Fx, Fy.
    change (weight ((x, y) :: ps)) with (Rabs (V x * V y) + weight ps) in WA. pose proof (weight_pos ps) as WP.
    change (length ((x, y) :: ps)) with (S (length ps)) in *. rewrite S_INR in LB |- *.
    change (true_sum ((x, y) :: ps)) with (V x * V y + true_sum ps). cbn [products map fold_left fst snd]. fold (products ps).
    set (p := V x * V y) in *. set (P := Rabs p) in *. assert (P0 : 0 <= P) by apply Rabs_pos. assert (PP : - P <= p <= P) by (apply Rabs_le_inv; unfold P; lra).
    pose proof big_huge as BH. assert (A0 : 0 <= A) by lra.
    destruct (mul_ok x y Fx Fy) as [F1 E1]; [fold p P; lra|]. fold p in E1. pose proof (rnd_within p P ltac:(unfold P; lra)) as R1. rewrite <- E1 in R1.
    set (q := Bmult mode_NE x y) in *. pose proof (pos_INR j) as J0. pose proof (pos_INR (length ps)) as L0.
    assert (JB : INR j * (3 * u * A + 3 * eta) <= 1 / 5 * A + 2000000000000000 * eta).
    { assert (INR j * (3 * u * A) <= 1 / 5 * A).
      { replace (INR j * (3 * u * A)) with ((INR j * (3 * u)) * A) by ring. apply Rmult_le_compat_r; [lra|]. nums. lra. }
      assert (INR j * (3 * eta) <= 2000000000000000 * eta) by (nums; lra). lra. }
    apply Rabs_le_inv in B. apply Rabs_le_inv in EW. assert (UP : 0 <= u * P <= u * A) by (pose proof u_pos; split; [apply Rmult_le_pos; lra|apply Rmult_le_compat_l; lra]).
    assert (UA : 0 <= u * A) by lra. assert (UA2 : u * A <= 1 / 1000 * A) by (apply Rmult_le_compat_r; [lra|nums; lra]).
    assert (S0 : Rabs (V acc + V q) <= 13 / 10 * A + 3000000000000000 * eta) by (absle; nums; lra).
    destruct (add_ok acc q FA F1) as [F2 E2]; [eapply Rle_trans; [exact S0|]; nums; lra|]. pose proof (rnd_within _ _ S0) as R2. rewrite <- E2 in R2. set (s := Bplus mode_NE acc q) in *.
    assert (UE : u * (3000000000000000 * eta) <= eta) by (nums; lra).
    destruct (IH s (S j) (E + p) (W + P)) as [FR ER]; [exact AB|rewrite S_INR; lra|exact Fps|exact F2|absle; lra|lra|lra| |].
    + rewrite S_INR. set (st := 3 * u * A + 3 * eta) in *. replace ((INR j + 1) * st) with (INR j * st + st) by ring.
      rewrite Rmult_plus_distr_l in R2. replace (u * (13 / 10 * A)) with (13 / 10 * (u * A)) in R2 by ring.
      assert (ST : st = 3 * (u * A) + 3 * eta) by (unfold st; ring). absle; lra.
    + split; [exact FR|]. rewrite S_INR in ER. replace (E + (p + true_sum ps)) with (E + p + true_sum ps) by ring.
      replace (INR j + (INR (length ps) + 1)) with (INR j + 1 + INR (length ps)) by ring. exact ER.
Qed.

(** ** The correlation *)
Lemma sig_padded L (l : list f64) i : V (padded (N:=F64 L) l i) = sig_at (map V l) i.
Proof.
  unfold padded, sig_at. destruct (of_Z_V 0 ltac:(lia)) as [_ V0]. destruct (i <? 0)%Z; [exact V0|]. rewrite <- V0. symmetry. apply (map_nth V).
Qed.
Lemma padded_fin L (l : list f64) i : Forall (fun x : f64 => fin x) l -> fin (padded (N:=F64 L) l i : f64).
Proof.
  intros H. destruct (of_Z_V 0 ltac:(lia)) as [F0 _]. unfold padded. destruct (i <? 0)%Z; [exact F0|].
  destruct (Nat.lt_ge_cases (Z.to_nat i) (length l)) as [B|B]; [|rewrite nth_overflow by exact B; exact F0].
  rewrite Forall_forall in H. apply H. apply nth_In. exact B.
Qed.
Lemma sig_abs l i : sig_at (map Rabs l) i = Rabs (sig_at l i).
Proof. unfold sig_at. destruct (i <? 0)%Z; [now rewrite Rabs_R0|]. rewrite <- Rabs_R0 at 1. apply (map_nth Rabs). Qed.
Lemma strength_abs l : strength (map Rabs l) = strength l.
Proof. unfold strength. rewrite map_map. do 2 f_equal. apply map_ext. intros x. rewrite <- Rabs_mult. apply Rabs_pos_eq. nra. Qed.
(** the sum of products that makes one value of the correlation *)
Lemma xcorr_terms a b k : xcorr a b (Z.of_nat k - Z.of_nat (length a) + 1) =
  Rsum (map (fun l => sig_at b (Z.of_nat l) * sig_at a (Z.of_nat l - Z.of_nat k + Z.of_nat (length a) - 1)) (seq 0 (length b))).
Proof.
  set (m := (Z.of_nat k - Z.of_nat (length a) + 1)%Z).
  rewrite (map_ext _ (fun l => sig_at b (Z.of_nat l) * sig_at a (Z.of_nat l - m))) by (intros l; do 2 f_equal; unfold m; lia).
  rewrite (Rsum_seq (fun i => sig_at b i * sig_at a (i - m))). change (Z.of_nat 0) with 0%Z.
  set (w := (length a + length b + Z.abs_nat m)%nat).
  rewrite (xcorr_zsum a b m (- Z.of_nat w - m) (w + w + Z.abs_nat m + Z.abs_nat m)) by (unfold w; lia).
  rewrite <- (zsum_support (fun i => sig_at b i * sig_at a (i - m)) (length b) (- Z.of_nat w)
               (w + w + Z.abs_nat m + Z.abs_nat m)) by (try (unfold w; lia); intros i Hi; rewrite (sig_out b) by easy; ring).
  replace (- Z.of_nat w)%Z with (- Z.of_nat w - m + m)%Z at 2 by lia.
  rewrite <- (zsum_shift (fun i => sig_at b i * sig_at a (i - m))). apply zsum_ext. intros i _.
  rewrite Rmult_comm. f_equal. f_equal. lia.
Qed.
Definition pairs L (a b : list f64) (k : nat) : list (f64 * f64) :=
  map (fun l => (padded (N:=F64 L) b (Z.of_nat l), padded (N:=F64 L) a (Z.of_nat l - Z.of_nat k + Z.of_nat (length a) - 1))) (seq 0 (length b)).
Lemma pairs_true L a b k : true_sum (pairs L a b k) = xcorr (map V a) (map V b) (Z.of_nat k - Z.of_nat (length a) + 1).
Proof.
  pose proof (xcorr_terms (map V a) (map V b) k) as E. rewrite !map_length in E. etransitivity; [|symmetry; exact E]. unfold true_sum, pairs. rewrite map_map. f_equal. apply map_ext. intros l. cbn [fst snd]. now rewrite !sig_padded.
Qed.
Lemma pairs_weight L a b k : weight (pairs L a b k) <= strength (map V a) * strength (map V b).
Proof.
  rewrite <- (strength_abs (map V a)), <- (strength_abs (map V b)).
  eapply Rle_trans; [|apply (xcorr_cs _ _ (Z.of_nat k - Z.of_nat (length (map Rabs (map V a))) + 1))]. eapply Rle_trans; [|apply Rle_abs]. apply Req_le.
  rewrite xcorr_terms, !map_length. unfold weight, pairs. rewrite map_map. f_equal. apply map_ext. intros l. cbn [fst snd]. now rewrite Rabs_mult, !sig_abs, !sig_padded.
Qed.
Lemma strength_bound l : moderate l -> strength (map V l) <= 200000000000000000.
Proof.
  intros (F & _ & LB). unfold strength. rewrite <- (sqrt_square 200000000000000000) by lra. apply sqrt_le_1_alt.
  apply Rle_trans with (INR (length l) * 100000000000000000000); [|lra]. clear LB. rewrite map_map.
  induction F as [|x l [_ B] F IH]; [cbn; lra|]. change (length (x :: l)) with (S (length l)). rewrite S_INR. cbn [map]. 
  change (Rsum (V x * V x :: map (fun x => V x * V x) l)) with (V x * V x + Rsum (map (fun x => V x * V x) l)). apply Rabs_le_inv in B. nra.
Qed.
Definition corr L (a b : list f64) (k : nat) : f64 := fold_left (Bplus mode_NE) (products (pairs L a b k)) zerof.
Lemma correlate_pairs L (a b : list f64) : b <> [] -> a <> [] ->
  correlate_full (N:=F64 L) b a = map (corr L a b) (seq 0 (length b + length a - 1)).
Proof.
  intros NB NA. unfold correlate_full. destruct b as [|b0 b']; [easy|]. destruct a as [|a0 a']; [easy|].
  apply map_ext. intros k. unfold corr, sumn, products, pairs. rewrite map_map. reflexivity.
Qed.
Lemma correlation_rounded L a b k : moderate a -> moderate b ->
  fin (corr L a b k) /\ Rabs (V (corr L a b k) - xcorr (map V a) (map V b) (Z.of_nat k - Z.of_nat (length a) + 1)) <= rounding a b.
Proof.
  intros MA MB. destruct (of_Z_V 0 ltac:(lia)) as [F0 V0]. pose proof (strength_bound a MA) as SA. pose proof (strength_bound b MB) as SB.
  pose proof (strength_pos (map V a)) as PA. pose proof (strength_pos (map V b)) as PB.
  assert (LP : length (pairs L a b k) = length b) by (unfold pairs; now rewrite map_length, seq_length).
  set (A := strength (map V a) * strength (map V b)).
  assert (AB : 0 <= A <= 200000000000000000 * 200000000000000000) by (unfold A; split; [apply Rmult_le_pos; lra|apply Rmult_le_compat; lra]).
  destruct MA as (FA & _ & _). destruct MB as (FB & _ & LB).
  destruct (sum_products A (pairs L a b k) zerof 0 0 0) as [F E].
  - lra.
  - change (INR 0 + INR (@length (f64 * f64) (pairs L a b k)) <= 400000000000000). rewrite LP. change (INR 0) with 0. lra.
  - unfold pairs. rewrite Forall_map. apply Forall_forall. intros l _. cbn [fst snd].
    split; apply padded_fin; [apply Forall_impl with (2 := FB)|apply Forall_impl with (2 := FA)]; now intros x [].
  - exact F0.
  - rewrite Rabs_R0. lra.
  - rewrite Rplus_0_l. apply pairs_weight.
  - lra.
  - rewrite V0, Rminus_0_r, Rabs_R0. change (INR 0) with 0. lra.
  - fold (corr L a b k) in F, E. split; [exact F|]. rewrite Rplus_0_l, pairs_true in E. change (INR 0) with 0 in E. rewrite Rplus_0_l in E. change (INR (length (pairs L a b k))) with (INR (@length (f64 * f64) (pairs L a b k))) in E. rewrite LP in E.
    eapply Rle_trans; [exact E|]. unfold rounding. fold A. pose proof (pos_INR (length b)) as L0.
    assert (T1 : INR (length b) * (3 * u * A) <= INR (length b) / 2 ^ 51 * A).
    { replace (INR (length b) * (3 * u * A)) with (INR (length b) * (A * (3 * u))) by ring. replace (INR (length b) / 2 ^ 51 * A) with (INR (length b) * (A * (/ 2 ^ 51))) by (unfold Rdiv; ring).
      apply Rmult_le_compat_l; [exact L0|]. apply Rmult_le_compat_l; [lra|]. unfold u. lra. }
    assert (T2 : INR (length b) * (3 * eta) <= / 10 ^ 40) by (unfold eta; lra).
    rewrite Rmult_plus_distr_l. lra.
Qed.
(** the index chosen carries a largest value, and the first of these *)
Lemma argmax_float_from L : forall (l pre : list f64) bi bv i, Forall (fun x : f64 => fin x) l -> Forall (fun x : f64 => fin x) pre ->
  length pre = i -> nth_error pre bi = Some bv -> (forall j x, nth_error pre j = Some x -> V x <= V bv) ->
  exists v, nth_error (pre ++ l) (argmax_from (N:=F64 L) bi bv i l) = Some v /\ (forall j x, nth_error (pre ++ l) j = Some x -> V x <= V v).
Proof.
  induction l as [|x l IH]; intros pre bi bv i FL FP LE NB H; cbn [argmax_from].
  - rewrite app_nil_r. exists bv. split; [exact NB|exact H].
  - inversion FL as [|x' l' Fx Fl]; subst x' l'. assert (Fb : fin bv) by (rewrite Forall_forall in FP; apply (FP bv), (nth_error_In _ _ NB)).
    replace (pre ++ x :: l) with ((pre ++ [x]) ++ l) by now rewrite <- app_assoc.
    assert (FP' : Forall (fun x : f64 => fin x) (pre ++ [x])) by (apply Forall_app; split; [exact FP|constructor; [exact Fx|constructor]]).
    assert (AT : nth_error (pre ++ [x]) i = Some x) by (rewrite nth_error_app2, LE, Nat.sub_diag by lia; reflexivity).
    assert (LE' : length (pre ++ [x]) = S i) by (rewrite app_length; cbn; lia).
    assert (AB : forall j y, nth_error (pre ++ [x]) j = Some y -> V y <= V bv \/ y = x).
    { intros j y Hj. destruct (Nat.lt_ge_cases j i) as [B|B].
      - rewrite nth_error_app1 in Hj by lia. left. now apply (H j).
      - assert (j < length (pre ++ [x]))%nat by (apply nth_error_Some; congruence). assert (j = i) as -> by lia. right. congruence. }
    change (ltb (Num:=F64 L) bv x) with (Bltb bv x).
    destruct (Bltb bv x) eqn:C.
    + apply (ltb_V bv x Fb Fx) in C. apply IH; [exact Fl|exact FP'|exact LE'|exact AT|]. intros j y Hj. destruct (AB j y Hj) as [B| ->]; lra.
    + assert (C' : ~ V bv < V x) by (intros C'; apply (ltb_V bv x Fb Fx) in C'; congruence).
      apply IH; [exact Fl|exact FP'|exact LE'| |]; [rewrite nth_error_app1; [exact NB|apply nth_error_Some; congruence]|].
      intros j y Hj. destruct (AB j y Hj) as [B| ->]; lra.
Qed.
Lemma argmax_float L (l : list f64) : Forall (fun x : f64 => fin x) l -> l <> [] -> exists i v, argmax (N:=F64 L) l = Ok i /\ nth_error l i = Some v /\
  forall j x, nth_error l j = Some x -> V x <= V v.
Proof.
  intros F NE. destruct l as [|x l]; [contradiction|]. inversion F as [|x' l' Fx Fl]; subst x' l'. cbn [argmax].
  destruct (argmax_float_from L l [x] 0 x 1) as (v & E & M); [exact Fl|constructor; [exact Fx|constructor]|reflexivity|reflexivity| |].
  - intros [|j] y; cbn; [intros [= <-]; lra|destruct j; discriminate].
  - exists (argmax_from (N:=F64 L) 0 x 1 l), v. split; [reflexivity|]. split; [exact E|exact M].
Qed.

(** ** The offset *)
Lemma last_V (l : list f64) : l <> [] -> last (map V l) 0 = V (last l zerof).
Proof.
  induction l as [|x l IH]; [easy|]. intros _. destruct l as [|y l]; [reflexivity|].
  change (last (map V (x :: y :: l)) 0) with (last (map V (y :: l)) 0). now rewrite IH.
Qed.
Lemma hd_V (l : list f64) : l <> [] -> hd 0 (map V l) = V (hd zerof l).
Proof. now destruct l. Qed.
Lemma mean_sharp L (l : list f64) : (2 <= length l)%nat -> Forall (fun y : f64 => fin y /\ Rabs (V y) <= 10000000000) l -> spaced (25 / 1000000) l ->
  let n := INR (length l - 1) in let w := mean_step (map V l) in
  fin (mean (N:=F64 L) (diff (N:=F64 L) l) : f64) /\ 25 / 1000000 <= w <= 20000000000 /\ 1 <= n <= 800000000000000 /\
  Rabs (V (mean (N:=F64 L) (diff (N:=F64 L) l)) - w) <= u * ((4 * n + 3) * w).
Proof.
  intros LL FT SP. cbv zeta. unfold mean_step. rewrite map_length.
  assert (NE : l <> []) by (intros ->; cbn in LL; lia). rewrite last_V, hd_V by exact NE. clear NE.
  destruct l as [|x t]; [cbn in LL; lia|].
  assert (N1 : (1 <= length t)%nat) by (cbn in LL; lia). cbn [hd].
  assert (BX : fin x /\ Rabs (V x) <= 10000000000) by now inversion FT.
  destruct BX as [FX BX]. destruct (of_Z_V 0 ltac:(lia)) as [F0 V0].
  destruct (sum_diff L (25 / 1000000) (V x) ltac:(lra) BX t x zerof 0 F0 FT SP) as (FS & K & E).
  { change (INR 0) with 0. lra. } { change (INR 0) with 0. rewrite V0. replace (V x - V x) with 0 by ring. rewrite Rminus_0_r, Rabs_R0. lra. }
  rewrite Nat.add_0_l in *. replace (length (x :: t) - 1)%nat with (length t) by (cbn; lia).
  assert (N1' : 1 <= INR (length t)) by (apply (le_INR 1); exact N1).
  assert (BL : Rabs (V (last (x :: t) zerof)) <= 10000000000).
  { rewrite Forall_forall in FT. apply (FT (last (x :: t) zerof)). apply last_In. discriminate. }
  apply Rabs_le_inv in BX. apply Rabs_le_inv in BL. set (e := V (last (x :: t) zerof) - V x) in *. set (n := INR (length t)) in *.
  assert (EU : e <= 20000000000) by (unfold e; lra).
  assert (NB : n <= 800000000000000) by lra. pose proof big_huge as BH.
  unfold mean. rewrite diff_length. cbn [length]. rewrite !Nat.sub_succ, !Nat.sub_0_r. change (@length (@T (F64 L)) t) with (length t).
  destruct (of_nat_V L (length t)) as [Fn Vn]; [apply INR_Z; fold n; lra|]. fold n in Vn.
  change (div (Num:=F64 L) ?a ?b) with (Bdiv mode_NE a b). unfold sumn. change (n0 (N:=F64 L)) with zerof.
  set (S := fold_left (add (Num:=F64 L)) (diff (N:=F64 L) (x :: t)) zerof) in *.
  assert (c0 : 0 <= 4 * u * n <= 36 / 100) by (nums; lra). set (c := 4 * u * n) in *.
  assert (E0 : 0 <= e <= 20000000000) by lra. assert (CE : 0 <= c * e <= 36 / 100 * e) by (split; [apply Rmult_le_pos; lra|apply Rmult_le_compat_r; lra]).
  assert (I : / n * n = 1) by (apply Rinv_l; lra). assert (I0 : 0 < / n) by (apply Rinv_0_lt_compat; lra).
  assert (Q : Rabs (V S / n - e / n) <= c * (e / n)).
  { replace (V S / n - e / n) with ((V S - e) * / n) by (unfold Rdiv; ring). rewrite Rabs_mult, (Rabs_pos_eq (/ n)) by lra. unfold Rdiv. rewrite <- Rmult_assoc. apply Rmult_le_compat_r; lra. }
  assert (M0 : 25 / 1000000 <= e / n <= 20000000000).
  { assert (EN : e / n * n = e) by (unfold Rdiv; rewrite Rmult_assoc, I; ring). split; apply Rmult_le_reg_r with n; lra. }
  set (w := e / n) in *. assert (CW : 0 <= c * w <= 36 / 100 * w) by (split; [apply Rmult_le_pos; lra|apply Rmult_le_compat_r; lra]).
  apply Rabs_le_inv in Q.
  assert (VB : Rabs (V S / n) <= 2 * w) by (absle; lra).
  destruct (div_ok S (of_nat (N:=F64 L) (length t)) FS) as [FM EM]; [rewrite Vn; lra|rewrite Vn; lra|]. rewrite Vn in EM.
  assert (G : Rabs (rnd (V S / n) - w) <= u * ((4 * n + 3) * w)).
  { pose proof (rnd_within _ _ VB) as R. replace (u * ((4 * n + 3) * w)) with (c * w + 3 * u * w) by (unfold c; ring). assert (EW : eta <= u * w) by (nums; lra). absle; lra. }
  split; [exact FM|]. split; [exact M0|]. split; [lra|]. rewrite EM. exact G.
Qed.
Lemma offset_rounded L (tA tB : list f64) (z : Z) (a0 b0 : f64) : (2 <= length tA)%nat -> hd_error tA = Some a0 -> hd_error tB = Some b0 -> (Z.abs z <= 1000000000000000)%Z ->
  Forall (fun t : f64 => fin t /\ Rabs (V t) <= 10000000000) tA -> spaced (25 / 1000000) tA -> Forall (fun t : f64 => fin t /\ Rabs (V t) <= 10000000000) tB ->
  let o := Bminus mode_NE (Bplus mode_NE (Bmult mode_NE (mean (N:=F64 L) (diff (N:=F64 L) tA)) (lit (Num:=F64 L) z 0)) b0) a0 in
  fin o /\ Rabs (V o - (mean_step (map V tA) * IZR z + hd 0 (map V tB) - hd 0 (map V tA))) <= rounding_time tA tB z.
Proof.
  intros L2 HA HB ZB BA SA BB. destruct (mean_sharp L tA L2 BA SA) as (FM & W & N1 & E). cbv zeta. unfold rounding_time.
  destruct tA as [|a tA]; [discriminate HA|]. injection HA as ->. destruct tB as [|b tB]; [discriminate HB|]. injection HB as ->.
  set (dtA := mean (N:=F64 L) (diff (N:=F64 L) (a0 :: tA))) in *. set (w := mean_step (map V (a0 :: tA))) in *.
  assert (B0 : fin b0 /\ Rabs (V b0) <= 10000000000) by now inversion BB. assert (A0 : fin a0 /\ Rabs (V a0) <= 10000000000) by now inversion BA.
  destruct B0 as [Fb Bb]. destruct A0 as [Fa Ba]. cbn [map hd].
  set (p := Rabs (V a0)) in *. set (q := Rabs (V b0)) in *. assert (Pa : - p <= V a0 <= p) by (apply Rabs_le_inv; unfold p; lra). assert (Qb : - q <= V b0 <= q) by (apply Rabs_le_inv; unfold q; lra).
  set (n := INR (length (a0 :: tA) - 1)) in *.
  assert (NS : INR (length (a0 :: tA)) = n + 1) by (unfold n; rewrite <- S_INR; f_equal; cbn [length]; lia).
  rewrite NS. clear NS BA SA BB L2. clearbody n w dtA.
  destruct (lit_int L z ltac:(lia)) as [Fz Vz]. assert (ZR : Rabs (IZR z) <= 1000000000000000) by (rewrite <- abs_IZR; apply IZR_le; exact ZB).
  set (y := Rabs (IZR z)) in *. assert (Y0 : 0 <= y) by apply Rabs_pos. assert (ZY : - y <= IZR z <= y) by (apply Rabs_le_inv; unfold y; lra).
  set (D := w * y). assert (D0 : 0 <= D <= 20000000000 * 1000000000000000) by (unfold D; split; [apply Rmult_le_pos; lra|apply Rmult_le_compat; lra]).
  set (ND := n * D). assert (DN : D <= ND <= 800000000000000 * D) by (unfold ND; split; [replace D with (1 * D) at 1 by ring; apply Rmult_le_compat_r; lra|apply Rmult_le_compat_r; lra]).
  assert (M : Rabs (V dtA * IZR z - w * IZR z) <= u * (4 * ND + 3 * D)).
  { rewrite <- Rmult_minus_distr_r, Rabs_mult. fold y. replace (u * (4 * ND + 3 * D)) with (u * ((4 * n + 3) * w) * y) by (unfold ND, D; ring). apply Rmult_le_compat_r; lra. }
  assert (WZ : Rabs (w * IZR z) <= D) by (rewrite Rabs_mult, (Rabs_pos_eq w) by lra; unfold D, y; lra).
  replace ((n + 1) * D) with (ND + D) by (unfold ND; ring).
  set (g := w * IZR z) in *. clearbody g ND D y. apply Rabs_le_inv in M. apply Rabs_le_inv in WZ. pose proof big_huge as BH.
  assert (PB : Rabs (V dtA * IZR z) <= 2 * D) by (absle; nums; lra).
  destruct (mul_ok dtA (lit (Num:=F64 L) z 0) FM Fz) as [F1 E1]; [rewrite Vz; lra|]. rewrite Vz in E1. pose proof (rnd_within _ _ PB) as R1. rewrite <- E1 in R1. apply Rabs_le_inv in PB.
  set (x1 := Bmult mode_NE dtA (lit (Num:=F64 L) z 0)) in *.
  assert (X1 : Rabs (V x1 + V b0) <= 3 * D + q + eta) by (absle; nums; lra).
  destruct (add_ok x1 b0 F1 Fb) as [F2 E2]; [nums; lra|]. pose proof (rnd_within _ _ X1) as R2. rewrite <- E2 in R2. apply Rabs_le_inv in X1.
  set (x2 := Bplus mode_NE x1 b0) in *.
  assert (X2 : Rabs (V x2 - V a0) <= 4 * D + 2 * q + p + 3 * eta) by (absle; nums; lra).
  destruct (sub_ok x2 a0 F2 Fa) as [F3 E3]; [nums; lra|]. pose proof (rnd_within _ _ X2) as R3. rewrite <- E3 in R3.
  split; [exact F3|]. set (o := Bminus mode_NE x2 a0) in *. clear E1 E2 E3. set (vo := V o) in *. set (vx2 := V x2) in *. set (vx1 := V x1) in *. clearbody vo vx1 vx2.
  assert (P50 : (ND + D + p + q) / 2 ^ 50 = 8 * u * (ND + D + p + q)) by (unfold u; field).
  rewrite P50. assert (T : 10 * eta <= / 10 ^ 40) by (unfold eta; lra). clear P50.
  absle; unfold u in *; pose proof eta_pos; lra.
Qed.

(** ** C100 *)
(** In double precision the lag chosen correlates the signals best up to the rounding of the correlation, and the
    offset is the exact offset of that lag up to the rounding of the last step. *)
Theorem C100_lag : forall L (tA a tB b : list (@T (F64 L))), (2 <= length tA)%nat -> tB <> [] -> moderate a -> moderate b ->
  Forall (fun t : f64 => fin t /\ Rabs (V t) <= 10000000000) tA -> spaced (25 / 1000000) tA -> Forall (fun t : f64 => fin t /\ Rabs (V t) <= 10000000000) tB ->
  exists m o, calculate_time_offset_from_signals tA a tB b = Ok o /\ fin (o : f64) /\ lag_range (map V a) (map V b) m /\
    (forall k, lag_range (map V a) (map V b) k -> xcorr (map V a) (map V b) k <= xcorr (map V a) (map V b) m + 2 * rounding a b) /\
    Rabs (V o - (mean_step (map V tA) * IZR m + hd 0 (map V tB) - hd 0 (map V tA))) <= rounding_time tA tB m.
Proof.
  intros L tA a tB b L2 NT MA MB BA SA BB. unfold calculate_time_offset_from_signals. change (@T (F64 L)) with f64 in *.
  assert (NA : a <> []) by apply MA. assert (NB : b <> []) by apply MB. rewrite correlate_pairs by assumption.
  assert (LVA : length (map V a) = @length f64 a) by apply map_length. assert (LVB : length (map V b) = @length f64 b) by apply map_length.
  set (n := (length b + length a - 1)%nat). set (f := corr L a b).
  assert (LA : (0 < length a)%nat) by (destruct a; [easy|cbn; lia]). assert (LB : (0 < length b)%nat) by (destruct b; [easy|cbn; lia]).
  assert (LZA : (Z.of_nat (length a) <= 400000000000000)%Z) by (apply INR_Z; apply MA). assert (LZB : (Z.of_nat (length b) <= 400000000000000)%Z) by (apply INR_Z; apply MB).
  destruct (argmax_float L (map f (seq 0 n))) as (i & v & E & V1 & MX).
  { rewrite Forall_map. apply Forall_forall. intros k _. now apply correlation_rounded. }
  { intros H. apply (f_equal (@length f64)) in H. rewrite map_length, seq_length in H. cbn in H. unfold n in H. lia. }
  assert (AT : forall j, (j < n)%nat -> nth_error (map f (seq 0 n)) j = Some (f j)).
  { intros j Hj. rewrite nth_error_map, (nth_error_nth' _ 0%nat) by now rewrite seq_length. cbn. now rewrite seq_nth. }
  assert (Hi : (i < n)%nat).
  { assert (X : nth_error (map f (seq 0 n)) i <> None) by congruence. apply nth_error_Some in X. now rewrite map_length, seq_length in X. }
  rewrite AT in V1 by exact Hi. injection V1 as <-. rewrite E. cbn [bind].
  set (z := (Z.of_nat i - Z.of_nat (length a) + 1)%Z).
  destruct tB as [|b0 tB]; [contradiction|]. destruct tA as [|a0 tA]; [cbn in L2; lia|]. cbn [index nth_error bind].
  destruct (offset_rounded L (a0 :: tA) (b0 :: tB) z a0 b0 L2 eq_refl eq_refl ltac:(unfold z, n in *; lia) BA SA BB) as [FO EO].
  eexists z, _. split; [reflexivity|]. split; [exact FO|]. split; [unfold lag_range; rewrite LVA, LVB; unfold z, n in *; lia|]. split; [|exact EO].
  intros k Hk. unfold lag_range in Hk. rewrite LVA, LVB in Hk. set (j := Z.to_nat (k + Z.of_nat (length a) - 1)).
  assert (J : (j < n)%nat) by (unfold j, n; lia). pose proof (MX j (f j) (AT j J)) as M.
  destruct (correlation_rounded L a b j MA MB) as [_ Rj]. destruct (correlation_rounded L a b i MA MB) as [_ Ri]. fold f in Ri, Rj.
  replace (Z.of_nat j - Z.of_nat (length a) + 1)%Z with k in Rj by (unfold j; lia). fold z in Ri.
  apply Rabs_le_inv in Ri. apply Rabs_le_inv in Rj. lra.
Qed.

(** If one lag correlates better than every other by more than the rounding, it is the lag found, and the offset is
    the one of exact arithmetic up to rounding. *)
Theorem C100_same_lag : forall L (tA a tB b : list (@T (F64 L))) m, (2 <= length tA)%nat -> tB <> [] -> moderate a -> moderate b ->
  Forall (fun t : f64 => fin t /\ Rabs (V t) <= 10000000000) tA -> spaced (25 / 1000000) tA -> Forall (fun t : f64 => fin t /\ Rabs (V t) <= 10000000000) tB ->
  lag_range (map V a) (map V b) m ->
  (forall k, lag_range (map V a) (map V b) k -> k <> m -> xcorr (map V a) (map V b) k + 2 * rounding a b < xcorr (map V a) (map V b) m) ->
  exists o r, calculate_time_offset_from_signals tA a tB b = Ok o /\ fin (o : f64) /\
    calculate_time_offset_from_signals (N:=XR) (map Fin (map V tA)) (map Fin (map V a)) (map Fin (map V tB)) (map Fin (map V b)) = Ok (Fin r) /\
    r = mean_step (map V tA) * IZR m + hd 0 (map V tB) - hd 0 (map V tA) /\
    Rabs (V o - r) <= rounding_time tA tB m.
Proof.
  intros L tA a tB b m L2 NT MA MB BA SA BB LM MG.
  destruct (C100_lag L tA a tB b L2 NT MA MB BA SA BB) as (m' & o & EO & FO & LM' & MX & RT).
  assert (m' = m) as ->.
  { destruct (Z.eq_dec m' m) as [E|E]; [exact E|]. specialize (MG m' LM' E). specialize (MX m LM). lra. }
  assert (R0 : 0 <= rounding a b).
  { unfold rounding. apply Rplus_le_le_0_compat; [|lra]. apply Rmult_le_pos; [|apply Rmult_le_pos; apply strength_pos].
    apply Rmult_le_pos; [apply pos_INR|lra]. }
  destruct (C39_maximal_lag (map V tA) (map V a) (map V tB) (map V b)) as (m2 & LM2 & MX2 & E2).
  { now rewrite map_length. } { intros H. apply map_eq_nil in H. contradiction. }
  { intros H. apply map_eq_nil in H. now apply MA. } { intros H. apply map_eq_nil in H. now apply MB. }
  assert (m2 = m) as ->.
  { destruct (Z.eq_dec m2 m) as [E|E]; [exact E|]. specialize (MG m2 LM2 E). destruct (MX2 m LM) as [Q _]. lra. }
  exists o, (mean_step (map V tA) * IZR m + hd 0 (map V tB) - hd 0 (map V tA)). split; [exact EO|]. split; [exact FO|]. split; [exact E2|]. split; [reflexivity|exact RT].
Qed.

(** ** Examples *)
Lemma whole (zs : list Z) : Forall (fun z => (Z.abs z <= 10000000000)%Z) zs -> Forall (fun x : f64 => fin x /\ Rabs (V x) <= 10000000000) (map f_of_Z zs) /\ map V (map f_of_Z zs) = map IZR zs.
Proof.
  induction 1 as [|z zs B _ [IH1 IH2]]; [split; constructor|]. destruct (of_Z_V z ltac:(lia)) as [F E]. split.
  - constructor; [|exact IH1]. split; [exact F|]. rewrite E, <- abs_IZR. now apply IZR_le.
  - cbn [map]. now rewrite E, IH2.
Qed.
Definition ticks : list f64 := map f_of_Z [0; 1; 2]%Z.
Lemma ticks_ok : Forall (fun x : f64 => fin x /\ Rabs (V x) <= 10000000000) ticks /\ map V ticks = [0; 1; 2] /\ spaced (25 / 1000000) ticks.
Proof.
  destruct (whole [0; 1; 2]%Z ltac:(repeat constructor; lia)) as [F E]. split; [exact F|]. split; [exact E|].
  intros i a b A B. assert (XA := map_nth_error V _ _ A). assert (XB := map_nth_error V _ _ B). unfold ticks in XA, XB. rewrite E in XA, XB.
  do 3 (destruct i as [|i]; [cbn in XA, XB; try discriminate XB; injection XA as XA; injection XB as XB; lra|]). destruct i; discriminate XA.
Qed.
Lemma moderate_whole zs : Forall (fun z => (Z.abs z <= 10000000000)%Z) zs -> zs <> [] -> INR (length zs) <= 400000000000000 -> moderate (map f_of_Z zs).
Proof.
  intros F NE LB. destruct (whole zs F) as [W _]. split; [exact W|]. split; [intros H; apply map_eq_nil in H; contradiction|].
  rewrite map_length. exact LB.
Qed.
Lemma tick_mean : mean_step (map V ticks) = 1.
Proof. destruct ticks_ok as (_ & E & _). rewrite E. unfold mean_step. cbn [last hd length Nat.sub INR]. lra. Qed.
(** a signal and its copy one sample later: the offset is one second up to rounding *)
Example C100_example : exists o, calculate_time_offset_from_signals (N:=F64 no_libm) ticks (map f_of_Z [0; 1; 0]%Z) ticks (map f_of_Z [0; 0; 1]%Z) = Ok o /\
  Rabs (V o - 1) <= 1 / 100000000000000.
Proof.
  destruct ticks_ok as (FT & ET & ST).
  destruct (whole [0; 1; 0]%Z ltac:(repeat constructor; lia)) as [_ EA]. destruct (whole [0; 0; 1]%Z ltac:(repeat constructor; lia)) as [_ EB].
  assert (I3 : INR 3 = 3) by (cbn; lra).
  destruct (C100_same_lag no_libm ticks (map f_of_Z [0; 1; 0]%Z) ticks (map f_of_Z [0; 0; 1]%Z) 1) as (o & r & EO & _ & _ & ER & RT).
  - cbn; lia.
  - discriminate.
  - apply moderate_whole; [repeat constructor; lia|discriminate|cbn [length]; lra].
  - apply moderate_whole; [repeat constructor; lia|discriminate|cbn [length]; lra].
  - exact FT.
  - exact ST.
  - exact FT.
  - rewrite EA, EB. unfold lag_range. cbn. lia.
  - unfold rounding. rewrite EA, EB. intros k. unfold lag_range. cbn [length map]. intros K N.
    assert (S1 : strength [0; 1; 0] = 1) by (unfold strength, Rsum; cbn [map fold_right]; transitivity (sqrt 1); [f_equal; ring|apply sqrt_1]).
    assert (S2 : strength [0; 0; 1] = 1) by (unfold strength, Rsum; cbn [map fold_right]; transitivity (sqrt 1); [f_equal; ring|apply sqrt_1]).
    rewrite S1, S2, I3.
    assert (X : xcorr [0; 1; 0] [0; 0; 1] 1 = 1) by (unfold xcorr, sig_at; cbn; change (Pos.to_nat 1) with 1%nat; change (Pos.to_nat 2) with 2%nat; change (Pos.to_nat 3) with 3%nat; change (Pos.to_nat 4) with 4%nat; cbn; ring).
    rewrite X.
    assert (X' : xcorr [0; 1; 0] [0; 0; 1] k = 0).
    { assert (k = -2 \/ k = -1 \/ k = 0 \/ k = 2)%Z as [-> |[-> |[-> | ->]]] by lia; unfold xcorr, sig_at; cbn; change (Pos.to_nat 1) with 1%nat; change (Pos.to_nat 2) with 2%nat; change (Pos.to_nat 3) with 3%nat; change (Pos.to_nat 4) with 4%nat; cbn; ring. }
    rewrite X'. lra.
  - exists o. split; [exact EO|]. rewrite tick_mean in ER. unfold rounding_time in RT. rewrite tick_mean in RT. rewrite ET in ER, RT. cbn [hd] in ER, RT.
    replace (1 * IZR 1 + 0 - 0) with 1 in ER by ring. subst r. eapply Rle_trans; [exact RT|].
    change (INR (length ticks)) with (INR 3). rewrite I3, Rabs_R0, Rabs_R1. lra.
Qed.

(** Without a margin the claim fails: rounding can make two correlations equal, and the first of them wins although
    the other one is larger.  Here the offset of exact arithmetic is one second, and the computed one is zero. *)
Definition dyadic (m : positive) (B : SpecFloat.bounded 53 1024 m (-52) = true) : f64 := B754_finite false m (-52) B.
Definition one_half_three : f64 := dyadic 6755399441055744 eq_refl.
Definition nearly2 : f64 := dyadic 9007199254740989 eq_refl.
Definition nearer2 : f64 := dyadic 9007199254740990 eq_refl.
Theorem C100_tie_refuted : exists tA a tB b : list f64,
  moderate a /\ moderate b /\ (2 <= length tA)%nat /\ tB <> [] /\
  Forall (fun t : f64 => fin t /\ Rabs (V t) <= 10000000000) tA /\ spaced (25 / 1000000) tA /\ Forall (fun t : f64 => fin t /\ Rabs (V t) <= 10000000000) tB /\
  calculate_time_offset_from_signals (N:=XR) (map Fin (map V tA)) (map Fin (map V a)) (map Fin (map V tB)) (map Fin (map V b)) = Ok (Fin 1) /\
  forall L, exists o, calculate_time_offset_from_signals (N:=F64 L) tA a tB b = Ok o /\ Rabs (V o) <= / 10 ^ 40.
Proof.
  assert (D : forall m B, V (dyadic m B) = IZR (Z.pos m) / 4503599627370496).
  { intros m B. unfold dyadic. cbn [B2R]. unfold F2R. cbn [Fnum Fexp cond_Zopp bpow]. change (Z.pow_pos radix2 52) with 4503599627370496%Z. reflexivity. }
  destruct ticks_ok as (FT & ET & ST). exists ticks, [one_half_three], ticks, [nearly2; nearer2].
  assert (MA : moderate [one_half_three]).
  { split; [|split; [discriminate|cbn; lra]]. constructor; [|constructor]. split; [reflexivity|]. unfold one_half_three. rewrite D. absle; lra. }
  assert (MB : moderate [nearly2; nearer2]).
  { split; [|split; [discriminate|cbn; lra]]. unfold nearly2, nearer2. constructor; [|constructor; [|constructor]]; (split; [reflexivity|]); rewrite D; absle; lra. }
  split; [exact MA|]. split; [exact MB|]. split; [cbn; lia|]. split; [discriminate|]. split; [exact FT|]. split; [exact ST|]. split; [exact FT|]. split.
  - set (a := map V [one_half_three]). set (b := map V [nearly2; nearer2]).
    destruct (C39_maximal_lag (map V ticks) a (map V ticks) b) as (m & LM & MX & E); [cbn; lia|discriminate|discriminate|discriminate|].
    assert (m = 1%Z) as ->.
    { unfold lag_range, a, b in LM. cbn in LM. assert (m = 0 \/ m = 1)%Z as [-> | ->] by lia; [|reflexivity]. exfalso.
      destruct (MX 1%Z) as [Q _]; [unfold lag_range, a, b; cbn; lia|].
      unfold xcorr, sig_at, a, b in Q. cbn [map length seq Rsum fold_right Z.of_nat Z.add Z.ltb Z.compare Z.to_nat nth] in Q. change (Pos.to_nat 1) with 1%nat in Q. cbn [nth] in Q.
      unfold one_half_three, nearly2, nearer2 in Q. rewrite !D in Q. lra. }
    rewrite E, tick_mean, ET. cbn [hd]. do 2 f_equal. ring.
  - intros L. unfold calculate_time_offset_from_signals. rewrite correlate_pairs by discriminate.
    assert (C : Bltb (corr L [one_half_three] [nearly2; nearer2] 0) (corr L [one_half_three] [nearly2; nearer2] 1) = false) by (vm_compute; reflexivity).
    assert (AM : argmax (N:=F64 L) (map (corr L [one_half_three] [nearly2; nearer2]) (seq 0 (length [nearly2; nearer2] + length [one_half_three] - 1))) = Ok 0%nat).
    { cbn [length Nat.add Nat.sub seq map argmax argmax_from]. change (ltb (Num:=F64 L) ?x ?y) with (Bltb x y). rewrite C. reflexivity. }
    rewrite AM. cbn [bind length]. change (Z.of_nat 0 - Z.of_nat 1 + 1)%Z with 0%Z.
    destruct (offset_rounded L ticks ticks 0 (f_of_Z 0) (f_of_Z 0)) as [_ EO]; [cbn; lia|reflexivity|reflexivity|lia|exact FT|exact ST|exact FT|].
    eexists. split; [reflexivity|]. cbv zeta in EO. unfold rounding_time in EO. rewrite tick_mean, ET in EO. cbn [hd] in EO.
    replace (1 * IZR 0 + 0 - 0) with 0 in EO by ring. rewrite Rminus_0_r, !Rabs_R0 in EO. eapply Rle_trans; [exact EO|]. lra.
Qed.
