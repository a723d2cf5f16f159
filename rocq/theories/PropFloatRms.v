(** * Property C112: the root mean square errors of an evaluation in double precision. *)

From Coq Require Import Permutation Reals ZArith Bool List Arith Lra Lia Psatz.
From Flocq Require Import Core BinarySingleNaN.
From Verif Require Import Num Py Quat DualQuat HandEye Ransac F64 Spec ListFacts QuatFacts QuatTrig DualFacts F64Facts FloatFacts PropFloat FloatQuat FloatDual PropFloatDual HandEyeFacts XFacts PropEval PropFloatPose PropFloatEval.
Import ListNotations.
Local Open Scope R_scope.

(** ** Specification *)
Fixpoint total (l : list R) : R := match l with [] => 0 | x :: l => x + total l end.
(** the root of the mean of the squares *)
Definition rms (l : list R) : R := sqrt (total (map (fun x => x * x) l) / INR (length l)).

(** ** The root mean square of nearby numbers *)
Definition size2 (l : list R) : R := sqrt (total (map (fun x => x * x) l)).
Lemma total_sq_pos l : 0 <= total (map (fun x => x * x) l).
Proof. induction l as [|x l IH]; cbn; [lra|]. pose proof (Rle_0_sqr x) as Q. unfold Rsqr in Q. lra. Qed.
Lemma plane a b c d : sqrt ((a + c) * (a + c) + (b + d) * (b + d)) <= sqrt (a * a + b * b) + sqrt (c * c + d * d).
Proof.
  pose proof (hnorm_triangle (RQ (RV a b 0) 0) (RQ (RV c d 0) 0)) as H. unfold hnorm, hnorm2, hdot, dot3, hadd, vadd in H. cbn [qv qs v1 v2 v3] in H.
  replace ((a + c) * (a + c) + (b + d) * (b + d)) with ((a + c) * (a + c) + (b + d) * (b + d) + (0 + 0) * (0 + 0) + (0 + 0) * (0 + 0)) by ring.
  replace (a * a + b * b) with (a * a + b * b + 0 * 0 + 0 * 0) by ring. replace (c * c + d * d) with (c * c + d * d + 0 * 0 + 0 * 0) by ring. exact H.
Qed.
Lemma size2_cons x l : size2 (x :: l) = sqrt (x * x + size2 l * size2 l).
Proof. unfold size2 at 1. cbn. unfold size2. now rewrite sqrt_sqrt by apply total_sq_pos. Qed.
Lemma size2_near l m e : 0 <= e -> Forall2 (fun x y => Rabs (x - y) <= e) l m -> size2 l <= size2 m + sqrt (INR (length l)) * e.
Proof.
  intros E0 F. induction F as [|x y l m H F IH]; [cbn; unfold size2; cbn; rewrite sqrt_0; lra|].
  rewrite !size2_cons. set (k := sqrt (INR (length l))) in *. assert (K0 : 0 <= k) by apply sqrt_pos.
  assert (S0 : 0 <= size2 l) by apply sqrt_pos. assert (M0 : 0 <= size2 m) by apply sqrt_pos.
  assert (KE : 0 <= k * e) by now apply Rmult_le_pos.
  pose proof (plane y (size2 m) (x - y) (k * e)) as P. replace (y + (x - y)) with x in P by ring.
  assert (A : sqrt (x * x + size2 l * size2 l) <= sqrt (x * x + (size2 m + k * e) * (size2 m + k * e))).
  { apply sqrt_le_1_alt. apply Rplus_le_compat_l. apply Rmult_le_compat; lra. }
  assert (B : sqrt ((x - y) * (x - y) + k * e * (k * e)) <= sqrt (INR (length (x :: l))) * e).
  { rewrite <- (sqrt_square e) at 3 by lra. rewrite <- sqrt_mult_alt by apply pos_INR. apply sqrt_le_1_alt. cbn [length]. rewrite S_INR.
    assert (KK : k * k = INR (length l)) by (unfold k; apply sqrt_sqrt, pos_INR).
    replace (k * e * (k * e)) with (k * k * (e * e)) by ring. rewrite KK.
    assert ((x - y) * (x - y) <= e * e) by (rewrite (sq_abs (x - y)); apply Rmult_le_compat; try apply Rabs_pos; assumption). lra. }
  lra.
Qed.
Lemma rms_size2 l : l <> [] -> rms l * sqrt (INR (length l)) = size2 l.
Proof.
  intros NE. unfold rms, size2. assert (P : 0 < INR (length l)) by (apply lt_0_INR; destruct l; [now elim NE|cbn; lia]).
  assert (Q : 0 <= total (map (fun x => x * x) l) / INR (length l)) by (apply Rmult_le_pos; [apply total_sq_pos|left; now apply Rinv_0_lt_compat]).
  rewrite <- sqrt_mult_alt by exact Q. f_equal. field. lra.
Qed.
Lemma rms_le l m e : 0 <= e -> l <> [] -> Forall2 (fun x y => Rabs (x - y) <= e) l m -> rms l <= rms m + e.
Proof.
  intros E0 NE F. pose proof (size2_near l m e E0 F) as S. pose proof (Forall2_len _ _ _ F) as LE.
  assert (NM : m <> []) by (destruct l, m; try discriminate LE; [now elim NE|discriminate]).
  rewrite <- (rms_size2 l NE), <- (rms_size2 m NM), <- LE in S.
  assert (P : 0 < sqrt (INR (length l))) by (apply sqrt_lt_R0, lt_0_INR; destruct l; [now elim NE|cbn; lia]).
  apply Rmult_le_reg_r with (sqrt (INR (length l))); [exact P|]. lra.
Qed.
Lemma Forall2_swap {A B} (P : A -> B -> Prop) l m : Forall2 P l m -> Forall2 (fun y x => P x y) m l.
Proof. induction 1; constructor; assumption. Qed.
Lemma rms_near l m e : 0 <= e -> l <> [] -> Forall2 (fun x y => Rabs (x - y) <= e) l m -> Rabs (rms l - rms m) <= e.
Proof.
  intros E0 NE F. pose proof (rms_le l m e E0 NE F) as A. pose proof (Forall2_len _ _ _ F) as LE.
  assert (NM : m <> []) by (destruct l, m; try discriminate LE; [now elim NE|discriminate]).
  assert (F' : Forall2 (fun x y => Rabs (x - y) <= e) m l).
  { clear - F. induction F as [|x y l m H F IH]; constructor; [rewrite Rabs_minus_sym; exact H|exact IH]. }
  pose proof (rms_le m l e E0 NM F'). absle; lra.
Qed.
Lemma rms_bound l M : l <> [] -> Forall (fun x => Rabs x <= M) l -> 0 <= rms l <= M.
Proof.
  intros NE F. assert (M0 : 0 <= M) by (destruct l as [|x l]; [now elim NE|]; inversion F; subst; pose proof (Rabs_pos x); lra).
  split; [apply sqrt_pos|]. pose proof (rms_le l (repeat 0 (length l)) M M0 NE) as H.
  assert (Z : rms (repeat 0 (length l)) = 0).
  { unfold rms. assert (T : forall n, total (map (fun x => x * x) (repeat 0 n)) = 0) by (induction n; cbn; [reflexivity|cbn in IHn; rewrite IHn; ring]). rewrite T. unfold Rdiv. rewrite Rmult_0_l. apply sqrt_0. }
  rewrite Z, Rplus_0_l in H. apply H. clear - F. induction F as [|x l H F IH]; cbn; constructor; [now rewrite Rminus_0_r|exact IH].
Qed.

(** ** Sums of non-negative doubles *)
Lemma sum_near : forall (l : list f64) (a : f64), fin a -> 0 <= V a -> Forall (fun x : f64 => fin x /\ 0 <= V x) l ->
  2 * u * INR (length l) <= 1 / 1000 -> let T := V a + total (map V l) in
  T * (1 + 2 * u * INR (length l)) + 2 * INR (length l) * eta <= 1000000000000000000000000000000000000000000000000000000000000 ->
  let s := fold_left (Bplus mode_NE) l a in fin s /\ 0 <= V s /\ Rabs (V s - T) <= 2 * u * INR (length l) * T + 2 * INR (length l) * eta.
Proof.
  induction l as [|x l IH]; intros a FA A0 F W T TB s.
  - unfold s, T. cbn. split; [exact FA|]. split; [exact A0|]. rewrite Rplus_0_r, Rminus_eq_0, Rabs_R0. lra.
  - inversion F as [|? ? [FX X0] F']; subst. cbn [length] in *. rewrite S_INR in *. set (r := INR (length l)) in *.
    assert (R0 : 0 <= r) by apply pos_INR. pose proof u_pos as UP. pose proof eta_pos as EP. pose proof big_huge as BH.
    set (t := total (map V l)) in *. assert (T0 : 0 <= t).
    { unfold t. clear - F'. induction F' as [|y l [_ Y] F IH]; cbn; lra. }
    assert (ET : T = V a + V x + t) by (unfold T, t; cbn; ring).
    assert (TP : 0 <= T) by lra. assert (WP : 0 <= 2 * u * r) by (apply Rmult_le_pos; lra).
    set (w := 2 * u * r) in *. assert (EW : 2 * u * (r + 1) = w + 2 * u) by (unfold w; ring). rewrite EW in *.
    assert (Tw : 0 <= T * w) by (apply Rmult_le_pos; lra). assert (Tu : 0 <= T * u) by (apply Rmult_le_pos; lra).
    assert (RE : 0 <= r * eta) by (apply Rmult_le_pos; lra).
    replace (T * (1 + (w + 2 * u))) with (T + T * w + 2 * (T * u)) in TB by ring. replace (2 * (r + 1) * eta) with (2 * (r * eta) + 2 * eta) in * by ring.
    destruct (add_ok a x FA FX) as [FS ES]; [rewrite Rabs_pos_eq by lra; lra|].
    pose proof (rnd_within (V a + V x) (V a + V x) ltac:(rewrite Rabs_pos_eq by lra; lra)) as N. rewrite <- ES in N.
    assert (S0 : 0 <= V (Bplus mode_NE a x)) by (rewrite ES; apply rnd_pos; lra).
    assert (N' : u * (V a + V x) <= T * u) by (rewrite Rmult_comm; apply Rmult_le_compat_r; lra).
    set (a1 := Bplus mode_NE a x) in *.
    assert (Tuw : T * u * w <= T * u * (1 / 1000)) by (apply Rmult_le_compat_l; lra). assert (EWw : eta * w <= eta * (1 / 1000)) by (apply Rmult_le_compat_l; lra).
    set (T1 := V a1 + t) in *. assert (B1 : T - T * u - eta <= T1 <= T + T * u + eta) by (unfold T1; lra). assert (T1P : 0 <= T1) by (unfold T1; lra).
    assert (T1w : T1 * w <= T * w + T * u * w + eta * w).
    { replace (T * w + T * u * w + eta * w) with ((T + T * u + eta) * w) by ring. apply Rmult_le_compat_r; lra. }
    destruct (IH a1 FS S0 F' ltac:(lra)) as (G1 & G2 & G3).
    + fold t. fold T1. replace (T1 * (1 + w)) with (T1 + T1 * w) by ring. replace (2 * r * eta) with (2 * (r * eta)) by ring. lra.
    + change (fold_left (Bplus mode_NE) l a1) with s in *. split; [exact G1|]. split; [exact G2|].
      fold t in G3. fold T1 in G3. replace (w * T1) with (T1 * w) in G3 by ring. replace (2 * r * eta) with (2 * (r * eta)) in G3 by ring.
      replace ((w + 2 * u) * T) with (T * w + 2 * (T * u)) by ring. apply Rabs_le_inv in G3. absle; lra.
Qed.
Lemma sqrt_fine (s : f64) : fin s -> 0 <= V s -> fin (Bsqrt mode_NE s) /\ V (Bsqrt mode_NE s) = rnd (sqrt (V s)).
Proof.
  intros F [S0|S0]; [now apply sqrt_ok|]. pose proof (Bsqrt_correct 53 1024 f64_prec f64_emax mode_NE s) as (C1 & C2 & _). split; [|exact C1].
  rewrite C2. destruct s as [? | ? | |b m e Q]; try easy. exfalso. cbn in S0. symmetry in S0. apply eq_0_F2R in S0. destruct b; discriminate S0.
Qed.
Lemma root_near S X d n : 0 <= S -> 0 <= X -> 0 <= d <= 1 / 1000 -> 0 <= n -> Rabs (S - X) <= d * X + n -> Rabs (sqrt S - sqrt X) <= d * sqrt X + sqrt n.
Proof.
  intros S0 X0 D N H. apply Rabs_le_inv in H. pose proof (sqrt_pos X) as RX. pose proof (sqrt_pos n) as RN. pose proof (sqrt_sqrt X X0) as EX. pose proof (sqrt_sqrt n N) as EN. pose proof (sqrt_pos S) as RS. pose proof (sqrt_sqrt S S0) as ES.
  set (x := sqrt X) in *. set (k := sqrt n) in *. set (s := sqrt S) in *. assert (DX : 0 <= d * x) by (apply Rmult_le_pos; lra). assert (XK : 0 <= x * k) by now apply Rmult_le_pos.
  assert (DXX : 0 <= d * (x * x)) by (apply Rmult_le_pos; [lra|rewrite EX; lra]). assert (DDX : 0 <= d * d * (x * x)) by (apply Rmult_le_pos; [apply Rmult_le_pos; lra|rewrite EX; lra]).
  assert (DXK : 0 <= d * (x * k)) by (apply Rmult_le_pos; lra). assert (DDX1 : d * d * (x * x) <= d * (x * x)).
  { replace (d * d * (x * x)) with (d * (d * (x * x))) by ring. rewrite <- (Rmult_1_l (d * (x * x))) at 2. apply Rmult_le_compat_r; lra. }
  rewrite <- EX, <- EN, <- ES in H.
  absle.
  - destruct (Rle_lt_dec 0 (x - d * x - k)) as [P|P]; [|lra].
    assert (Q : (x - d * x - k) * (x - d * x - k) <= s * s).
    { replace ((x - d * x - k) * (x - d * x - k)) with (x * x - 2 * (d * (x * x)) + d * d * (x * x) - 2 * (x * k) + 2 * (d * (x * k)) + k * k) by ring.
      assert (G : k * (x - d * x - k) >= 0) by (apply Rle_ge, Rmult_le_pos; lra). replace (k * (x - d * x - k)) with (x * k - d * (x * k) - k * k) in G by ring. lra. }
    destruct (Rle_lt_dec (x - d * x - k) s) as [|B]; [lra|]. exfalso. assert (s * s < (x - d * x - k) * (x - d * x - k)) by (apply Rmult_le_0_lt_compat; lra). lra.
  - destruct (Rle_lt_dec s (x + d * x + k)) as [|B]; [lra|]. exfalso.
    assert (Q : (x + d * x + k) * (x + d * x + k) < s * s) by (apply Rmult_le_0_lt_compat; lra).
    replace ((x + d * x + k) * (x + d * x + k)) with (x * x + 2 * (d * (x * x)) + d * d * (x * x) + 2 * (x * k) + 2 * (d * (x * k)) + k * k) in Q by ring. lra.
Qed.
(** ** C112 *)
Definition e29 : R := 1 / 100000000000000000000000000000.
Definition billion : R := 1000000000.
(** any way to add the squares that comes this close to their sum is good enough *)
Definition adds_up (sq : list f64) (s : f64) : Prop :=
  Forall (fun x : f64 => fin x /\ 0 <= V x) sq -> INR (length sq) <= billion -> total (map V sq) <= 10000000000000000000000000000000000000000000000000000000000 ->
  fin s /\ 0 <= V s /\ Rabs (V s - total (map V sq)) <= 2 * u * INR (length sq) * total (map V sq) + 2 * INR (length sq) * eta.
Lemma left_to_right sq : adds_up sq (fold_left (Bplus mode_NE) sq (f_of_Z 0)).
Proof.
  intros F LB TB. unfold billion in LB. destruct (of_Z_V 0 ltac:(lia)) as [FZ VZ]. pose proof (pos_INR (length sq)) as N0. pose proof u_pos as UP. pose proof eta_pos as EP.
  set (n := INR (length sq)) in *. set (Q := total (map V sq)) in *. assert (Q0 : 0 <= Q) by (unfold Q; clear - F; revert F; induction 1 as [|y m [_ Y] G IH]; cbn; lra).
  assert (UN : 2 * u * n <= 1 / 1000000) by (clear - LB UP; nums; lra). assert (NT : n * eta <= 1000000000 * eta) by (apply Rmult_le_compat_r; lra).
  assert (QU : Q * (2 * u * n) <= Q * (1 / 1000000)) by (apply Rmult_le_compat_l; lra).
  destruct (sum_near sq (f_of_Z 0) FZ ltac:(rewrite VZ; lra) F) as (FS & S0 & DS); [fold n; lra| |].
  - fold n. fold Q. rewrite VZ, Rplus_0_l. replace (Q * (1 + 2 * u * n)) with (Q + Q * (2 * u * n)) by ring. clear - QU NT TB Q0. nums. lra.
  - fold n in DS. fold Q in DS. rewrite VZ, Rplus_0_l in DS. exact (conj FS (conj S0 DS)).
Qed.
(** numbers added pairwise in any order *)
Inductive tree : Type := Leaf (x : f64) | Node (a b : tree).
Fixpoint leaves (t : tree) : list f64 := match t with Leaf x => [x] | Node a b => leaves a ++ leaves b end.
Fixpoint added (t : tree) : f64 := match t with Leaf x => x | Node a b => Bplus mode_NE (added a) (added b) end.
Lemma total_app a b : total (a ++ b) = total a + total b.
Proof. induction a as [|x a IH]; cbn; [ring|rewrite IH; ring]. Qed.
Lemma leaves_some t : 1 <= INR (length (leaves t)).
Proof. induction t as [x|a IA b IB]; cbn [leaves]; [cbn; lra|]. rewrite app_length, plus_INR. lra. Qed.
Lemma total_perm a b : Permutation a b -> total a = total b.
Proof. induction 1 as [|x a b P IH|x y a|a b c P IH Q IG]; cbn; [easy|now rewrite IH|ring|congruence]. Qed.
Lemma tree_near t :
  Forall (fun x : f64 => fin x /\ 0 <= V x) (leaves t) -> INR (length (leaves t)) <= 1000000000 -> total (map V (leaves t)) <= 10000000000000000000000000000000000000000000000000000000000 ->
  fin (added t) /\ 0 <= V (added t) /\ Rabs (V (added t) - total (map V (leaves t))) <= 2 * u * INR (length (leaves t)) * total (map V (leaves t)) + 2 * (INR (length (leaves t)) - 1) * eta.
Proof.
  pose proof u_pos as UP. pose proof eta_pos as EP. pose proof big_huge as BH. induction t as [x|a IA b IB]; intros F LB TB; cbn [leaves added] in *.
  - inversion F as [|? ? [FX X0] _]; subst. split; [exact FX|]. split; [exact X0|]. cbn [map total length INR]. replace (V x - (V x + 0)) with 0 by ring. rewrite Rabs_R0.
    assert (0 <= u * V x) by (apply Rmult_le_pos; lra). lra.
  - rewrite app_length, plus_INR in LB. rewrite map_app, total_app in TB. rewrite map_app, total_app, app_length, plus_INR. apply Forall_app in F as [Fa Fb].
    pose proof (leaves_some a) as NA. pose proof (leaves_some b) as NB.
    assert (POS : forall l, Forall (fun x : f64 => fin x /\ 0 <= V x) l -> 0 <= total (map V l)) by (induction 1 as [|y m [_ Y] G IH]; cbn; lra).
    pose proof (POS _ Fa) as PA. pose proof (POS _ Fb) as PB.
    specialize (IA Fa). specialize (IB Fb). unfold f64 in *.
    set (x := added a) in *. set (y := added b) in *. set (A := total (map V (leaves a))) in *. set (B := total (map V (leaves b))) in *. set (k := INR (length (A:=binary_float 53 1024) (leaves a))) in *. set (m := INR (length (A:=binary_float 53 1024) (leaves b))) in *.
    destruct (IA ltac:(lra) ltac:(lra)) as (FA & A0 & DA). destruct (IB ltac:(lra) ltac:(lra)) as (FB & B0 & DB). clear IA IB.
    apply Rabs_le_inv in DA, DB.
    assert (UK : 0 <= u * k <= 1 / 1000000) by (split; [apply Rmult_le_pos; lra|clear - LB NB UP; nums; lra]). assert (UM : 0 <= u * m <= 1 / 1000000) by (split; [apply Rmult_le_pos; lra|clear - LB NA UP; nums; lra]).
    assert (KA : 0 <= u * k * A <= 1 / 1000000 * A) by (split; [apply Rmult_le_pos; lra|apply Rmult_le_compat_r; lra]). assert (MB : 0 <= u * m * B <= 1 / 1000000 * B) by (split; [apply Rmult_le_pos; lra|apply Rmult_le_compat_r; lra]).
    assert (KB : u * 1 * B <= u * k * B) by (apply Rmult_le_compat_r; [lra|apply Rmult_le_compat_l; lra]). assert (MA : u * 1 * A <= u * m * A) by (apply Rmult_le_compat_r; [lra|apply Rmult_le_compat_l; lra]).
    assert (KE : 0 <= k * eta <= 1000000000 * eta) by (split; [apply Rmult_le_pos; lra|apply Rmult_le_compat_r; lra]). assert (ME : 0 <= m * eta <= 1000000000 * eta) by (split; [apply Rmult_le_pos; lra|apply Rmult_le_compat_r; lra]).
    replace (2 * u * k * A) with (2 * (u * k * A)) in DA by ring. replace (2 * u * m * B) with (2 * (u * m * B)) in DB by ring. replace (2 * (k - 1) * eta) with (2 * (k * eta) - 2 * eta) in DA by ring. replace (2 * (m - 1) * eta) with (2 * (m * eta) - 2 * eta) in DB by ring.
    destruct (add_ok x y FA FB) as [FS ES]; [rewrite Rabs_pos_eq by lra; clear - DA DB KA MB KE ME TB PA PB BH; nums; lra|].
    split; [exact FS|]. split; [rewrite ES; apply rnd_pos; lra|].
    pose proof (rnd_error (V x + V y)) as RE. rewrite (Rabs_pos_eq (V x + V y)) in RE by lra. rewrite <- ES in RE. apply Rabs_le_inv in RE.
    assert (UXY : u * (V x + V y) <= u * (A + B + (2 * (u * k * A) + 2 * (k * eta)) + (2 * (u * m * B) + 2 * (m * eta)))) by (apply Rmult_le_compat_l; lra).
    assert (U1 : u * (A + B + (2 * (u * k * A) + 2 * (k * eta)) + (2 * (u * m * B) + 2 * (m * eta))) <= u * (A + B + 1 / 100000 * A + 1 / 100000 * B + 4000000000 * eta)) by (apply Rmult_le_compat_l; lra).
    assert (UA : 0 <= u * A) by (apply Rmult_le_pos; lra). assert (UB : 0 <= u * B) by (apply Rmult_le_pos; lra).
    replace (u * (A + B + 1 / 100000 * A + 1 / 100000 * B + 4000000000 * eta)) with (u * A * (1 + 1 / 100000) + u * B * (1 + 1 / 100000) + 4000000000 * (u * eta)) in U1 by lra.
    assert (UH : 4000000000 * (u * eta) <= 1 / 2 * eta) by (clear - EP; unfold u; lra).
    assert (KE1 : 1 * eta <= k * eta) by (apply Rmult_le_compat_r; lra). 
    replace (2 * u * (k + m) * (A + B)) with (2 * (u * k * A) + 2 * (u * k * B) + 2 * (u * m * A) + 2 * (u * m * B)) by ring. replace (2 * (k + m - 1) * eta) with (2 * (k * eta) + 2 * (m * eta) - 2 * eta) by ring.
    clear - DA DB RE UXY U1 UA UB UH KE1 KB MA KA MB KE ME EP. absle; lra.
Qed.
Lemma any_tree sq t : Permutation (leaves t) sq -> adds_up sq (added t).
Proof.
  intros P F LB TB. assert (LE : length sq = length (leaves t)) by (symmetry; now apply Permutation_length).
  assert (TE : total (map V sq) = total (map V (leaves t))) by (symmetry; apply total_perm, Permutation_map, P).
  rewrite LE in *. rewrite TE in *. destruct (tree_near t) as (A & B & C); [|exact LB|exact TB|].
  - apply Forall_forall. intros x I. rewrite Forall_forall in F. apply F. now apply (Permutation_in x P).
  - split; [exact A|]. split; [exact B|]. pose proof eta_pos. lra.
Qed.
Lemma root_of_mean (l : list f64) (s : f64) : l <> [] -> INR (length l) <= billion -> Forall (fun x : f64 => fin x /\ Rabs (V x) <= e24) l ->
  adds_up (map (fun x : f64 => Bmult mode_NE x x) l) s ->
  let r := Bsqrt mode_NE (Bdiv mode_NE s (f_of_Z (Z.of_nat (length l) * 1))) in
  fin r /\ Rabs (V r - rms (map V l)) <= 3 / 10000000000000000 * (INR (length l) + 4) * rms (map V l) + e29.
Proof.
  intros NE LB F SUM.
  set (n := INR (length l)) in *. assert (N1 : 1 <= n) by (unfold n; destruct l; [now elim NE|]; cbn [length]; rewrite S_INR; pose proof (pos_INR (length l)); lra).
  pose proof u_pos as UP. pose proof eta_pos as EP. pose proof big_huge as BH. unfold billion, e24 in *.
  (* the squares *)
  set (sq := map (fun x : f64 => Bmult mode_NE x x) l). set (E := total (map (fun x => x * x) (map V l))).
  assert (SQ : Forall (fun x : f64 => fin x /\ 0 <= V x) sq /\ Rabs (total (map V sq) - E) <= u * E + INR (length l) * eta /\ 0 <= E <= INR (length l) * 1000000000000000000000000000000000000000000000000).
  { clear NE LB n N1 SUM. unfold sq, E. induction F as [|x l [FX BX] F IH]; [cbn; rewrite Rminus_eq_0, Rabs_R0; repeat split; try constructor; lra|].
    destruct IH as (I1 & I2 & I3). cbn [map total length]. rewrite S_INR. set (e := total (map (fun x0 : R => x0 * x0) (map V l))) in *.
    assert (X2 : 0 <= V x * V x) by exact (Rle_0_sqr (V x)).
    assert (X3 : V x * V x <= 1000000000000000000000000000000000000000000000000).
    { rewrite (sq_abs (V x)). eapply Rle_trans; [apply (Rmult_le_compat (Rabs (V x)) 1000000000000000000000000 (Rabs (V x)) 1000000000000000000000000)|]; try apply Rabs_pos; try exact BX. lra. }
    destruct (mul_ok x x FX FX) as [FM EM]; [rewrite Rabs_pos_eq by exact X2; lra|].
    pose proof (rnd_error (V x * V x)) as RE. rewrite <- EM in RE. rewrite (Rabs_pos_eq _ X2) in RE.
    split; [constructor; [split; [exact FM|rewrite EM; now apply rnd_pos]|exact I1]|]. split; [|lra].
    replace (V (Bmult mode_NE x x) + total (map V (map (fun x0 : f64 => Bmult mode_NE x0 x0) l)) - (V x * V x + e)) with ((V (Bmult mode_NE x x) - V x * V x) + (total (map V (map (fun x0 : f64 => Bmult mode_NE x0 x0) l)) - e)) by ring.
    eapply Rle_trans; [apply Rabs_triang|]. lra. }
  destruct SQ as (SF & SE & E0 & EB). fold n in SE, EB. apply Rabs_le_inv in SE.
  assert (LS : INR (length (A:=f64) sq) = n) by (unfold sq; rewrite map_length; reflexivity).
  assert (UE : u * E <= u * (n * 1000000000000000000000000000000000000000000000000)) by (apply Rmult_le_compat_l; lra).
  assert (NEB : n * 1000000000000000000000000000000000000000000000000 <= 1000000000 * 1000000000000000000000000000000000000000000000000) by (apply Rmult_le_compat_r; lra).
  assert (NT : n * eta <= 1000000000 * eta) by (apply Rmult_le_compat_r; lra). assert (NT0 : 0 <= n * eta) by (apply Rmult_le_pos; lra).
  assert (UN : 2 * u * n <= 1 / 1000000) by (clear - LB UP; nums; lra). assert (UN0 : 0 <= u * n) by (apply Rmult_le_pos; lra).
  set (Q := total (map V sq)) in *.
  assert (Q0 : 0 <= Q) by (unfold Q; clear - SF; revert SF; generalize sq; induction 1 as [|y m [_ Y] G IH]; cbn; lra).
  assert (QU : Q * (2 * u * n) <= Q * (1 / 1000000)) by (apply Rmult_le_compat_l; lra).
  change (adds_up sq s) in SUM. unfold adds_up in SUM. rewrite LS in SUM. fold Q in SUM.
  destruct (SUM SF) as (FS & S0 & DS); [exact LB|clear - UE NEB SE E0 EB NT; nums; lra|]. cbv zeta.

  (* the mean *)
  assert (ZB : (Z.abs (Z.of_nat (length l) * 1) <= 2 ^ 53)%Z).
  { assert (H : IZR (Z.of_nat (length l)) <= IZR 1000000000) by (rewrite <- INR_IZR_INZ; exact LB). apply le_IZR in H. lia. }
  destruct (of_Z_V (Z.of_nat (length l) * 1) ZB) as [FN VN]. rewrite Z.mul_1_r, <- INR_IZR_INZ in VN. fold n in VN. rewrite Z.mul_1_r in FN |- *.
  set (nf := f_of_Z (Z.of_nat (length l))) in *.
  set (X := E / n). assert (X0 : 0 <= X) by (apply Rmult_le_pos; [exact E0|left; apply Rinv_0_lt_compat; lra]).
  assert (XE : X * n = E) by (unfold X; field; lra).
  assert (IN : 0 < / n) by (apply Rinv_0_lt_compat; lra).
  apply Rabs_le_inv in DS.
  assert (SN : Rabs (V s / n - X) <= (2 * u * n + 2 * u) * X + 4 * eta).
  { assert (B : Rabs (V s - E) <= ((2 * u * n + 2 * u) * X + 4 * eta) * n).
    { replace (((2 * u * n + 2 * u) * X + 4 * eta) * n) with (2 * u * n * E + 2 * (u * E) + 4 * (n * eta)) by (rewrite <- XE; ring).
      assert (P1 : 2 * u * n * Q <= 2 * u * n * (E + u * E + n * eta)) by (apply Rmult_le_compat_l; lra).
      replace (2 * u * n * (E + u * E + n * eta)) with (2 * u * n * E + 2 * u * n * (u * E + n * eta)) in P1 by ring.
      assert (P3 : 0 <= u * E) by (apply Rmult_le_pos; lra).
      assert (P2 : 2 * u * n * (u * E + n * eta) <= 1 / 1000000 * (u * E + n * eta)) by (apply Rmult_le_compat_r; lra).
      replace (2 * n * eta) with (2 * (n * eta)) in DS by ring. absle; lra. }
    replace (V s / n - X) with ((V s - E) * / n) by (unfold X; field; lra). rewrite Rabs_mult, (Rabs_pos_eq (/ n)) by lra.
    replace ((2 * u * n + 2 * u) * X + 4 * eta) with (((2 * u * n + 2 * u) * X + 4 * eta) * n * / n) by (field; lra). apply Rmult_le_compat_r; [lra|exact B]. }
  assert (XB : X <= 1000000000000000000000000000000000000000000000000).
  { apply Rmult_le_reg_r with n; [lra|]. rewrite XE. lra. }
  assert (SN0 : 0 <= V s / n) by (apply Rmult_le_pos; lra).
  assert (CX : (2 * u * n + 2 * u) * X <= (1 / 1000000 + 2 * u) * X) by (apply Rmult_le_compat_r; lra).
  set (y := V s / n) in *. apply Rabs_le_inv in SN.
  assert (YB : y <= 2 * 1000000000000000000000000000000000000000000000000) by (clear - SN CX XB; nums; lra).
  destruct (div_ok s nf FS ltac:(rewrite VN; lra)) as [FD ED]; [rewrite VN; fold y; rewrite Rabs_pos_eq by exact SN0; lra|].
  rewrite VN in ED. fold y in ED. pose proof (rnd_error y) as RY. rewrite (Rabs_pos_eq y SN0) in RY. rewrite <- ED in RY. apply Rabs_le_inv in RY.
  set (q := Bdiv mode_NE s nf) in *. assert (Q00 : 0 <= V q) by (rewrite ED; now apply rnd_pos).
  assert (QX : Rabs (V q - X) <= (2 * u * n + 4 * u) * X + 6 * eta).
  { assert (UY : u * y <= u * (X + (1 / 1000000 + 2 * u) * X + 4 * eta)) by (apply Rmult_le_compat_l; lra).
    assert (UX : 0 <= u * X) by (apply Rmult_le_pos; lra). replace (u * (X + (1 / 1000000 + 2 * u) * X + 4 * eta)) with (u * X * (1 + 1 / 1000000 + 2 * u) + 4 * (u * eta)) in UY by ring.
    assert (UX2 : u * X * (1 + 1 / 1000000 + 2 * u) <= u * X * 2) by (apply Rmult_le_compat_l; [exact UX|nums; lra]). assert (UH : u * eta <= 1 / 4 * eta) by (apply Rmult_le_compat_r; nums; lra).
    replace ((2 * u * n + 4 * u) * X) with ((2 * u * n + 2 * u) * X + 2 * (u * X)) by ring. absle; lra. }
  (* the root *)
  destruct (sqrt_fine q FD Q00) as [FR ER]. split; [exact FR|]. rewrite ER. assert (EX : rms (map V l) = sqrt X) by (unfold rms, X, E, n; now rewrite map_length). rewrite EX.
  pose proof (root_near (V q) X (2 * u * n + 4 * u) (6 * eta) Q00 X0 ltac:(split; [lra|nums; lra]) ltac:(lra) QX) as RN. pose proof (sqrt_pos X) as RX. pose proof (sqrt_pos (V q)) as RQ. pose proof (sqrt_pos (6 * eta)) as RT.
  assert (ST : sqrt (6 * eta) <= 3 / 1000000000000000000000000000000).
  { rewrite <- (sqrt_square (3 / 1000000000000000000000000000000)) by lra. apply sqrt_le_1_alt. unfold eta. lra. }
  pose proof (rnd_error (sqrt (V q))) as RR. rewrite (Rabs_pos_eq _ RQ) in RR. apply Rabs_le_inv in RR. apply Rabs_le_inv in RN.
  set (x := sqrt X) in *. set (z := sqrt (V q)) in *.
  assert (UX : 0 <= u * x) by (apply Rmult_le_pos; lra).
  assert (DX : (2 * u * n + 4 * u) * x <= (1 / 1000000 + 4 * u) * x) by (apply Rmult_le_compat_r; lra).
  assert (UZ : u * z <= u * (x + (1 / 1000000 + 4 * u) * x + sqrt (6 * eta))) by (apply Rmult_le_compat_l; lra).
  replace ((2 * u * n + 4 * u) * x) with (2 * (n * (u * x)) + 4 * (u * x)) in * by ring.
  assert (G : 3 / 10000000000000000 * (n + 4) * x >= (5 / 2 * u) * (n + 4) * x).
  { apply Rle_ge, Rmult_le_compat_r; [lra|]. apply Rmult_le_compat_r; [lra|]. nums. lra. }
  replace (5 / 2 * u * (n + 4) * x) with (5 / 2 * (n * (u * x)) + 10 * (u * x)) in G by field. assert (NUX : 0 <= n * (u * x)) by (apply Rmult_le_pos; lra).
  replace (u * (x + (1 / 1000000 + 4 * u) * x + sqrt (6 * eta))) with (u * x * (1 + 1 / 1000000 + 4 * u) + u * sqrt (6 * eta)) in UZ by ring.
  assert (U2 : u * x * (1 + 1 / 1000000 + 4 * u) <= u * x * 2) by (apply Rmult_le_compat_l; [exact UX|nums; lra]).
  assert (U3 : u * sqrt (6 * eta) <= 1 * sqrt (6 * eta)) by (apply Rmult_le_compat_r; [exact RT|nums; lra]).
  assert (ET : eta <= 1 / 1000000000000000000000000000000) by (unfold eta; lra). unfold e29. set (t := sqrt (6 * eta)) in *. set (g := 3 / 10000000000000000 * (n + 4) * x) in *. clearbody t g. clear - RR RN UZ U2 U3 G NUX UX ST ET RT. absle; lra.
Qed.
Theorem C112_rms : forall L (l : list f64), l <> [] -> INR (length l) <= billion -> Forall (fun x : f64 => fin x /\ Rabs (V x) <= e24) l ->
  exists r : f64, math_sqrt (N:=F64 L) (div (Num:=F64 L) (sumn (N:=F64 L) (map (fun x : f64 => Bmult mode_NE x x) l)) (of_nat (N:=F64 L) (length l))) = Ok r /\
    fin r /\ Rabs (V r - rms (map V l)) <= 3 / 10000000000000000 * (INR (length l) + 4) * rms (map V l) + e29.
Proof.
  intros L l NE LB F. rewrite rms_ok. eexists. split; [reflexivity|]. apply root_of_mean; try assumption. apply left_to_right.
Qed.
(** the sum may be formed in any order and with any bracketing: numpy adds long arrays pairwise, eight at a time *)
Theorem C112_any_order :
  forall (l : list f64) (t : tree), l <> [] -> INR (length l) <= billion -> Forall (fun x : f64 => fin x /\ Rabs (V x) <= e24) l ->
    Permutation (leaves t) (map (fun x : f64 => Bmult mode_NE x x) l) ->
    let r := Bsqrt mode_NE (Bdiv mode_NE (added t) (f_of_Z (Z.of_nat (length l) * 1))) in
    fin r /\ Rabs (V r - rms (map V l)) <= 3 / 10000000000000000 * (INR (length l) + 4) * rms (map V l) + e29.
Proof. intros l t NE LB F P. apply root_of_mean; try assumption. now apply any_tree. Qed.
(** the exact errors of the pairs *)
Definition distances {L} (A B : list (@pose (F64 L))) : list R := map (fun ab => len3 (vsub (valv (pos (fst ab))) (valv (pos (snd ab))))) (combine A B).
Definition angles {L} (A B : list (@pose (F64 L))) : list R := map (fun ab => geodesic (val (ori (fst ab))) (val (ori (snd ab)))) (combine A B).

Lemma errors_of L (cfg : config (F64 L)) A B rp ro flags : evaluate_alignment cfg A B = Ok (rp, ro, flags) ->
  exists errs : list (@T (F64 L) * @T (F64 L)), length errs = length A /\ length A = length B /\
    Forall2 (fun e ab => compute_pose_error (fst ab) (snd ab) = Ok e) errs (combine A B) /\
    math_sqrt (N:=F64 L) (div (Num:=F64 L) (sumn (N:=F64 L) (map (fun x : f64 => Bmult mode_NE x x) (map (fun e => fst e : f64) errs))) (of_nat (N:=F64 L) (length (map (fun e => fst e : f64) errs)))) = Ok rp /\
    math_sqrt (N:=F64 L) (div (Num:=F64 L) (sumn (N:=F64 L) (map (fun x : f64 => Bmult mode_NE x x) (map (fun e => snd e : f64) errs))) (of_nat (N:=F64 L) (length (map (fun e => snd e : f64) errs)))) = Ok ro.
Proof.
  intros E. destruct (C31_flags cfg A B rp ro flags E) as (_ & LE & _). unfold evaluate_alignment in E. apply assert_ok in E as [_ E]. apply bind_ok in E as (errs & ER & E).
  apply bind_ok in E as (r1 & E1 & E). apply bind_ok in E as (r2 & E2 & E). assert (r1 = rp) by congruence. assert (r2 = ro) by congruence. subst r1 r2.
  assert (F : Forall2 (fun e ab => compute_pose_error (fst ab) (snd ab) = Ok e) errs (combine A B) /\ length errs = length A).
  { clear E E1 E2. revert B LE errs ER. induction A as [|a A IH]; intros [|b B] LE errs ER; try discriminate LE.
    - cbn [for_pairs] in ER. assert (errs = []) by congruence. subst. split; [constructor|reflexivity].
    - cbn [for_pairs] in ER. apply bind_ok in ER as (e & EE & ER). apply bind_ok in ER as (es & ES & ER). assert (errs = e :: es) by congruence. subst.
      injection LE as LE. destruct (IH B LE es ES) as [F LF]. split; [cbn [combine]; constructor; [exact EE|exact F]|exact (f_equal S LF)]. }
  destruct F as [F LF]. exists errs. split; [exact LF|]. split; [symmetry; exact LE|]. split; [exact F|].
  assert (L1 : length (map (fun e => fst e : f64) errs) = length A) by (etransitivity; [apply map_length|exact LF]).
  assert (L2 : length (map (fun e => snd e : f64) errs) = length A) by (etransitivity; [apply map_length|exact LF]).
  rewrite L1, L2, !map_map. split; [exact E1|exact E2].
Qed.
Lemma nonempty_combine {A B} (l : list A) (m : list B) : l <> [] -> length l = length m -> combine l m <> [].
Proof. destruct l, m; cbn; try congruence; discriminate. Qed.
Lemma in_both {A} (P : A -> Prop) (l m : list A) : Forall P l -> Forall P m -> Forall (fun ab => P (fst ab) /\ P (snd ab)) (combine l m).
Proof.
  intros F G. apply Forall_forall. intros [a b] I. rewrite Forall_forall in F, G. split; [apply F; eapply in_combine_l; exact I|apply G; eapply in_combine_r; exact I].
Qed.
Definition e23 : R := 100000000000000000000000.
Lemma len_sub_le v w : len3 (vsub v w) <= len3 v + len3 w.
Proof.
  rewrite <- !len_norm. pose proof (hnorm_triangle (RQ v 0) (hneg (RQ w 0))) as HT. rewrite hnorm_neg in HT.
  replace (hadd (RQ v 0) (hneg (RQ w 0))) with (RQ (vsub v w) 0) in HT; [exact HT|].
  destruct v, w. unfold hadd, hneg, vadd, vsub, vscale. cbn. f_equal; [f_equal|]; ring.
Qed.
Lemma error_fst {N : Num} (a b : @pose N) e : compute_pose_error a b = Ok e -> vnorm (vsub3 (pos a) (pos b)) = fst e.
Proof. unfold compute_pose_error. cbv zeta. destruct e as [e d]. intros H. injection H as H _. exact H. Qed.
(** The root mean square of the position errors *)
Theorem C112_position : forall L (cfg : config (F64 L)) A B rp ro flags M, evaluate_alignment cfg A B = Ok (rp, ro, flags) ->
  A <> [] -> INR (length A) <= billion -> M <= e23 -> Forall (usable M) A -> Forall (usable M) B ->
  fin (rp : f64) /\ Rabs (V rp - rms (distances A B)) <= 1 / 1000000000000000 * (INR (length A) + 14) * M + 5 / 1000000000000000000.
Proof.
  intros L cfg A B rp ro flags M E NE LB MB UA UB. destruct (errors_of L cfg A B rp ro flags E) as (errs & LE & LAB & F & E1 & _).
  pose proof (in_both _ _ _ UA UB) as UAB. unfold e23 in MB.
  assert (M0 : 0 <= M) by (destruct A as [|a A]; [now elim NE|]; inversion UA as [|? ? U _]; subst; destruct U as (_ & U & _); pose proof (sqrt_pos (dot3 (valv (pos a)) (valv (pos a)))) as S; unfold len3 in U; lra).
  assert (G : Forall2 (fun (x : f64) d => fin x /\ 0 <= d <= 2 * M /\ Rabs (V x - d) <= 1 / 100000000000000 * M + 4 / 1000000000000000000) (map (fun e => fst e : f64) errs) (distances A B)).
  { unfold distances. clear - F UAB MB M0. induction F as [|e ab es abs EE F IH]; [constructor|]. inversion UAB as [|? ? [(FA & BA & _) (FB & BB & _)] UAB']; subst. cbn [map]. constructor; [|now apply IH].
    pose proof (error_fst _ _ _ EE) as Q.
    destruct (distance_near L (pos (fst ab)) (pos (snd ab)) FA FB ltac:(unfold e24; lra) ltac:(unfold e24; lra)) as [FE DE]. rewrite Q in FE, DE.
    set (d := len3 (vsub (valv (pos (fst ab))) (valv (pos (snd ab))))) in *.
    assert (D0 : 0 <= d) by apply sqrt_pos. assert (D2 : d <= 2 * M) by (unfold d; eapply Rle_trans; [apply len_sub_le|]; lra).
    split; [exact FE|]. split; [lra|]. eapply Rle_trans; [exact DE|]. lra. }
  set (tol := 1 / 100000000000000 * M + 4 / 1000000000000000000) in *.
  assert (NX : map (fun e => fst e : f64) errs <> []) by (destruct errs; [destruct A; [now elim NE|discriminate LE]|discriminate]).
  assert (LX : length (map (fun e => fst e : f64) errs) = length A) by (now rewrite map_length).
  assert (FX : Forall (fun x : f64 => fin x /\ Rabs (V x) <= 2 * M + tol) (map (fun e => fst e : f64) errs)).
  { clear - G M0. induction G as [|x d l m (FX & D & H) G IH]; constructor; [|exact IH]. split; [exact FX|]. apply Rabs_le_inv in H. absle; unfold tol in *; lra. }
  destruct (C112_rms L (map (fun e => fst e : f64) errs) NX) as (r & ER & FR & DR).
  - rewrite LX. exact LB.
  - eapply Forall_impl; [|exact FX]. intros x (FX1 & BX). split; [exact FX1|]. eapply Rle_trans; [exact BX|]. unfold tol, e24. lra.
  - assert (r = rp) by (cbn [T F64] in *; congruence). subst r. split; [exact FR|]. rewrite LX in DR.
    assert (NV : map V (map (fun e => fst e : f64) errs) <> []) by (destruct errs; [now elim NX|discriminate]).
    assert (G' : Forall2 (fun x y => Rabs (x - y) <= tol) (map V (map (fun e => fst e : f64) errs)) (distances A B)).
    { clear - G. induction G as [|x d l m (_ & _ & H) G IH]; cbn [map]; constructor; [exact H|exact IH]. }
    pose proof (rms_near _ _ tol ltac:(unfold tol; lra) NV G') as RN.
    destruct (rms_bound (map V (map (fun e => fst e : f64) errs)) (2 * M + tol) NV) as [R0 R1].
    { clear - FX. induction FX as [|x l [_ H] F IH]; cbn [map]; constructor; [exact H|exact IH]. }
    set (R := rms (map V (map (fun e => fst e : f64) errs))) in *. set (n := INR (length A)) in *. assert (N0 : 0 <= n) by apply pos_INR. unfold billion in LB.
    assert (P : 3 / 10000000000000000 * (n + 4) * R <= 3 / 10000000000000000 * (n + 4) * (2 * M + tol)) by (apply Rmult_le_compat_l; lra).
    assert (NM : 0 <= n * M) by now apply Rmult_le_pos.
    replace (3 / 10000000000000000 * (n + 4) * (2 * M + tol)) with (6 / 10000000000000000 * (n * M + 4 * M) + 3 / 10000000000000000 * (n * tol + 4 * tol)) in P by lra.
    assert (NT : n * tol = 1 / 100000000000000 * (n * M) + 4 / 1000000000000000000 * n) by (unfold tol; lra). rewrite NT in P.
    replace (1 / 1000000000000000 * (n + 14) * M) with (1 / 1000000000000000 * (n * M) + 14 / 1000000000000000 * M) by lra.
    apply Rabs_le_inv in DR. apply Rabs_le_inv in RN. unfold e29 in DR. unfold tol in *. clear - DR RN P NM M0 N0 LB. absle; lra.
Qed.
Lemma geodesic_range p q : 0 <= geodesic p q <= 180.
Proof.
  unfold geodesic. pose proof PI_RGT_0 as P. set (c := Rabs (hdot (canon p) (canon q))). assert (C0 : 0 <= c) by apply Rabs_pos.
  assert (A : 0 <= acos c <= PI / 2).
  { split; [apply acos_bound|]. destruct (Rle_lt_dec c 1) as [C1|C1].
    - pose proof (acos_bound c) as B. destruct (Rle_lt_dec (acos c) (PI / 2)) as [|G]; [easy|]. exfalso.
      assert (cos (acos c) < cos (PI / 2)) by (apply cos_decreasing_1; lra). rewrite cos_acos, cos_PI2 in H by lra. lra.
    - unfold acos. destruct (Rle_dec c (-1)); [lra|]. destruct (Rle_dec 1 c); lra. }
  assert (E : PI * (180 / PI) = 180) by (field; lra). assert (K0 : 0 <= 180 / PI) by (apply Rmult_le_pos; [lra|left; now apply Rinv_0_lt_compat]).
  set (k := 180 / PI) in *. split; [apply Rmult_le_pos; lra|]. rewrite <- E. apply Rmult_le_compat_r; lra.
Qed.
Lemma snd_cases L (es : list (@T (F64 L) * @T (F64 L))) abs : arccosine L -> Forall (fun ab => usable e24 (fst ab) /\ usable e24 (snd ab)) abs ->
  Forall2 (fun e ab => compute_pose_error (fst ab) (snd ab) = Ok e) es abs ->
  (In (nan64 (L:=L) : f64) (map (fun e => snd e : f64) es) /\ Exists (fun g => g <= 1 / 10000) (map (fun ab => geodesic (val (ori (fst ab))) (val (ori (snd ab)))) abs)) \/
  Forall2 (fun (x : f64) g => fin x /\ Rabs (V x - g) <= 1 / 500) (map (fun e => snd e : f64) es) (map (fun ab => geodesic (val (ori (fst ab))) (val (ori (snd ab)))) abs).
Proof.
  intros AC U F. induction F as [|e ab es abs EE F IH]; [right; constructor|]. inversion U as [|? ? [UA UB] U']; subst. cbn [map].
  destruct (C108_pose_error L (fst ab) (snd ab) AC UA UB) as (e' & d' & E' & _ & _ & K). rewrite EE in E'.
  assert (Q : e = (e', d')) by congruence. subst e. cbn [snd]. set (g := geodesic (val (ori (fst ab))) (val (ori (snd ab)))) in *.
  destruct K as [(FD & D)|[(FD & D & G)|(-> & G)]].
  - destruct (IH U') as [[I1 I2]|I]; [left; split; [now right|now apply Exists_cons_tl]|right]. constructor; [|exact I]. split; [exact FD|]. lra.
  - destruct (IH U') as [[I1 I2]|I]; [left; split; [now right|now apply Exists_cons_tl]|right]. constructor; [|exact I]. split; [exact FD|].
    pose proof (geodesic_range (val (ori (fst ab))) (val (ori (snd ab)))) as G0. fold g in G0. rewrite D. absle; lra.
  - left. split; [now left|now apply Exists_cons_hd].
Qed.
(** The root mean square of the orientation errors: not a number if one of the errors is not, which takes orientations within
    0.0001 degrees *)
Theorem C112_orientation : forall L (cfg : config (F64 L)) A B rp ro flags, arccosine L -> evaluate_alignment cfg A B = Ok (rp, ro, flags) ->
  A <> [] -> INR (length A) <= billion -> Forall (usable e24) A -> Forall (usable e24) B ->
  (ro = nan64 /\ Exists (fun g => g <= 1 / 10000) (angles A B)) \/
  (fin (ro : f64) /\ Rabs (V ro - rms (angles A B)) <= 1 / 500 + 1 / 10000000000000 * (INR (length A) + 4)).
Proof.
  intros L cfg A B rp ro flags AC E NE LB UA UB. destruct (errors_of L cfg A B rp ro flags E) as (errs & LE & LAB & F & _ & E2).
  assert (LX : length (map (fun e => snd e : f64) errs) = length A) by (etransitivity; [apply map_length|exact LE]).
  assert (NX : map (fun e => snd e : f64) errs <> []) by (destruct errs; [destruct A; [now elim NE|discriminate LE]|discriminate]).
  destruct (snd_cases L errs (combine A B) AC (in_both _ _ _ UA UB) F) as [[I G]|G].
  - left. split; [|exact G]. rewrite rms_ok in E2. rewrite nan_sum in E2.
    + assert (Q : Ok (A:=f64) ro = Ok (B754_nan : f64)); [|injection Q as Q; exact Q]. etransitivity; [symmetry; exact E2|]. destruct (f_of_Z _); reflexivity.
    + right. apply in_map_iff. exists (B754_nan : f64). split; [reflexivity|exact I].
  - right. fold (angles A B) in G.
    assert (GR : Forall (fun g => 0 <= g <= 180) (angles A B)) by (apply Forall_forall; intros g I; apply in_map_iff in I as (ab & <- & _); apply geodesic_range).
    assert (FX : Forall (fun x : f64 => fin x /\ Rabs (V x) <= 181) (map (fun e => snd e : f64) errs)).
    { clear - G GR. induction G as [|x d l m (FX & H) G IH]; constructor; inversion GR; subst; [|now apply IH]. split; [exact FX|]. apply Rabs_le_inv in H. absle; lra. }
    destruct (C112_rms L (map (fun e => snd e : f64) errs) NX) as (r & ER & FR & DR).
    + rewrite LX. exact LB.
    + eapply Forall_impl; [|exact FX]. intros x (FX1 & BX). split; [exact FX1|]. unfold e24. lra.
    + assert (r = ro) by (cbn [T F64] in *; congruence). subst r. split; [exact FR|]. rewrite LX in DR.
      assert (NV : map V (map (fun e => snd e : f64) errs) <> []) by (destruct errs; [now elim NX|discriminate]).
      assert (G' : Forall2 (fun x y => Rabs (x - y) <= 1 / 500) (map V (map (fun e => snd e : f64) errs)) (angles A B)).
      { clear - G. induction G as [|x d l m (_ & H) G IH]; cbn [map]; constructor; [exact H|exact IH]. }
      pose proof (rms_near _ _ (1 / 500) ltac:(lra) NV G') as RN.
      destruct (rms_bound (map V (map (fun e => snd e : f64) errs)) 181 NV) as [R0 R1].
      { clear - FX. induction FX as [|x l [_ H] F IH]; cbn [map]; constructor; [exact H|exact IH]. }
      set (R := rms (map V (map (fun e => snd e : f64) errs))) in *. set (n := INR (length A)) in *. assert (N0 : 0 <= n) by apply pos_INR.
      assert (P : 3 / 10000000000000000 * (n + 4) * R <= 3 / 10000000000000000 * (n + 4) * 181) by (apply Rmult_le_compat_l; lra).
      apply Rabs_le_inv in DR. apply Rabs_le_inv in RN. unfold e29 in DR. clear - DR RN P N0. absle; lra.
Qed.
(** the exact errors of a calibration *)
Definition exact_distances (Bs Hs : list rdq) : list R := map (fun p => len3 (vsub (trans_of (fst p)) (trans_of (snd p)))) (combine Bs Hs).
Definition exact_angles (Bs Hs : list rdq) : list R := map (fun p => geodesic (dr (fst p)) (dr (snd p))) (combine Bs Hs).
Lemma told_pairs {L} K (pb pw : list (@pose (F64 L))) Bs Hs : Forall2 (tells K) pb Bs -> Forall2 (tells K) pw Hs -> Forall unitdq Bs -> Forall unitdq Hs ->
  Forall2 (fun x y => Rabs (x - y) <= 8 / 100000000000 * K) (distances pb pw) (exact_distances Bs Hs) /\
  Forall2 (fun x y => Rabs (x - y) <= 6 / 10000) (angles pb pw) (exact_angles Bs Hs).
Proof.
  intros T1. revert pw Hs. unfold distances, angles, exact_distances, exact_angles. induction T1 as [|a B pb Bs TA T1 IH]; intros pw Hs T2 UB UH; [split; constructor|].
  destruct T2 as [|b H pw Hs TB T2]; [split; constructor|]. inversion UB as [|? ? U1 UB']; subst. inversion UH as [|? ? U2 UH']; subst.
  destruct (IH pw Hs T2 UB' UH') as [I1 I2]. cbn [combine map fst snd]. destruct TA as (_ & DA & s & S & _ & DS). destruct TB as (_ & Db & t & T & _ & DT).
  split; constructor; try assumption.
  - pose proof (len_sub_near _ _ _ _ _ DA Db) as D1. lra.
  - exact (geodesic_near (val (ori a)) (val (ori b)) (dr B) (dr H) (unit_rot _ U1) (unit_rot _ U2) (ex_intro _ s (conj S DS)) (ex_intro _ t (conj T DT))).
Qed.
Lemma told_within {L} K (l : list (@pose (F64 L))) Ds : 1 <= K <= 500000 -> Forall (fun D => unitdq D /\ len3 (trans_of D) <= 4 * K) Ds -> Forall2 (tells K) l Ds -> Forall (usable (5 * K)) l.
Proof.
  intros KB F H. induction H as [|p D l Ds T H IH]; constructor; inversion F as [|? ? (U & B) F']; subst; [|exact (IH F')].
  destruct (tells_usable K p D KB U B T) as (FP & _ & N). split; [exact FP|]. split; [|exact N]. destruct T as (_ & DP & _).
  assert (Q : len3 (valv (pos p)) <= len3 (vsub (valv (pos p)) (trans_of D)) + len3 (trans_of D)); [|lra].
  rewrite <- !len_norm. pose proof (hnorm_triangle (RQ (vsub (valv (pos p)) (trans_of D)) 0) (RQ (trans_of D) 0)) as HT.
  replace (hadd (RQ (vsub (valv (pos p)) (trans_of D)) 0) (RQ (trans_of D) 0)) with (RQ (valv (pos p)) 0) in HT; [exact HT|].
  destruct (valv (pos p)), (trans_of D). unfold hadd, vadd, vsub. cbn. f_equal; [f_equal|]; ring.
Qed.
(** The two root mean square errors reported for a calibration *)
Theorem C112_calibration : forall L K (bs ws : list (@dquat (F64 L))) x Bs Ws X (cfg : config (F64 L)), 1 <= K <= 500000 -> arccosine L ->
  tracked K x X -> Forall2 (tracked K) bs Bs -> Forall2 (tracked K) ws Ws -> length bs = length ws -> bs <> [] -> INR (length bs) <= billion ->
  exists bs' pb pw rp ro flags, get_aligned_poses bs ws x = Ok (bs', pb, pw) /\ evaluate_alignment cfg pb pw = Ok (rp, ro, flags) /\
    fin (rp : f64) /\ Rabs (V rp - rms (exact_distances Bs (hand_path X Ws))) <= (1 / 10000000000 + 1 / 100000000000000 * INR (length bs)) * K /\
    ((ro = nan64 /\ Exists (fun g => g <= 1 / 1000) (exact_angles Bs (hand_path X Ws))) \/
     (fin (ro : f64) /\ Rabs (V ro - rms (exact_angles Bs (hand_path X Ws))) <= 3 / 1000 + 1 / 10000000000000 * INR (length bs))).
Proof.
  intros L K bs ws x Bs Ws X cfg KB AC TX FB FW LEN NE LB.
  destruct (C111_poses L K bs ws x Bs Ws X KB TX FB FW LEN NE) as (bs' & pb & pw & E & TB & TW).
  pose proof TX as (UX & LX & _). pose proof (tracked_bounds K bs Bs FB) as BB. pose proof (path_bounds X Ws K UX LX (tracked_bounds K ws Ws FW)) as BW.
  assert (BB4 : Forall (fun D => unitdq D /\ len3 (trans_of D) <= 4 * K) Bs) by (eapply Forall_impl; [|exact BB]; intros D (A & B); split; [exact A|lra]).
  pose proof (told_within K pb Bs KB BB4 TB) as UB. pose proof (told_within K pw _ KB BW TW) as UW.
  assert (LP : length pb = length pw).
  { rewrite (Forall2_len _ _ _ TB), (Forall2_len _ _ _ TW). rewrite <- (Forall2_len _ _ _ FB), LEN, (Forall2_len _ _ _ FW). destruct Ws; [reflexivity|]. unfold hand_path. now rewrite map_length. }
  assert (LL : length pb = length bs) by (now rewrite (Forall2_len _ _ _ TB), (Forall2_len _ _ _ FB)).
  assert (NP : pb <> []) by (destruct pb; [destruct bs; [now elim NE|discriminate LL]|discriminate]).
  destruct (C108_evaluation_total L cfg pb pw LP) as [[[rp ro] flags] EV].
  exists bs', pb, pw, rp, ro, flags. split; [exact E|]. split; [exact EV|].
  rewrite <- LL in LB. destruct (C112_position L cfg pb pw rp ro flags (5 * K) EV NP LB ltac:(unfold e23; lra) UB UW) as [FP DP].
  assert (UBu : Forall unitdq Bs) by (eapply Forall_impl; [|exact BB4]; intros D (A & _); exact A). assert (UWu : Forall unitdq (hand_path X Ws)) by (eapply Forall_impl; [|exact BW]; intros D (A & _); exact A).
  destruct (told_pairs K pb pw Bs _ TB TW UBu UWu) as [G1 G2].
  assert (NC : combine pb pw <> []) by now apply nonempty_combine.
  assert (ND : distances pb pw <> []) by (unfold distances; destruct (combine pb pw); [now elim NC|discriminate]). assert (NA : angles pb pw <> []) by (unfold angles; destruct (combine pb pw); [now elim NC|discriminate]).
  rewrite <- LL. set (n := INR (length pb)) in *. assert (N0 : 0 <= n) by apply pos_INR.
  split; [exact FP|]. split.
  - pose proof (rms_near _ _ (8 / 100000000000 * K) ltac:(lra) ND G1) as RN. assert (NK : 0 <= n * K) by (apply Rmult_le_pos; lra).
    replace (1 / 1000000000000000 * (n + 14) * (5 * K)) with (5 / 1000000000000000 * (n * K) + 70 / 1000000000000000 * K) in DP by lra.
    replace ((1 / 10000000000 + 1 / 100000000000000 * n) * K) with (1 / 10000000000 * K + 1 / 100000000000000 * (n * K)) by ring.
    apply Rabs_le_inv in DP. apply Rabs_le_inv in RN. clear - DP RN NK KB. absle; lra.
  - assert (W : forall l : list (@pose (F64 L)), Forall (usable (5 * K)) l -> Forall (usable e24) l) by (intros l Q; eapply Forall_impl; [|exact Q]; intros p; apply usable_weaken; unfold e24; lra).
    destruct (C112_orientation L cfg pb pw rp ro flags AC EV NP LB (W _ UB) (W _ UW)) as [[R G]|[FR DR]].
    + left. split; [exact R|]. clear - G G2. induction G2 as [|x y l m H G2 IH]; [inversion G|]. inversion G; subst; [apply Exists_cons_hd|apply Exists_cons_tl; now apply IH].
      apply Rabs_le_inv in H. lra.
    + right. split; [exact FR|]. pose proof (rms_near _ _ (6 / 10000) ltac:(lra) NA G2) as RN. fold n in DR. apply Rabs_le_inv in DR. apply Rabs_le_inv in RN. clear - DR RN N0. absle; lra.
Qed.
(** Three errors of 3, 4 and 12 *)
Example C112_example : forall L, exists r : f64, math_sqrt (N:=F64 L) (div (Num:=F64 L) (sumn (N:=F64 L) (map (fun x : f64 => Bmult mode_NE x x) [f_of_Z 3; f_of_Z 4; f_of_Z 12])) (of_nat (N:=F64 L) 3)) = Ok r /\
  fin r /\ Rabs (V r - sqrt (169 / 3)) <= 1 / 10000000000000.
Proof.
  intros L. destruct (of_Z_V 3 ltac:(lia)) as [F3 V3]. destruct (of_Z_V 4 ltac:(lia)) as [F4 V4]. destruct (of_Z_V 12 ltac:(lia)) as [F12 V12].
  destruct (C112_rms L [f_of_Z 3; f_of_Z 4; f_of_Z 12] ltac:(discriminate)) as (r & E & F & D).
  - cbn [length INR]. unfold billion. lra.
  - assert (B : forall k : f64, fin k -> 0 <= V k <= 12 -> fin k /\ Rabs (V k) <= e24) by (intros k Fk Bk; split; [exact Fk|rewrite Rabs_pos_eq by lra; unfold e24; lra]).
    repeat apply Forall_cons; try apply Forall_nil; apply B; try assumption; rewrite ?V3, ?V4, ?V12; lra.
  - exists r. split; [exact E|]. split; [exact F|]. cbn [map] in D. rewrite V3, V4, V12 in D.
    assert (R : rms [3; 4; 12] = sqrt (169 / 3)) by (unfold rms; cbn [map total length INR]; f_equal; lra). rewrite R in D. cbn [length INR] in D.
    assert (S : sqrt (169 / 3) <= 8) by (rewrite <- (sqrt_square 8) by lra; apply sqrt_le_1_alt; lra). pose proof (sqrt_pos (169 / 3)) as S0. unfold e29 in D. apply Rabs_le_inv in D. absle; lra.
Qed.
