(** * Properties C40 (quaternion resampling), C41 (aligned poses), C42 (mean step and grid). *)

From Coq Require Import Reals ZArith Bool List Lra Lia Psatz Permutation.
From Verif Require Import Num Py XReal XFacts Quat DualQuat TimeAlign Spec TimeSpec Embed QuatFacts QuatTrig
  ListFacts TimeFacts ResampleFacts PropTimeOffset.
Import ListNotations.
Local Open Scope R_scope.

Lemma Forall2_weaken {A B} (P Q : A -> B -> Prop) l k :
  (forall a b, P a b -> Q a b) -> Forall2 P l k -> Forall2 Q l k.
Proof. intros H F. induction F; constructor; auto. Qed.

(** ** C40 *)
(** In-range samples: one quaternion per sample; the quaternion of the next stamp if that stamp is
    within 1e-16 + 1e-5*|stamp|, the proportional slerp of the two neighbours otherwise
    ([resampled], ResampleFacts.v). *)
Theorem C40_resample : forall times qs samples,
  times <> [] -> sorted times -> length qs = length times -> Forall unitq qs ->
  Forall (fun s => hd 0 times <= s <= last times 0) samples ->
  exists out, resample_quaternions_from_samples (map Fin times) (inQs qs) (map Fin samples) = Ok (inQs out) /\
    Forall2 (resampled times qs) samples out.
Proof.
  intros times qs samples NE SO LQ UQ F. unfold resample_quaternions_from_samples.
  induction F as [|s samples H F IH]; [now exists []|]. destruct IH as (out & E & F2).
  destruct (resample_in times qs s NE SO LQ UQ H) as (q & Q & RQ).
  exists (q :: out). split; [|now constructor]. cbn [map mapM]. change (@T XR) with xr in *. rewrite Q. cbn [bind].
  rewrite E. reflexivity.
Qed.
(** An out-of-range sample raises. *)
Theorem C40_out_of_range : forall times qs samples,
  times <> [] -> sorted times -> length qs = length times -> Forall unitq qs ->
  Exists (fun s => s < hd 0 times \/ last times 0 < s) samples ->
  resample_quaternions_from_samples (map Fin times) (inQs qs) (map Fin samples) = Err AssertionError.
Proof.
  intros times qs samples NE SO LQ UQ. unfold resample_quaternions_from_samples.
  induction samples as [|s samples IH]; intros EX; [inversion EX|].
  assert (NE' : map Fin times <> []) by (destruct times; easy).
  cbn [map mapM]. destruct (Rle_dec (hd 0 times) s) as [L1|L1], (Rle_dec s (last times 0)) as [L2|L2].
  - destruct (resample_in times qs s NE SO LQ UQ (conj L1 L2)) as (q & Q & _). change (@T XR) with xr in *.
    rewrite Q. cbn [bind]. rewrite IH; [easy|]. inversion EX; subst; [lra|easy].
  - unfold resample_one. change (@T XR) with xr. rewrite (py_index_last _ (Fin 0) NE'), last_map_fin by easy.
    cbn [bind leb XR xleb]. rewrite assert_false by (apply Rleb_f; lra). easy.
  - unfold resample_one. change (@T XR) with xr. rewrite (py_index_last _ (Fin 0) NE'), last_map_fin by easy.
    cbn [bind leb XR xleb]. rewrite assert_true by (now apply Rleb_t).
    change 0%Z with (Z.of_nat 0). rewrite py_index_nat.
    replace (index (map Fin times) 0) with (Ok (Fin (hd 0 times))) by now destruct times. cbn [bind].
    rewrite assert_false by (apply Rleb_f; lra). easy.
  - unfold resample_one. change (@T XR) with xr. rewrite (py_index_last _ (Fin 0) NE'), last_map_fin by easy.
    cbn [bind leb XR xleb]. rewrite assert_false by (apply Rleb_f; lra). easy.
Qed.
(** The defect: when every gap between consecutive stamps is at most 1e-5 of the (later) stamp's
    absolute value, nothing is ever interpolated: each result is the quaternion of the next stamp. *)
Theorem C40_never_interpolates : forall times qs samples out,
  times <> [] -> sorted times -> length qs = length times -> Forall unitq qs ->
  Forall (fun s => hd 0 times <= s <= last times 0) samples ->
  (forall k a b, nth_error times k = Some a -> nth_error times (S k) = Some b -> b - a <= 1 / 100000 * Rabs b) ->
  resample_quaternions_from_samples (map Fin times) (inQs qs) (map Fin samples) = Ok (inQs out) ->
  Forall2 (fun s q => exists r t, first_from times s r t /\ nth_error qs r = Some q) samples out.
Proof.
  intros times qs samples out NE SO LQ UQ F GAP H.
  destruct (C40_resample times qs samples NE SO LQ UQ F) as (out' & E & F2). rewrite E in H.
  assert (out' = out) as ->.
  { injection H as H. clear - H. unfold inQs in H. revert out H. induction out' as [|q l IH]; intros [|q' l'] H; try discriminate; [easy|].
    cbn [map] in H. apply (f_equal (fun l => (hd (inQ q) l, tl l))) in H. cbn [hd tl] in H. injection H as H0a H0b H0c H0d H1.
    f_equal; [|now apply IH]. destruct q as [[] ?], q' as [[] ?]. cbn in *. congruence. }
  eapply Forall2_weaken; [|exact F2]. intros s q RS. destruct RS as [r t q FF Q _|k tl0 tr ql qr q FF TL [S1 S2] QL QR C SL].
  - now exists r, t.
  - exfalso. destruct FF as (TR & _). pose proof (GAP k tl0 tr TL TR). pose proof (Rabs_pos tr). lra.
Qed.
(** e.g. Unix time stamps (from 2001 on) with gaps of up to 10000 seconds *)
Theorem C40_unix_time : forall times qs samples out,
  times <> [] -> sorted times -> length qs = length times -> Forall unitq qs ->
  Forall (fun s => hd 0 times <= s <= last times 0) samples ->
  1000000000 <= hd 0 times ->
  (forall k a b, nth_error times k = Some a -> nth_error times (S k) = Some b -> b - a <= 10000) ->
  resample_quaternions_from_samples (map Fin times) (inQs qs) (map Fin samples) = Ok (inQs out) ->
  Forall2 (fun s q => exists r t, first_from times s r t /\ nth_error qs r = Some q) samples out.
Proof.
  intros times qs samples out NE SO LQ UQ F BIG GAP H. eapply C40_never_interpolates; eauto.
  intros k a b A B. pose proof (GAP k a b A B). destruct times as [|t0 times]; [easy|]. cbn [hd] in BIG.
  pose proof (SO 0%nat (S k) t0 b ltac:(lia) eq_refl B). rewrite Rabs_pos_eq by lra. lra.
Qed.
(** one quaternion per sample, whatever the arithmetic *)
Theorem C40_length : forall (N : Num) times qs samples out,
  resample_quaternions_from_samples (N:=N) times qs samples = Ok out -> length out = length samples.
Proof. intros N times qs samples out H. now apply mapM_length in H. Qed.

(** ** C42 *)
Theorem C42_mean_step : forall times, (2 <= length times)%nat ->
  mean (N:=XR) (diff (N:=XR) (map Fin times)) = Fin ((last times 0 - hd 0 times) / INR (length times - 1)).
Proof. intros times L. now apply mean_step_in. Qed.

(** the equally spaced grid of n + 1 >= 2 points from a to b *)
Definition grid (a b : R) (n : nat) : list R := map (fun i => a + INR i * ((b - a) / INR n)) (seq 0 (S n)).

Lemma linspace_in a b x : 0 <= x ->
  linspace (N:=XR) (Fin a) (Fin b) (Fin x) =
  Ok (map Fin (match Z.to_nat (Int_part x) with O => [] | S O => [a] | S n => grid a b n end)).
Proof.
  intros X. unfold linspace. cbn [trunc XR xtrunc]. destruct (Rlt_dec x 0); [lra|].
  assert (IP : (0 <= Int_part x)%Z).
  { destruct (base_Int_part x) as [B1 B2]. apply Z.lt_succ_r. apply lt_IZR. rewrite succ_IZR. lra. }
  destruct (Z.ltb_spec (Int_part x) 0); [lia|].
  destruct (Z.to_nat (Int_part x)) as [|[|d]] eqn:E; [easy| |].
  - cbn [map]. cbn [sub XR xsub mul add]. unfold n0. cbn [lit XR xmul xadd]. change (Rlit 0 0) with 0. do 3 f_equal. ring.
  - cbn [sub XR xsub div]. f_equal. unfold grid. rewrite (seq_S (S d) 0).
    rewrite (map_app _ (seq 0 (S d))), (map_app Fin). f_equal.
    + rewrite map_map. apply map_ext. intros i. rewrite !of_nat_fin, xdiv_fin by (apply not_0_INR; lia).
      cbn [mul add XR xmul xadd]. f_equal. ring.
    + cbn [map]. do 2 f_equal. rewrite Nat.add_0_l. assert (INR (S d) <> 0) by (apply not_0_INR; lia). field. easy.
Qed.
(** resample_quaternions samples on such a grid from the first to the last stamp; its step is not
    smaller than the requested dt and less than 2 dt. *)
Theorem C42_grid : forall times qs dt out samples,
  times <> [] -> sorted times -> 0 < dt <= last times 0 - hd 0 times ->
  resample_quaternions (map Fin times) qs (Fin dt) = Ok (out, samples) ->
  exists n, (1 <= n)%nat /\ samples = map Fin (grid (hd 0 times) (last times 0) n) /\
    dt <= (last times 0 - hd 0 times) / INR n < 2 * dt /\ length out = S n.
Proof.
  intros times qs dt out samples NE SO [D1 D2] H. unfold resample_quaternions in H.
  assert (NE' : map Fin times <> []) by (destruct times; easy). change (@T XR) with xr in H.
  rewrite (py_index_last _ (Fin 0) NE'), last_map_fin in H by easy. cbn [bind] in H.
  change 0%Z with (Z.of_nat 0) in H. rewrite py_index_nat in H.
  replace (index (map Fin times) 0) with (Ok (Fin (hd 0 times))) in H by now destruct times.
  set (len := last times 0 - hd 0 times) in *. cbn [bind sub XR xsub div] in H. fold len in H.
  rewrite xdiv_fin in H by lra. unfold n1 in H. cbn [lit add XR xadd] in H. change (Rlit 1 0) with 1 in H.
  assert (Q : 1 <= len / dt).
  { apply (Rmult_le_reg_r dt); [lra|]. unfold Rdiv. rewrite Rmult_assoc, Rinv_l by lra. lra. }
  change (linspace (N:=XR) _ _ _) with (linspace (N:=XR) (Fin (hd 0 times)) (Fin (last times 0)) (Fin (len / dt + 1))) in H.
  rewrite linspace_in in H by lra. cbn [bind] in H.
  destruct (base_Int_part (len / dt + 1)) as [B1 B2]. set (z := Int_part (len / dt + 1)) in *.
  assert (Z2 : (2 <= z)%Z) by (apply Z.lt_succ_r; apply lt_IZR; rewrite succ_IZR; lra).
  destruct (Z.to_nat z) as [|[|d]] eqn:E; try lia. set (n := S d) in *.
  apply bind_ok in H as (o & RO & H). injection H as -> <-. exists n. split; [unfold n; lia|]. split; [easy|].
  assert (IN : INR n = IZR z - 1).
  { rewrite INR_IZR_INZ, <- minus_IZR. f_equal. unfold n. lia. }
  assert (NP : 1 <= INR n) by (rewrite IN; pose proof (IZR_le _ _ Z2); lra).
  split.
  - assert (LE : INR n * dt <= len).
    { rewrite IN. assert (T1 : IZR z - 1 <= len / dt) by lra. apply (Rmult_le_compat_r dt) in T1; [|lra].
      unfold Rdiv in T1. rewrite Rmult_assoc, Rinv_l in T1 by lra. lra. }
    assert (GT : len < (INR n + 1) * dt).
    { rewrite IN. assert (T1 : len / dt < IZR z) by lra. apply (Rmult_lt_compat_r dt) in T1; [|lra].
      unfold Rdiv in T1. rewrite Rmult_assoc, Rinv_l in T1 by lra. lra. }
    split.
    + apply (Rmult_le_reg_r (INR n)); [lra|]. unfold Rdiv. rewrite Rmult_assoc, Rinv_l by lra. lra.
    + apply (Rmult_lt_reg_r (INR n)); [lra|]. unfold Rdiv. rewrite Rmult_assoc, Rinv_l by lra. nra.
  - apply C40_length in RO. rewrite RO, map_length. unfold grid. now rewrite map_length, seq_length.
Qed.

(** ** Examples *)
(** the step is 1.5 s: too coarse a request is rounded to a whole number of steps *)
Example C42_example : exists out,
  resample_quaternions (map Fin [0; 1; 3]) (inQs [hone; hone; hone]) (Fin (5 / 4)) =
    Ok (out, map Fin [0; 3 / 2; 3]) /\ length out = 3%nat.
Proof.
  assert (SO : sorted [0; 1; 3]).
  { intros [|[|[|i]]] [|[|[|j]]] a b L A B; try lia; cbn in A, B; try (destruct i; discriminate); try (destruct j; discriminate);
      injection A as <-; injection B as <-; lra. }
  assert (UH : unitq hone) by (unfold unitq, hnorm2, hdot, dot3, hone, vzero; cbn; lra).
  assert (RQ : exists out samples, resample_quaternions (map Fin [0; 1; 3]) (inQs [hone; hone; hone]) (Fin (5 / 4)) = Ok (out, samples)).
  { unfold resample_quaternions. cbn [map py_index length index nth_error bind Z.of_nat].
    change (py_index [Fin 0; Fin 1; Fin 3] (-1)) with (Ok (Fin 3)). change (py_index [Fin 0; Fin 1; Fin 3] 0) with (Ok (Fin 0)). cbn [bind sub XR xsub div].
    rewrite xdiv_fin by lra. unfold n1. cbn [lit add XR xadd]. change (Rlit 1 0) with 1.
    set (x := (3 - 0) / (5 / 4) + 1).
    change (linspace (N:=XR) _ _ _) with (linspace (N:=XR) (Fin 0) (Fin 3) (Fin x)). rewrite linspace_in by (unfold x; lra).
    assert (IP : Int_part x = 3%Z).
    { destruct (base_Int_part x) as [B1 B2]. assert (I1 : IZR (Int_part x) < IZR 4) by (unfold x in *; lra).
      assert (I2 : IZR 2 < IZR (Int_part x)) by (unfold x in *; lra). apply lt_IZR in I1, I2. lia. }
    change (@T XR) with xr. rewrite IP. cbn [bind]. change (Z.to_nat 3) with 3%nat. cbn iota beta.
    destruct (C40_resample [0; 1; 3] [hone; hone; hone] (grid 0 3 2)) as (out & E & _); try easy.
    { repeat constructor; exact UH. } { cbn. repeat constructor; lra. }
    change (map Fin [0; 1; 3]) with [Fin 0; Fin 1; Fin 3] in E. change (@T XR) with xr in *.
    eexists. eexists. rewrite E. reflexivity. }
  destruct RQ as (out & samples & E).
  destruct (C42_grid [0; 1; 3] _ (5 / 4) out samples ltac:(easy) SO ltac:(cbn; lra) E) as (n & N1 & -> & (B1 & B2) & L).
  cbn [last hd] in *. assert (n = 2)%nat.
  { assert (P : 0 < INR n) by (apply lt_0_INR; lia).
    assert (M1 : 5 / 4 * INR n <= 3). { apply (Rmult_le_compat_r (INR n)) in B1; [|lra]. unfold Rdiv in B1 at 2. rewrite Rmult_assoc, Rinv_l in B1 by lra. lra. }
    assert (M2 : 3 < 2 * (5 / 4) * INR n). { apply (Rmult_lt_compat_r (INR n)) in B2; [|lra]. unfold Rdiv in B2 at 1. rewrite Rmult_assoc, Rinv_l in B2 by lra. lra. }
    assert (INR n < INR 3) by (cbn; lra). assert (INR 1 < INR n) by (cbn; lra). apply INR_lt in H, H0. lia. }
  subst n. exists out. split; [|exact L]. rewrite E. do 2 f_equal. unfold grid. cbn [seq map]. cbn [INR].
  f_equal; [f_equal; lra|]. f_equal; [f_equal; lra|]. f_equal. f_equal. lra.
Qed.
(** with small stamps the sample half way between two orientations is interpolated, with Unix time
    stamps the next orientation is returned *)
Definition half_turn_z : rq := RQ (RV 0 0 1) 0.
Lemma half_turn_z_unit : unitq half_turn_z.
Proof. unfold unitq, hnorm2, hdot, dot3, half_turn_z; cbn; lra. Qed.
Example C40_example :
  (exists q, resample_quaternions_from_samples (map Fin [0; 1]) (inQs [hone; half_turn_z]) (map Fin [1 / 2]) = Ok [inQ q] /\
     quaternion_slerp (inQ hone) (inQ half_turn_z) (Fin (1 / 2)) = Ok (inQ q)) /\
  resample_quaternions_from_samples (map Fin [1500000000; 1500000001]) (inQs [hone; half_turn_z]) (map Fin [1500000000 + 1 / 2])
    = Ok [inQ half_turn_z] /\
  resample_quaternions_from_samples (map Fin [0; 1]) (inQs [hone; half_turn_z]) (map Fin [2]) = Err AssertionError.
Proof.
  assert (UH : unitq hone) by (unfold unitq, hnorm2, hdot, dot3, hone, vzero; cbn; lra).
  pose proof half_turn_z_unit as UZ.
  assert (SO : forall x y, x <= y -> sorted [x; y]).
  { intros x y L [|[|i]] [|[|j]] a b Q A B; try lia; cbn in A, B; try (destruct i; discriminate); try (destruct j; discriminate);
      injection A as <-; injection B as <-; lra. }
  assert (FU : Forall unitq [hone; half_turn_z]) by (repeat constructor; easy).
  split; [|split].
  - destruct (C40_resample [0; 1] [hone; half_turn_z] [1 / 2]) as (out & E & F); try easy; [apply SO; lra|repeat constructor; cbn; lra|].
    inversion F as [|? q ? l RS F']; subst. inversion F'; subst. exists q. split; [exact E|].
    inversion RS as [r t q' FF Q C|k tl0 tr ql qr q' FF TL TS QL QR C SL]; subst.
    + exfalso. destruct FF as (F1 & F2 & F3). destruct r as [|[|r]]; cbn in F1; [injection F1 as <-; lra| |destruct r; discriminate].
      injection F1 as <-. rewrite Rabs_R1 in C. lra.
    + destruct k as [|k]; [|destruct k; discriminate QR]. cbn in TL, QL, QR. destruct FF as (F1 & _). cbn in F1.
      injection TL as <-. injection QL as <-. injection QR as <-. injection F1 as <-. rewrite <- SL. do 2 f_equal. field.
  - destruct (C40_resample [1500000000; 1500000001] [hone; half_turn_z] [1500000000 + 1 / 2]) as (out & E & F); try easy; [apply SO; lra|repeat constructor; cbn; lra|].
    pose proof (C40_unix_time [1500000000; 1500000001] [hone; half_turn_z] [1500000000 + 1 / 2] out) as H.
    assert (F2 := H ltac:(easy) (SO 1500000000 1500000001 ltac:(lra)) ltac:(easy) FU ltac:(repeat constructor; cbn; lra) ltac:(cbn; lra)).
    clear H. inversion F as [|? q ? l RS F']; subst. inversion F'; subst. rewrite E.
    assert (G : Forall2 (fun s q => exists r t, first_from [1500000000; 1500000001] s r t /\ nth_error [hone; half_turn_z] r = Some q) [1500000000 + 1 / 2] [q]).
    { apply F2; [|exact E]. intros [|k] a b A B; cbn in A, B; [injection A as <-; injection B as <-; lra|destruct k; discriminate]. }
    inversion G as [|? ? ? ? (r & t & (R1 & R2 & R3) & RQ) _]; subst.
    destruct r as [|[|r]]; cbn in R1, RQ; [injection R1 as <-; lra| |destruct r; discriminate]. injection RQ as <-. reflexivity.
  - apply C40_out_of_range; try easy; [apply SO; lra|]. constructor. cbn. lra.
Qed.
