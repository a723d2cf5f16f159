(** * Property C39: the time offset between two signals. *)

From Coq Require Import Reals ZArith Bool List Lra Lia Psatz.
From Verif Require Import Num Py XReal XFacts TimeAlign Spec TimeSpec TimeFacts ListFacts.
Import ListNotations.
Local Open Scope R_scope.

(** the mean step of a list of time stamps *)
Definition mean_step (times : list R) : R := (last times 0 - hd 0 times) / INR (length times - 1).

Lemma last_any (l : list R) a b : l <> [] -> last l a = last l b.
Proof. induction l as [|u l IH]; [easy|]. intros _. destruct l; [easy|]. cbn [last]. apply IH. easy. Qed.
Lemma mean_step_in l : (2 <= length l)%nat -> mean (N:=XR) (diff (N:=XR) (map Fin l)) = Fin (mean_step l).
Proof.
  destruct l as [|x [|y t]]; cbn [length]; try lia. intros _. rewrite mean_diff_in. unfold mean_step.
  cbn [hd length]. rewrite Nat.sub_succ, Nat.sub_0_r. change (last (x :: y :: t) 0) with (last (y :: t) 0).
  now rewrite (last_any (y :: t) x 0).
Qed.

(** The result is the smallest lag (in samples of A) that maximises the cross correlation, times the
    mean step of A, plus the difference of the first stamps. *)
Theorem C39_maximal_lag : forall times_A a times_B b,
  (2 <= length times_A)%nat -> times_B <> [] -> a <> [] -> b <> [] ->
  exists m, lag_range a b m /\
    (forall k, lag_range a b k -> xcorr a b k <= xcorr a b m /\ ((k < m)%Z -> xcorr a b k < xcorr a b m)) /\
    calculate_time_offset_from_signals (map Fin times_A) (map Fin a) (map Fin times_B) (map Fin b) =
      Ok (Fin (mean_step times_A * IZR m + hd 0 times_B - hd 0 times_A)).
Proof.
  intros tA a tB b LA NB NA NBb. unfold calculate_time_offset_from_signals.
  rewrite correlate_in by easy. set (n := (length b + length a - 1)%nat).
  set (f := fun k => xcorr a b (Z.of_nat k - Z.of_nat (length a) + 1)).
  assert (LB : (0 < length b)%nat) by (destruct b; [easy|cbn; lia]).
  assert (LAp : (0 < length a)%nat) by (destruct a; [easy|cbn; lia]).
  destruct (argmax_spec (map f (seq 0 n))) as (i & v & E & V & MX).
  { intros H. apply (f_equal (@length R)) in H. rewrite map_length, seq_length in H. cbn in H. unfold n in H. lia. }
  assert (AT : forall j, (j < n)%nat -> nth_error (map f (seq 0 n)) j = Some (f j)).
  { intros j Hj. rewrite nth_error_map, (nth_error_nth' _ 0%nat) by now rewrite seq_length. cbn. now rewrite seq_nth. }
  assert (Hi : (i < n)%nat).
  { assert (L : nth_error (map f (seq 0 n)) i <> None) by congruence.
    apply nth_error_Some in L. now rewrite map_length, seq_length in L. }
  rewrite AT in V by easy. injection V as <-. rewrite E, map_length. cbn [bind].
  exists (Z.of_nat i - Z.of_nat (length a) + 1)%Z. split; [unfold lag_range; lia|]. split.
  - intros k Hk. unfold lag_range in Hk. set (j := Z.to_nat (k + Z.of_nat (length a) - 1)).
    assert (J : (j < n)%nat) by lia. destruct (MX j (f j) (AT j J)) as [M1 M2]. unfold f in M1, M2 at 1.
    replace (Z.of_nat j - Z.of_nat (length a) + 1)%Z with k in * by lia. split; [exact M1|].
    intros KM. unfold f in M2. apply M2. lia.
  - rewrite mean_step_in by easy. destruct tB as [|b0 tB]; [easy|]. destruct tA as [|a0 tA]; [cbn in LA; lia|].
    cbn [map index nth_error bind hd]. reflexivity.
Qed.

(** If B is a copy of A delayed by k samples (k may be negative), scaled by any positive gain, the
    lag found is exactly k. *)
Theorem C39_delayed_copy : forall times_A a times_B b k gain,
  (2 <= length times_A)%nat -> times_B <> [] -> 0 < gain ->
  (exists i, sig_at a i <> 0) -> (forall i, sig_at b (i + k) = gain * sig_at a i) ->
  calculate_time_offset_from_signals (map Fin times_A) (map Fin a) (map Fin times_B) (map Fin b) =
    Ok (Fin (mean_step times_A * IZR k + hd 0 times_B - hd 0 times_A)).
Proof.
  intros tA a tB b k gain LA NB G (i0 & NZ) SH.
  assert (I0 : (0 <= i0 < Z.of_nat (length a))%Z).
  { destruct (Z_lt_ge_dec i0 0), (Z_lt_ge_dec i0 (Z.of_nat (length a))); try lia; destruct NZ; apply sig_out; lia. }
  assert (NZb : sig_at b (i0 + k) <> 0) by (rewrite SH; intros E; apply Rmult_integral in E; destruct E; [lra|easy]).
  assert (I1 : (0 <= i0 + k < Z.of_nat (length b))%Z).
  { destruct (Z_lt_ge_dec (i0 + k) 0), (Z_lt_ge_dec (i0 + k) (Z.of_nat (length b))); try lia; destruct NZb; apply sig_out; lia. }
  assert (NA : a <> []) by (intros ->; cbn in I0; lia).
  assert (NBb : b <> []) by (intros ->; cbn in I1; lia).
  destruct (C39_maximal_lag tA a tB b LA NB NA NBb) as (m & MR & MX & ->).
  assert (X : forall j, xcorr a b j = gain * xcorr a a (j - k)).
  { intros j. rewrite (xcorr_zsum a b j 0 (length a)), (xcorr_zsum a a (j - k) 0 (length a)) by lia.
    rewrite <- zsum_scal. apply zsum_ext. intros i _. replace (i + j)%Z with (i + (j - k) + k)%Z by lia. rewrite SH. ring. }
  assert (KR : lag_range a b k) by (unfold lag_range; lia).
  destruct (Z.eq_dec m k) as [->|NE]; [easy|exfalso].
  destruct (MX k KR) as [M _]. rewrite !X in M. replace (k - k)%Z with 0%Z in M by lia.
  pose proof (autocorr_strict a (m - k) ltac:(lia) (ex_intro _ i0 NZ)). nra.
Qed.

(** Shifting the clocks shifts the result by the difference of the shifts (any signals). *)
Theorem C39_clock_shift : forall times_A a times_B b cA cB r,
  (2 <= length times_A)%nat -> times_B <> [] -> a <> [] -> b <> [] ->
  calculate_time_offset_from_signals (map Fin times_A) (map Fin a) (map Fin times_B) (map Fin b) = Ok (Fin r) ->
  calculate_time_offset_from_signals (map Fin (map (Rplus cA) times_A)) (map Fin a)
    (map Fin (map (Rplus cB) times_B)) (map Fin b) = Ok (Fin (r + cB - cA)).
Proof.
  intros tA a tB b cA cB r LA NB NA NBb H. revert H. unfold calculate_time_offset_from_signals.
  destruct (argmax _) as [i|]; [|discriminate]. cbn [bind].
  rewrite !mean_step_in by now rewrite ?map_length.
  assert (MS : mean_step (map (Rplus cA) tA) = mean_step tA).
  { unfold mean_step. rewrite map_length. f_equal. destruct tA as [|x t]; [cbn in LA; lia|].
    assert (L : forall l d, l <> [] -> last (map (Rplus cA) l) d = cA + last l d).
    { clear. induction l as [|u l IH]; intros d; [easy|]. intros _. destruct l as [|w l]; [easy|].
      change (last (map (Rplus cA) (u :: w :: l)) d) with (last (map (Rplus cA) (w :: l)) d). now rewrite IH. }
    rewrite L by easy. cbn [hd map]. lra. }
  rewrite MS. destruct tB as [|b0 tB]; [easy|]. destruct tA as [|a0 tA]; [cbn in LA; lia|].
  cbn [map index nth_error bind]. cbn [mul add sub XR xmul xadd xsub lit]. intros [= <-]. do 2 f_equal. unfold Rlit. set (u := IZR _). generalize (mean_step (a0 :: tA)). intros; cbn beta iota. lra.
Qed.

(** An empty signal raises ValueError. *)
Theorem C39_empty : forall (N : Num) times_A a times_B b, a = [] \/ b = [] ->
  calculate_time_offset_from_signals (N:=N) times_A a times_B b = Err ValueError.
Proof. intros N tA a tB b [->| ->]; [destruct b|]; reflexivity. Qed.

(** a pulse of three samples, delayed by two and by minus one *)
Example C39_example :
  calculate_time_offset_from_signals (map Fin [0; 1; 2]) (map Fin [1; 3; 2]) (map Fin [10]) (map Fin [0; 0; 1; 3; 2]) = Ok (Fin 12) /\
  calculate_time_offset_from_signals (map Fin [0; 1; 2]) (map Fin [0; 3; 2]) (map Fin [10]) (map Fin [6; 4]) = Ok (Fin 9).
Proof.
  split.
  - rewrite (C39_delayed_copy _ _ _ _ 2 1); [|cbn; lia|easy|lra|exists 1%Z; unfold sig_at; simpl; intros Q; lra|].
    + unfold mean_step. cbn [last hd length Nat.sub]. do 2 f_equal. simpl INR. lra.
    + intros i. destruct (Z_lt_ge_dec i 0); [rewrite (sig_out _ i) by lia|].
      { destruct (Z_lt_ge_dec (i + 2) 0); [rewrite sig_out by lia; lra|].
        assert (E : (i + 2 = 0 \/ i + 2 = 1)%Z) by lia. destruct E as [-> | ->]; unfold sig_at; simpl; lra. }
      destruct (Z_lt_ge_dec i 3); [|rewrite !sig_out by (cbn [length]; lia); lra].
      assert (E : (i = 0 \/ i = 1 \/ i = 2)%Z) by lia. destruct E as [-> |[-> | ->]]; unfold sig_at; simpl; lra.
  - rewrite (C39_delayed_copy _ _ _ _ (-1) 2); [|cbn; lia|easy|lra|exists 1%Z; unfold sig_at; simpl; intros Q; lra|].
    + unfold mean_step. cbn [last hd length Nat.sub]. do 2 f_equal. simpl INR. lra.
    + intros i. destruct (Z_lt_ge_dec i 0); [rewrite !sig_out by lia; lra|].
      destruct (Z_lt_ge_dec i 3); [|rewrite !sig_out by (cbn [length]; lia); lra].
      assert (E : (i = 0 \/ i = 1 \/ i = 2)%Z) by lia. destruct E as [-> |[-> | ->]]; unfold sig_at; simpl; lra.
Qed.
