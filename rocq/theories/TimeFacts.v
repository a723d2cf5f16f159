(** * Facts about the time alignment model over the reals. *)

From Coq Require Import Reals ZArith Bool List Lra Lia Psatz.
From Verif Require Import Num Py XReal XFacts Quat DualQuat TimeAlign Spec TimeSpec Embed ListFacts.
Import ListNotations.
Local Open Scope R_scope.

Lemma fold_add l a : fold_left (add (Num:=XR)) (map Fin l) (Fin a) = Fin (a + Rsum l).
Proof.
  revert a; induction l as [|x l IH]; intros a; cbn [map fold_left Rsum fold_right].
  - f_equal. lra.
  - cbn [add XR xadd]. rewrite IH. f_equal. unfold Rsum. lra.
Qed.
Lemma sumn_fin l : sumn (N:=XR) (map Fin l) = Fin (Rsum l).
Proof. unfold sumn, n0. cbn [lit XR]. change (Rlit 0 0) with 0. rewrite fold_add. f_equal. lra. Qed.
Lemma of_nat_fin k : of_nat (N:=XR) k = Fin (INR k).
Proof. unfold of_nat. cbn [lit XR]. unfold Rlit. now rewrite INR_IZR_INZ. Qed.

(** ** Sums over integer intervals *)
Fixpoint zsum (f : Z -> R) (a : Z) (n : nat) : R :=
  match n with O => 0 | S n' => f a + zsum f (a + 1) n' end.
Lemma zsum_ext f g a n : (forall i, (a <= i < a + Z.of_nat n)%Z -> f i = g i) -> zsum f a n = zsum g a n.
Proof.
  revert a; induction n as [|n IH]; intros a H; [easy|]. cbn [zsum]. rewrite (H a) by lia. f_equal.
  apply IH. intros i Hi. apply H. lia.
Qed.
Lemma zsum_zero f a n : (forall i, (a <= i < a + Z.of_nat n)%Z -> f i = 0) -> zsum f a n = 0.
Proof.
  revert a; induction n as [|n IH]; intros a H; [easy|]. cbn [zsum]. rewrite (H a) by lia.
  rewrite IH; [lra|]. intros i Hi. apply H. lia.
Qed.
Lemma zsum_split f a n k : zsum f a (n + k) = zsum f a n + zsum f (a + Z.of_nat n) k.
Proof.
  revert a; induction n as [|n IH]; intros a; cbn [Nat.add zsum].
  - replace (a + Z.of_nat 0)%Z with a by lia. lra.
  - rewrite IH. replace (a + 1 + Z.of_nat n)%Z with (a + Z.of_nat (S n))%Z by lia. lra.
Qed.
Lemma zsum_shift f a n d : zsum (fun i => f (i + d)%Z) a n = zsum f (a + d) n.
Proof.
  revert a; induction n as [|n IH]; intros a; [easy|]. cbn [zsum]. rewrite IH.
  f_equal. f_equal. lia.
Qed.
Lemma zsum_plus f g a n : zsum (fun i => f i + g i) a n = zsum f a n + zsum g a n.
Proof. revert a; induction n as [|n IH]; intros a; cbn [zsum]; [lra|]. rewrite IH. lra. Qed.
Lemma zsum_scal c f a n : zsum (fun i => c * f i) a n = c * zsum f a n.
Proof. revert a; induction n as [|n IH]; intros a; cbn [zsum]; [lra|]. rewrite IH. lra. Qed.
Lemma zsum_pos f a n : (forall i, 0 <= f i) -> 0 <= zsum f a n.
Proof. intros H. revert a; induction n as [|n IH]; intros a; cbn [zsum]; [lra|]. specialize (IH (a + 1)%Z). specialize (H a). lra. Qed.
Lemma zsum_pos0 f a n : (forall i, 0 <= f i) -> zsum f a n = 0 ->
  forall i, (a <= i < a + Z.of_nat n)%Z -> f i = 0.
Proof.
  intros H. revert a; induction n as [|n IH]; intros a E i Hi; [lia|]. cbn [zsum] in E.
  pose proof (zsum_pos f (a + 1) n H). pose proof (H a).
  destruct (Z.eq_dec i a) as [->|NE]; [lra|]. apply (IH (a + 1)%Z); [lra|lia].
Qed.
(** the sum over any interval that covers the support *)
Lemma zsum_support f p a n : (forall i, (i < 0 \/ Z.of_nat p <= i)%Z -> f i = 0) ->
  (a <= 0)%Z -> (Z.of_nat p <= a + Z.of_nat n)%Z -> zsum f a n = zsum f 0 p.
Proof.
  intros Z0 A B. destruct (Z.le_exists_sub a 0 A) as (d & E & D). 
  set (k := Z.to_nat d). assert (K : Z.of_nat k = d) by (unfold k; lia).
  replace n with (k + (p + (n - k - p)))%nat by lia. rewrite !zsum_split.
  rewrite (zsum_zero f a k) by (intros; apply Z0; lia).
  replace (a + Z.of_nat k)%Z with 0%Z by lia.
  rewrite (zsum_zero f (0 + Z.of_nat p)) by (intros; apply Z0; lia). lra.
Qed.

Lemma Rsum_seq f a n : Rsum (map (fun i => f (Z.of_nat i)) (seq a n)) = zsum f (Z.of_nat a) n.
Proof.
  revert a; induction n as [|n IH]; intros a; [easy|]. cbn [seq map Rsum fold_right zsum].
  unfold Rsum in IH. rewrite IH. f_equal. f_equal. lia.
Qed.
Lemma sig_out l i : (i < 0 \/ Z.of_nat (length l) <= i)%Z -> sig_at l i = 0.
Proof.
  intros H. unfold sig_at. destruct (Z.ltb_spec i 0); [easy|]. apply nth_overflow. lia.
Qed.
Lemma sig_nat l i : sig_at l (Z.of_nat i) = nth i l 0.
Proof. unfold sig_at. destruct (Z.ltb_spec (Z.of_nat i) 0); [lia|]. now rewrite Nat2Z.id. Qed.

Lemma xcorr_zsum a b m s n : (s <= 0)%Z -> (Z.of_nat (length a) <= s + Z.of_nat n)%Z ->
  xcorr a b m = zsum (fun i => sig_at a i * sig_at b (i + m)) s n.
Proof.
  intros H1 H2. unfold xcorr. rewrite (Rsum_seq (fun i => sig_at a i * sig_at b (i + m))).
  symmetry. apply zsum_support; [|easy|easy]. intros i Hi. rewrite (sig_out a) by easy. ring.
Qed.

(** Cauchy-Schwarz for shifted signals *)
Lemma autocorr_strict a d : d <> 0%Z -> (exists i, sig_at a i <> 0) -> xcorr a a d < xcorr a a 0.
Proof.
  intros D (i0 & NZ).
  set (p := length a). set (w := (Z.abs_nat d + p)%nat).
  set (n := (w + w)%nat). set (s := (- Z.of_nat w)%Z).
  assert (S1 : xcorr a a 0 = zsum (fun i => sig_at a i * sig_at a i) s n).
  { rewrite (xcorr_zsum a a 0 s n) by (unfold s, n, w, p; lia). apply zsum_ext. intros i _. do 2 f_equal; lia. }
  assert (S2 : xcorr a a 0 = zsum (fun i => sig_at a (i + d) * sig_at a (i + d)) s n).
  { rewrite (zsum_shift (fun i => sig_at a i * sig_at a i)).
    rewrite (zsum_support _ p) by (try (unfold s, n, w, p; lia); intros i Hi; rewrite (sig_out a) by easy; ring).
    rewrite (xcorr_zsum a a 0 0 p) by (unfold p; lia). apply zsum_ext. intros i _. do 2 f_equal; lia. }
  assert (S3 : xcorr a a d = zsum (fun i => sig_at a i * sig_at a (i + d)) s n).
  { apply xcorr_zsum; unfold s, n, w, p; lia. }
  set (g := fun i => (sig_at a i - sig_at a (i + d)) * (sig_at a i - sig_at a (i + d))).
  assert (G : zsum g s n = 2 * xcorr a a 0 - 2 * xcorr a a d).
  { replace (2 * xcorr a a 0 - 2 * xcorr a a d) with (xcorr a a 0 + xcorr a a 0 + (-2) * xcorr a a d) by lra.
    rewrite S3. rewrite S1 at 1. rewrite S2. rewrite <- zsum_scal, <- !zsum_plus. apply zsum_ext. intros i _. unfold g. ring. }
  assert (GP : forall i, 0 <= g i) by (intros i; unfold g; pose proof (Rle_0_sqr (sig_at a i - sig_at a (i + d))) as Q; exact Q).
  pose proof (zsum_pos g s n GP) as P. destruct (Req_dec (zsum g s n) 0) as [E|E]; [exfalso|lra].
  assert (PER : forall i, sig_at a (i + d) = sig_at a i).
  { intros i. destruct (Z_lt_ge_dec i s) as [L|L].
    - rewrite !sig_out; [easy|unfold s, w, p in *; lia|unfold s, w, p in *; lia].
    - destruct (Z_lt_ge_dec i (s + Z.of_nat n)) as [U|U].
      + pose proof (zsum_pos0 g s n GP E i ltac:(lia)) as Q. unfold g in Q. nra.
      + rewrite !sig_out; [easy|unfold s, n, w, p in *; lia|unfold s, n, w, p in *; lia]. }
  assert (J : forall j, sig_at a (i0 + Z.of_nat j * d) = sig_at a i0).
  { induction j as [|j IH]; [f_equal; lia|]. rewrite <- IH, <- (PER (i0 + Z.of_nat j * d)%Z). f_equal. lia. }
  apply NZ. rewrite <- (J (S (p + Z.abs_nat i0))%nat). apply sig_out. unfold p.
  set (k := Z.of_nat (S (length a + Z.abs_nat i0))).
  assert (K : (k >= 1 + Z.of_nat (length a) + Z.abs i0)%Z) by (unfold k; lia).
  destruct (Z_lt_ge_dec d 0); [left|right]; nia.
Qed.

Lemma padded_in l i : padded (N:=XR) (map Fin l) i = Fin (sig_at l i).
Proof. unfold padded, sig_at, n0. destruct (i <? 0)%Z; [easy|]. change (@lit XR 0 0) with (Fin 0). apply (map_nth Fin). Qed.

(** the k-th value of the full correlation is the cross correlation at lag k - (len - 1) *)
Lemma correlate_in b a : b <> [] -> a <> [] ->
  correlate_full (N:=XR) (map Fin b) (map Fin a) =
  map Fin (map (fun k => xcorr a b (Z.of_nat k - Z.of_nat (length a) + 1)) (seq 0 (length b + length a - 1))).
Proof.
  intros NB NA. unfold correlate_full. destruct b as [|b0 b']; [easy|]. destruct a as [|a0 a']; [easy|].
  cbn [map]. rewrite <- !(map_cons Fin). set (b := b0 :: b') in *. set (a := a0 :: a') in *.
  rewrite map_map, !map_length. apply map_ext. intros k.
  rewrite (map_ext _ (fun l => Fin (sig_at b (Z.of_nat l) * sig_at a (Z.of_nat l - (Z.of_nat k - Z.of_nat (length a) + 1))))).
  2:{ intros l. rewrite !padded_in. cbn [mul XR xmul]. do 3 f_equal. lia. }
  rewrite <- (map_map _ Fin), sumn_fin. f_equal. set (m := (Z.of_nat k - Z.of_nat (length a) + 1)%Z).
  rewrite (Rsum_seq (fun i => sig_at b i * sig_at a (i - m))). change (Z.of_nat 0) with 0%Z.
  set (w := (length a + length b + Z.abs_nat m)%nat).
  rewrite (xcorr_zsum a b m (- Z.of_nat w - m) (w + w + Z.abs_nat m + Z.abs_nat m)) by (unfold w; lia).
  rewrite <- (zsum_support (fun i => sig_at b i * sig_at a (i - m)) (length b) (- Z.of_nat w)
               (w + w + Z.abs_nat m + Z.abs_nat m)) by (try (unfold w; lia); intros i Hi; rewrite (sig_out b) by easy; ring).
  replace (- Z.of_nat w)%Z with (- Z.of_nat w - m + m)%Z at 1 by lia.
  rewrite <- (zsum_shift (fun i => sig_at b i * sig_at a (i - m))). apply zsum_ext. intros i _.
  rewrite Rmult_comm. f_equal. f_equal. lia.
Qed.

(** argmax *)
Lemma argmax_from_spec : forall l pre bi bv i,
  length pre = i -> nth_error pre bi = Some bv -> (bi < i)%nat ->
  (forall j x, nth_error pre j = Some x -> x <= bv /\ ((j < bi)%nat -> x < bv)) ->
  exists v, nth_error (pre ++ l) (argmax_from (N:=XR) bi (Fin bv) i (map Fin l)) = Some v /\
    (forall j x, nth_error (pre ++ l) j = Some x ->
       x <= v /\ ((j < argmax_from (N:=XR) bi (Fin bv) i (map Fin l))%nat -> x < v)).
Proof.
  induction l as [|x l IH]; intros pre bi bv i LE NB LT H; cbn [map argmax_from].
  - rewrite app_nil_r. exists bv. split; [easy|exact H].
  - cbn [ltb XR xltb]. replace (pre ++ x :: l) with ((pre ++ [x]) ++ l) by now rewrite <- app_assoc.
    destruct (Rltb bv x) eqn:C; [apply Rltb_iff in C|apply Rltb_false in C].
    + apply IH.
      * rewrite app_length; cbn; lia.
      * rewrite nth_error_app2, LE, Nat.sub_diag by lia. reflexivity.
      * lia.
      * intros j y Hj. destruct (Nat.lt_ge_cases j i) as [L|L].
        -- rewrite nth_error_app1 in Hj by lia. destruct (H j y Hj). split; [lra|intros; lra].
        -- assert (j < length (pre ++ [x]))%nat by (apply nth_error_Some; congruence). rewrite app_length in *; cbn in *.
           assert (j = i) as -> by lia. rewrite nth_error_app2, LE, Nat.sub_diag in Hj by lia. injection Hj as <-.
           split; [lra|lia].
    + apply IH.
      * rewrite app_length; cbn; lia.
      * rewrite nth_error_app1 by lia. exact NB.
      * lia.
      * intros j y Hj. destruct (Nat.lt_ge_cases j i) as [L|L].
        -- rewrite nth_error_app1 in Hj by lia. now apply H.
        -- assert (j < length (pre ++ [x]))%nat by (apply nth_error_Some; congruence). rewrite app_length in *; cbn in *.
           assert (j = i) as -> by lia. rewrite nth_error_app2, LE, Nat.sub_diag in Hj by lia. injection Hj as <-.
           split; [lra|lia].
Qed.
Lemma argmax_spec l : l <> [] -> exists i v, argmax (N:=XR) (map Fin l) = Ok i /\ nth_error l i = Some v /\
  (forall j x, nth_error l j = Some x -> x <= v /\ ((j < i)%nat -> x < v)).
Proof.
  destruct l as [|x l]; [easy|]. intros _. cbn [map argmax].
  destruct (argmax_from_spec l [x] 0 x 1) as (v & V1 & V2); try easy; [lia| |].
  - intros [|j] y; cbn; [intros [= <-]; split; [lra|lia]|destruct j; discriminate].
  - exists (argmax_from (N:=XR) 0 (Fin x) 1 (map Fin l)), v. cbn [app] in *. easy.
Qed.

(** ** Mean step *)
Lemma diff_in l : diff (N:=XR) (map Fin l) = map Fin (match l with [] => [] | x :: t => map (fun p => snd p - fst p) (combine l t) end).
Proof.
  induction l as [|x l IH]; [easy|]. destruct l as [|y l]; [easy|].
  change (diff (N:=XR) (map Fin (x :: y :: l))) with (Fin (y - x) :: diff (N:=XR) (map Fin (y :: l))).
  rewrite IH. reflexivity.
Qed.
Lemma last_cons (t : list R) : forall y x, last (y :: t) x = last t y.
Proof.
  induction t as [|z t IH]; intros y x; [easy|]. change (last (y :: z :: t) x) with (last (z :: t) x). now rewrite !IH.
Qed.
Lemma diff_sum x t : Rsum (map (fun p => snd p - fst p) (combine (x :: t) t)) = last t x - x.
Proof.
  revert x; induction t as [|y t IH]; intros x; [cbn; lra|].
  change (Rsum (map (fun p => snd p - fst p) (combine (x :: y :: t) (y :: t))))
    with ((y - x) + Rsum (map (fun p => snd p - fst p) (combine (y :: t) t))).
  rewrite (IH y), last_cons. lra.
Qed.
Lemma combine_tl_length {A} (x : A) t : length (combine (x :: t) t) = length t.
Proof. rewrite combine_length. cbn [length]. lia. Qed.
Lemma mean_diff_in x y t :
  mean (N:=XR) (diff (N:=XR) (map Fin (x :: y :: t))) = Fin ((last (y :: t) x - x) / INR (S (length t))).
Proof.
  unfold mean. rewrite diff_in, map_length, map_length, combine_tl_length, sumn_fin, diff_sum, of_nat_fin.
  cbn [length div XR]. apply xdiv_fin. apply not_0_INR. lia.
Qed.
