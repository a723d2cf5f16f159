(** * Specification vocabulary for time alignment (independent of the model). *)

From Coq Require Import Reals ZArith List Permutation.
From Verif Require Import Spec.
Import ListNotations.
Local Open Scope R_scope.

Definition Rsum (l : list R) : R := fold_right Rplus 0 l.
(** a finite signal, extended by zero to all integers *)
Definition sig_at (l : list R) (i : Z) : R :=
  if (i <? 0)%Z then 0 else nth (Z.to_nat i) l 0.
(** cross correlation of two signals at lag m: sum over i of a(i) * b(i + m) *)
Definition xcorr (a b : list R) (m : Z) : R :=
  Rsum (map (fun i => sig_at a (Z.of_nat i) * sig_at b (Z.of_nat i + m)) (seq 0 (length a))).
(** the lags at which two signals can overlap *)
Definition lag_range (a b : list R) (m : Z) : Prop :=
  (- Z.of_nat (length a) < m < Z.of_nat (length b))%Z.

Definition sorted (l : list R) : Prop :=
  forall i j a b, (i <= j)%nat -> nth_error l i = Some a -> nth_error l j = Some b -> a <= b.

(** [r] is the first stamp at or after time [s], and [t] its value *)
Definition first_from (l : list R) (s : R) (r : nat) (t : R) : Prop :=
  nth_error l r = Some t /\ s <= t /\ forall j a, (j < r)%nat -> nth_error l j = Some a -> a < s.
(** [m] is a median of [l]: the mean of the two middle elements (or the one middle element) *)
Definition is_median (l : list R) (m : R) : Prop :=
  exists s, Permutation l s /\ sorted s /\
    m = (nth ((length s - 1) / 2) s 0 + nth (length s / 2) s 0) / 2.
(** differences of consecutive stamps *)
Definition gaps (l : list R) : list R := map (fun p => snd p - fst p) (combine l (tl l)).

(** [out] is the sub-list of the elements of [l] that satisfy [P], in order *)
Inductive filtered_by {A} (P : A -> Prop) : list A -> list A -> Prop :=
| filtered_nil : filtered_by P [] []
| filtered_keep x l out : P x -> filtered_by P l out -> filtered_by P (x :: l) (x :: out)
| filtered_drop x l out : ~ P x -> filtered_by P l out -> filtered_by P (x :: l) out.
(** time [t] has a partner among the stamps [high]: the first stamp at or after [t] is not the last
    one, and it either equals [t], or it lies at most 0.1 s after [t] and its predecessor less than
    0.1 s before *)
Definition matched (high : list R) (t : R) : Prop :=
  exists j b, first_from high t j b /\ (S j < length high)%nat /\
    (b = t \/ exists k a, j = S k /\ nth_error high k = Some a /\ t - a < 1 / 10 /\ b - t <= 1 / 10).

(** [m] is the p-th percentile of [l], with linear interpolation between order statistics *)
Definition is_percentile (l : list R) (p m : R) : Prop :=
  exists s k w, Permutation l s /\ sorted s /\ 0 <= w < 1 /\ p / 100 * INR (length s - 1) = INR k + w /\
    m = (1 - w) * nth k s 0 + w * nth (Nat.min (S k) (length s - 1)) s 0.
(** [x] limited to [-m, m] (for m < 0 the upper limit m wins) *)
Definition clamp (m x : R) : R := Rmin (Rmax x (- m)) m.
(** mean of the [k] values c(i - k/2) ... c(i + (k-1)/2), zero outside the signal *)
Definition moving_average (c : list R) (k i : nat) : R :=
  Rsum (map (fun j => sig_at c (Z.of_nat i - Z.of_nat (k / 2) + Z.of_nat j)) (seq 0 k)) / INR k.
