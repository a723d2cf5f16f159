(** * List facts used by several property files. *)

From Coq Require Import List Bool Arith Lia.
From Verif Require Import Py.
Import ListNotations.

Lemma mapM_ok {A B} (f : A -> res B) (g : A -> B) l :
  (forall x, In x l -> f x = Ok (g x)) -> mapM f l = Ok (map g l).
Proof.
  induction l as [|x l IH]; intros H; [easy|]. cbn [mapM map].
  rewrite (H x) by now left. cbn [bind]. rewrite IH by (intros; apply H; now right). easy.
Qed.

Lemma mapM_length {A B} (f : A -> res B) l k : mapM f l = Ok k -> length k = length l.
Proof.
  revert k; induction l as [|x l IH]; cbn [mapM]; intros k H; [now inversion H|].
  destruct (f x); [|easy]. cbn [bind] in H. destruct (mapM f l); [|easy]. inversion H; subst.
  simpl. now rewrite (IH a0).
Qed.

Lemma mapM_Forall2 {A B} (f : A -> res B) l k :
  mapM f l = Ok k <-> Forall2 (fun x y => f x = Ok y) l k.
Proof.
  revert k; induction l as [|x l IH]; cbn [mapM]; intros k.
  - split; [intros H; inversion H; constructor|inversion 1; easy].
  - split.
    + intros H. destruct (f x) eqn:E; [|easy]. cbn [bind] in H. destruct (mapM f l); [|easy].
      inversion H; subst. constructor; [easy|]. now apply IH.
    + inversion 1; subst. rewrite H2. cbn [bind].
      match goal with F : Forall2 _ l _ |- _ => apply IH in F; rewrite F end. easy.
Qed.

Lemma index_map {A B} (f : A -> B) l i : index (map f l) i = do x <- index l i; Ok (f x).
Proof. unfold index. rewrite nth_error_map. destruct (nth_error l i); easy. Qed.

Lemma index_some {A} (l : list A) i x : nth_error l i = Some x -> index l i = Ok x.
Proof. unfold index. now intros ->. Qed.
Lemma index_none {A} (l : list A) i : length l <= i -> index l i = Err IndexError.
Proof. unfold index. intros H. apply nth_error_None in H. now rewrite H. Qed.

(** Rotation of a list: start at position k. *)
Definition rotl {A} (k : nat) (l : list A) : list A := skipn k l ++ firstn k l.
Lemma rotl_length {A} k (l : list A) : length (rotl k l) = length l.
Proof.
  unfold rotl. rewrite app_length, skipn_length, firstn_length. lia.
Qed.
Lemma rotl_map {A B} (f : A -> B) k l : rotl k (map f l) = map f (rotl k l).
Proof. unfold rotl. now rewrite skipn_map, firstn_map, map_app. Qed.
Lemma nth_error_skipn {A} (l : list A) k i : nth_error (skipn k l) i = nth_error l (k + i).
Proof.
  revert l; induction k as [|k IH]; intros [|x l]; try easy. now destruct i. cbn [skipn plus nth_error]. apply IH.
Qed.
Lemma nth_error_firstn {A} (l : list A) k i : i < k -> nth_error (firstn k l) i = nth_error l i.
Proof.
  revert l i; induction k as [|k IH]; intros [|x l] [|i] H; try easy; try lia. simpl. apply IH; lia.
Qed.
Lemma rotl_nth {A} k (l : list A) i : k < length l -> i < length l ->
  nth_error (rotl k l) i = nth_error l ((k + i) mod length l).
Proof.
  intros Hk Hi. unfold rotl. destruct (lt_dec (k + i) (length l)) as [L|L].
  - rewrite nth_error_app1 by (rewrite skipn_length; lia).
    rewrite nth_error_skipn, Nat.mod_small; easy.
  - rewrite nth_error_app2 by (rewrite skipn_length; lia). rewrite skipn_length.
    rewrite nth_error_firstn by lia. f_equal.
    replace (k + i) with ((i - (length l - k)) + 1 * length l) by lia.
    rewrite Nat.mod_add by lia. rewrite Nat.mod_small; lia.
Qed.
Lemma rotl_0 {A} (l : list A) : rotl 0 l = l.
Proof. unfold rotl. simpl. apply app_nil_r. Qed.

Lemma combine_map {A B C D} (f : A -> C) (g : B -> D) l k :
  combine (map f l) (map g k) = map (fun p => (f (fst p), g (snd p))) (combine l k).
Proof. revert k; induction l; intros [|y k]; simpl; try easy. now rewrite IHl. Qed.

Lemma Forall2_len {A B} (P : A -> B -> Prop) l k : Forall2 P l k -> length l = length k.
Proof. induction 1; simpl; congruence. Qed.
