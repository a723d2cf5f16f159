(** * Property C93: what compute_aligned_poses does when both clocks start somewhere else. *)

From Coq Require Import Reals ZArith Bool List Lra Lia Psatz Permutation Classical.
From Verif Require Import Num Py XReal XFacts Quat DualQuat TimeAlign Spec Embed QuatFacts QuatTrig QuatRot PropQuat
  ListFacts TimeSpec ResampleFacts PropResample PropAligned PropInterp.
Import ListNotations.
Local Open Scope R_scope.

(** ** Specification *)
Definition positions (l : list row) : list rv := map (fun p => fst (snd p)) l.
(** every gap between two stamps is smaller than 1e-5 of the later stamp: true of Unix time for gaps up to 10000 s *)
Definition far_from_zero (l : list row) : Prop := forall k a b,
  nth_error (row_times l) k = Some a -> nth_error (row_times l) (S k) = Some b -> b - a <= 1 / 100000 * Rabs b.
(** the orientation of the row is the one recorded first at or after its time *)
Definition next_recorded (l : list row) (r : row) : Prop := exists k t p,
  first_from (row_times l) (fst r) k t /\ nth_error l k = Some (t, (p, snd (snd r))).

(** ** Facts *)
Lemma row_times_shift c l : row_times (shift_rows c l) = map (fun t => t + c) (row_times l).
Proof. unfold row_times, shift_rows. rewrite !map_map. reflexivity. Qed.
Lemma row_quats_shift c l : row_quats (shift_rows c l) = row_quats l.
Proof. unfold row_quats, shift_rows. now rewrite map_map. Qed.
Lemma shift_shift a b l : shift_rows a (shift_rows b l) = shift_rows b (shift_rows a l).
Proof. unfold shift_rows. rewrite !map_map. apply map_ext. intros [t p]. cbn [fst snd]. f_equal. ring. Qed.
Lemma first_from_shift c l s r t : first_from (map (fun x => x + c) l) (s + c) r (t + c) <-> first_from l s r t.
Proof.
  unfold first_from. rewrite nth_error_map. split; intros (A & B & C).
  - destruct (nth_error l r) as [t'|] eqn:E; [|discriminate A]. cbn in A. injection A as A. assert (t' = t) as -> by lra.
    split; [easy|]. split; [lra|]. intros j a J N. specialize (C j (a + c) J). rewrite nth_error_map, N in C. specialize (C eq_refl). lra.
  - rewrite A. split; [easy|]. split; [lra|]. intros j a J N. rewrite nth_error_map in N. destruct (nth_error l j) as [a'|] eqn:E; [|discriminate N].
    cbn in N. injection N as <-. specialize (C j a' J E). lra.
Qed.
Lemma first_from_unique l s r t r' t' : first_from l s r t -> first_from l s r' t' -> r = r' /\ t = t'.
Proof.
  intros (A & B & C) (A' & B' & C'). assert (r = r').
  { destruct (Nat.lt_trichotomy r r') as [L|[L|L]]; [pose proof (C' r t L A); lra|easy|pose proof (C r' t' L A'); lra]. }
  subst. split; congruence.
Qed.
Lemma matched_shift c l t : matched (map (fun x => x + c) l) (t + c) <-> matched l t.
Proof.
  unfold matched. split.
  - intros (j & b & F & L & H). exists j, (b - c). rewrite map_length in L. split; [|split; [easy|]].
    + apply (first_from_shift c). now replace (b - c + c) with b by ring.
    + destruct H as [H|(k & a & -> & N & H)]; [left; lra|right]. rewrite nth_error_map in N. destruct (nth_error l k) as [a'|] eqn:E; [|discriminate N].
      cbn in N. injection N as <-. exists k, a'. repeat split; [easy|lra|lra].
  - intros (j & b & F & L & H). exists j, (b + c). rewrite map_length. split; [now apply first_from_shift|]. split; [easy|].
    destruct H as [H|(k & a & -> & N & H)]; [left; lra|right]. exists k, (a + c). rewrite nth_error_map, N. repeat split; [lra|lra].
Qed.
Lemma gaps_shift c l : gaps (map (fun x => x + c) l) = gaps l.
Proof.
  unfold gaps. destruct l as [|x l]; [easy|]. cbn [map tl]. revert x. induction l as [|y l IH]; intros x; [easy|]. cbn [map combine].
  f_equal; [cbn; ring|]. apply IH.
Qed.
Lemma low_shift c a b : low_is_A (map (fun x => x + c) a) (map (fun x => x + c) b) <-> low_is_A a b.
Proof. unfold low_is_A. now rewrite !gaps_shift. Qed.
Lemma filtered_shift c (P P' : R -> Prop) l out : (forall x, P' (x + c) <-> P x) -> filtered_by P l out ->
  filtered_by P' (map (fun x => x + c) l) (map (fun x => x + c) out).
Proof.
  intros E F. induction F; cbn [map]; [constructor|apply filtered_keep|apply filtered_drop]; try easy; rewrite E; easy.
Qed.
Lemma linear_unique pts s v v' : sorted (map fst pts) -> linear_at pts s v -> linear_at pts s v' -> v = v'.
Proof.
  intros SO H H'. apply linear_place in H as (j & tj & fj & P & N & D); [|easy]. apply linear_place in H' as (j' & tj' & fj' & P' & N' & D'); [|easy].
  destruct (place_unique _ _ _ _ _ _ P P') as [<- <-]. assert (fj' = fj) by congruence. subst fj'.
  destruct D as [(D1 & D2)|(tk & fk & E & R & D2)], D' as [(D1' & D2')|(tk' & fk' & E' & R' & D2')]; try lra.
  rewrite E in E'. injection E' as <- <-. congruence.
Qed.
Lemma linear_shift c pts s v : linear_at pts s v -> linear_at (map (fun p => (fst p + c, snd p)) pts) (s + c) v.
Proof.
  intros [(t & N & ->)|(j & tj & fj & tk & fk & N1 & N2 & L & ->)].
  - left. exists (t + c). rewrite map_length, nth_error_map, N. easy.
  - right. exists j, (tj + c), fj, (tk + c), fk. rewrite !nth_error_map, N1, N2. split; [easy|]. split; [easy|]. split; [lra|].
    replace (tk + c - (tj + c)) with (tk - tj) by ring. replace (s + c - (tj + c)) with (s - tj) by ring. easy.
Qed.
Lemma row_coord_shift f c l : row_coord f (shift_rows c l) = map (fun p => (fst p + c, snd p)) (row_coord f l).
Proof. unfold row_coord, shift_rows. rewrite !map_map. reflexivity. Qed.
Lemma row_coord_fst f l : map fst (row_coord f l) = row_times l.
Proof. unfold row_coord, row_times. now rewrite map_map. Qed.
Lemma sorted_shift c l : sorted l -> sorted (map (fun x => x + c) l).
Proof. apply sorted_map_add. Qed.

Lemma on_path_position c l t p q p' q' : sorted (row_times l) ->
  on_path l (t, (p, q)) -> on_path (shift_rows c l) (t + c, (p', q')) -> p' = p.
Proof.
  intros SO (X & Y & Z & _) (X' & Y' & Z' & _). rewrite row_coord_shift in X', Y', Z'.
  assert (K : forall f v v', linear_at (row_coord f l) t v -> linear_at (map (fun p => (fst p + c, snd p)) (row_coord f l)) (t + c) v' -> v' = v).
  { intros f v v' H H'. apply (linear_shift c) in H. eapply linear_unique; [|exact H'|exact H]. rewrite <- row_coord_shift, row_coord_fst, row_times_shift. now apply sorted_shift. }
  apply (K _ _ _ X) in X'. apply (K _ _ _ Y) in Y'. apply (K _ _ _ Z) in Z'. destruct p, p'. cbn in *. congruence.
Qed.
Lemma paths_positions c l out out' : sorted (row_times l) -> Forall (on_path l) out -> Forall (on_path (shift_rows c l)) out' ->
  row_times out' = map (fun t => t + c) (row_times out) -> positions out' = positions out.
Proof.
  intros SO. revert out'. induction out as [|[t [p q]] out IH]; intros [|[t' [p' q']] out'] F F' E; try discriminate E; [easy|].
  cbn in E. injection E as -> E. inversion F as [|? ? F1 F2]; subst. inversion F' as [|? ? F1' F2']; subst.
  cbn. f_equal; [eapply on_path_position; eauto|]. now apply IH.
Qed.
Lemma far_next l r : length (row_times l) = length (row_quats l) -> far_from_zero l -> on_path l r -> next_recorded l r.
Proof.
  intros _ G. destruct r as [s [p q]]. intros (_ & _ & _ & Q). unfold next_recorded. cbn [fst snd].
  inversion Q as [k t q0 F N _|k tl tr ql qr q0 F N S QL QR C _]; subst.
  - unfold row_quats in N. rewrite nth_error_map in N. unfold row in *. destruct (nth_error l k) as [[t' [p' q']]|] eqn:E; [|discriminate N]. cbn in N. injection N as ->.
    exists k, t, p'. split; [easy|]. destruct F as (F & _). unfold row_times in F. rewrite nth_error_map, E in F. cbn in F. injection F as ->. easy.
  - exfalso. destruct F as (F & _). specialize (G _ _ _ N F). lra.
Qed.
Lemma next_recorded_unique l t p p' q q' : next_recorded l (t, (p, q)) -> next_recorded l (t, (p', q')) -> q = q'.
Proof.
  intros (k & s & x & F & N) (k' & s' & x' & F' & N'). cbn [fst snd] in *. destruct (first_from_unique _ _ _ _ _ _ F F') as [<- <-]. congruence.
Qed.
Lemma next_recorded_shift c l t p q : next_recorded (shift_rows c l) (t + c, (p, q)) -> next_recorded l (t, (p, q)).
Proof.
  intros (k & s & x & F & N). cbn [fst snd] in *. unfold shift_rows in N. rewrite nth_error_map in N. unfold row in *. destruct (nth_error l k) as [[s0 [x0 q0]]|] eqn:E; [|discriminate N].
  cbn in N. injection N as <- <- <-. exists k, s0, x0. cbn [fst snd]. rewrite row_times_shift in F. apply first_from_shift in F. easy.
Qed.

(** the stamps, the positions and what is known about the orientations in the two clocks *)
Lemma both_clocks (A B : list row) (o c : R) :
  A <> [] -> B <> [] -> sorted (row_times A) -> sorted (row_times B) -> Forall unitq (row_quats A) -> Forall unitq (row_quats B) ->
  exists outA outB outA' outB',
    compute_aligned_poses (inS A) (inS B) (Fin o) = Ok (inS outA, inS outB) /\
    compute_aligned_poses (inS (shift_rows c A)) (inS (shift_rows c B)) (Fin o) = Ok (inS outA', inS outB') /\
    row_times outA' = map (fun t => t + c) (row_times outA) /\ row_times outB' = map (fun t => t + c) (row_times outB) /\
    Forall (on_path (shift_rows o A)) outA /\ Forall (on_path B) outB /\
    Forall (on_path (shift_rows c (shift_rows o A))) outA' /\ Forall (on_path (shift_rows c B)) outB'.
Proof.
  intros NA NB SA SB UA UB.
  assert (NE : forall l : list row, l <> [] -> shift_rows c l <> []) by (intros [|] H; [easy|discriminate]).
  destruct (C41_contract A B o NA NB SA SB UA UB) as (sm & oA & oB & E & TA & TB & PA & PB & L1 & L2).
  destruct (C41_contract (shift_rows c A) (shift_rows c B) o) as (sm' & oA' & oB' & E' & TA' & TB' & PA' & PB' & L1' & L2');
    [now apply NE|now apply NE|rewrite row_times_shift; now apply sorted_shift|rewrite row_times_shift; now apply sorted_shift|now rewrite row_quats_shift|now rewrite row_quats_shift|].
  exists oA, oB, oA', oB'. split; [exact E|]. split; [exact E'|].
  rewrite (shift_shift o c A) in *. rewrite (row_times_shift c B) in L1', L2'. rewrite (row_times_shift c (shift_rows o A)) in L1', L2'.
  assert (HS : forall l : list R, l <> [] -> hd 0 (map (fun t => t + c) l) = hd 0 l + c) by (intros [|] H; easy).
  assert (NT : forall l : list row, l <> [] -> row_times l <> []) by (intros [|] H; [easy|discriminate]).
  assert (NO : shift_rows o A <> []) by (destruct A; [easy|discriminate]).
  rewrite !HS in L1', L2' by (apply NT; easy).
  assert (LS : forall l : list row, length (shift_rows c l) = length l) by (intros; unfold shift_rows; apply map_length). rewrite !LS in L1', L2'. rewrite low_shift in L1', L2'.
  assert (MX : forall l x, (Rmax (hd 0 (row_times (shift_rows o A)) + c) (hd 0 (row_times B) + c) <= x + c /\ matched (map (fun t => t + c) l) (x + c)) <->
    (Rmax (hd 0 (row_times (shift_rows o A))) (hd 0 (row_times B)) <= x /\ matched l x)).
  { intros l x. rewrite matched_shift. assert (MM : forall a b, Rmax (a + c) (b + c) = Rmax a b + c) by (intros a b; unfold Rmax; destruct (Rle_dec _ _), (Rle_dec _ _); lra).
    rewrite MM. split; intros [H1 H2]; (split; [lra|easy]). }
  assert (SM : sm' = map (fun t => t + c) sm).
  { destruct (classic (low_is_A (row_times (shift_rows o A)) (row_times B))) as [LO|LO];
    [destruct (le_dec 2 (length A)) as [LA|LA]; [destruct (le_dec 2 (length B)) as [LB|LB]|]|].
    - specialize (L1 LA LB LO). specialize (L1' LA LB LO). eapply filtered_unique; [exact L1'|]. eapply filtered_shift; [|exact L1]. intros x. apply MX.
    - specialize (L2 ltac:(lia)). specialize (L2' ltac:(lia)). eapply filtered_unique; [exact L2'|]. eapply filtered_shift; [|exact L2]. intros x. apply MX.
    - specialize (L2 ltac:(lia)). specialize (L2' ltac:(lia)). eapply filtered_unique; [exact L2'|]. eapply filtered_shift; [|exact L2]. intros x. apply MX.
    - specialize (L2 (or_introl LO)). specialize (L2' (or_introl LO)). eapply filtered_unique; [exact L2'|]. eapply filtered_shift; [|exact L2]. intros x. apply MX. }
  split; [congruence|]. split; [congruence|]. auto.
Qed.

(** ** The theorems *)
(** Adding a constant to all stamps of both recordings adds it to the stamps of the result and changes no position. *)
Theorem C93_positions : forall (A B : list row) (o c : R),
  A <> [] -> B <> [] -> sorted (row_times A) -> sorted (row_times B) -> Forall unitq (row_quats A) -> Forall unitq (row_quats B) ->
  exists outA outB outA' outB',
    compute_aligned_poses (inS A) (inS B) (Fin o) = Ok (inS outA, inS outB) /\
    compute_aligned_poses (inS (shift_rows c A)) (inS (shift_rows c B)) (Fin o) = Ok (inS outA', inS outB') /\
    row_times outA' = map (fun t => t + c) (row_times outA) /\ row_times outB' = map (fun t => t + c) (row_times outB) /\
    positions outA' = positions outA /\ positions outB' = positions outB.
Proof.
  intros A B o c NA NB SA SB UA UB. destruct (both_clocks A B o c NA NB SA SB UA UB) as (oA & oB & oA' & oB' & E & E' & TA & TB & PA & PB & PA' & PB').
  exists oA, oB, oA', oB'. split; [easy|]. split; [easy|]. split; [easy|]. split; [easy|].
  split; [apply (paths_positions c (shift_rows o A)); try assumption; rewrite row_times_shift; now apply sorted_shift|now apply (paths_positions c B)].
Qed.

(** Far from the origin of the clock (Unix time) no orientation is interpolated: each is the one recorded next. *)
Theorem C93_unix : forall (A B : list row) (o : R),
  A <> [] -> B <> [] -> sorted (row_times A) -> sorted (row_times B) -> Forall unitq (row_quats A) -> Forall unitq (row_quats B) ->
  far_from_zero (shift_rows o A) -> far_from_zero B ->
  exists outA outB, compute_aligned_poses (inS A) (inS B) (Fin o) = Ok (inS outA, inS outB) /\
    Forall (next_recorded (shift_rows o A)) outA /\ Forall (next_recorded B) outB.
Proof.
  intros A B o NA NB SA SB UA UB GA GB. destruct (C41_contract A B o NA NB SA SB UA UB) as (sm & oA & oB & E & _ & _ & PA & PB & _).
  exists oA, oB. split; [easy|]. split; (eapply Forall_impl; [|eassumption]); intros r; apply far_next; try easy; unfold row_times, row_quats; now rewrite !map_length.
Qed.

(** Far from the origin, moving the origin further changes nothing but the stamps. *)
Theorem C93_far : forall (A B : list row) (o c : R),
  A <> [] -> B <> [] -> sorted (row_times A) -> sorted (row_times B) -> Forall unitq (row_quats A) -> Forall unitq (row_quats B) ->
  far_from_zero (shift_rows o A) -> far_from_zero B -> far_from_zero (shift_rows c (shift_rows o A)) -> far_from_zero (shift_rows c B) ->
  exists outA outB, compute_aligned_poses (inS A) (inS B) (Fin o) = Ok (inS outA, inS outB) /\
    compute_aligned_poses (inS (shift_rows c A)) (inS (shift_rows c B)) (Fin o) = Ok (inS (shift_rows c outA), inS (shift_rows c outB)).
Proof.
  intros A B o c NA NB SA SB UA UB GA GB GA' GB'. destruct (both_clocks A B o c NA NB SA SB UA UB) as (oA & oB & oA' & oB' & E & E' & TA & TB & PA & PB & PA' & PB').
  exists oA, oB. split; [easy|]. rewrite E'.
  assert (K : forall l out out', sorted (row_times l) -> far_from_zero l -> far_from_zero (shift_rows c l) -> Forall (on_path l) out -> Forall (on_path (shift_rows c l)) out' ->
    row_times out' = map (fun t => t + c) (row_times out) -> out' = shift_rows c out).
  { clear. intros l out out' SO G G'. revert out'. induction out as [|[t [p q]] out IH]; intros [|[t' [p' q']] out'] F F' T; try discriminate T; [easy|].
    cbn in T. injection T as -> T. inversion F as [|? ? F1 F2]; subst. inversion F' as [|? ? F1' F2']; subst. cbn. f_equal; [|now apply IH].
    assert (LL : forall m : list row, length (row_times m) = length (row_quats m)) by (intros; unfold row_times, row_quats; now rewrite !map_length).
    pose proof (on_path_position c l t p q p' q' SO F1 F1') as ->. apply far_next in F1; [|apply LL|easy]. apply far_next in F1'; [|apply LL|easy].
    apply next_recorded_shift in F1'. now rewrite (next_recorded_unique l t p p q q' F1 F1'). }
  rewrite (K (shift_rows o A) oA oA') by (easy || (rewrite row_times_shift; now apply sorted_shift)). rewrite (K B oB oB') by easy. reflexivity.
Qed.

(** Moving the origin of both clocks does change the orientations in general: an exact recording of a sensor that turns
    with constant speed is interpolated correctly near the origin and gets the next recorded orientation, half a sample
    ahead, far from it. *)
Definition q93 : rq := RQ (RV 0 0 (3/5)) (4/5).
Definition A93 : list row := [(17/16, (vzero, hone)); (19/16, (vzero, hone))].
Definition B93 : list row := [(1, (vzero, hone)); (9/8, (vzero, q93)); (5/4, (vzero, hmul q93 q93))].
Lemma q93_unit : unitq q93. Proof. unfold unitq, q93. specu. lra. Qed.
Lemma sorted93 : sorted (row_times A93) /\ sorted (row_times B93).
Proof.
  split; intros i j a b L.
  - destruct i as [|[|i]], j as [|[|j]]; cbn; intros E E'; try discriminate E'; try discriminate E; try lia; try (destruct i; discriminate); try (destruct j; discriminate); injection E as <-; injection E' as <-; lra.
  - destruct i as [|[|[|i]]], j as [|[|[|j]]]; cbn; intros E E'; try discriminate E'; try discriminate E; try lia; try (destruct i; discriminate); try (destruct j; discriminate); injection E as <-; injection E' as <-; lra.
Qed.
Lemma unit93 : Forall unitq (row_quats A93) /\ Forall unitq (row_quats B93).
Proof.
  assert (U : unitq (hmul q93 q93)) by (unfold unitq, q93; specu; lra). assert (U1 : unitq hone) by (unfold unitq; specu; lra).
  pose proof q93_unit. split; cbn; repeat (apply Forall_cons; [assumption|]); apply Forall_nil.
Qed.
Lemma low93 : low_is_A (row_times A93) (row_times B93).
Proof.
  exists (1/8), (1/8). split; [|split; [|lra]].
  - exists [1/8]. cbn. replace (19/16 - 17/16) with (1/8) by lra. split; [apply Permutation_refl|]. split; [|lra]. intros [|i] [|j] a b L E E'; try (destruct i; discriminate E); try (destruct j; discriminate E'). cbn in *. injection E as <-; injection E' as <-; lra.
  - exists [1/8; 1/8]. cbn. replace (9/8 - 1) with (1/8) by lra. replace (5/4 - 9/8) with (1/8) by lra. split; [apply Permutation_refl|]. split; [|lra].
    intros i j a b L E E'. destruct i as [|[|i]], j as [|[|j]]; cbn in *; try discriminate E'; try discriminate E; try lia; try (destruct i; discriminate); try (destruct j; discriminate); injection E as <-; injection E' as <-; lra.
Qed.
Lemma first93 : first_from (row_times B93) (17/16) 1 (9/8).
Proof. split; [reflexivity|]. split; [lra|]. intros [|j] a L E; [|lia]. cbn in E. injection E as <-. lra. Qed.
Lemma matched93 : matched (row_times B93) (17/16) /\ ~ matched (row_times B93) (19/16).
Proof.
  split.
  - exists 1%nat, (9/8). split; [apply first93|]. split; [cbn; lia|]. right. exists 0%nat, 1. split; [easy|]. split; [easy|]. lra.
  - intros (j & b & (F1 & F2 & _) & L & _). destruct j as [|[|j]]; [| |cbn in L; lia]; cbn in F1; injection F1 as <-; lra.
Qed.
Theorem C93_origin_refuted : exists (A B : list row) (t : R) (p : rv) (q q' : rq) (outA : list row),
  sorted (row_times A) /\ sorted (row_times B) /\ Forall unitq (row_quats A) /\ Forall unitq (row_quats B) /\
  compute_aligned_poses (inS A) (inS B) (Fin 0) = Ok (inS outA, inS [(t, (p, q))]) /\
  (forall c, 100000 <= c -> exists outA',
    compute_aligned_poses (inS (shift_rows c A)) (inS (shift_rows c B)) (Fin 0) = Ok (inS outA', inS [(t + c, (p, q'))])) /\
  0 < hdot q q' < 1.
Proof.
  destruct sorted93 as [SA SB], unit93 as [UA UB].
  assert (SH0 : shift_rows 0 A93 = A93) by (unfold shift_rows, A93; cbn; now rewrite !Rplus_0_r).
  destruct (C07_slerp_interior hone q93 (1/2)) as (st & r & ST & DT & SL & R); [unfold unitq; specu; lra|apply q93_unit|lra|unfold hone, q93; specu; lra|].
  destruct R as (_ & _ & _ & DQ & TH).
  assert (SE : hdot st q93 = 4/5).
  { destruct ST as [-> | ->]; [unfold hone, q93; specu; lra|]. unfold hone, q93 in DT. specu. lra. }
  rewrite SE in DQ, TH. assert (C2 : 0 < hdot r q93 < 1).
  { rewrite DQ. set (th := acos (4/5)) in *. pose proof PI_RGT_0. replace ((1 - 1/2) * th) with (th / 2) by lra. split; [apply cos_gt_0; lra|].
    pose proof (cos_acos (4/5) ltac:(lra)) as CA. fold th in CA. replace th with (2 * (th / 2)) in CA by lra. rewrite cos_2a_cos in CA.
    pose proof (COS_bound (th / 2)). nra. }
  assert (ALL : forall c, exists outA p0 q0 outA' q0', compute_aligned_poses (inS A93) (inS B93) (Fin 0) = Ok (inS outA, inS [(17/16, (p0, q0))]) /\
    compute_aligned_poses (inS (shift_rows c A93)) (inS (shift_rows c B93)) (Fin 0) = Ok (inS outA', inS [(17/16 + c, (p0, q0'))]) /\
    p0 = vzero /\ q0 = r /\ on_path (shift_rows c B93) (17/16 + c, (p0, q0'))).
  { intros c. destruct (both_clocks A93 B93 0 c ltac:(discriminate) ltac:(discriminate) SA SB UA UB) as (oA & oB & oA' & oB' & E & E' & TA & TB & PA & PB & PA' & PB').
    destruct (C41_contract A93 B93 0 ltac:(discriminate) ltac:(discriminate) SA SB UA UB) as (sm & oA2 & oB2 & E2 & TA2 & TB2 & _ & _ & L1 & _).
    rewrite E in E2. assert (TT : row_times oB = row_times oB2).
    { assert (I : inS oB = inS oB2) by (apply (f_equal (fun x => match x with Ok (_, b) => b | _ => [] end)) in E2; exact E2).
      apply (f_equal (map (fun x => match fst x with Fin t => t | _ => 0 end))) in I. unfold inS in I. rewrite !map_map in I. exact I. }
    rewrite SH0 in L1. specialize (L1 ltac:(cbn; lia) ltac:(cbn; lia) low93). destruct matched93 as [M1 M2].
    assert (SM : sm = [17/16]).
    { inversion L1 as [|? ? ? K1 K2|? ? ? K1 K2]; subst.
      - f_equal. inversion K2 as [|? ? ? J1 J2|? ? ? J1 J2]; subst; [now destruct J1|]. now inversion J2.
      - exfalso. apply K1. split; [|easy]. cbn. unfold Rmax. destruct (Rle_dec _ _); lra. }
    rewrite TB2, SM in TT. destruct oB as [|[t [p q]] [|? ?]]; try discriminate TT. cbn in TT. injection TT as ->.
    destruct oB' as [|[t' [p' q']] [|? ?]]; try discriminate TB. cbn in TB. injection TB as ->.
    apply Forall_inv in PB, PB'. pose proof (on_path_position c B93 _ _ _ _ _ SB PB PB') as ->.
    exists oA, p, q, oA', q'. split; [easy|]. split; [easy|]. split; [|split; [|easy]].
    - destruct (on_path_place B93 _ _ _ SB PB) as (j & tj & pj & qj & N & _ & [(_ & ->)|(tk & pk & qk & N' & _ & ->)]).
      + destruct j as [|[|[|j]]]; cbn in N; try (destruct j; discriminate N); now injection N as _ <- _.
      + assert (Z : forall k t0 p0 q0, nth_error B93 k = Some (t0, (p0, q0)) -> p0 = vzero).
        { intros [|[|[|k]]] t0 p0 q0 H; cbn in H; try (destruct k; discriminate H); now injection H as _ <- _. }
        apply Z in N, N'. subst. unfold vzero, vadd, vscale, vsub. cbn. f_equal; ring.
    - destruct PB as (_ & _ & _ & PB). inversion PB as [k t q0 F N C|k tl tr ql qr q0 F N S QL QR C SL']; subst.
      + destruct (first_from_unique _ _ _ _ _ _ F first93) as [-> ->]. exfalso. rewrite Rabs_pos_eq in C by lra. lra.
      + destruct (first_from_unique _ _ _ _ _ _ F first93) as [K ->]. injection K as ->. cbn in N, QL, QR. injection N as <-. injection QL as <-. injection QR as <-.
        replace ((17 / 16 - 1) / (9 / 8 - 1)) with (1/2) in SL' by lra. rewrite SL in SL'.
        destruct r as [[r1 r2 r3] r4], q as [[a b d] e]. cbn in SL'. now injection SL' as -> -> -> ->. }
  exists A93, B93, (17/16), vzero, r, q93. destruct (ALL 0) as (oA & p0 & q0 & _ & _ & E & _ & -> & -> & _). exists oA.
  split; [easy|]. split; [easy|]. split; [easy|]. split; [easy|]. split; [exact E|]. split; [|exact C2].
  intros c LC. destruct (ALL c) as (oA1 & p1 & q1 & oA' & q' & _ & E' & -> & -> & P). exists oA'. rewrite E'. do 6 f_equal.
  apply far_next in P; [|unfold row_times, row_quats; now rewrite !map_length|].
  - apply next_recorded_shift in P. destruct P as (k & s & x & F & N). cbn [fst snd] in *. destruct (first_from_unique _ _ _ _ _ _ F first93) as [-> ->].
    cbn in N. now injection N as _ <-.
  - intros k a b. rewrite row_times_shift. destruct k as [|[|[|k]]]; cbn; intros Ea Eb; try discriminate Eb; try (destruct k; discriminate Eb); injection Ea as <-; injection Eb as <-; rewrite Rabs_pos_eq by lra; lra.
Qed.

(** Unix time satisfies the hypothesis *)
Example C93_example : A93 <> [] /\ B93 <> [] /\ far_from_zero (shift_rows 1500000000 (shift_rows 0 A93)) /\ far_from_zero (shift_rows 1500000000 B93).
Proof.
  split; [discriminate|]. split; [discriminate|]. split; intros k a b; rewrite !row_times_shift; rewrite ?map_map.
  - destruct k as [|[|k]]; cbn; intros Ea Eb; try discriminate Eb; try (destruct k; discriminate Eb); injection Ea as <-; injection Eb as <-; rewrite Rabs_pos_eq by lra; lra.
  - destruct k as [|[|[|k]]]; cbn; intros Ea Eb; try discriminate Eb; try (destruct k; discriminate Eb); injection Ea as <-; injection Eb as <-; rewrite Rabs_pos_eq by lra; lra.
Qed.
