(** * Property C81: what the figures of poses show. *)

From Coq Require Import String Reals ZArith Bool List Lra Lia Psatz.
From Verif Require Import Num Py XReal XFacts Quat DualQuat HandEye TimeAlign Spec Embed QuatFacts QuatTrig
  QuatRot PropQuat DualFacts ScrewFacts PropDual ListFacts HandEyeFacts KernelFacts CalibFacts CalibExample
  PropEval FloatQuat StabilityFacts PropStability Views.
Import ListNotations.
Local Open Scope R_scope.
Local Notation v1 := Spec.v1.

(** ** Every n-th element *)
Lemma take_every_nil {A} s n : take_every (A:=A) s n [] = []. Proof. reflexivity. Qed.
Lemma take_every_skip {A} (l : list A) : forall s n, take_every s n l = take_every 0 n (skipn s l).
Proof.
  induction l as [|a l IH]; intros s n; [now rewrite skipn_nil|].
  destruct s as [|s]; [reflexivity|]. cbn [take_every skipn]. apply IH.
Qed.
Lemma nth_error_skipn_at {A} (l : list A) : forall s k, nth_error (skipn s l) k = nth_error l (s + k).
Proof. induction l as [|a l IH]; intros [|s] k; cbn [skipn Nat.add nth_error]; auto. now destruct k. Qed.
Lemma take_every_nth {A} (n k : nat) : forall l : list A, nth_error (take_every 0 n l) k = nth_error l (k * S n).
Proof.
  induction k as [|k IH]; intros l.
  - destruct l; reflexivity.
  - destruct l as [|a l]; [cbn [take_every]; destruct (S k * S n)%nat; reflexivity|]. cbn [take_every nth_error].
    rewrite take_every_skip, IH, nth_error_skipn_at. replace (S k * S n)%nat with (S (n + k * S n)) by lia. reflexivity.
Qed.
Lemma take_every_map {A B} (f : A -> B) (l : list A) : forall s n, take_every s n (map f l) = map f (take_every s n l).
Proof. induction l as [|a l IH]; intros [|s] n; cbn [take_every map]; rewrite ?IH; reflexivity. Qed.
Lemma slice_step_map {A B} (f : A -> B) n (l : list A) :
  slice_step n (map f l) = match slice_step n l with Ok k => Ok (map f k) | Err e => Err e end.
Proof. unfold slice_step. destruct (n =? 0)%Z; [easy|]. destruct (0 <? n)%Z; rewrite <- ?map_rev, take_every_map; reflexivity. Qed.
(** l[::n]: the elements at 0, n, 2n, ... for positive n, at -1, -1 - |n|, ... for negative n *)
Lemma slice_step_spec {A} n (l : list A) : n <> 0%Z -> exists k, slice_step n l = Ok k /\
  (forall i, nth_error k i = if (0 <? n)%Z then nth_error l (i * Z.to_nat n) else nth_error (rev l) (i * Z.to_nat (- n))) /\
  incl k l /\ (l <> [] -> k <> []).
Proof.
  intros N0. unfold slice_step. rewrite (proj2 (Z.eqb_neq n 0) N0).
  assert (G : forall (m : nat) (j : list A), (0 < m)%nat -> forall i, nth_error (take_every 0 (m - 1) j) i = nth_error j (i * m)).
  { intros m j M i. rewrite take_every_nth. do 2 f_equal. lia. }
  assert (I : forall (m : nat) (j : list A), (0 < m)%nat -> incl (take_every 0 (m - 1) j) j /\ (j <> [] -> take_every 0 (m - 1) j <> [])).
  { intros m j M. split.
    - intros a H. apply In_nth_error in H as (i & H). rewrite G in H by easy. now apply nth_error_In in H.
    - destruct j; [easy|]. intros _. cbn [take_every]. discriminate. }
  destruct (Z.ltb_spec 0 n) as [P|P]; eexists; (split; [reflexivity|]); (split; [apply G; lia|]).
  - apply I. lia.
  - destruct (I (Z.to_nat (- n)) (rev l)) as [I1 I2]; [lia|]. split.
    + intros a H. apply in_rev. now apply I1.
    + intros H. apply I2. intros E. apply H. rewrite <- (rev_involutive l), E. reflexivity.
Qed.

(** ** The parts of a figure *)
Section Parts.
  Context {N : Num}.
  Definition lines_of (f : figure N) : list (string * list vec3) :=
    flat_map (fun d => match d with Line c p => [(c, p)] | _ => [] end) (drawings f).
  Definition markers_of (f : figure N) : list (string * vec3) :=
    flat_map (fun d => match d with Marker c p => [(c, p)] | _ => [] end) (drawings f).
  Definition arrows_of (f : figure N) : list (string * (vec3 * vec3)) :=
    flat_map (fun d => match d with Arrow c a b => [(c, (a, b))] | _ => [] end) (drawings f).
End Parts.

Lemma amin_ok {N : Num} l : l <> [] -> exists a, amin (N:=N) l = Ok a.
Proof. destruct l; [easy|]. eexists; reflexivity. Qed.
Lemma amax_ok {N : Num} l : l <> [] -> exists a, amax (N:=N) l = Ok a.
Proof. destruct l; [easy|]. eexists; reflexivity. Qed.
Lemma amin3_ok {N : Num} l : l <> [] -> exists a, amin3 (N:=N) l = Ok a.
Proof. destruct l; [easy|]. eexists; reflexivity. Qed.
Lemma amax3_ok {N : Num} l : l <> [] -> exists a, amax3 (N:=N) l = Ok a.
Proof. destruct l; [easy|]. eexists; reflexivity. Qed.
Lemma map_nonempty {A B} (f : A -> B) l : l <> [] -> map f l <> [].
Proof. destruct l; easy. Qed.
Lemma boxes_ok {N : Num} (L : list (list pose)) : Forall (fun t => t <> []) L ->
  exists boxes, mapM (fun poses => do lo <- amin3 (map pos poses); do hi <- amax3 (map pos poses); Ok (lo, hi)) L = Ok boxes /\ length boxes = length L.
Proof.
  induction 1 as [|t L H _ (b & E & LE)]; [exists []; easy|].
  destruct (amin3_ok _ (map_nonempty pos t H)) as (lo & E1). destruct (amax3_ok _ (map_nonempty pos t H)) as (hi & E2).
  exists ((lo, hi) :: b). cbn [mapM]. rewrite E1. cbn [bind]. rewrite E2. cbn [bind]. rewrite E. cbn [bind length]. now rewrite LE.
Qed.
Lemma boxes_empty {N : Num} (L : list (list pose)) : Exists (fun t => t = []) L ->
  mapM (fun poses => do lo <- amin3 (map pos poses); do hi <- amax3 (map pos poses); Ok (lo, hi)) L = Err ValueError.
Proof.
  induction 1 as [t L ->|t L _ IH]; [reflexivity|]. cbn [mapM]. destruct t as [|p t]; [reflexivity|].
  match goal with |- context[bind ?m _] => destruct m as [b|] eqn:E end.
  - cbn [bind]. now rewrite IH.
  - exfalso. destruct (amin3_ok _ (map_nonempty pos (p :: t) ltac:(easy))) as (lo & E1). destruct (amax3_ok _ (map_nonempty pos (p :: t) ltac:(easy))) as (hi & E2).
    rewrite E1 in E. cbn [bind] in E. rewrite E2 in E. discriminate E.
Qed.

(** ** C81 *)
(** More than five trajectories, none at all, or one without poses. *)
Theorem C81_rejects : forall {N : Num} (L : list (list pose)) (arrows : bool),
  ((6 <= length L)%nat -> plot_poses L arrows = Err AssertionError) /\
  ((length L < 6)%nat -> L = [] \/ Exists (fun t => t = []) L -> plot_poses L arrows = Err ValueError).
Proof.
  intros N L arrows. split; intros H.
  - unfold plot_poses. change (length colours) with 6%nat. destruct (Nat.ltb_spec (length L) 6); [lia|reflexivity].
  - intros [-> | E]; [reflexivity|]. unfold plot_poses. change (length colours) with 6%nat.
    rewrite assert_true by now apply Nat.ltb_lt. unfold compute_bbox_3D. now rewrite boxes_empty.
Qed.

(** Each trajectory is one line in its own colour and one marker per pose, in order; with arrows,
    three of them (red, green, blue) start at each pose. *)
Theorem C81_drawn : forall {N : Num} (L : list (list pose)) (arrows : bool),
  L <> [] -> (length L < 6)%nat -> Forall (fun t => t <> []) L ->
  let own := combine ["r"; "g"; "b"; "c"; "m"]%string L in
  exists fig, plot_poses L arrows = Ok fig /\
    lines_of fig = map (fun cp => (fst cp, map pos (snd cp))) own /\
    markers_of fig = flat_map (fun cp => map (fun p => (fst cp, pos p)) (snd cp)) own /\
    map (fun a => (fst a, fst (snd a))) (arrows_of fig) =
      (if arrows then flat_map (fun p => [("r"%string, pos p); ("g"%string, pos p); ("b"%string, pos p)]) (concat L) else []).
Proof.
  intros N L arrows NE L6 NT own. unfold plot_poses. change (length colours) with 6%nat.
  rewrite assert_true by now apply Nat.ltb_lt. unfold compute_bbox_3D.
  destruct (boxes_ok L NT) as (boxes & E & LE). rewrite E. cbn [bind].
  assert (NB : boxes <> []) by (intros ->; destruct L; [easy|discriminate LE]).
  destruct (amax3_ok _ (map_nonempty snd boxes NB)) as (hi & E1). destruct (amin3_ok _ (map_nonempty fst boxes NB)) as (lo & E2).
  rewrite E1. cbn [bind]. rewrite E2. cbn [bind amin amax]. eexists. split; [reflexivity|].
  set (size := mul _ _).
  assert (OWN : combine colours L = own).
  { unfold own, colours. destruct L as [|a [|b [|c [|d [|e [|f L]]]]]]; try reflexivity. cbn [length] in L6. lia. }
  assert (CL : concat L = flat_map snd own).
  { unfold own. clear - L6. destruct L as [|a [|b [|c [|d [|e [|f L]]]]]]; try reflexivity. cbn [length] in L6. lia. }
  rewrite OWN, CL. clearbody own. clear - size.
  unfold lines_of, markers_of, arrows_of. cbn [drawings].
  assert (P : forall c t,
    flat_map (fun d => match d with Line c p => [(c, p)] | _ => [] end) (flat_map (draw_pose arrows size c) t) = [] /\
    flat_map (fun d => match d with Marker c p => [(c, p)] | _ => [] end) (flat_map (draw_pose arrows size c) t) = map (fun p => (c, pos p)) t /\
    map (fun a => (fst a, fst (snd a))) (flat_map (fun d => match d with Arrow c a b => [(c, (a, b))] | _ => [] end) (flat_map (draw_pose arrows size c) t)) =
      (if arrows then flat_map (fun p => [("r"%string, pos p); ("g"%string, pos p); ("b"%string, pos p)]) t else [])).
  { intros c t. induction t as [|p t (I1 & I2 & I3)]; [destruct arrows; repeat split|].
    cbn [flat_map]. rewrite !flat_map_app, map_app, I1, I2, I3. destruct arrows; repeat split. }
  induction own as [|[c t] own (I1 & I2 & I3)]; [destruct arrows; repeat split|].
  cbn [flat_map fst snd]. destruct (P c t) as (P1 & P2 & P3). rewrite !flat_map_app. cbn [flat_map app map].
  rewrite P1, P2, I1, I2. repeat split. rewrite map_app, P3, I3. destruct arrows; reflexivity.
Qed.

(** ** In the reals *)
Lemma np_min_in a b : np_min (N:=XR) (Fin a) (Fin b) = Fin (Rmin a b).
Proof.
  unfold np_min. cbn [eqb ltb XR xeqb xltb]. rewrite !Reqb_t by reflexivity. cbn [negb]. unfold Rmin, Rltb.
  destruct (Rlt_dec b a), (Rle_dec a b); try easy; f_equal; lra.
Qed.
Lemma np_max_in a b : np_max (N:=XR) (Fin a) (Fin b) = Fin (Rmax a b).
Proof.
  unfold np_max. cbn [eqb ltb XR xeqb xltb]. rewrite !Reqb_t by reflexivity. cbn [negb]. unfold Rmax, Rltb.
  destruct (Rlt_dec a b), (Rle_dec a b); try easy; f_equal; lra.
Qed.
(** the smallest, the largest element *)
Definition least (l : list R) (m : R) : Prop := In m l /\ forall x, In x l -> m <= x.
Definition greatest (l : list R) (m : R) : Prop := In m l /\ forall x, In x l -> x <= m.
Lemma amin_in l : l <> [] -> exists m, amin (N:=XR) (map Fin l) = Ok (Fin m) /\ least l m.
Proof.
  destruct l as [|a l]; [easy|]. intros _. cbn [amin map]. revert a. induction l as [|b l IH]; intros a.
  - exists a. split; [reflexivity|]. split; [now left|]. intros x [<- | []]. lra.
  - cbn [map fold_left]. rewrite np_min_in. destruct (IH (Rmin a b)) as (m & E & I & M). exists m. split; [exact E|].
    split.
    + destruct I as [I|I]; [|right; now right]. subst m. unfold Rmin. destruct (Rle_dec a b); [now left|right; now left].
    + intros x [<- | [<- | Ix]]; [| |apply M; now right]; (apply Rle_trans with (Rmin a b); [apply M; now left|]); [apply Rmin_l|apply Rmin_r].
Qed.
Lemma amax_in l : l <> [] -> exists m, amax (N:=XR) (map Fin l) = Ok (Fin m) /\ greatest l m.
Proof.
  destruct l as [|a l]; [easy|]. intros _. cbn [amax map]. revert a. induction l as [|b l IH]; intros a.
  - exists a. split; [reflexivity|]. split; [now left|]. intros x [<- | []]. lra.
  - cbn [map fold_left]. rewrite np_max_in. destruct (IH (Rmax a b)) as (m & E & I & M). exists m. split; [exact E|].
    split.
    + destruct I as [I|I]; [|right; now right]. subst m. unfold Rmax. destruct (Rle_dec a b); [right; now left|now left].
    + intros x [<- | [<- | Ix]]; [| |apply M; now right]; (apply Rle_trans with (Rmax a b); [|apply M; now left]); [apply Rmax_l|apply Rmax_r].
Qed.

(** the corners of the smallest box with the given points *)
Definition box (P : list rv) (lo hi : rv) : Prop :=
  least (map v1 P) (v1 lo) /\ least (map v2 P) (v2 lo) /\ least (map v3 P) (v3 lo) /\
  greatest (map v1 P) (v1 hi) /\ greatest (map v2 P) (v2 hi) /\ greatest (map v3 P) (v3 hi).
Definition coordinates (P : list rv) : list R := flat_map (fun v => [v1 v; v2 v; v3 v]) P.

Lemma amin3_in P : P <> [] -> exists lo, amin3 (N:=XR) (map inV P) = Ok (inV lo) /\
  least (map v1 P) (v1 lo) /\ least (map v2 P) (v2 lo) /\ least (map v3 P) (v3 lo).
Proof.
  intros NE. unfold amin3. 
  assert (H1 : map vx (map inV P) = map Fin (map v1 P)) by (rewrite !map_map; reflexivity).
  assert (H2 : map vy (map inV P) = map Fin (map v2 P)) by (rewrite !map_map; reflexivity).
  assert (H3 : map vz (map inV P) = map Fin (map v3 P)) by (rewrite !map_map; reflexivity). rewrite H1, H2, H3.
  destruct (amin_in (map v1 P) (map_nonempty _ _ NE)) as (x & E1 & L1). destruct (amin_in (map v2 P) (map_nonempty _ _ NE)) as (y & E2 & L2).
  destruct (amin_in (map v3 P) (map_nonempty _ _ NE)) as (z & E3 & L3).
  rewrite E1. cbn [bind]. rewrite E2. cbn [bind]. rewrite E3. cbn [bind]. now exists (RV x y z).
Qed.
Lemma amax3_in P : P <> [] -> exists hi, amax3 (N:=XR) (map inV P) = Ok (inV hi) /\
  greatest (map v1 P) (v1 hi) /\ greatest (map v2 P) (v2 hi) /\ greatest (map v3 P) (v3 hi).
Proof.
  intros NE. unfold amax3. 
  assert (H1 : map vx (map inV P) = map Fin (map v1 P)) by (rewrite !map_map; reflexivity).
  assert (H2 : map vy (map inV P) = map Fin (map v2 P)) by (rewrite !map_map; reflexivity).
  assert (H3 : map vz (map inV P) = map Fin (map v3 P)) by (rewrite !map_map; reflexivity). rewrite H1, H2, H3.
  destruct (amax_in (map v1 P) (map_nonempty _ _ NE)) as (x & E1 & L1). destruct (amax_in (map v2 P) (map_nonempty _ _ NE)) as (y & E2 & L2).
  destruct (amax_in (map v3 P) (map_nonempty _ _ NE)) as (z & E3 & L3).
  rewrite E1. cbn [bind]. rewrite E2. cbn [bind]. rewrite E3. cbn [bind]. now exists (RV x y z).
Qed.
Lemma pos_poses t : map pos (poses t) = map inV (map fst t).
Proof. unfold poses. rewrite !map_map. reflexivity. Qed.

Lemma least_concat {A} (f : rv -> R) (g : A -> rv) (B : list A) (C : list (list rv)) m :
  Forall2 (fun b P => least (map f P) (f (g b))) B C -> least (map f (map g B)) m -> least (map f (concat C)) m.
Proof.
  intros F [I M]. split.
  - rewrite map_map in I. apply in_map_iff in I as (b & E & Ib).
    assert (H : exists P, In P C /\ least (map f P) (f (g b))).
    { clear M. induction F as [|b' P B C H _ IH]; [easy|]. destruct Ib as [-> |Ib]; [exists P; split; [now left|exact H]|].
      destruct (IH Ib) as (Q & IQ & HQ). exists Q. split; [now right|exact HQ]. }
    destruct H as (P & IP & [J _]). rewrite E in J. apply in_map_iff in J as (v & <- & Iv). apply in_map. apply in_concat. now exists P.
  - intros x Ix. apply in_map_iff in Ix as (v & <- & Iv). apply in_concat in Iv as (P & IP & Iv).
    assert (H : exists b, In b B /\ least (map f P) (f (g b))).
    { clear M I. induction F as [|b' P' B C H _ IH]; [easy|]. destruct IP as [-> |IP]; [exists b'; split; [now left|exact H]|].
      destruct (IH IP) as (Q & IQ & HQ). exists Q. split; [now right|exact HQ]. }
    destruct H as (b & Ib & [_ J]). apply Rle_trans with (f (g b)); [apply M, in_map, in_map, Ib|apply J, in_map, Iv].
Qed.
Lemma greatest_concat {A} (f : rv -> R) (g : A -> rv) (B : list A) (C : list (list rv)) m :
  Forall2 (fun b P => greatest (map f P) (f (g b))) B C -> greatest (map f (map g B)) m -> greatest (map f (concat C)) m.
Proof.
  intros F [I M]. split.
  - rewrite map_map in I. apply in_map_iff in I as (b & E & Ib).
    assert (H : exists P, In P C /\ greatest (map f P) (f (g b))).
    { clear M. induction F as [|b' P B C H _ IH]; [easy|]. destruct Ib as [-> |Ib]; [exists P; split; [now left|exact H]|].
      destruct (IH Ib) as (Q & IQ & HQ). exists Q. split; [now right|exact HQ]. }
    destruct H as (P & IP & [J _]). rewrite E in J. apply in_map_iff in J as (v & <- & Iv). apply in_map. apply in_concat. now exists P.
  - intros x Ix. apply in_map_iff in Ix as (v & <- & Iv). apply in_concat in Iv as (P & IP & Iv).
    assert (H : exists b, In b B /\ greatest (map f P) (f (g b))).
    { clear M I. induction F as [|b' P' B C H _ IH]; [easy|]. destruct IP as [-> |IP]; [exists b'; split; [now left|exact H]|].
      destruct (IH IP) as (Q & IQ & HQ). exists Q. split; [now right|exact HQ]. }
    destruct H as (b & Ib & [_ J]). apply Rle_trans with (f (g b)); [apply J, in_map, Iv|apply M, in_map, in_map, Ib].
Qed.
Lemma Forall2_weaken {A B} (P Q : A -> B -> Prop) l k : (forall a b, P a b -> Q a b) -> Forall2 P l k -> Forall2 Q l k.
Proof. intros H. induction 1; constructor; auto. Qed.

Lemma bbox_in (L : list (list (rv * rq))) : L <> [] -> Forall (fun t => t <> []) L ->
  exists hi lo, compute_bbox_3D (N:=XR) (map poses L) = Ok (inV hi, inV lo) /\ box (map fst (concat L)) lo hi.
Proof.
  intros NE NT. unfold compute_bbox_3D.
  assert (B : exists B : list (rv * rv), mapM (fun poses => do lo <- amin3 (map pos poses); do hi <- amax3 (map pos poses); Ok (lo, hi)) (map poses L)
       = Ok (map (fun b => (inV (fst b), inV (snd b))) B) /\ Forall2 (fun b P => box P (fst b) (snd b)) B (map (map fst) L)).
  { clear NE. induction NT as [|t L H _ (B & E & F)]; [exists []; split; [reflexivity|constructor]|].
    destruct (amin3_in (map fst t) (map_nonempty _ _ H)) as (lo & E1 & P1). destruct (amax3_in (map fst t) (map_nonempty _ _ H)) as (hi & E2 & P2).
    exists ((lo, hi) :: B). split.
    - cbn [mapM map]. rewrite pos_poses, E1. cbn [bind]. rewrite E2. cbn [bind]. rewrite E. reflexivity.
    - constructor; [|exact F]. unfold box. cbn [fst snd]. tauto. }
  destruct B as (B & E & F). rewrite E. cbn [bind]. rewrite !map_map. cbn [fst snd].
  assert (NB : B <> []) by (intros ->; inversion F; destruct L; easy).
  rewrite <- (map_map snd inV), <- (map_map fst inV).
  destruct (amax3_in (map snd B) (map_nonempty _ _ NB)) as (hi & E1 & P1). destruct (amin3_in (map fst B) (map_nonempty _ _ NB)) as (lo & E2 & P2).
  rewrite E1. cbn [bind]. rewrite E2. cbn [bind]. exists hi, lo. split; [reflexivity|]. rewrite concat_map.
  destruct P1 as (P1 & P1' & P1''), P2 as (P2 & P2' & P2'').
  repeat split; [apply (least_concat v1 fst B)|apply (least_concat v1 fst B)|apply (least_concat v2 fst B)|apply (least_concat v2 fst B)|apply (least_concat v3 fst B)|apply (least_concat v3 fst B)|apply (greatest_concat v1 snd B)|apply (greatest_concat v1 snd B)|apply (greatest_concat v2 snd B)|apply (greatest_concat v2 snd B)|apply (greatest_concat v3 snd B)|apply (greatest_concat v3 snd B)]; try assumption; revert F; apply Forall2_weaken; unfold box; tauto.
Qed.

(** The view contains every pose and is no larger than needed; the arrows are the axes of the poses,
    of one twentieth of the diagonal of the bounding box. *)
Theorem C81_view : forall (L : list (list (rv * rq))) (arrows : bool),
  L <> [] -> (length L < 6)%nat -> Forall (fun t => t <> []) L -> Forall (fun p => unitq (snd p)) (concat L) ->
  exists fig lo hi a b, plot_poses (N:=XR) (map poses L) arrows = Ok fig /\
    box (map fst (concat L)) lo hi /\ axis_min fig = Fin a /\ axis_max fig = Fin b /\
    least (coordinates (map fst (concat L))) a /\ greatest (coordinates (map fst (concat L))) b /\
    let arrow p c e := (c, (inV (fst p), inV (vadd (fst p) (vscale (len3 (vsub hi lo) / 20) (hrot (snd p) e))))) in
    arrows_of fig =
      (if arrows then flat_map (fun p => [arrow p "r"%string (RV 1 0 0); arrow p "g"%string (RV 0 1 0); arrow p "b"%string (RV 0 0 1)]) (concat L) else []).
Proof.
  intros L arrows NE L6 NT UQ. unfold plot_poses. rewrite map_length. change (length colours) with 6%nat.
  rewrite assert_true by now apply Nat.ltb_lt.
  destruct (bbox_in L NE NT) as (hi & lo & E & BX). rewrite E. cbn [bind].
  assert (Ea : exists a, amin (N:=XR) [vx (inV lo); vy (inV lo); vz (inV lo)] = Ok (Fin a) /\ least [v1 lo; v2 lo; v3 lo] a) by (apply (amin_in [v1 lo; v2 lo; v3 lo]); discriminate).
  assert (Eb : exists b, amax (N:=XR) [vx (inV hi); vy (inV hi); vz (inV hi)] = Ok (Fin b) /\ greatest [v1 hi; v2 hi; v3 hi] b) by (apply (amax_in [v1 hi; v2 hi; v3 hi]); discriminate).
  destruct Ea as (a & Ea & La). destruct Eb as (b & Eb & Gb). rewrite Ea. cbn [bind]. rewrite Eb. cbn [bind].
  eexists _, lo, hi, a, b. split; [reflexivity|]. split; [exact BX|]. split; [reflexivity|]. split; [reflexivity|].
  assert (COO : forall P x, In x (coordinates P) <-> In x (map v1 P) \/ In x (map v2 P) \/ In x (map v3 P)).
  { intros P x. unfold coordinates. rewrite in_flat_map. split.
    - intros (v & I & [<- | [<- | [<- | []]]]); [left|right; left|right; right]; now apply in_map.
    - intros [H|[H|H]]; apply in_map_iff in H as (v & <- & I); exists v; (split; [exact I|]); cbn [In]; auto. }
  destruct BX as (B1 & B2 & B3 & B4 & B5 & B6). split; [|split].
  - destruct La as [I M]. split.
    + apply COO. destruct I as [<- | [<- | [<- | []]]]; [left; apply B1|right; left; apply B2|right; right; apply B3].
    + intros x Hx. apply COO in Hx as [Hx|[Hx|Hx]]; [apply Rle_trans with (v1 lo); [apply M; cbn [In]; auto|now apply B1]|apply Rle_trans with (v2 lo); [apply M; cbn [In]; auto|now apply B2]|apply Rle_trans with (v3 lo); [apply M; cbn [In]; auto|now apply B3]].
  - destruct Gb as [I M]. split.
    + apply COO. destruct I as [<- | [<- | [<- | []]]]; [left; apply B4|right; left; apply B5|right; right; apply B6].
    + intros x Hx. apply COO in Hx as [Hx|[Hx|Hx]]; [apply Rle_trans with (v1 hi); [now apply B4|apply M; cbn [In]; auto]|apply Rle_trans with (v2 hi); [now apply B5|apply M; cbn [In]; auto]|apply Rle_trans with (v3 hi); [now apply B6|apply M; cbn [In]; auto]].
  - unfold arrows_of. cbn [drawings]. rewrite vsub3_in, vnorm_in. cbn [mul XR xmul lit].
    replace (Rlit 5 (-2)) with (/ 20) by (unfold Rlit; cbn; lra). change (len3 (vsub hi lo) * / 20) with (len3 (vsub hi lo) / 20).
    set (s := len3 (vsub hi lo) / 20).
    set (own := combine colours (map poses L)).
    assert (CL : flat_map snd own = poses (concat L)).
    { unfold own, poses. rewrite concat_map. fold poses. clear - L6. destruct L as [|t1 [|t2 [|t3 [|t4 [|t5 [|t6 L]]]]]]; try reflexivity. cbn [length] in L6. lia. }
    clearbody own.
    assert (S : forall l : list (rv * rq), Forall (fun p => unitq (snd p)) l -> forall c,
      flat_map (fun d => match d with Arrow c a b => [(c, (a, b))] | _ => [] end) (flat_map (draw_pose (N:=XR) arrows (Fin s) c) (poses l)) =
      (if arrows then flat_map (fun p => [("r"%string, (inV (fst p), inV (vadd (fst p) (vscale s (hrot (snd p) (RV 1 0 0)))))); ("g"%string, (inV (fst p), inV (vadd (fst p) (vscale s (hrot (snd p) (RV 0 1 0))))));
        ("b"%string, (inV (fst p), inV (vadd (fst p) (vscale s (hrot (snd p) (RV 0 0 1))))))]) l else [])).
    { induction 1 as [|p l Hp _ IH]; intros c; [now destruct arrows|]. cbn [poses map flat_map]. rewrite flat_map_app. fold (poses l). rewrite IH.
      destruct arrows; [|reflexivity]. cbn [draw_pose flat_map app]. unfold arrow. cbn [inP pos ori].
      assert (R : forall e, vadd3 (N:=XR) (inV (fst p)) (let r := rotate_vector (inQ (snd p)) (inV e) in mkV (N:=XR) (mul (vx r) (Fin s)) (mul (vy r) (Fin s)) (mul (vz r) (Fin s)))
                          = inV (vadd (fst p) (vscale s (hrot (snd p) e)))).
      { intros e. rewrite rotate_vector_in, rot_matrix_apply by exact Hp. destruct (fst p) as [fa fb fc], (hrot (snd p) e) as [ga gb gc]. unfold vadd3, vadd, vscale, inV. cbn [vx vy vz Spec.v1 v2 v3 mul add XR xmul xadd].
        rewrite (Rmult_comm ga), (Rmult_comm gb), (Rmult_comm gc). reflexivity. }
      pose proof (R (RV 1 0 0)) as R1. pose proof (R (RV 0 1 0)) as R2. pose proof (R (RV 0 0 1)) as R3.
      change (@mkV XR n1 n0 n0) with (inV (RV 1 0 0)). change (@mkV XR n0 n1 n0) with (inV (RV 0 1 0)). change (@mkV XR n0 n0 n1) with (inV (RV 0 0 1)).
      cbv zeta in R1, R2, R3 |- *. rewrite R1, R2, R3. reflexivity. }
    assert (G : forall l, Forall (fun p => unitq (snd p)) l -> forall own, flat_map (snd (A:=string)) own = poses l ->
      flat_map (fun d => match d with Arrow c a b => [(c, (a, b))] | _ => [] end)
        (flat_map (fun cp => Line (fst cp) (map pos (snd cp)) :: flat_map (draw_pose (N:=XR) arrows (Fin s) (fst cp)) (snd cp)) own) =
      (if arrows then flat_map (fun p => [("r"%string, (inV (fst p), inV (vadd (fst p) (vscale s (hrot (snd p) (RV 1 0 0)))))); ("g"%string, (inV (fst p), inV (vadd (fst p) (vscale s (hrot (snd p) (RV 0 1 0))))));
        ("b"%string, (inV (fst p), inV (vadd (fst p) (vscale s (hrot (snd p) (RV 0 0 1))))))]) l else [])).
    { intros l Ul own'. revert l Ul. induction own' as [|[c t] own' IH]; intros l Ul El.
      - cbn [flat_map] in El. destruct l; [now destruct arrows|discriminate El].
      - cbn [flat_map snd] in El. unfold poses in El. symmetry in El. apply map_eq_app in El as (l1 & l2 & -> & E1 & E2).
        apply Forall_app in Ul as [U1 U2]. cbn [flat_map fst snd]. rewrite flat_map_app. cbn [flat_map app].
        fold (poses l1) in E1. fold (poses l2) in E2. rewrite <- E1, (S l1 U1), (IH l2 U2) by now symmetry.
        destruct arrows; [now rewrite flat_map_app|reflexivity]. }
    apply G; assumption.
Qed.

(** ** The figure at the end of a calibration *)
(** the k-th element of l[::n] *)
Definition every_nth {A} (l : list A) (n : Z) (k : nat) : option A :=
  if (0 <? n)%Z then nth_error l (k * Z.to_nat n) else nth_error (rev l) (k * Z.to_nat (- n)).
Lemma trans_rflip a : trans_of (rflip a) = trans_of a.
Proof. destruct (rflip_cases a) as [-> | ->]; [easy|apply trans_of_neg]. Qed.
Lemma trans_pm a b : (a = b \/ a = dqneg b) -> trans_of a = trans_of b.
Proof. intros [-> | ->]; [easy|apply trans_of_neg]. Qed.
Lemma seen_neg x m : seen x (dqneg m) = dqneg (seen x m).
Proof. unfold seen. now rewrite dqmul_neg_r, dqmul_neg_l. Qed.

Section Calibration.
  Context (cfg : config XR) (tp to : R) (Tp : ransac_position_error_threshold_m cfg = Fin tp) (To : ransac_orientation_error_threshold_deg cfg = Fin to).
  Context (x : rdq) (h0 e0 : rdq) (rest : list (rdq * rdq)).
  Let l := (h0, e0) :: rest.
  Context (Ux : unitdq x) (H : Forall (fun p => unitdq (fst p) /\ unitdq (snd p)) l).
  Let l' := map (fun p => (rflip (dqmul (dqinv h0) (fst p)), rflip (dqmul (dqinv e0) (snd p)))) l.
  Lemma first_units : unitdq h0 /\ unitdq e0.
  Proof. rewrite Forall_forall in H. apply (H (h0, e0)). now left. Qed.
  Lemma aligned_hands : align_paths_at_index (hands l) 0 = Ok (hands l').
  Proof.
    destruct first_units as [U0 _]. replace (hands l) with (map inD (map fst l)) by (unfold hands; now rewrite map_map).
    rewrite (align_in (map fst l) 0 h0) by (try reflexivity; now apply unitdq_tiny). rewrite rotl_0. unfold l', hands. rewrite !map_map. reflexivity.
  Qed.
  Lemma aligned_eyes : align_paths_at_index (eyes l) 0 = Ok (eyes l').
  Proof.
    destruct first_units as [_ U0]. replace (eyes l) with (map inD (map snd l)) by (unfold eyes; now rewrite map_map).
    rewrite (align_in (map snd l) 0 e0) by (try reflexivity; now apply unitdq_tiny). rewrite rotl_0. unfold l', eyes. rewrite !map_map. reflexivity.
  Qed.
  Lemma aligned_units : Forall (fun p => unitdq (fst p) /\ unitdq (snd p)) l'.
  Proof.
    destruct first_units as [U1 U2]. unfold l'. rewrite Forall_map. revert H. apply Forall_impl. intros p [P1 P2]. cbn [fst snd].
    split; apply rflip_unit; apply unitdq_mul; auto using unitdq_inv.
  Qed.
  Lemma first_aligned : dqconj (rflip (dqmul (dqinv e0) e0)) = dqone.
  Proof.
    destruct first_units as [_ U0]. rewrite dqmul_inv_l by now apply unitdq_n2. unfold rflip. cbn [dqone dr hone qs].
    destruct (Rlt_dec 1 0); [lra|]. apply rdq_eq; apply rq_eq; specu; ring.
  Qed.
  Definition hand_position (p : rdq * rdq) : rv := trans_of (dqmul (dqconj h0) (fst p)).
  Definition eye_position (p : rdq * rdq) : rv := trans_of (dqmul (dqmul x (dqmul (dqconj e0) (snd p))) (dqconj x)).
  Lemma visualize_cases n :
    (n = 0%Z -> visualize_alignment cfg n (hands l) (eyes l) (inD x) = Err ValueError) /\
    (n <> 0%Z -> exists fig P Q, visualize_alignment cfg n (hands l) (eyes l) (inD x) = Ok fig /\
      lines_of fig = [("r"%string, map inV P); ("g"%string, map inV Q)] /\
      forall k, nth_error P k = option_map hand_position (every_nth l n k) /\ nth_error Q k = option_map eye_position (every_nth l n k)).
  Proof.
    destruct first_units as [U1 U2].
    destruct (aligned_poses x l' _ _ _ Ux aligned_units eq_refl) as (z & GA & Z).
    destruct (C80_reported cfg tp to x l' Tp To Ux aligned_units ltac:(discriminate)) as (rp & ro & (h & ph & pe & fl & GA' & EV) & _).
    match type of GA with _ = Ok (_, ?a, ?b) => remember a as A eqn:DA; remember b as B eqn:DB end.
    rewrite GA in GA'. injection GA' as _ EA' EB'. subst ph pe.
    unfold visualize_alignment. rewrite aligned_eyes. cbn [bind]. rewrite aligned_hands. cbn [bind]. rewrite GA. cbn [bind]. rewrite EV. cbn [bind].
    assert (PA : map pos A = map inV (map hand_position l)).
    { rewrite DA. unfold l'. rewrite pos_poses, !map_map. cbn [fst]. apply map_ext. intros p. f_equal. unfold hand_position.
      rewrite trans_rflip. now rewrite unitdq_inv_conj. }
    assert (PB : map pos B = map inV (map eye_position l)).
    { rewrite DB, pos_poses, !map_map. unfold l'. rewrite map_map. cbn [fst]. apply map_ext_in. intros p I. f_equal.
      assert (I' : In (rflip (dqmul (dqinv h0) (fst p)), rflip (dqmul (dqinv e0) (snd p))) l') by (unfold l'; apply in_map_iff; exists p; split; [reflexivity|exact I]).
      pose proof (Z _ I') as Q. cbn [snd] in Q. rewrite first_aligned, dqmul_1_l in Q. rewrite (trans_pm _ _ Q).
      unfold eye_position. fold (seen x (dqmul (dqconj e0) (snd p))). rewrite (unitdq_inv_conj e0) by easy.
      destruct (rflip_cases (dqmul (dqconj e0) (snd p))) as [-> | ->]; [reflexivity|]. rewrite seen_neg. apply trans_of_neg. }
    assert (NA : A <> []) by (rewrite DA; discriminate). assert (NB : B <> []) by (rewrite DB; discriminate).
    clear DA DB Z GA EV h fl.
    split; intros N0; [rewrite N0; reflexivity|].
    destruct (slice_step_spec n A N0) as (A' & EA & SA & _ & NA'). destruct (slice_step_spec n B N0) as (B' & EB & SB & _ & NB').
    rewrite EA. cbn [bind]. rewrite EB. cbn [bind].
    destruct (C81_drawn (N:=XR) [A'; B'] true) as (fig & EF & LF & _); [discriminate|cbn; lia|repeat constructor; auto|].
    destruct (slice_step_spec n (map hand_position l) N0) as (P & EP & SP & _). destruct (slice_step_spec n (map eye_position l) N0) as (Q & EQ & SQ & _).
    exists fig, P, Q. split; [exact EF|]. split.
    - rewrite LF. cbn [combine map fst snd].
      assert (EA2 := slice_step_map pos n A). rewrite EA, PA, slice_step_map, EP in EA2. injection EA2 as <-.
      assert (EB2 := slice_step_map pos n B). rewrite EB, PB, slice_step_map, EQ in EB2. injection EB2 as <-. reflexivity.
    - intros k. rewrite SP, SQ. unfold every_nth. rewrite <- !map_rev. destruct (0 <? n)%Z; split; apply nth_error_map.
  Qed.
End Calibration.

(** After a calibration of data with a first pose, the figure can always be drawn unless every 0-th
    pose is asked for, and shows, red, the hand's and, green, the eye's motion seen through the
    calibration: every n-th pose from the first on, or backwards from the last for negative n. *)
Theorem C81_calibration : forall (cfg : config XR) (tp to : R) (x h0 e0 : rdq) (rest : list (rdq * rdq)) (n : Z),
  let l := (h0, e0) :: rest in
  ransac_position_error_threshold_m cfg = Fin tp -> ransac_orientation_error_threshold_deg cfg = Fin to ->
  unitdq x -> Forall (fun p => unitdq (fst p) /\ unitdq (snd p)) l ->
  (n = 0%Z -> visualize_alignment cfg n (hands l) (eyes l) (inD x) = Err ValueError) /\
  (n <> 0%Z -> exists fig P Q, visualize_alignment cfg n (hands l) (eyes l) (inD x) = Ok fig /\
     lines_of fig = [("r"%string, map inV P); ("g"%string, map inV Q)] /\
     forall k, let p := if (0 <? n)%Z then nth_error l (k * Z.to_nat n) else nth_error (rev l) (k * Z.to_nat (- n)) in
       nth_error P k = option_map (fun p => trans_of (dqmul (dqconj h0) (fst p))) p /\
       nth_error Q k = option_map (fun p => trans_of (dqmul (dqmul x (dqmul (dqconj e0) (snd p))) (dqconj x))) p).
Proof. intros cfg tp to x h0 e0 rest n l Tp To Ux H. apply (visualize_cases cfg tp to Tp To x h0 e0 rest Ux H n). Qed.

(** With noise-free data and the true calibration both trajectories coincide. *)
Theorem C81_coincide : forall (cfg : config XR) (tp to : R) (x h0 e0 : rdq) (rest : list (rdq * rdq)) (n : Z),
  let l := (h0, e0) :: rest in
  ransac_position_error_threshold_m cfg = Fin tp -> ransac_orientation_error_threshold_deg cfg = Fin to ->
  unitdq x -> Forall (fun p => unitdq (fst p) /\ unitdq (snd p)) l -> Forall (consistent_up_to_sign x) l -> n <> 0%Z ->
  exists fig P, visualize_alignment cfg n (hands l) (eyes l) (inD x) = Ok fig /\
    lines_of fig = [("r"%string, P); ("g"%string, P)] /\ P <> [].
Proof.
  intros cfg tp to x h0 e0 rest n l Tp To Ux H C N0.
  destruct (C81_calibration cfg tp to x h0 e0 rest n Tp To Ux H) as [_ V]. destruct (V N0) as (fig & P & Q & E & LF & SS). fold l in E, SS.
  assert (PQ : P = Q).
  { assert (EX : forall (A B : list rv), (forall k, nth_error A k = nth_error B k) -> A = B).
    { induction A as [|a A IH]; intros [|b B] K; [easy|discriminate (K 0%nat)|discriminate (K 0%nat)|].
      pose proof (K 0%nat) as K0. injection K0 as ->. f_equal. apply IH. intros k. apply (K (S k)). }
    apply EX. intros k. destruct (SS k) as [S1 S2]. rewrite S1, S2. set (o := if (0 <? n)%Z then _ else _).
    assert (I : forall p, o = Some p -> In p l).
    { intros p. unfold o. destruct (0 <? n)%Z; intros Q'; apply nth_error_In in Q'; [exact Q'|now apply in_rev]. }
    destruct o as [p|]; [|reflexivity]. cbn [option_map]. f_equal. specialize (I p eq_refl).
    rewrite Forall_forall in C, H. pose proof (C p I) as Cp. pose proof (C (h0, e0) (or_introl eq_refl)) as C0. cbn [fst snd] in C0.
    destruct (H p I) as [U1 U2]. destruct (H (h0, e0) (or_introl eq_refl)) as [V1 V2]. cbn [fst snd] in V1, V2.
    assert (R : forall a b, unitdq a -> unitdq b -> (dqmul a x = dqmul x b \/ dqmul a x = dqneg (dqmul x b)) ->
      a = dqmul (dqmul x b) (dqconj x) \/ a = dqneg (dqmul (dqmul x b) (dqconj x))).
    { intros a b Ua Ub K. assert (EA : a = dqmul (dqmul a x) (dqconj x)).
      { rewrite <- unitdq_inv_conj, dqmul_assoc, dqmul_inv_r, dqmul_1_r; auto using unitdq_n2. }
      rewrite EA. destruct K as [-> | ->]; [left; reflexivity|right; apply dqmul_neg_l]. }
    apply trans_pm. unfold consistent_up_to_sign in *. cbn [fst snd] in C0.
    pose proof (R _ _ U1 U2 Cp) as Rp. pose proof (R _ _ V1 V2 C0) as R0.
    assert (RC : dqconj h0 = dqmul (dqmul x (dqconj e0)) (dqconj x) \/ dqconj h0 = dqneg (dqmul (dqmul x (dqconj e0)) (dqconj x))).
    { assert (CM : dqconj (dqmul (dqmul x e0) (dqconj x)) = dqmul (dqmul x (dqconj e0)) (dqconj x)).
      { destruct x as [[[] ?] [[] ?]], e0 as [[[] ?] [[] ?]]. unfold dqconj, dqmul. specu. apply rdq_eq; cbn [dr dd]; apply rq_eq; specu; ring. }
      assert (CN : forall a, dqconj (dqneg a) = dqneg (dqconj a)) by (intros [[[] ?] [[] ?]]; unfold dqconj, dqneg; specu; apply rdq_eq; cbn [dr dd]; reflexivity).
      destruct R0 as [-> | ->]; [left; exact CM|right; now rewrite CN, CM]. }
    replace (dqmul (dqmul x (dqmul (dqconj e0) (snd p))) (dqconj x)) with (dqmul (dqmul (dqmul x (dqconj e0)) (dqconj x)) (dqmul (dqmul x (snd p)) (dqconj x))).
    - now apply pm_mul.
    - rewrite !dqmul_assoc. do 2 f_equal. rewrite <- (dqmul_assoc (dqconj x)), <- (unitdq_inv_conj x) by easy.
      rewrite dqmul_inv_l, dqmul_1_l by now apply unitdq_n2. reflexivity. }
  subst Q. exists fig, (map inV P). split; [exact E|]. split; [exact LF|].
  destruct (SS 0%nat) as [S0 _]. intros EP. apply map_eq_nil in EP. subst P. cbn [nth_error] in S0.
  destruct (Z.ltb_spec 0 n); cbn [Nat.mul] in S0; [discriminate S0|].
  destruct (rev l) eqn:RL; [|discriminate S0]. apply (f_equal (@length _)) in RL. rewrite rev_length in RL. discriminate RL.
Qed.

Example C81_example :
  let i := RD (RQ (RV (3/5) 0 0) (4/5)) hzero in let l := [(dqone, dqone); (i, i)] in
  Forall (fun p => unitdq (fst p) /\ unitdq (snd p)) l /\ Forall (consistent_up_to_sign dqone) l /\
  slice_step 2 [1; 2; 3; 4; 5]%nat = Ok [1; 3; 5]%nat /\ slice_step (-2) [1; 2; 3; 4]%nat = Ok [4; 2]%nat.
Proof.
  intros i l. assert (Ui : unitdq i) by (split; unfold i; specu; lra).
  split; [repeat (apply Forall_cons; [split; cbn [fst snd]; auto using unitdq_one|]); apply Forall_nil|]. split; [|split; reflexivity].
  repeat (apply Forall_cons; [left; cbn [fst snd]; now rewrite ?dqmul_1_l, ?dqmul_1_r|]). apply Forall_nil.
Qed.
