(** * Properties C46 and C47: calibrations on disk, and their composition. *)

From Coq Require Import Reals ZArith Bool String List Lra Lia Psatz.
From Verif Require Import Num Py XReal XFacts Quat DualQuat Extrinsic Spec Embed QuatFacts QuatTrig DualFacts PropDual TimeSpec.
Import ListNotations.
Local Open Scope R_scope.

(** a calibration with real numbers in it *)
Definition inC (d : R) (a : rdq) : calibration (N:=XR) := mkCalib (N:=XR) (Fin d) (inD a).
(** the JSON document with this delay, translation and rotation *)
Definition document (d : R) (t : rv) (q : rq) : json (N:=XR) :=
  (let num x := JNum (N:=XR) (Fin x) in
   JObj [ ("delay", num d);
          ("rotation", JObj [ ("i", num (v1 (qv q))); ("j", num (v2 (qv q))); ("k", num (v3 (qv q))); ("w", num (qs q)) ]);
          ("translation", JObj [ ("x", num (v1 t)); ("y", num (v2 t)); ("z", num (v3 t)) ]) ])%string.
Definition flipped (switch : bool) (q : rq) : rq := if switch then hconj q else q.

Lemma flip_in (switch : bool) x : (if switch then mul (Num:=XR) (Fin x) (lit (-1) 0) else Fin x) = Fin (if switch then -1 * x else x).
Proof. destruct switch; [|easy]. cbn [mul lit XR xmul]. change (Rlit (-1) 0) with (-1). f_equal. ring. Qed.
Lemma write_in d a switch : 0 < hnorm (dr a) ->
  let n := dqnormalize a in
  write_json (inC d a) switch = (inC d n, document d (trans_of n) (flipped switch (pos_w (dr n)))).
Proof.
  intros H n. unfold write_json, inC. cbn [pose_dq time_offset]. pose proof (to_pose_in a H) as E. fold n in E.
  rewrite E. cbn [ori pos inP inV inQ qx qy qz qw vx vy vz]. rewrite !flip_in. unfold document, flipped, hconj, vscale.
  destruct switch; reflexivity.
Qed.
Lemma read_in d t q switch : 1 / 100000000 < hnorm q ->
  from_json (document d t q) switch = Ok (inC d (dq_of (hscale (/ hnorm q) (flipped switch q)) t)).
Proof.
  intros H. unfold from_json, member. cbn -[mul from_pose_vector lit]. rewrite !flip_in. unfold from_pose_vector. cbn [pos ori].
  set (q' := flipped switch q).
  assert (HN : hnorm q' = hnorm q) by (unfold q', flipped; destruct switch; [|easy]; unfold hnorm, hnorm2, hdot, hconj, dot3, vscale; cbn [qv qs v1 v2 v3]; f_equal; ring).
  match goal with |- context [from_pose ?v ?w] => replace (from_pose v w) with (from_pose (inV t) (inQ q'))
    by (unfold inV, inQ, q', flipped, hconj, vscale; destruct switch; reflexivity) end.
  rewrite from_pose_in by (rewrite HN; lra). now rewrite HN.
Qed.

(** What is written: the translation and the rotation of the calibration, the rotation with
    non-negative scalar part, and conjugated when the convention is switched.  As a side effect the
    calibration's dual quaternion is normalised. *)
Theorem C46_file : forall (d : R) (a : rdq) (switch : bool), 0 < hnorm (dr a) ->
  exists n t q, n = dqscale (/ hnorm (dr a)) a /\ write_json (inC d a) switch = (inC d n, document d t (flipped switch q)) /\
    t = trans_of n /\ (q = dr n \/ q = hneg (dr n)) /\ 0 <= qs q /\ unitq q.
Proof.
  intros d a switch H. exists (dqnormalize a), (trans_of (dqnormalize a)), (pos_w (dr (dqnormalize a))).
  split; [easy|]. split; [now apply write_in|]. split; [easy|].
  pose proof (dqnormalize_unit_rot a H) as U. unfold pos_w. destruct (Rlt_dec (qs (dr (dqnormalize a))) 0) as [L|L].
  - split; [now right|]. split; [unfold hneg; cbn [qs]; lra|]. unfold unitq in *. rewrite <- U. unfold hnorm2, hdot, hneg, dot3, vscale. cbn [qv qs v1 v2 v3]. ring.
  - split; [now left|]. split; [lra|easy].
Qed.

(** Round trip with the same convention: same time offset, same pose. *)
Theorem C46_roundtrip : forall (d : R) (a : rdq) (switch : bool), unitdq a ->
  exists a', from_json (snd (write_json (inC d a) switch)) switch = Ok (inC d a') /\
    (a' = a \/ a' = dqneg a) /\ 0 <= qs (dr a') /\ unitdq a' /\ snd (to_pose (inD a')) = snd (to_pose (inD a)).
Proof.
  intros d a switch U. assert (H : 0 < hnorm (dr a)) by (rewrite unitdq_norm by easy; lra).
  rewrite write_in by easy. cbn [snd].
  assert (NA : dqnormalize a = a) by (unfold dqnormalize; rewrite unitdq_norm, Rinv_1 by easy; apply dqscale_1).
  rewrite NA. set (q := pos_w (dr a)).
  assert (Q : (q = dr a /\ 0 <= qs (dr a)) \/ (q = hneg (dr a) /\ qs (dr a) < 0)).
  { unfold q, pos_w. destruct (Rlt_dec _ _); [right|left]; split; try easy; lra. }
  assert (UQ : unitq q).
  { destruct U as [U _]. destruct Q as [[-> _]|[-> _]]; [easy|]. unfold unitq. rewrite <- U. unfold hnorm2, hdot, hneg, dot3, vscale. cbn [qv qs v1 v2 v3]. ring. }
  assert (UF : unitq (flipped switch q)).
  { destruct switch; [|easy]. cbn [flipped]. unfold unitq in *. rewrite <- UQ. unfold hnorm2, hdot, hconj, dot3, vscale. cbn [qv qs v1 v2 v3]. ring. }
  assert (HF : hnorm (flipped switch q) = 1) by (unfold hnorm; rewrite UF; apply sqrt_1).
  rewrite read_in by (rewrite HF; lra). rewrite HF, Rinv_1.
  assert (FF : hscale 1 (flipped switch (flipped switch q)) = q).
  { destruct q as [[x y z] w]. destruct switch; unfold flipped, hconj, hscale, vscale; cbn [qv qs v1 v2 v3]; f_equal; [f_equal; ring|ring|f_equal; ring|ring]. }
  rewrite FF. exists (dq_of q (trans_of a)). split; [easy|].
  assert (D : dq_of q (trans_of a) = a \/ dq_of q (trans_of a) = dqneg a).
  { destruct Q as [[-> _]|[-> _]]; [left; now apply dq_of_trans|right].
    rewrite <- (trans_of_neg a). change (hneg (dr a)) with (dr (dqneg a)). apply dq_of_trans. now apply unitdq_neg. }
  split; [exact D|]. cbn [dq_of dr]. split; [destruct Q as [[-> L]|[-> L]]; [easy|unfold hneg; cbn [qs]; lra]|].
  split; [now apply dq_of_unit|].
  rewrite !to_pose_unit; [|easy|now apply dq_of_unit]. cbn [snd]. rewrite trans_dq_of by easy. cbn [dq_of dr]. f_equal.
  fold q. assert (L : 0 <= qs q) by (destruct Q as [[-> L]|[-> L]]; [easy|unfold hneg; cbn [qs]; lra]).
  unfold pos_w at 1. destruct (Rlt_dec (qs q) 0); [lra|easy].
Qed.

(** Writing the reloaded calibration gives the same document. *)
Theorem C46_stable : forall (d : R) (a : rdq) (switch : bool) c, unitdq a ->
  from_json (snd (write_json (inC d a) switch)) switch = Ok c ->
  snd (write_json c switch) = snd (write_json (inC d a) switch).
Proof.
  intros d a switch c U E. destruct (C46_roundtrip d a switch U) as (a' & E' & _ & _ & _ & P).
  rewrite E' in E. injection E as <-. unfold write_json, inC. cbn [pose_dq time_offset].
  destruct (to_pose (inD a')) as [n' p'], (to_pose (inD a)) as [n p]. cbn [snd] in P |- *. now subst.
Qed.

(** With different conventions the rotation is conjugated; delay and translation are kept. *)
Theorem C46_mixed : forall (d : R) (a : rdq) (switch : bool), unitdq a ->
  exists q, from_json (snd (write_json (inC d a) switch)) (negb switch) = Ok (inC d (dq_of (hconj q) (trans_of a))) /\
    (q = dr a \/ q = hneg (dr a)) /\ 0 <= qs q.
Proof.
  intros d a switch U. assert (H : 0 < hnorm (dr a)) by (rewrite unitdq_norm by easy; lra).
  rewrite write_in by easy. cbn [snd].
  assert (NA : dqnormalize a = a) by (unfold dqnormalize; rewrite unitdq_norm, Rinv_1 by easy; apply dqscale_1).
  rewrite NA. set (q := pos_w (dr a)).
  assert (Q : (q = dr a /\ 0 <= qs (dr a)) \/ (q = hneg (dr a) /\ qs (dr a) < 0)).
  { unfold q, pos_w. destruct (Rlt_dec _ _); [right|left]; split; try easy; lra. }
  assert (UQ : unitq q).
  { destruct U as [U _]. destruct Q as [[-> _]|[-> _]]; [easy|]. unfold unitq. rewrite <- U. unfold hnorm2, hdot, hneg, dot3, vscale. cbn [qv qs v1 v2 v3]. ring. }
  assert (UF : unitq (flipped switch q)).
  { destruct switch; [|easy]. cbn [flipped]. unfold unitq in *. rewrite <- UQ. unfold hnorm2, hdot, hconj, dot3, vscale. cbn [qv qs v1 v2 v3]. ring. }
  assert (HF : hnorm (flipped switch q) = 1) by (unfold hnorm; rewrite UF; apply sqrt_1).
  exists q. split; [|split; [destruct Q as [[-> _]|[-> _]]; auto|destruct Q as [[-> L]|[-> L]]; [easy|unfold hneg; cbn [qs]; lra]]].
  rewrite read_in by (rewrite HF; lra). rewrite HF, Rinv_1. do 3 f_equal.
  destruct q as [[x y z] w]. destruct switch; unfold negb, flipped, hconj, hscale, vscale; cbn [qv qs v1 v2 v3]; f_equal; [f_equal; ring|ring|f_equal; ring|ring].
Qed.
(** So mixing conventions yields another pose unless the rotation is trivial or a half turn. *)
Theorem C46_mixed_refuted : exists d a, unitdq a /\
  forall switch a', from_json (snd (write_json (inC d a) switch)) (negb switch) = Ok (inC d a') -> a' <> a /\ a' <> dqneg a.
Proof.
  set (q := RQ (RV 0 0 (3 / 5)) (4 / 5)). assert (U : unitq q) by (unfold unitq, hnorm2, hdot, dot3, q; cbn [qv qs v1 v2 v3]; lra).
  exists 0, (dq_of q vzero). split; [now apply dq_of_unit|]. intros switch a' E.
  destruct (C46_mixed 0 (dq_of q vzero) switch (dq_of_unit _ _ U)) as (q' & E' & Q & L). rewrite E' in E.
  apply (f_equal (fun r => match r with Ok c => qz (rot (pose_dq c)) | Err _ => NaN : @T XR end)) in E as Ez.
  apply (f_equal (fun r => match r with Ok c => qw (rot (pose_dq c)) | Err _ => NaN : @T XR end)) in E as Ew.
  cbn [inC pose_dq rot inD inQ qz qw dq_of dr] in Ez, Ew. apply Fin_inj in Ez, Ew. cbn [dq_of dr] in Q.
  assert (q' = q) as -> by (destruct Q as [->| ->]; [easy|unfold hneg, q in L; cbn [qs] in L; lra]).
  unfold q, hconj, vscale in Ez, Ew. cbn [qv qs v3] in Ez, Ew.
  split; intros ->; unfold q in Ez, Ew; cbn [dq_of dqneg hneg vscale dr qv qs v3] in Ez, Ew; lra.
Qed.

(** Reading a file whose quaternion is not of unit length normalises it; with a missing key it fails. *)
Theorem C46_reader : forall (d : R) (t : rv) (q : rq) (switch : bool), 1 / 100000000 < hnorm q ->
  exists u, from_json (document d t q) switch = Ok (inC d (dq_of u t)) /\ unitq u /\ exists k, 0 < k /\ u = hscale k (flipped switch q).
Proof.
  intros d t q switch H. exists (hscale (/ hnorm q) (flipped switch q)). split; [now apply read_in|].
  split; [|exists (/ hnorm q); split; [apply Rinv_0_lt_compat; lra|easy]].
  assert (E : hnorm q * hnorm q = hnorm2 q) by (unfold hnorm; apply sqrt_sqrt, hnorm2_pos).
  unfold unitq. replace (hnorm2 (hscale (/ hnorm q) (flipped switch q))) with (/ hnorm q * / hnorm q * hnorm2 q).
  - rewrite <- E. field. lra.
  - unfold flipped; destruct switch; unfold hnorm2, hdot, hconj, hscale, dot3, vscale; cbn [qv qs v1 v2 v3]; ring.
Qed.
Theorem C46_missing : forall (N : Num) (members : list (string * json (N:=N))) switch c,
  from_json (JObj members) switch = Ok c ->
  exists dl tr ro, find_key "delay" members = Ok (JNum dl) /\
    find_key "translation" members = Ok (JObj tr) /\ find_key "rotation" members = Ok (JObj ro) /\
    Forall (fun k => exists x, find_key k tr = Ok (JNum x)) ["x"; "y"; "z"]%string /\
    Forall (fun k => exists x, find_key k ro = Ok (JNum x)) ["i"; "j"; "k"; "w"]%string.
Proof.
  intros N ms sw c H. unfold from_json in H.
  assert (M : forall g n x, member (JObj ms) g n = Ok x -> exists l, find_key g ms = Ok (JObj l) /\ find_key n l = Ok (JNum x)).
  { intros g n x E. unfold member in E. apply bind_ok in E as (j & E1 & E). apply bind_ok in E as (v & E2 & E). cbn [subscript] in E1.
    destruct j as [?|l]; [discriminate E2|]. exists l. split; [easy|]. destruct v; [now injection E as <-|discriminate E]. }
  do 7 (apply bind_ok in H as (? & ?H & H)). apply bind_ok in H as (dj & HD & H). apply bind_ok in H as (dl & HD2 & H).
  destruct dj as [dl'|]; [|discriminate HD2].
  apply M in H0, H1, H2, H3, H4, H5, H6.
  destruct H0 as (l0 & A0 & B0), H1 as (l1 & A1 & B1), H2 as (l2 & A2 & B2), H3 as (l3 & A3 & B3), H4 as (l4 & A4 & B4), H5 as (l5 & A5 & B5), H6 as (l6 & A6 & B6).
  assert (l1 = l0) by congruence. assert (l2 = l0) by congruence. assert (l4 = l3) by congruence. assert (l5 = l3) by congruence. assert (l6 = l3) by congruence. subst.
  exists dl', l0, l3. split; [exact HD|]. split; [easy|]. split; [easy|].
  split; repeat constructor; eexists; eassumption.
Qed.
(** What is raised: KeyError if one of the ten keys is missing, TypeError if a group is a number or a number is a group. *)
Definition required : list (string * string) :=
  [("translation", "x"); ("translation", "y"); ("translation", "z"); ("rotation", "i"); ("rotation", "j"); ("rotation", "k"); ("rotation", "w")]%string.
Theorem C46_raises : forall (N : Num) (members : list (string * json (N:=N))) switch e,
  from_json (JObj members) switch = Err e ->
  (e = KeyError /\ (find_key "delay" members = Err KeyError \/
     exists g n, In (g, n) required /\ (find_key g members = Err KeyError \/ exists l, find_key g members = Ok (JObj l) /\ find_key n l = Err KeyError))) \/
  (e = TypeError /\ ((exists l, find_key "delay" members = Ok (JObj l)) \/
     exists g n, In (g, n) required /\ ((exists x, find_key g members = Ok (JNum x)) \/ exists l l', find_key g members = Ok (JObj l) /\ find_key n l = Ok (JObj l')))).
Proof.
  intros N ms sw e H.
  assert (K : forall k (l : list (string * json (N:=N))) x, find_key k l = Err x -> x = KeyError).
  { clear. intros k l x. induction l as [|[k' v] l IH]; cbn [find_key]; [congruence|]. destruct (String.eqb k' k); [discriminate|exact IH]. }
  assert (M : forall g n x, In (g, n) required -> member (JObj ms) g n = Err x ->
    (x = KeyError /\ exists g n, In (g, n) required /\ (find_key g ms = Err KeyError \/ exists l, find_key g ms = Ok (JObj l) /\ find_key n l = Err KeyError)) \/
    (x = TypeError /\ exists g n, In (g, n) required /\ ((exists y, find_key g ms = Ok (JNum y)) \/ exists l l', find_key g ms = Ok (JObj l) /\ find_key n l = Ok (JObj l')))).
  { intros g n x I E. unfold member in E. cbn [subscript] in E. destruct (find_key g ms) as [[y|l]|x'] eqn:F; cbn [bind subscript] in E.
    - injection E as <-. right. split; [reflexivity|]. exists g, n. split; [exact I|]. left. now exists y.
    - destruct (find_key n l) as [[y|l']|x'] eqn:F2; cbn [bind to_float] in E; [discriminate E| |].
      + injection E as <-. right. split; [reflexivity|]. exists g, n. split; [exact I|]. right. now exists l, l'.
      + injection E as ->. left. pose proof (K _ _ _ F2) as ->. split; [reflexivity|]. exists g, n. split; [exact I|]. right. now exists l.
    - injection E as ->. left. pose proof (K _ _ _ F) as ->. split; [reflexivity|]. exists g, n. split; [exact I|]. now left. }
  assert (B : forall g n (f : @T N -> res (calibration (N:=N))), In (g, n) required -> bind (member (JObj ms) g n) f = Err e ->
    (exists x, f x = Err e) \/ member (JObj ms) g n = Err e).
  { intros g n f _ E. destruct (member (JObj ms) g n) as [x|x]; [left; now exists x|right; cbn [bind] in E; congruence]. }
  assert (W : forall g n, In (g, n) required -> member (JObj ms) g n = Err e ->
    (e = KeyError /\ (find_key "delay" ms = Err KeyError \/
     exists g n, In (g, n) required /\ (find_key g ms = Err KeyError \/ exists l, find_key g ms = Ok (JObj l) /\ find_key n l = Err KeyError))) \/
    (e = TypeError /\ ((exists l, find_key "delay" ms = Ok (JObj l)) \/
     exists g n, In (g, n) required /\ ((exists x, find_key g ms = Ok (JNum x)) \/ exists l l', find_key g ms = Ok (JObj l) /\ find_key n l = Ok (JObj l'))))).
  { intros g n I E. destruct (M g n e I E) as [[-> X]|[-> X]]; [left|right]; (split; [reflexivity|now right]). }
  unfold from_json in H.
  do 7 (apply B in H as [[? H]|H]; [|eapply W; [|exact H]; unfold required; cbn [In]; tauto|unfold required; cbn [In]; tauto]).
  cbn [subscript] in H. destruct (find_key "delay" ms) as [[y|l]|x'] eqn:F; cbn [bind to_float] in H; [discriminate H| |].
  - injection H as <-. right. split; [reflexivity|]. left. now exists l.
  - injection H as ->. left. split; [exact (K _ _ _ F)|]. left. pose proof (K _ _ _ F) as ->. reflexivity.
Qed.
Example C46_raises_example : from_json (N:=XR) (JObj [("translation", JObj [("x", JNum (Fin 1))])]%string) false = Err KeyError /\
  from_json (N:=XR) (JObj [("translation", JObj [("x", JObj [])])]%string) true = Err TypeError.
Proof. split; reflexivity. Qed.
Example C46_example : exists a, unitdq a /\ qs (dr a) < 0 /\ trans_of a = RV 1 2 3.
Proof.
  set (q := RQ (RV 0 0 (3 / 5)) (- (4 / 5))). assert (U : unitq q) by (unfold unitq, hnorm2, hdot, dot3, q; cbn [qv qs v1 v2 v3]; lra).
  exists (dq_of q (RV 1 2 3)). split; [now apply dq_of_unit|]. split; [cbn; lra|now apply trans_dq_of].
Qed.

(** ** C47 *)
Lemma calib_mul_in d a e b : calib_mul (inC d a) (inC e b) = inC (d + e) (dqmul a b).
Proof. unfold calib_mul, inC. cbn [time_offset pose_dq]. now rewrite dmul_in. Qed.
Theorem C47_compose : forall (d e : R) (a b : rdq) (p : rv), unitdq a -> unitdq b ->
  exists c, calib_mul (inC d a) (inC e b) = inC (d + e) c /\ unitdq c /\ move c p = move a (move b p).
Proof.
  intros d e a b p UA UB. exists (dqmul a b). split; [apply calib_mul_in|]. split; [now apply unitdq_mul|].
  apply move_mul; [apply UA|apply UB].
Qed.
Theorem C47_associative : forall (d e f : R) (a b c : rdq),
  calib_mul (calib_mul (inC d a) (inC e b)) (inC f c) = calib_mul (inC d a) (calib_mul (inC e b) (inC f c)).
Proof. intros. rewrite !calib_mul_in. f_equal; [ring|apply dqmul_assoc]. Qed.

(** product and sum of a chain *)
Definition dqprod (l : list rdq) : rdq := fold_right dqmul dqone l.
Lemma fold_calib l : forall d a, fold_left calib_mul (map (fun c => inC (fst c) (snd c)) l) (inC d a) =
  inC (d + Rsum (map fst l)) (dqmul a (dqprod (map snd l))).
Proof.
  induction l as [|[e b] l IH]; intros d a; cbn [map fold_left Rsum fold_right dqprod fst snd].
  - now rewrite Rplus_0_r, dqmul_1_r.
  - rewrite calib_mul_in, IH. f_equal; [unfold Rsum; lra|]. unfold dqprod. now rewrite dqmul_assoc.
Qed.
Lemma dqprod_unit l : Forall unitdq l -> unitdq (dqprod l).
Proof. intros F. induction F; [apply unitdq_one|]. cbn. now apply unitdq_mul. Qed.
Theorem C47_circle : forall (l : list (R * rdq)), l <> [] -> Forall (fun c => unitdq (snd c)) l ->
  let P := dqprod (map snd l) in
  unitdq P /\ exists q, canonical q (dr P) /\
  compute_circle (map (fun c => inC (fst c) (snd c)) l) = Ok (Fin (Rsum (map fst l)), inP (trans_of P) q).
Proof.
  intros l NE F P. assert (U : unitdq P). { apply dqprod_unit, Forall_map. exact F. }
  split; [exact U|]. exists (pos_w (dr P)). split.
  { unfold canonical, pos_w. destruct (Rlt_dec (qs (dr P)) 0); [split; [now right|unfold hneg; cbn [qs]; lra]|split; [now left|lra]]. }
  destruct l as [|[d a] l]; [easy|]. unfold compute_circle. cbn [map index nth_error bind tl fst snd].
  rewrite fold_calib. unfold inC. cbn [time_offset pose_dq].
  change (dqmul a (dqprod (map snd l))) with P. rewrite to_pose_unit by easy. reflexivity.
Qed.
(** The calibrations between consecutive frames of a closed tour cancel. *)
Definition between (f g : R * rdq) : R * rdq := (fst g - fst f, dqmul (dqinv (snd f)) (snd g)).
Definition tour (frames : list (R * rdq)) : list (R * rdq) := map (fun p => between (fst p) (snd p)) (combine frames (tl frames)).
Lemma tour_product fs : forall f, unitdq (snd f) -> Forall (fun g => unitdq (snd g)) fs ->
  let g := last fs f in
  unitdq (snd g) /\ Rsum (map fst (tour (f :: fs))) = fst g - fst f /\ dqprod (map snd (tour (f :: fs))) = dqmul (dqinv (snd f)) (snd g).
Proof.
  induction fs as [|h fs IH]; intros f UF F g.
  - cbn in g |- *. subst g. split; [easy|]. split; [lra|]. symmetry. apply dqmul_inv_l. now apply unitdq_n2.
  - inversion F as [|? ? UH F']; subst. destruct (IH h UH F') as (U & S1 & P1).
    assert (G : g = last fs h).
    { unfold g. destruct fs as [|k fs]; [easy|]. cbn [last]. clear. revert k f h. induction fs as [|m fs IH]; intros; [easy|]. cbn [last]. apply IH. }
    rewrite G. split; [exact U|].
    assert (TE : tour (f :: h :: fs) = between f h :: tour (h :: fs)) by reflexivity.
    rewrite TE. cbn [map]. change (Rsum (fst (between f h) :: map fst (tour (h :: fs)))) with (fst (between f h) + Rsum (map fst (tour (h :: fs)))).
    change (dqprod (snd (between f h) :: map snd (tour (h :: fs)))) with (dqmul (snd (between f h)) (dqprod (map snd (tour (h :: fs))))).
    rewrite S1, P1. cbn [between fst snd]. split; [lra|].
    rewrite dqmul_assoc, <- (dqmul_assoc (snd h)), dqmul_inv_r, dqmul_1_l; [easy|now apply unitdq_n2].
Qed.
Theorem C47_closed_circle : forall (f : R * rdq) (fs : list (R * rdq)),
  Forall (fun g => unitdq (snd g)) (f :: fs) ->
  compute_circle (map (fun c => inC (fst c) (snd c)) (tour (f :: fs ++ [f]))) = Ok (Fin 0, inP vzero hone).
Proof.
  intros f fs F. inversion F as [|? ? UF F']; subst.
  assert (FA : Forall (fun g => unitdq (snd g)) (fs ++ [f])) by (apply Forall_app; split; [easy|constructor; [easy|constructor]]).
  destruct (tour_product (fs ++ [f]) f UF FA) as (_ & S1 & P1). rewrite last_last in S1, P1.
  destruct (C47_circle (tour (f :: fs ++ [f]))) as (_ & q & Q & E).
  - unfold tour. destruct fs; discriminate.
  - unfold tour. apply Forall_forall. intros c I. apply in_map_iff in I as ([g h] & <- & I). cbn [fst snd between].
    rewrite Forall_forall in FA. apply unitdq_mul.
    + apply unitdq_inv. apply in_combine_l in I. destruct I as [<-|I]; [easy|now apply FA].
    + apply in_combine_r in I. now apply FA.
  - rewrite E, S1, P1. rewrite P1 in Q. rewrite dqmul_inv_l in * by now apply unitdq_n2.
    replace (fst f - fst f) with 0 by ring. do 2 f_equal. unfold dqone. cbn [dr]. f_equal.
    + unfold trans_of, hmul, hconj, hzero, hone, vzero, vscale, dot3, cross3, vadd. cbn. f_equal; ring.
    + destruct Q as [[->| ->] L]; [easy|]. cbn in L. lra.
Qed.
Theorem C47_empty : forall N : Num, compute_circle (N:=N) [] = Err IndexError.
Proof. reflexivity. Qed.
(** Three sensors, as in the main program: 0->1, 1->2, 2->0. *)
Example C47_example : let q := RQ (RV 0 0 (3 / 5)) (4 / 5) in
  let f0 := (0, dqone) in let f1 := (1 / 2, dq_of q (RV 1 0 0)) in let f2 := (2, dq_of q (RV 0 1 0)) in
  Forall (fun g => unitdq (snd g)) [f0; f1; f2] /\ tour [f0; f1; f2; f0] = [between f0 f1; between f1 f2; between f2 f0].
Proof.
  intros q f0 f1 f2. split; [|easy].
  assert (U : unitq q) by (unfold unitq, hnorm2, hdot, dot3, q; cbn [qv qs v1 v2 v3]; lra).
  constructor; [apply unitdq_one|]. constructor; [now apply dq_of_unit|]. constructor; [now apply dq_of_unit|constructor].
Qed.
