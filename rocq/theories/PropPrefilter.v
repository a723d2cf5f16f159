(** * Property C29: prefiltering by screw axis (for every number type; the reading of the axis tests
    on real data at the end). *)

From Coq Require Import Reals ZArith Bool List Lra Lia Psatz.
From Verif Require Import Num Py XReal XFacts Quat DualQuat HandEye Spec Embed QuatFacts QuatTrig
  QuatRot DualFacts ScrewFacts ListFacts.
Import ListNotations.

Section Prefilter.
  Context {N : Num} (thr : T).
  Local Notation pair := (@dquat N * @dquat N)%type.

  Definition ok1 (p q : pair) : bool := negb (no_axis q || too_similar thr p q).
  Definition okk (kept : list pair) (q : pair) : bool :=
    negb (no_axis q) && forallb (fun p => negb (too_similar thr p q)) kept.

  Lemma remove_nth (l : list pair) j q : nth_error l j = Some q ->
    remove_at l j = firstn j l ++ skipn (S j) l /\ skipn j l = q :: skipn (S j) l /\ (j < length l)%nat.
  Proof.
    revert j; induction l as [|x l IH]; intros [|j] H; cbn in *; try easy.
    - injection H as ->. repeat split; lia.
    - destruct (IH j H) as (A & B & C). rewrite A, B. repeat split; lia.
  Qed.
  Lemma firstn_app_skip (a b : list pair) j : length a = j -> firstn j (a ++ b) = a /\ skipn j (a ++ b) = b.
  Proof.
    intros <-. rewrite firstn_app, Nat.sub_diag, skipn_app, Nat.sub_diag. simpl.
    rewrite app_nil_r, firstn_all, skipn_all. easy.
  Qed.

  Lemma inner_ok fuel p : forall l j, (length l - j <= fuel)%nat ->
    inner_loop fuel thr p l j = firstn j l ++ filter (ok1 p) (skipn j l).
  Proof.
    induction fuel as [|fuel IH]; intros l j L; cbn [inner_loop].
    - rewrite firstn_all2, skipn_all2 by lia. cbn. now rewrite app_nil_r.
    - destruct (nth_error l j) as [q|] eqn:E.
      + destruct (remove_nth l j q E) as (R & K & J).
        assert (LF : length (firstn j l) = j) by (rewrite firstn_length; lia).
        assert (RM : inner_loop fuel thr p (remove_at l j) j = firstn j l ++ filter (ok1 p) (skipn (S j) l)).
        { rewrite IH, R.
          - destruct (firstn_app_skip (firstn j l) (skipn (S j) l) j LF) as [-> ->]. easy.
          - rewrite R, app_length, LF, skipn_length. lia. }
        rewrite K. cbn [filter]. unfold ok1 at 1.
        destruct (no_axis q) eqn:A; [exact RM|]. destruct (too_similar thr p q) eqn:TS; [exact RM|].
        cbn [orb negb]. rewrite IH by lia.
        replace (firstn (S j) l) with (firstn j l ++ [q]).
        * rewrite <- app_assoc. easy.
        * clear - E. revert j E. induction l as [|x l IH]; intros [|j] E; cbn in *; try easy.
          -- congruence.
          -- now rewrite IH.
      + apply nth_error_None in E. rewrite firstn_all2, skipn_all2 by lia. cbn. now rewrite app_nil_r.
  Qed.

  Fixpoint greedy (fuel : nat) (l : list pair) : list pair :=
    match fuel with
    | O => []
    | S f => match l with
             | [] => []
             | p :: r => if no_axis p then greedy f r else p :: greedy f (filter (ok1 p) r)
             end
    end.
  Fixpoint flags (kept l : list pair) : list bool :=
    match l with
    | [] => []
    | p :: r => okk kept p :: flags (if okk kept p then p :: kept else kept) r
    end.

  Lemma filter_length_le {A} (f : A -> bool) l : (length (filter f l) <= length l)%nat.
  Proof. induction l as [|x l IH]; simpl; [lia|]. destruct (f x); simpl; lia. Qed.

  Lemma outer_ok fuel : forall l i, (i <= length l)%nat -> (length l - i <= fuel)%nat ->
    outer_loop fuel thr l i = (firstn i l ++ greedy fuel (skipn i l),
                               length (firstn i l ++ greedy fuel (skipn i l))).
  Proof.
    induction fuel as [|fuel IH]; intros l i LI L; cbn [outer_loop greedy].
    - rewrite app_nil_r, firstn_all2 by lia. f_equal. lia.
    - destruct (nth_error l i) as [p|] eqn:E.
      + destruct (remove_nth l i p E) as (R & K & J). rewrite K.
        assert (LF : length (firstn i l) = i) by (rewrite firstn_length; lia).
        destruct (no_axis p) eqn:A.
        * rewrite IH, R.
          -- destruct (firstn_app_skip (firstn i l) (skipn (S i) l) i LF) as [-> ->]. easy.
          -- rewrite R, app_length, LF. lia.
          -- rewrite R, app_length, LF, skipn_length. lia.
        * rewrite inner_ok by lia.
          assert (LF' : length (firstn (S i) l) = S i) by (rewrite firstn_length; lia).
          assert (FE : firstn (S i) l = firstn i l ++ [p]).
          { clear - E. revert i E. induction l as [|x l IH]; intros [|j] E; cbn in *; try easy.
            - congruence.
            - now rewrite IH. }
          rewrite IH.
          -- destruct (firstn_app_skip (firstn (S i) l) (filter (ok1 p) (skipn (S i) l)) (S i) LF') as [-> ->].
             rewrite FE, <- app_assoc. easy.
          -- rewrite app_length, LF'. lia.
          -- rewrite app_length, LF'. pose proof (filter_length_le (ok1 p) (skipn (S i) l)).
             rewrite skipn_length in H. lia.
      + apply nth_error_None in E. rewrite skipn_all2 by lia. rewrite app_nil_r, firstn_all2 by lia.
        f_equal. lia.
  Qed.

  Lemma ok_cons p kept q : okk (p :: kept) q = ok1 p q && okk kept q.
  Proof.
    unfold okk, ok1. cbn [forallb]. destruct (no_axis q), (too_similar thr p q); cbn; try easy.
  Qed.
  Lemma filter_filter {A} (f g : A -> bool) l : filter f (filter g l) = filter (fun x => f x && g x) l.
  Proof.
    induction l as [|x l IH]; simpl; [easy|]. destruct (g x); simpl; [destruct (f x)|]; simpl; rewrite ?IH;
      rewrite ?andb_false_r; easy.
  Qed.
  Lemma greedy_flags l : forall fuel kept, (length l <= fuel)%nat ->
    greedy fuel (filter (okk kept) l) = compress l (flags kept l).
  Proof.
    induction l as [|p r IH]; intros fuel kept L; cbn [filter flags compress].
    - now destruct fuel.
    - cbn [length] in L. destruct fuel as [|fuel]; [lia|]. destruct (okk kept p) eqn:O.
      + cbn [greedy]. assert (NA : no_axis p = false) by (unfold okk in O; now destruct (no_axis p)).
        rewrite NA. f_equal. rewrite filter_filter.
        rewrite (filter_ext _ (okk (p :: kept))) by (intros; symmetry; apply ok_cons).
        apply IH. lia.
      + apply IH. lia.
  Qed.
  Lemma greedy_all l : forall fuel, (length l <= fuel)%nat -> greedy fuel l = compress l (flags [] l).
  Proof.
    induction l as [|p r IH]; intros fuel L; cbn [flags compress]; [now destruct fuel|].
    cbn [length] in L. destruct fuel as [|fuel]; [lia|]. cbn [greedy].
    assert (O : okk [] p = negb (no_axis p)) by (unfold okk; cbn; apply andb_true_r).
    rewrite O. destruct (no_axis p); cbn [negb].
    - apply IH. lia.
    - f_equal. rewrite (filter_ext _ (okk [p])).
      + apply greedy_flags. lia.
      + intros q. rewrite ok_cons. unfold okk, ok1. cbn. destruct (no_axis q); cbn; [easy|]. now rewrite andb_true_r.
  Qed.

  Lemma flags_length kept l : length (flags kept l) = length l.
  Proof. revert kept; induction l; intros; cbn; congruence. Qed.
  Lemma flags_spec l : forall kept k p b, nth_error l k = Some p -> nth_error (flags kept l) k = Some b ->
    (b = true <-> no_axis p = false /\ (forall q, In q kept -> too_similar thr q p = false) /\
       forall i q, (i < k)%nat -> nth_error l i = Some q -> nth_error (flags kept l) i = Some true ->
                   too_similar thr q p = false).
  Proof.
    induction l as [|x r IH]; intros kept k p b Hp Hb; [now destruct k|].
    destruct k as [|k]; cbn in Hp, Hb.
    - injection Hp as ->. injection Hb as <-. unfold okk. rewrite andb_true_iff, negb_true_iff, forallb_forall.
      split.
      + intros [A B]. split; [easy|]. split; [|intros; lia]. intros q I. apply B in I.
        now destruct (too_similar thr q p).
      + intros (A & B & _). split; [easy|]. intros q I. now rewrite (B q I).
    - rewrite (IH _ k p b Hp Hb). destruct (okk kept x) eqn:O.
      + split.
        * intros (A & B & C). split; [easy|]. split; [intros; apply B; now right|].
          intros [|i] q Hi Hq Hf; cbn in Hq, Hf.
          -- injection Hq as <-. apply B. now left.
          -- apply (C i q); try easy; [lia|]. now rewrite O in Hf.
        * intros (A & B & C). split; [easy|]. split.
          -- intros q [<-|I]; [|auto]. apply (C 0%nat x); try easy; [lia|]. cbn. now rewrite O.
          -- intros i q Hi Hq Hf. apply (C (S i) q); try easy; [lia|]. cbn. now rewrite O.
      + split.
        * intros (A & B & C). split; [easy|]. split; [easy|].
          intros [|i] q Hi Hq Hf; cbn in Hq, Hf; [now rewrite O in Hf|].
          apply (C i q); try easy; [lia|]. now rewrite O in Hf.
        * intros (A & B & C). split; [easy|]. split; [easy|].
          intros i q Hi Hq Hf. apply (C (S i) q); try easy; [lia|]. cbn. now rewrite O.
  Qed.
End Prefilter.

Lemma compress_length {A} (l : list A) f : length f = length l -> length (compress l f) = count_true f.
Proof.
  revert f; induction l as [|x l IH]; intros [|b f] L; try discriminate L; [easy|].
  injection L as L. cbn. destruct b; cbn; now rewrite IH.
Qed.

(** The result is the input with some pairs removed; the pair at position k is kept exactly if
    neither side has a vanishing screw axis and neither side's unit axis has a dot product above the
    threshold with the axis of an earlier kept pair.  (This determines the result uniquely.)
    Fewer than two kept pairs: AssertionError. *)
Theorem C29_prefilter : forall (N : Num) (thr : T) (l : list (@dquat N * @dquat N)),
  exists keep, length keep = length l /\
    (forall k p, nth_error l k = Some p ->
       (nth_error keep k = Some true <->
        (leb (vnorm (axis_of (fst p))) (lit 1 (-12)) = false /\
         leb (vnorm (axis_of (snd p))) (lit 1 (-12)) = false /\
         forall i q, (i < k)%nat -> nth_error l i = Some q -> nth_error keep i = Some true ->
           ltb thr (vdot (unit_axis (fst q)) (unit_axis (fst p))) = false /\
           ltb thr (vdot (unit_axis (snd q)) (unit_axis (snd p))) = false))) /\
    prefilter_using_screw_axis thr l
    = if (2 <=? count_true keep)%nat then Ok (compress l keep) else Err AssertionError.
Proof.
  intros N thr l. exists (flags thr [] l). split; [apply flags_length|]. split.
  - intros k p Hp.
    assert (LK : (k < length (flags thr [] l))%nat).
    { rewrite flags_length. apply nth_error_Some. congruence. }
    destruct (nth_error (flags thr [] l) k) as [b|] eqn:E; [|apply nth_error_None in E; lia].
    assert (EQ : Some b = Some true <-> b = true) by (split; congruence). rewrite EQ.
    rewrite (flags_spec thr l [] k p b Hp E).
    unfold no_axis, degenerate_axis, too_similar. split.
    + intros (A & _ & C). apply orb_false_iff in A as [A1 A2]. split; [easy|]. split; [easy|].
      intros i q Hi Hq Hf. apply orb_false_iff. now apply (C i q).
    + intros (A1 & A2 & C). rewrite A1, A2. split; [easy|]. split; [easy|].
      intros i q Hi Hq Hf. apply orb_false_iff. now apply (C i q).
  - unfold prefilter_using_screw_axis. rewrite outer_ok by lia. cbn [firstn app skipn].
    rewrite greedy_all by lia. rewrite compress_length by apply flags_length.
    now destruct (2 <=? count_true (flags thr [] l))%nat.
Qed.
(** The loops of the model are run with enough fuel: any larger number of iterations gives the same. *)
Theorem C29_fuel_enough : forall (N : Num) (thr : T) (l : list (@dquat N * @dquat N)) fuel,
  (length l <= fuel)%nat -> outer_loop fuel thr l 0 = outer_loop (length l) thr l 0.
Proof.
  intros. rewrite !outer_ok by lia. cbn [firstn skipn app]. now rewrite !greedy_all by lia.
Qed.
(** At least two pairs are kept, each is one of the input pairs. *)
Theorem C29_kept : forall (N : Num) (thr : T) (l k : list (@dquat N * @dquat N)),
  prefilter_using_screw_axis thr l = Ok k ->
  (2 <= length k <= length l)%nat /\ incl k l.
Proof.
  intros N thr l k H. destruct (C29_prefilter N thr l) as (keep & L & _ & E). rewrite H in E.
  destruct (Nat.leb_spec 2 (count_true keep)) as [C|]; [|discriminate E]. injection E as ->.
  rewrite compress_length by easy.
  assert (I : forall (a : list (@dquat N * @dquat N)) f, incl (compress a f) a).
  { clear. induction a as [|x a IH]; intros [|b f]; cbn; try apply incl_nil_l.
    destruct b; [apply incl_cons; [now left|]|]; apply incl_tl, IH. }
  assert (CT : forall f, (count_true f <= length f)%nat).
  { clear. induction f as [|[] f IH]; cbn; lia. }
  split; [|apply I]. specialize (CT keep). lia.
Qed.

(** Reading on real data: a rotation that is not (numerically) the identity has a non-vanishing
    axis, and the dot products compared with the threshold are cosines of the angle between the
    rotation axes. *)
Local Open Scope R_scope.
Lemma vnorm_in v : vnorm (inV v) = Fin (len3 v).
Proof.
  unfold vnorm, vdot, inV. cbn [vx vy vz mul add sqrtn XR xmul xadd].
  rewrite xsqrt_fin; [reflexivity|]. apply dot3_pos.
Qed.
Lemma len3_scale k v : 0 <= k -> len3 (vscale k v) = k * len3 v.
Proof.
  intros. unfold len3. replace (dot3 (vscale k v) (vscale k v)) with (k * k * dot3 v v) by (destruct v; specu; ring).
  rewrite sqrt_mult_alt by nra. now rewrite sqrt_square.
Qed.
Lemma turn_hyp a : unitq (dr a) -> eps12 < 2 * (acos (qs (dr a)) * (180 / PI)) -> qs (dr a) <> -1 ->
  0 < len3 (qv (dr a)) /\ axis_of (inD a) = inV (vscale (/ len3 (qv (dr a))) (qv (dr a))).
Proof.
  intros U T W. destruct (screw_axis_rot a U) as [S E].
  - unfold turn_mod. destruct (Req_EM_T _ _); [easy|]. exact T.
  - split; [exact S|]. unfold axis_of. now rewrite E.
Qed.
Lemma unit_axis_in a : unitq (dr a) -> eps12 < 2 * (acos (qs (dr a)) * (180 / PI)) -> qs (dr a) <> -1 ->
  vnorm (axis_of (inD a)) = Fin 1 /\ unit_axis (inD a) = inV (vscale (/ len3 (qv (dr a))) (qv (dr a))).
Proof.
  intros U T W. destruct (turn_hyp a U T W) as [S E]. unfold unit_axis. rewrite E, vnorm_in.
  assert (L : len3 (vscale (/ len3 (qv (dr a))) (qv (dr a))) = 1).
  { rewrite len3_scale by (left; now apply Rinv_0_lt_compat). field. lra. }
  rewrite L. split; [easy|]. unfold vdivs, inV. cbn [vx vy vz div XR]. rewrite !xdiv_fin by lra.
  unfold Rdiv. now rewrite Rinv_1, !Rmult_1_r.
Qed.
Theorem C29_axes : forall a b : rdq,
  unitq (dr a) -> 1 / 1000000000000 < 2 * (acos (qs (dr a)) * (180 / PI)) -> qs (dr a) <> -1 ->
  unitq (dr b) -> 1 / 1000000000000 < 2 * (acos (qs (dr b)) * (180 / PI)) -> qs (dr b) <> -1 ->
  leb (vnorm (axis_of (inD a))) (lit 1 (-12)) = false /\
  vdot (unit_axis (inD a)) (unit_axis (inD b))
  = Fin (dot3 (qv (dr a)) (qv (dr b)) / (len3 (qv (dr a)) * len3 (qv (dr b)))).
Proof.
  intros a b Ua Ta Wa Ub Tb Wb.
  destruct (unit_axis_in a Ua Ta Wa) as [Na Ea]. destruct (unit_axis_in b Ub Tb Wb) as [Nb Eb].
  destruct (turn_hyp a Ua Ta Wa) as [Sa _]. destruct (turn_hyp b Ub Tb Wb) as [Sb _].
  rewrite Na, Ea, Eb. split.
  - cbn [leb XR lit xleb]. change (Rlit 1 (-12)) with (1 / 1000000000000).
    unfold Rleb. destruct (Rle_dec _ _); [lra|easy].
  - unfold vdot, inV. cbn [vx vy vz mul add XR xmul xadd vscale v1 v2 v3]. f_equal.
    unfold dot3. field. lra.
Qed.
(** the identity (no rotation, no translation), with either sign, has no axis and is always dropped *)
Theorem C29_identity_dropped : forall a : rdq, a = dqone \/ a = dqneg dqone ->
  leb (vnorm (axis_of (inD a))) (lit 1 (-12)) = true.
Proof.
  intros a H.
  assert (U : unitq (dr a)) by (destruct H as [-> | ->]; unfold unitq; specu; ring).
  assert (T : turn_mod (qs (dr a)) <= eps12).
  { unfold eps12, turn_mod. destruct H as [-> | ->]; cbn.
    - destruct (Req_EM_T _ _); [lra|]. unfold turn_deg. rewrite acos_1. lra.
    - destruct (Req_EM_T _ _) as [|NE]; [lra|]. destruct NE. lra. }
  assert (D : qv (dd a) = vzero) by (destruct H as [-> | ->]; apply rv_eq; specu; ring).
  unfold axis_of. rewrite (screw_axis_norot a U T), D.
  assert (L : len3 vzero = 0).
  { unfold len3. replace (dot3 vzero vzero) with 0 by (specu; ring). apply sqrt_0. }
  rewrite L. destruct (Rlt_dec eps12 (2 * 0)); [unfold eps12 in *; lra|].
  rewrite vnorm_in, L. cbn [leb XR lit xleb]. change (Rlit 1 (-12)) with (1 / 1000000000000).
  unfold Rleb. destruct (Rle_dec _ _); [easy|lra].
Qed.
(** anti-parallel axes (the same rotation axis, opposite direction) have dot product -1, so such
    pairs are kept side by side for every threshold >= -1 *)
Theorem C29_antiparallel : forall (a b : rdq) (k thr : R),
  unitq (dr a) -> 1 / 1000000000000 < 2 * (acos (qs (dr a)) * (180 / PI)) -> qs (dr a) <> -1 ->
  unitq (dr b) -> 1 / 1000000000000 < 2 * (acos (qs (dr b)) * (180 / PI)) -> qs (dr b) <> -1 ->
  0 < k -> qv (dr b) = vscale (- k) (qv (dr a)) -> -1 <= thr ->
  ltb (Fin thr) (vdot (unit_axis (inD a)) (unit_axis (inD b))) = false.
Proof.
  intros a b k thr Ua Ta Wa Ub Tb Wb K E T. destruct (C29_axes a b Ua Ta Wa Ub Tb Wb) as [_ ->].
  destruct (turn_hyp a Ua Ta Wa) as [Sa _]. rewrite E.
  assert (L : len3 (vscale (- k) (qv (dr a))) = k * len3 (qv (dr a))).
  { rewrite <- len3_scale by lra. unfold len3. f_equal. destruct (qv (dr a)); specu; ring. }
  rewrite L. assert (D : dot3 (qv (dr a)) (vscale (- k) (qv (dr a))) = - k * (len3 (qv (dr a)) * len3 (qv (dr a)))).
  { unfold len3. rewrite sqrt_sqrt by apply dot3_pos. destruct (qv (dr a)); specu; ring. }
  rewrite D. replace (- k * (len3 (qv (dr a)) * len3 (qv (dr a))) / (len3 (qv (dr a)) * (k * len3 (qv (dr a)))))
    with (-1) by (field; lra).
  cbn [ltb XR xltb]. apply Rltb_f. lra.
Qed.
Example C29_example :
  let a := RD (RQ (RV 1 0 0) 0) hzero in let b := RD (RQ (RV (-1) 0 0) 0) hzero in
  unitq (dr a) /\ 1 / 1000000000000 < 2 * (acos (qs (dr a)) * (180 / PI)) /\ qs (dr a) <> -1 /\
  unitq (dr b) /\ qv (dr b) = vscale (- (1)) (qv (dr a)).
Proof.
  intros a b. unfold a, b. cbn [dr qs qv]. split; [unfold unitq; specu; ring|]. split.
  - rewrite acos_0. pose proof PI_RGT_0. replace (2 * (PI / 2 * (180 / PI))) with 180 by (field; lra). lra.
  - split; [lra|]. split; [unfold unitq; specu; ring|]. apply rv_eq; specu; ring.
Qed.
