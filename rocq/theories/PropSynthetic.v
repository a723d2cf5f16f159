(** * Properties C59 and C61: synthetic paths, perturbed initial guesses. *)

From Coq Require Import Reals ZArith Bool List Lra Lia Psatz.
From Verif Require Import Num Py XReal XFacts Quat DualQuat HandEye TimeAlign Synthetic Spec Embed QuatFacts QuatTrig
  QuatRot DualFacts ScrewFacts ListFacts HandEyeFacts KernelFacts CalibFacts TimeFacts PropQuat PropHandEye PropResample.
Import ListNotations.
Local Open Scope R_scope.

(** ** C59: specification *)
(** sample i of n on the helix *)
Definition path_time (n i : nat) : R := INR i / INR (n - 1).
Definition helix (t : R) : rv := RV (10 + cos (4 * PI * t)) (-5 - 4 * sin (4 * PI * t)) (1 / 2 + 5 * t).
(** draws without infinities, not too close to zero where the code divides by their length *)
Definition good_outlier (o : outlier (N:=XR)) : Prop := exists q x y z bx by_ bz,
  o = mkOutlier (N:=XR) (inQ q) (Fin x, bx) (Fin y, by_) (Fin z, bz) /\ 1 / 100000000 < hnorm q.
Definition good_noise (d : noise (N:=XR)) : Prop := exists p a th,
  d = mkNoise (N:=XR) (inV p) (inV a) (Fin th) /\ 1 / 10000000000000000 < len3 a.

Lemma update_map {A B} (f : A -> B) l : forall i a, update (map f l) i (f a) = map f (update l i a).
Proof. induction l as [|x l IH]; intros [|i] a; cbn; try easy. now rewrite IH. Qed.
Lemma nth_fin l i : nth i (map Fin l) (n0 (N:=XR)) = Fin (nth i l 0).
Proof. change (n0 (N:=XR)) with (Fin 0). apply map_nth. Qed.
Lemma py_max_fin l : exists m, py_max (N:=XR) (map Fin l) = Fin m.
Proof.
  destruct l as [|x l]; [now exists 0|]. cbn [map py_max]. revert x. induction l as [|y l IH]; intros x; [now exists x|].
  cbn [map fold_left]. cbn [ltb XR xltb]. destruct (Rltb x y); apply IH.
Qed.
Lemma outlier_coordinate_fin x b l : exists r, outlier_coordinate (N:=XR) (Fin x, b) (map Fin l) = Fin r.
Proof.
  unfold outlier_coordinate. destruct (py_max_fin l) as (m & E). cbn [fst snd]. change (@T XR) with xr in *. rewrite E. cbn [mul XR xmul]. destruct b; cbn [lit n0 XR xmul]; eexists; reflexivity.
Qed.

Section Paths.
  Context (euler : @T XR -> @T XR -> @T XR -> quat (N:=XR)) (e : R -> R -> R -> rq).
  Context (euler_unit : forall a b c, euler (Fin a) (Fin b) (Fin c) = inQ (e a b c) /\ unitq (e a b c)).

  Lemma sample_rotation_in q d : 1 / 100000000 < hnorm q -> (forall x, d = Some x -> good_noise x) ->
    exists r, sample_rotation (N:=XR) (inQ q) d = inQ r /\ unitq r /\ 0 <= qs r /\ qs r = Rabs (qs q) / hnorm q.
  Proof.
    intros L G.
    assert (H : exists q', (match d with Some x => qmul (qmul (qnormalize (from_angle_axis (npi * n_angle x)%num (n_axis x))) (inQ q)) (qinv (qnormalize (from_angle_axis (npi * n_angle x)%num (n_axis x)))) | None => inQ q end) = inQ q'
      /\ hnorm q' = hnorm q /\ qs q' = qs q).
    { destruct d as [x|]; [|now exists q]. destruct (G x eq_refl) as (p & a & th & -> & La). cbn [n_angle n_axis].
      change (mul (Num:=XR) npi (Fin th)) with (Fin (PI * th)). rewrite from_angle_axis_in by easy.
      set (r := RQ (vscale (sin (PI * th / 2) / len3 a) a) (cos (PI * th / 2))).
      assert (U : unitq r) by (apply angle_axis_unit; lra). assert (HU := U). apply unit_hnorm in HU.
      rewrite qnormalize_big by lra. rewrite HU, Rinv_1, hscale_1, qinv_in_unit, !qmul_in by easy. eexists. split; [reflexivity|]. split.
      - rewrite !hnorm_mul, HU. unfold hnorm at 2. rewrite hnorm2_conj. unfold unitq in U. rewrite U, sqrt_1. ring.
      - rewrite qs_mul_conj. unfold unitq, hnorm2 in U. transitivity (qs q * hdot r r); [|rewrite U; ring]. clear. destruct r as [[] ?], q as [[] ?]. specu. ring. }
    destruct H as (q' & E & HN & HS). unfold sample_rotation. cbv zeta. change (@T XR) with xr in *. rewrite E.
    rewrite qnormalize_big by (rewrite HN; exact L). assert (P : 0 < hnorm q') by (rewrite HN; lra).
    assert (U : unitq (hscale (/ hnorm q') q')) by now apply hnormalize_unit.
    cbn [qw inQ hscale qs n0 lit ltb XR xltb]. change (Rlit 0 0) with 0. unfold Rltb. rewrite HS, HN in *.
    destruct (Rlt_dec (/ hnorm q * qs q) 0) as [S|S].
    - rewrite qneg_in. eexists. split; [reflexivity|]. split; [unfold unitq; rewrite hnorm2_neg; exact U|]. cbn [hneg hscale qs]. rewrite HS.
      split; [lra|]. assert (N : qs q < 0). { apply Rmult_lt_reg_l with (/ hnorm q); [now apply Rinv_0_lt_compat|lra]. }
      rewrite Rabs_left by easy. field. lra.
    - eexists. split; [reflexivity|]. split; [exact U|]. cbn [hscale qs]. rewrite HS. split; [lra|].
      assert (N : 0 <= qs q). { apply Rmult_le_reg_l with (/ hnorm q); [now apply Rinv_0_lt_compat|lra]. }
      rewrite Rabs_right by lra. field. lra.
  Qed.

  Lemma generate_samples_in outliers noises :
    (forall f i o, outliers = Some f -> f i = Some o -> good_outlier o) -> (forall f i, noises = Some f -> good_noise (f i)) ->
    forall samples x y z, exists l, generate_samples (N:=XR) euler outliers noises (map (fun p => (fst p, Fin (snd p))) samples) (map Fin x) (map Fin y) (map Fin z) = map inD l /\
      Forall2 (fun p a => unitdq a /\ 0 <= qs (dr a) /\ (outliers = None -> qs (dr a) = Rabs (qs (e 0 (- snd p * (1 / 10)) (- snd p))))) samples l.
  Proof.
    intros GO GN. induction samples as [|[i th] samples IH]; intros x y z; [now exists []|]. cbn [map generate_samples fst snd].
    set (q0 := e 0 (- th * (1 / 10)) (- th)).
    assert (E0 : euler n0 (mul (Num:=XR) (opp (Num:=XR) (Fin th)) (lit 1 (-1))) (opp (Num:=XR) (Fin th)) = inQ q0 /\ unitq q0).
    { change (n0 (N:=XR)) with (Fin 0). cbn [opp mul lit XR xopp xmul]. replace (Rlit 1 (-1)) with (1 / 10) by (cbn; lra). apply euler_unit. }
    destruct E0 as [E0 U0]. change (@T XR) with xr in *. rewrite E0. assert (H0 := U0). apply unit_hnorm in H0.
    assert (A : exists q x' y' z', (match outliers with
          | Some f => match f i with
              | Some o => (o_rot o, update (map Fin x) i (outlier_coordinate (o_x o) (map Fin x)), update (map Fin y) i (outlier_coordinate (o_y o) (map Fin y)), update (map Fin z) i (outlier_coordinate (o_z o) (map Fin z)))
              | None => (inQ q0, map Fin x, map Fin y, map Fin z) end
          | None => (inQ q0, map Fin x, map Fin y, map Fin z) end) = (inQ q, map Fin x', map Fin y', map Fin z') /\ 1 / 100000000 < hnorm q /\ (outliers = None -> q = q0)).
    { destruct outliers as [f|]; [|exists q0, x, y, z; split; [easy|]; split; [lra|easy]]. destruct (f i) as [o|] eqn:F; [|exists q0, x, y, z; split; [easy|]; split; [lra|easy]].
      destruct (GO f i o eq_refl F) as (q & ox & oy & oz & bx & by_ & bz & -> & L). cbn [o_rot o_x o_y o_z].
      destruct (outlier_coordinate_fin ox bx x) as (rx & EX), (outlier_coordinate_fin oy by_ y) as (ry & EY), (outlier_coordinate_fin oz bz z) as (rz & EZ).
      change (@T XR) with xr in *. rewrite EX, EY, EZ, !update_map. now exists q, (update x i rx), (update y i ry), (update z i rz). }
    destruct A as (q & x1 & y1 & z1 & A & Lq & Q0). change (@T XR) with xr in *. rewrite A. clear A.
    assert (B : exists x' y' z', (match noises with
          | Some f => (update (map Fin x1) i (add (Num:=XR) (nth i (map Fin x1) n0) (vx (n_pos (f i)))), update (map Fin y1) i (add (Num:=XR) (nth i (map Fin y1) n0) (vy (n_pos (f i)))), update (map Fin z1) i (add (Num:=XR) (nth i (map Fin z1) n0) (vz (n_pos (f i)))))
          | None => (map Fin x1, map Fin y1, map Fin z1) end) = (map Fin x', map Fin y', map Fin z')).
    { destruct noises as [f|]; [|now exists x1, y1, z1]. destruct (GN f i eq_refl) as (p & a & t & E & _). rewrite E. cbn [n_pos inV vx vy vz].
      rewrite !nth_fin. cbn [add XR xadd]. rewrite !update_map. now eexists _, _, _. }
    destruct B as (x2 & y2 & z2 & B). change (@T XR) with xr in *. rewrite B. clear B. rewrite !nth_fin.
    destruct (sample_rotation_in q (option_map (fun f => f i) noises)) as (r & SR & U & P & S); [easy| |].
    { intros d E. destruct noises as [f|]; [|discriminate]. injection E as <-. now apply (GN f i). }
    rewrite SR. change (mkV (N:=XR) (Fin (nth i x2 0)) (Fin (nth i y2 0)) (Fin (nth i z2 0))) with (inV (RV (nth i x2 0) (nth i y2 0) (nth i z2 0))).
    rewrite from_pose_unit by easy. destruct (IH x2 y2 z2) as (l & E & F). rewrite E.
    eexists (_ :: l). split; [reflexivity|]. apply Forall2_cons; [|exact F]. split; [now apply dq_of_unit|]. cbn [dq_of dr snd]. split; [easy|].
    intros N. rewrite S, (Q0 N), H0. unfold q0. lra.
  Qed.

  (** without outliers and noise the coordinate arrays are not changed *)
  Lemma generate_clean samples x y z : generate_samples (N:=XR) euler None None samples x y z =
    map (fun p => from_pose (mkV (nth (fst p) x n0) (nth (fst p) y n0) (nth (fst p) z n0))
      (sample_rotation (euler n0 (mul (Num:=XR) (opp (Num:=XR) (snd p)) (lit 1 (-1))) (opp (Num:=XR) (snd p))) None)) samples.
  Proof. induction samples as [|[i th] samples IH]; [easy|]. cbn [generate_samples map fst snd option_map]. now rewrite IH. Qed.
  Definition times_of (n : nat) : list R := map (path_time n) (seq 0 n).
  Lemma linspace_times n : linspace (N:=XR) n0 n1 (of_nat n) = Ok (map Fin (times_of n)).
  Proof.
    rewrite of_nat_fin. change (linspace (N:=XR) n0 n1 (Fin (INR n))) with (linspace (N:=XR) (Fin 0) (Fin 1) (Fin (INR n))). rewrite linspace_in by apply pos_INR.
    assert (IP : Int_part (INR n) = Z.of_nat n).
    { rewrite INR_IZR_INZ. destruct (base_Int_part (IZR (Z.of_nat n))) as [B1 B2].
      apply le_IZR in B1. assert (B3 : IZR (Z.of_nat n - 1) < IZR (Int_part (IZR (Z.of_nat n)))) by (rewrite minus_IZR; lra).
      apply lt_IZR in B3. lia. }
    rewrite IP, Nat2Z.id. do 2 f_equal. unfold times_of, path_time. destruct n as [|[|d]]; [easy|cbn; f_equal; unfold Rdiv; ring|].
    unfold grid. apply map_ext. intros i. replace (S (S d) - 1)%nat with (S d) by lia. unfold Rdiv. ring.
  Qed.
  Lemma nth_times n i d : (i < n)%nat -> nth i (times_of n) d = path_time n i.
  Proof. intros L. unfold times_of. rewrite (nth_indep _ d (path_time n 0)) by (rewrite map_length, seq_length; lia). rewrite map_nth, seq_nth by lia. reflexivity. Qed.

  Lemma generate_test_path_in n outliers noises : generate_test_path (N:=XR) euler n outliers noises =
    Ok (generate_samples (N:=XR) euler outliers noises (map (fun p => (fst p, Fin (snd p))) (combine (seq 0 n) (map (fun t => 4 * PI * t) (times_of n))))
      (map Fin (map (fun t => v1 (helix t)) (times_of n))) (map Fin (map (fun t => v2 (helix t)) (times_of n))) (map Fin (map (fun t => v3 (helix t)) (times_of n)))).
  Proof.
    unfold generate_test_path. rewrite linspace_times. cbn [bind]. f_equal. rewrite !map_map. f_equal.
    - generalize (seq 0 n). induction (times_of n) as [|t l IH]; intros [|k s]; cbn [map combine]; try easy. rewrite IH. reflexivity.
    - apply map_ext. intros t. cbn [lit mul npi sinn add opp XR xmul xsin xadd xopp helix v2]. change (Rlit (-5) 0) with (-5). change (Rlit 4 0) with 4. f_equal. ring.
    - apply map_ext. intros t. cbn [lit mul add XR xmul xadd helix v3]. rewrite Rlit_half. change (Rlit 5 0) with 5. f_equal. lra.
  Qed.
  Lemma times_length n : length (times_of n) = n.
  Proof. unfold times_of. now rewrite map_length, seq_length. Qed.

  (** Every sample is a rigid motion with non-negative scalar part, for all draws. *)
  Theorem C59_path : forall n outliers noises,
    (forall f i o, outliers = Some f -> f i = Some o -> good_outlier o) -> (forall f i, noises = Some f -> good_noise (f i)) ->
    exists l, generate_test_path (N:=XR) euler n outliers noises = Ok (map inD l) /\ length l = n /\
      Forall (fun a => unitdq a /\ 0 <= qs (dr a)) l.
  Proof.
    intros n outliers noises GO GN. rewrite generate_test_path_in. edestruct (generate_samples_in outliers noises GO GN) as (l & E & F).
    rewrite E. exists l. split; [easy|]. split.
    - apply Forall2_len in F. rewrite <- F, combine_length, seq_length, map_length, times_length. lia.
    - clear E. induction F; [constructor|]. constructor; [easy|exact IHF].
  Qed.
  (** Orientation noise conjugates the orientation: it never changes the rotation angle of a sample. *)
  Theorem C59_noise_keeps_angle : forall n noises l0 l, (forall i, good_noise (noises i)) ->
    generate_test_path (N:=XR) euler n None None = Ok (map inD l0) ->
    generate_test_path (N:=XR) euler n None (Some noises) = Ok (map inD l) ->
    map (fun a => qs (dr a)) l = map (fun a => qs (dr a)) l0.
  Proof.
    intros n noises l0 l G E0 E. rewrite generate_test_path_in in E0, E. injection E0 as E0. injection E as E.
    set (sm := combine (seq 0 n) (map (fun t => 4 * PI * t) (times_of n))) in *.
    edestruct (generate_samples_in None None) with (samples := sm) as (k0 & K0 & F0); [easy|easy|]. 
    edestruct (generate_samples_in None (Some noises)) with (samples := sm) as (k & K & F); [easy| |].
    { intros f i [= <-]. apply G. }
    rewrite K0 in E0. rewrite K in E. apply inD_list_inj in E0 as <-. apply inD_list_inj in E as <-.
    clear K0 K. revert k F. induction F0 as [|p a sm k0 (_ & _ & A) F0 IH]; intros k F; inversion F as [|? b ? k' (_ & _ & B) F']; subst; [easy|].
    cbn [map]. rewrite A, B by easy. f_equal. now apply IH.
  Qed.
  (** Outliers (draws from [0, 1), no noise): the orientation is replaced; a coordinate becomes 0 or changes
      sign and shrinks, so that outliers never have positive x or z, whereas all other samples do. *)
  Lemma py_max_spec l : l <> [] -> exists m, py_max (N:=XR) (map Fin l) = Fin m /\ In m l /\ forall x, In x l -> x <= m.
  Proof.
    destruct l as [|x l]; [easy|]. intros _. cbn [map py_max]. revert x. induction l as [|y l IH]; intros x.
    - exists x. split; [easy|]. split; [now left|]. intros y [<-|[]]. lra.
    - cbn [map fold_left]. cbn [ltb XR xltb]. unfold Rltb. destruct (Rlt_dec x y) as [L|L].
      + destruct (IH y) as (m & E & I & B). exists m. split; [exact E|]. split; [destruct I as [->|I]; [right; now left|now right; right]|].
        intros u [<-|[<-|J]]; [|now apply B; left|now apply B; right]. specialize (B y (or_introl eq_refl)). lra.
      + destruct (IH x) as (m & E & I & B). exists m. split; [exact E|]. split; [destruct I as [->|I]; [now left|now right; right]|].
        intros u [<-|[<-|J]]; [now apply B; left| |now apply B; right]. specialize (B x (or_introl eq_refl)). lra.
  Qed.
  Lemma update_in {A} (l : list A) : forall i a x, In x (update l i a) -> x = a \/ In x l.
  Proof. induction l as [|y l IH]; intros [|i] a x; cbn [update In]; try tauto; intros [E|I]; auto. destruct (IH _ _ _ I); auto. Qed.
  Lemma nth_update_same {A} (l : list A) d : forall i a, (i < length l)%nat -> nth i (update l i a) d = a.
  Proof. induction l as [|y l IH]; intros [|i] a; cbn [length update nth]; intros L; try lia; [easy|]. apply IH. lia. Qed.
  Lemma nth_update_other {A} (l : list A) d : forall i j a, i <> j -> nth j (update l i a) d = nth j l d.
  Proof. induction l as [|y l IH]; intros [|i] [|j] a NE; cbn [update nth]; try easy. apply IH. congruence. Qed.
  Lemma update_len {A} (l : list A) : forall i a, length (update l i a) = length l.
  Proof. induction l as [|y l IH]; intros [|i] a; cbn; congruence. Qed.
  Definition unit_draws (o : outlier (N:=XR)) : Prop := exists q x y z bx by_ bz,
    o = mkOutlier (N:=XR) (inQ q) (Fin x, bx) (Fin y, by_) (Fin z, bz) /\ 1 / 100000000 < hnorm q /\ 0 <= x <= 1 /\ 0 <= y <= 1 /\ 0 <= z <= 1.
  Lemma coordinate_bounds u b l lo hi : 0 <= u <= 1 -> (exists x, In x l /\ lo <= x) -> (forall x, In x l -> x <= hi) -> 
    exists r, outlier_coordinate (N:=XR) (Fin u, b) (map Fin l) = Fin r /\ Rmin 0 (- hi) <= r <= Rmax 0 (- lo).
  Proof.
    intros U (x & I & L) H. destruct (py_max_spec l) as (m & E & Im & B). { now destruct l. }
    unfold outlier_coordinate. cbn [fst snd]. change (@T XR) with xr in *. rewrite E. cbn [mul XR xmul]. specialize (B x I). specialize (H m Im).
    assert (R1 := Rmin_l 0 (- hi)). assert (R2 := Rmin_r 0 (- hi)). assert (R3 := Rmax_l 0 (- lo)). assert (R4 := Rmax_r 0 (- lo)).
    destruct b; cbn [lit n0 XR xmul]; eexists; (split; [reflexivity|]).
    - change (Rlit (-1) 0) with (-1). split; nra.
    - change (Rlit 0 0) with 0. rewrite Rmult_0_r. lra.
  Qed.
  Lemma helix_bounds t : 0 <= t <= 1 -> 9 <= v1 (helix t) <= 11 /\ -9 <= v2 (helix t) <= 9 /\ 1 / 2 <= v3 (helix t) <= 11 / 2.
  Proof. intros L. cbn [helix v1 v2 v3]. assert (C := COS_bound (4 * PI * t)). assert (S := SIN_bound (4 * PI * t)). lra. Qed.
  Lemma path_time_bounds n i : (i < n)%nat -> 0 <= path_time n i <= 1.
  Proof.
    intros L. unfold path_time. destruct (Nat.eq_dec n 1) as [->|NE].
    - replace i with O by lia. cbn. unfold Rdiv. rewrite Rmult_0_l. lra.
    - assert (P : 0 < INR (n - 1)) by (apply lt_0_INR; lia). split.
      + apply Rmult_le_pos; [apply pos_INR|]. left. now apply Rinv_0_lt_compat.
      + apply Rmult_le_reg_r with (INR (n - 1)); [easy|]. unfold Rdiv. rewrite Rmult_assoc, Rinv_l, Rmult_1_l, Rmult_1_r by lra. apply le_INR. lia.
  Qed.
  Lemma outlier_samples f n (GO : forall i o, f i = Some o -> unit_draws o) : forall m k x y z, (k + m = n)%nat ->
    length x = n -> length y = n -> length z = n ->
    (forall a, In a x -> a <= 11) -> (forall a, In a y -> -9 <= a <= 9) -> (forall a, In a z -> a <= 11 / 2) ->
    (forall j, (k <= j < n)%nat -> nth j x 0 = v1 (helix (path_time n j)) /\ nth j y 0 = v2 (helix (path_time n j)) /\ nth j z 0 = v3 (helix (path_time n j))) ->
    exists l, generate_samples (N:=XR) euler (Some f) None (map (fun i => (i, Fin (4 * PI * path_time n i))) (seq k m)) (map Fin x) (map Fin y) (map Fin z) = map inD l /\
      Forall2 (fun i a => exists r p, a = dq_of r p /\ unitq r /\
        match f i with
        | Some _ => -11 <= v1 p <= 0 /\ -9 <= v2 p <= 9 /\ - (11 / 2) <= v3 p <= 0
        | None => p = helix (path_time n i)
        end) (seq k m) l.
  Proof.
    induction m as [|m IH]; intros k x y z KM LX LY LZ BX BY BZ ON; [exists []; split; [easy|constructor]|]. cbn [seq map generate_samples].
    destruct (ON k ltac:(lia)) as (NX & NY & NZ). assert (HB := helix_bounds _ (path_time_bounds n k ltac:(lia))).
    set (th := 4 * PI * path_time n k). set (q0 := e 0 (- th * (1 / 10)) (- th)).
    assert (E0 : euler n0 (mul (Num:=XR) (opp (Num:=XR) (Fin th)) (lit 1 (-1))) (opp (Num:=XR) (Fin th)) = inQ q0 /\ unitq q0).
    { change (n0 (N:=XR)) with (Fin 0). cbn [opp mul lit XR xopp xmul]. replace (Rlit 1 (-1)) with (1 / 10) by (cbn; lra). apply euler_unit. }
    destruct E0 as [E0 U0]. change (@T XR) with xr in *. rewrite E0. apply unit_hnorm in U0.
    assert (HX : In (nth k x 0) x) by (apply nth_In; lia). assert (HY : In (nth k y 0) y) by (apply nth_In; lia). assert (HZ : In (nth k z 0) z) by (apply nth_In; lia).
    assert (A : exists q x' y' z', match f k with
              | Some o => (o_rot o, update (map Fin x) k (outlier_coordinate (o_x o) (map Fin x)), update (map Fin y) k (outlier_coordinate (o_y o) (map Fin y)), update (map Fin z) k (outlier_coordinate (o_z o) (map Fin z)))
              | None => (inQ q0, map Fin x, map Fin y, map Fin z) end = (inQ q, map Fin x', map Fin y', map Fin z') /\ 1 / 100000000 < hnorm q /\
       length x' = n /\ length y' = n /\ length z' = n /\
       (forall a, In a x' -> a <= 11) /\ (forall a, In a y' -> -9 <= a <= 9) /\ (forall a, In a z' -> a <= 11 / 2) /\
       (forall j, (j <> k)%nat -> nth j x' 0 = nth j x 0 /\ nth j y' 0 = nth j y 0 /\ nth j z' 0 = nth j z 0) /\
       match f k with Some _ => -11 <= nth k x' 0 <= 0 /\ -9 <= nth k y' 0 <= 9 /\ - (11 / 2) <= nth k z' 0 <= 0 | None => x' = x /\ y' = y /\ z' = z end).
    { destruct (f k) as [o|] eqn:F.
      2:{ exists q0, x, y, z. split; [easy|]. split; [lra|]. repeat (split; [easy|]). easy. }
      destruct (GO k o F) as (q & ux & uy & uz & bx & by_ & bz & -> & L & Bx & By & Bz). cbn [o_rot o_x o_y o_z].
      destruct (coordinate_bounds ux bx x 9 11 Bx) as (rx & EX & RX); [exists (nth k x 0); split; [easy|]; rewrite NX; lra|easy|].
      destruct (coordinate_bounds uy by_ y (-9) 9 By) as (ry & EY & RY); [exists (nth k y 0); split; [easy|]; rewrite NY; lra|intros a I; now apply BY|].
      destruct (coordinate_bounds uz bz z (1 / 2) (11 / 2) Bz) as (rz & EZ & RZ); [exists (nth k z 0); split; [easy|]; rewrite NZ; lra|easy|].
      rewrite Rmin_right, Rmax_left in RX by lra. rewrite Rmin_right, Rmax_right in RY by lra. rewrite Rmin_right, Rmax_left in RZ by lra.
      change (@T XR) with xr in *. rewrite EX, EY, EZ, !update_map. exists q, (update x k rx), (update y k ry), (update z k rz).
      split; [easy|]. split; [exact L|]. rewrite !update_len, !nth_update_same by lia. repeat (split; [easy|]).
      split; [intros a I; apply update_in in I as [->|I]; [lra|auto]|]. split; [intros a I; apply update_in in I as [->|I]; [lra|auto]|].
      split; [intros a I; apply update_in in I as [->|I]; [lra|auto]|]. split; [|lra].
      intros j NE. now rewrite !nth_update_other by congruence. }
    destruct A as (q & x1 & y1 & z1 & A & Lq & L1 & L2 & L3 & B1 & B2 & B3 & O & AT). change (@T XR) with xr in *. rewrite A. clear A. rewrite !nth_fin. cbn [option_map].
    destruct (sample_rotation_in q None) as (r & SR & U & _); [easy|easy|]. rewrite SR.
    change (mkV (N:=XR) (Fin (nth k x1 0)) (Fin (nth k y1 0)) (Fin (nth k z1 0))) with (inV (RV (nth k x1 0) (nth k y1 0) (nth k z1 0))).
    rewrite from_pose_unit by easy.
    destruct (IH (S k) x1 y1 z1) as (l & E & F); try easy; [lia|intros j J; destruct (O j ltac:(lia)) as (-> & -> & ->); apply ON; lia|].
    change (@T XR) with xr in *. rewrite E. eexists (_ :: l). split; [reflexivity|]. apply Forall2_cons; [|exact F].
    eexists _, _. split; [reflexivity|]. split; [exact U|]. cbn [v1 v2 v3]. destruct (f k); [easy|]. destruct AT as (-> & -> & ->). rewrite NX, NY, NZ. reflexivity.
  Qed.
  Theorem C59_outliers : forall n f, (forall i o, f i = Some o -> unit_draws o) ->
    exists l, generate_test_path (N:=XR) euler n (Some f) None = Ok (map inD l) /\ length l = n /\
      forall i, (i < n)%nat -> exists r p, nth_error l i = Some (dq_of r p) /\ unitq r /\
        match f i with
        | Some _ => -11 <= v1 p <= 0 /\ -9 <= v2 p <= 9 /\ - (11 / 2) <= v3 p <= 0
        | None => p = helix (path_time n i) /\ 9 <= v1 p <= 11 /\ 1 / 2 <= v3 p <= 11 / 2
        end.
  Proof.
    intros n f GO. rewrite generate_test_path_in.
    assert (C : map (fun p => (fst p, Fin (snd p))) (combine (seq 0 n) (map (fun t => 4 * PI * t) (times_of n))) = map (fun i => (i, Fin (4 * PI * path_time n i))) (seq 0 n)).
    { unfold times_of. rewrite map_map. induction (seq 0 n) as [|k s IH]; [easy|]. cbn [map combine fst snd]. now rewrite IH. }
    change (@T XR) with xr in *. rewrite C.
    assert (IT : forall t, In t (times_of n) -> 0 <= t <= 1).
    { intros t I. unfold times_of in I. apply in_map_iff in I as (i & <- & I). apply in_seq in I. apply path_time_bounds. lia. }
    destruct (outlier_samples f n GO n 0 (map (fun t => v1 (helix t)) (times_of n)) (map (fun t => v2 (helix t)) (times_of n)) (map (fun t => v3 (helix t)) (times_of n)))
      as (l & E & F); try (now rewrite map_length, times_length); [easy| | | | |].
    - intros a I. apply in_map_iff in I as (t & <- & I). apply helix_bounds. auto.
    - intros a I. apply in_map_iff in I as (t & <- & I). apply helix_bounds. auto.
    - intros a I. apply in_map_iff in I as (t & <- & I). apply helix_bounds. auto.
    - intros j J. assert (NT : forall g : R -> R, nth j (map g (times_of n)) 0 = g (path_time n j)).
      { intros g. rewrite (nth_indep _ _ (g 0)) by (rewrite map_length, times_length; lia). now rewrite (map_nth g), nth_times by lia. }
      now rewrite !NT.
    - change (@T XR) with xr in *. rewrite E. exists l. split; [easy|]. assert (LL := F). apply Forall2_len in LL. rewrite seq_length in LL. split; [easy|].
      intros i L. assert (G : forall k m l, Forall2 (fun i a => exists r p, a = dq_of r p /\ unitq r /\
        match f i with Some _ => -11 <= v1 p <= 0 /\ -9 <= v2 p <= 9 /\ - (11 / 2) <= v3 p <= 0 | None => p = helix (path_time n i) end) (seq k m) l ->
        forall j, (j < m)%nat -> exists r p, nth_error l j = Some (dq_of r p) /\ unitq r /\
        match f (k + j)%nat with Some _ => -11 <= v1 p <= 0 /\ -9 <= v2 p <= 9 /\ - (11 / 2) <= v3 p <= 0 | None => p = helix (path_time n (k + j)) end).
      { clear. intros k m. revert k. induction m as [|m IH]; intros k l F j L; [lia|]. cbn [seq] in F. inversion F as [|? a ? l' (r & p & -> & U & H) F']; subst.
        destruct j as [|j]. { exists r, p. now rewrite Nat.add_0_r. }
        replace (k + S j)%nat with (S k + j)%nat by lia. cbn [nth_error]. apply IH; [exact F'|lia]. }
      destruct (G _ _ _ F i L) as (r & p & E1 & U & H). cbn [plus] in H. exists r, p. split; [exact E1|]. split; [exact U|]. destruct (f i); [exact H|].
      split; [exact H|]. subst p. destruct (helix_bounds _ (path_time_bounds n i L)) as (? & _ & ?). easy.
  Qed.
  (** Without noise and outliers the samples lie on the helix. *)
  Theorem C59_helix : forall n, exists l, generate_test_path (N:=XR) euler n None None = Ok (map inD l) /\ length l = n /\
    forall i, (i < n)%nat -> let t := path_time n i in let q := e 0 (- (4 * PI * t) * (1 / 10)) (- (4 * PI * t)) in
      exists r, nth_error l i = Some (dq_of r (helix t)) /\ (r = q \/ r = hneg q) /\ 0 <= qs r.
  Proof.
    intros n. set (r i := pos_w (e 0 (- (4 * PI * path_time n i) * (1 / 10)) (- (4 * PI * path_time n i)))).
    exists (map (fun i => dq_of (r i) (helix (path_time n i))) (seq 0 n)). split; [|split].
    - rewrite generate_test_path_in, generate_clean. f_equal. rewrite !map_map.
      assert (C : combine (seq 0 n) (map (fun t => 4 * PI * t) (times_of n)) = map (fun i => (i, 4 * PI * path_time n i)) (seq 0 n)).
      { unfold times_of. rewrite map_map. induction (seq 0 n) as [|k s IH]; [easy|]. cbn [map combine]. now rewrite IH. }
      rewrite C, map_map. apply map_ext_in. intros i I. apply in_seq in I. cbn [fst snd].
      rewrite !(map_map Fin) || idtac.
      assert (NT : forall f : R -> R, nth i (map (fun t => Fin (f t)) (times_of n)) (n0 (N:=XR)) = Fin (f (path_time n i))).
      { intros f. rewrite (nth_indep _ _ (Fin (f 0))) by (rewrite map_length, times_length; lia). rewrite (map_nth (fun t => Fin (f t))). now rewrite nth_times by lia. }
      change (@T XR) with xr in *. rewrite !NT.
      change (mkV (N:=XR) (Fin (v1 (helix (path_time n i)))) (Fin (v2 (helix (path_time n i)))) (Fin (v3 (helix (path_time n i))))) with (inV (helix (path_time n i))).
      set (th := 4 * PI * path_time n i). set (q0 := e 0 (- th * (1 / 10)) (- th)).
      assert (E0 : euler n0 (mul (Num:=XR) (opp (Num:=XR) (Fin th)) (lit 1 (-1))) (opp (Num:=XR) (Fin th)) = inQ q0 /\ unitq q0).
      { change (n0 (N:=XR)) with (Fin 0). cbn [opp mul lit XR xopp xmul]. replace (Rlit 1 (-1)) with (1 / 10) by (cbn; lra). apply euler_unit. }
      destruct E0 as [E0 U0]. change (@T XR) with xr in *. rewrite E0.
      assert (SR : sample_rotation (N:=XR) (inQ q0) None = inQ (r i)).
      { unfold sample_rotation. assert (H0 := U0). apply unit_hnorm in H0. rewrite qnormalize_big by lra. rewrite H0, Rinv_1, hscale_1.
        cbn [qw inQ n0 lit ltb XR xltb]. change (Rlit 0 0) with 0. unfold r. fold th. fold q0. unfold pos_w, Rltb. destruct (Rlt_dec (qs q0) 0); [apply qneg_in|easy]. }
      rewrite SR. apply from_pose_unit. unfold r. fold th. fold q0. unfold pos_w. destruct (Rlt_dec _ _); [unfold unitq; now rewrite hnorm2_neg|easy].
    - now rewrite map_length, seq_length.
    - intros i L t q. exists (r i). split; [|split].
      + rewrite nth_error_map. rewrite (nth_error_nth' (seq 0 n) 0%nat) by (rewrite seq_length; lia). rewrite seq_nth by lia. reflexivity.
      + unfold r, pos_w. fold t. fold q. destruct (Rlt_dec _ _); auto.
      + unfold r, pos_w. fold t. fold q. destruct (Rlt_dec (qs q) 0); cbn [hneg qs]; lra.
  Qed.

  (** Without paths_start_at_origin it always raises, whatever is drawn and whatever the transforms. *)
  Theorem C59_not_at_origin : forall n x w o1 n1 o2 n2,
    generate_test_paths (N:=XR) euler n x w false o1 n1 o2 n2 = Err UnboundLocalError.
  Proof. intros. unfold generate_test_paths. now rewrite generate_test_path_in. Qed.
  Theorem C59_no_samples : forall x w o1 n1 o2 n2,
    generate_test_paths (N:=XR) euler 0 x w true o1 n1 o2 n2 = Err IndexError.
  Proof. intros. unfold generate_test_paths. now rewrite generate_test_path_in. Qed.
  (** Otherwise: two paths of n entries that start at the identity and satisfy the hand-eye equation. *)
  Theorem C59_clean : forall n x w, (0 < n)%nat -> unitdq x -> unitdq w ->
    exists ps, generate_test_paths (N:=XR) euler n (inD x) (inD w) true None None None None = Ok (hands ps, eyes ps) /\
      length ps = n /\ nth_error ps 0 = Some (dqone, dqone) /\ Forall (consistent x) ps /\
      Forall (fun p => unitdq (fst p) /\ unitdq (snd p)) ps /\
      (* the hand path is the helix relative to its first sample *)
      forall l, generate_test_path (N:=XR) euler n None None = Ok (map inD l) ->
        forall i a0 ai p, nth_error l 0 = Some a0 -> nth_error l i = Some ai -> nth_error ps i = Some p ->
          dqmul a0 (fst p) = ai \/ dqmul a0 (fst p) = dqneg ai.
  Proof.
    intros n x w Ln Ux Uw. destruct (C59_path n None None) as (l & E & LL & F); [easy|easy|]. unfold generate_test_paths. rewrite E. cbn [bind].
    destruct l as [|a0 l']; [cbn in LL; lia|]. set (l := a0 :: l') in *.
    assert (U : Forall unitdq l) by (eapply Forall_impl; [|exact F]; cbn; tauto).
    assert (U0 : unitdq a0) by now inversion U.
    rewrite (align_in l 0 a0) by (try apply unitdq_tiny; easy). cbn [bind].
    set (off a := dqmul (dqmul (dqinv w) a) x).
    assert (CO : compute_dual_quaternions_with_offset (map inD l) (inD x) (inD w) = Ok (map inD (map off l))).
    { destruct (C22_offset_path l x w Ux Uw U) as (r & -> & F2). do 2 f_equal. clear -F2 Uw. induction F2 as [|a y l r [_ H] F2 IH]; [easy|]. cbn [map]. f_equal; [|exact IH].
      unfold off. rewrite dqmul_assoc, <- H, <- dqmul_assoc, dqmul_inv_l, dqmul_1_l; [easy|]. now apply unitdq_n2. }
    rewrite CO. cbn [bind]. assert (Uo : forall a, unitdq a -> unitdq (off a)) by (intros a Ua; unfold off; auto using unitdq_mul, unitdq_inv).
    rewrite (align_in (map off l) 0 (off a0)) by (try apply unitdq_tiny; auto). cbn [bind].
    set (f a := rflip (dqmul (dqinv a0) a)). set (g a := rflip (dqmul (dqinv (off a0)) (off a))).
    exists (map (fun a => (f a, g a)) l). rewrite map_map.
    assert (R0 : forall (k : list rdq), rotl 0 k = k) by (intros k; unfold rotl; cbn [skipn firstn]; apply app_nil_r).
    split; [unfold hands, eyes; rewrite !R0, !map_map; reflexivity|]. split; [now rewrite map_length|].
    split. { cbn [l map nth_error]. unfold f, g. rewrite !dqmul_inv_l, rflip_one by (apply unitdq_n2; auto). easy. }
    assert (CON : forall a, unitdq a -> consistent x (f a, g a)).
    { intros a Ua.
      assert (C : consistent x (dqmul (dqinv a0) a, dqmul (dqinv (off a0)) (off a))).
      { unfold consistent. cbn [fst snd].
        assert (E1 : dqmul (off a0) (dqmul (dqinv x) (dqmul (dqmul (dqinv a0) a) x)) = off a).
        { unfold off. rewrite !dqmul_assoc. f_equal. rewrite <- (dqmul_assoc x (dqinv x)), dqmul_inv_r, dqmul_1_l by now apply unitdq_n2.
          rewrite <- (dqmul_assoc a0 (dqinv a0)), dqmul_inv_r, dqmul_1_l by now apply unitdq_n2. easy. }
        rewrite <- E1. rewrite <- (dqmul_assoc (dqinv (off a0))), dqmul_inv_l, dqmul_1_l by (apply unitdq_n2; auto).
        rewrite <- (dqmul_assoc x (dqinv x)), dqmul_inv_r, dqmul_1_l by now apply unitdq_n2. easy. }
      destruct (screw_congruence _ _ _ Ux C) as [S _]. cbn [fst snd] in S. unfold f, g, rflip. rewrite <- S.
      destruct (Rlt_dec _ _); [|exact C]. unfold consistent in *. cbn [fst snd] in *. now rewrite dqmul_neg_l, dqmul_neg_r, C. }
    split. { apply Forall_forall. intros p I. apply in_map_iff in I as (a & <- & I). rewrite Forall_forall in U. auto. }
    split. { apply Forall_forall. intros p I. apply in_map_iff in I as (a & <- & I). rewrite Forall_forall in U. specialize (U a I). unfold f, g. split; apply rflip_unit; auto using unitdq_mul, unitdq_inv. }
    intros k K i b0 ai p B0 Ai P. injection K as K. change (map inD l = map inD k) in K. apply inD_list_inj in K as <-.
    rewrite nth_error_map, Ai in P. injection P as <-. cbn [fst]. injection B0 as <-. unfold f.
    assert (C : dqmul a0 (dqmul (dqinv a0) ai) = ai) by (rewrite <- dqmul_assoc, dqmul_inv_r, dqmul_1_l; [easy|now apply unitdq_n2]).
    destruct (rflip_cases (dqmul (dqinv a0) ai)) as [->| ->]; [left; exact C|right]. now rewrite dqmul_neg_r, C.
  Qed.
End Paths.

Lemma len3_e3 : len3 (RV 0 0 1) = 1.
Proof. unfold len3. replace (dot3 _ _) with 1 by (specu; ring). apply sqrt_1. Qed.
Lemma hnorm_one : hnorm hone = 1.
Proof. apply unit_hnorm. unfold unitq. specu. ring. Qed.
(** the hypotheses on the Euler angle function and the draws can be met *)
Example C59_example : (exists euler e, forall a b c, euler (Fin a) (Fin b) (Fin c) = inQ (e a b c) /\ unitq (e a b c)) /\
  (exists o, good_outlier o) /\ exists d, good_noise d.
Proof.
  assert (L := len3_e3). split; [|split].
  - exists (fun _ _ c => from_angle_axis c (inV (RV 0 0 1))), (fun _ _ c => RQ (vscale (sin (c / 2) / len3 (RV 0 0 1)) (RV 0 0 1)) (cos (c / 2))). intros _ _ c.
    split; [apply from_angle_axis_in; lra|apply angle_axis_unit; lra].
  - eexists. exists hone, 0, 0, 0, true, false, true. split; [reflexivity|]. rewrite hnorm_one. lra.
  - eexists. exists vzero, (RV 0 0 1), 1. split; [reflexivity|]. lra.
Qed.

(** ** C61 *)
Definition unit_of (v : rv) : rv := vscale (/ len3 v) v.
(** the rotation by an angle about an axis *)
Definition rotation_about (axis : rv) (angle : R) : rq := RQ (vscale (sin (angle / 2)) (unit_of axis)) (cos (angle / 2)).
Lemma unit_of_len v : 0 < len3 v -> len3 (unit_of v) = 1.
Proof.
  intros P. assert (D : dot3 (unit_of v) (unit_of v) = 1).
  { unfold unit_of. assert (E := len3_sqr v). revert E. generalize (len3 v) P. intros l Pl E. transitivity (/ l * / l * dot3 v v); [destruct v; specu; ring|]. rewrite <- E. field. lra. }
  unfold len3 at 1. rewrite D. apply sqrt_1.
Qed.
Lemma vnorm_in v : vnorm (N:=XR) (inV v) = Fin (len3 v).
Proof. unfold vnorm. cbn [inV vx vy vz mul add sqrtn XR xmul xadd]. rewrite xsqrt_fin; [reflexivity|apply dot3_pos]. Qed.
Lemma unit_of_in v : 0 < len3 v -> let n := vnorm (N:=XR) (inV v) in
  mkV (N:=XR) (div (vx (inV v)) n) (div (vy (inV v)) n) (div (vz (inV v)) n) = inV (unit_of v).
Proof.
  intros P. cbv zeta. rewrite vnorm_in. cbn [inV vx vy vz div XR]. rewrite !xdiv_fin by lra. unfold unit_of, inV. cbn [vscale v1 v2 v3]. unfold Rdiv. f_equal; f_equal; ring.
Qed.
Lemma isclose_one : isclose (N:=XR) (lit 1 (-8)) (Fin 1) n1 = true.
Proof. change (n1 (N:=XR)) with (Fin 1). cbn [lit XR]. rewrite Rlit_1e8. apply isclose_refl. lra. Qed.
Lemma get_random_in ax a : 0 < len3 ax -> get_random (N:=XR) (inV ax) (Fin a) = Ok (inQ (rotation_about ax a)).
Proof.
  intros P. unfold get_random. assert (E := unit_of_in ax P). cbv zeta in E. cbn [T XR] in *. rewrite E. rewrite vnorm_in, (unit_of_len _ P), isclose_one. cbn [assert_ bind]. f_equal.
  rewrite from_angle_axis_in by (rewrite unit_of_len by easy; lra). rewrite unit_of_len by easy. unfold rotation_about. do 2 f_equal. unfold vscale. f_equal; field.
Qed.
Lemma rotation_about_unit ax a : 0 < len3 ax -> unitq (rotation_about ax a).
Proof.
  intros P. assert (L := unit_of_len ax P). assert (S := len3_sqr (unit_of ax)). rewrite L in S. unfold rotation_about, unitq.
  assert (T2 := sin2_cos2 (a / 2)). unfold Rsqr in T2. destruct (unit_of ax) as [x y z]. specu. nra.
Qed.
Lemma hdot_spoil r g : unitq g -> hdot g (hmul r g) = qs r.
Proof. unfold unitq. destruct r as [[] ?], g as [[] ?]. specu. intros U. match goal with |- _ = ?s => transitivity (s * 1); [|ring] end. rewrite <- U. ring. Qed.
Lemma vadd_in u v : vadd_m (N:=XR) (inV u) (inV v) = inV (vadd u v).
Proof. reflexivity. Qed.
Lemma vsub_in u v : vsub_m (N:=XR) (inV u) (inV v) = inV (vsub u v).
Proof. reflexivity. Qed.
Lemma vscale_in u k : vscale_m (N:=XR) (inV u) (Fin k) = inV (vscale k u).
Proof. unfold vscale_m, inV. cbn [vx vy vz mul XR xmul vscale v1 v2 v3]. f_equal; f_equal; ring. Qed.
Lemma len3_scale k v : len3 v = 1 -> len3 (vscale k v) = Rabs k.
Proof.
  intros L. assert (S := len3_sqr v). rewrite L in S. unfold len3. replace (dot3 _ _) with (k * k * dot3 v v) by (destruct v; specu; ring).
  rewrite <- S. replace (k * k * (1 * 1)) with (Rsqr k) by (unfold Rsqr; ring). apply sqrt_Rsqr_abs.
Qed.
Lemma leb_in a b : a <= b -> leb (Num:=XR) (Fin a) (Fin b) = true.
Proof. intros H. cbn [leb XR xleb]. now apply Rleb_t. Qed.
Lemma leb_out a b : b < a -> leb (Num:=XR) (Fin a) (Fin b) = false.
Proof. intros H. cbn [leb XR xleb]. now apply Rleb_f. Qed.

Section Spoiling.
  Context (time : R) (g : rdq) (U : unitdq g).
  Context (amin amax tmin tmax dt sign len angle : R) (dir axis : rv).
  Context (Hdir : 0 < len3 dir) (Haxis : 0 < len3 axis).
  Context (Hlen : tmin <= len <= tmax) (Hang : amin <= angle <= amax) (Ht : 0 <= tmin) (Ha : 0 <= amin) (Hpi : amax <= 2 * PI).
  Let r := rotation_about axis angle.
  Let offset := vscale len (unit_of dir).
  Let spoiled := dq_of (hmul r (dr g)) (vadd offset (trans_of g)).
  Let spoil := spoil_initial_guess (N:=XR) (Fin time) (inD g) (Fin amin, Fin amax) (Fin tmin, Fin tmax)
    (mkSpoil (N:=XR) (Fin dt) (Fin sign) (inV dir) (Fin len) (inV axis) (Fin angle)).

  Lemma offset_len : len3 (vsub (vadd offset (trans_of g)) (trans_of g)) = len.
  Proof.
    replace (vsub _ _) with offset by (destruct offset, (trans_of g); unfold vsub, vadd; cbn; f_equal; ring).
    unfold offset. rewrite len3_scale by now apply unit_of_len. apply Rabs_right. lra.
  Qed.
  Lemma spoil_eq : spoil = let a := angle_between_quaternions (inQ (dr g)) (inQ (hmul r (dr g))) in
    if leb (Num:=XR) a (Fin amax) && leb (Num:=XR) (Fin amin) a
    then Ok (inD g, (Fin (time + dt * sign), inD spoiled, (inV offset, a, Fin (dt * sign)))) else Err AssertionError.
  Proof.
    unfold spoil, spoil_initial_guess. cbn [d_time d_sign d_dir d_len d_axis d_angle fst snd].
    assert (E := unit_of_in dir Hdir). cbv zeta in E. cbn [T XR] in *. rewrite E. rewrite vnorm_in, (unit_of_len _ Hdir), isclose_one. cbn [assert_ bind].
    rewrite get_random_in by easy. cbn [bind]. rewrite to_pose_unit by easy. cbn [pos inP rot inD]. rewrite vscale_in. fold offset. rewrite vadd_in, vsub_in, vnorm_in, offset_len, qmul_in. fold r.
    rewrite !leb_in by lra. assert (UR : unitq (hmul r (dr g))).
    { unfold unitq. rewrite hnorm2_mul. assert (X := rotation_about_unit axis angle Haxis). unfold unitq in X. fold r in X. rewrite X. destruct U as [-> _]. ring. }
    rewrite from_pose_unit by exact UR. cbv zeta. fold spoiled.
    destruct (leb (Num:=XR) _ (Fin amax)); cbn [assert_ bind andb]; [|easy]. destruct (leb (Num:=XR) _ _); cbn [assert_ bind]; [|easy]. reflexivity.
  Qed.
  Lemma spoil_angle : 2 * acos (hdot (dr g) (hmul r (dr g))) = angle.
  Proof.
    rewrite hdot_spoil by apply U. unfold r, rotation_about. cbn [qs]. rewrite acos_cos; [field|]. lra.
  Qed.

  (** A perturbation that is not lost in the closeness test is applied exactly as drawn. *)
  Theorem C61_exact : ~ elementwise_close (dr g) (hmul r (dr g)) ->
    spoil = Ok (inD g, (Fin (time + dt * sign), inD spoiled, (inV offset, Fin angle, Fin (dt * sign)))).
  Proof.
    intros NC. rewrite spoil_eq. cbv zeta. rewrite elementwise_close_iff in NC.
    assert (UR : unitq (hmul r (dr g))).
    { unfold unitq. rewrite hnorm2_mul. assert (X := rotation_about_unit axis angle Haxis). unfold unitq in X. fold r in X. rewrite X. destruct U as [-> _]. ring. }
    rewrite angle_between_far by (easy || apply U). rewrite spoil_angle, !leb_in by lra. reflexivity.
  Qed.
  Theorem C61_large : 1 / 10000 <= angle ->
    spoil = Ok (inD g, (Fin (time + dt * sign), inD spoiled, (inV offset, Fin angle, Fin (dt * sign)))).
  Proof.
    intros L. apply C61_exact. intros C.
    assert (UR : unitq (hmul r (dr g))).
    { unfold unitq. rewrite hnorm2_mul. assert (X := rotation_about_unit axis angle Haxis). unfold unitq in X. fold r in X. rewrite X. destruct U as [-> _]. ring. }
    destruct (C09_shortcut _ _ (proj1 U) UR C) as [_ X]. rewrite spoil_angle in X. lra.
  Qed.
  (** Otherwise the angle counts as zero: with a positive lower bound it raises. *)
  Theorem C61_close : elementwise_close (dr g) (hmul r (dr g)) ->
    spoil = if Rlt_dec 0 amin then Err AssertionError
            else Ok (inD g, (Fin (time + dt * sign), inD spoiled, (inV offset, Fin 0, Fin (dt * sign)))).
  Proof.
    intros C. rewrite spoil_eq. cbv zeta. rewrite elementwise_close_iff in C. rewrite angle_between_close by easy.
    rewrite (leb_in 0 amax) by lra. cbn [andb]. destruct (Rlt_dec 0 amin); [now rewrite leb_out|]. rewrite leb_in by lra. reflexivity.
  Qed.
  (** The result is the drawn motion applied to the guess. *)
  Theorem C61_spoiled : unitdq spoiled /\ dr spoiled = hmul r (dr g) /\ vsub (trans_of spoiled) (trans_of g) = offset /\ len3 offset = len /\
    tmin <= len3 (vsub (trans_of spoiled) (trans_of g)) <= tmax.
  Proof.
    assert (UR : unitq (hmul r (dr g))).
    { unfold unitq. rewrite hnorm2_mul. assert (X := rotation_about_unit axis angle Haxis). unfold unitq in X. fold r in X. rewrite X. destruct U as [-> _]. ring. }
    split; [now apply dq_of_unit|]. split; [easy|]. unfold spoiled. rewrite trans_dq_of by easy.
    assert (E : vsub (vadd offset (trans_of g)) (trans_of g) = offset) by (destruct offset, (trans_of g); unfold vsub, vadd; cbn; f_equal; ring).
    split; [exact E|]. rewrite E. assert (L := offset_len). rewrite E in L. rewrite L. easy.
  Qed.
End Spoiling.

(** Tiny drawn angles are always lost. *)
Lemma spoil_distance r q : unitq q -> hnorm2 (hsub q (hmul r q)) = hnorm2 (hsub hone r).
Proof. unfold unitq. intros Uq. transitivity (hnorm2 (hsub hone r) * hnorm2 q); [|rewrite Uq; ring]. destruct r as [[] ?], q as [[] ?]. specu. ring. Qed.
Lemma rotation_distance ax a : 0 < len3 ax -> hnorm2 (hsub hone (rotation_about ax a)) = 2 - 2 * cos (a / 2).
Proof.
  intros P. assert (Ur := rotation_about_unit ax a P). unfold unitq in Ur. revert Ur. unfold rotation_about. destruct (vscale _ _) as [x y z]. specu. intros Ur. lra.
Qed.
Theorem C61_tiny_angles : forall (g : rdq) (ax : rv) (a : R), unitdq g -> 0 < len3 ax -> 0 <= a <= 2 / 1000000000000 ->
  elementwise_close (dr g) (hmul (rotation_about ax a) (dr g)).
Proof.
  intros g ax a U P A. rewrite elementwise_close_iff. unfold close4.
  assert (D : hnorm2 (hsub (dr g) (hmul (rotation_about ax a) (dr g))) <= (1 / 1000000000000) * (1 / 1000000000000)).
  { rewrite spoil_distance by apply U. rewrite rotation_distance by easy. assert (C := cos_lb (a / 2)). nra. }
  set (p := dr g) in *. set (q := hmul _ p) in *. clearbody p q.
  assert (B : forall d e, d * d <= (1 / 1000000000000) * (1 / 1000000000000) -> Rabs d <= 1 / 1000000000000 + 1 / 100000 * Rabs e).
  { intros d e H. assert (E := Rabs_pos e). assert (Rabs d <= 1 / 1000000000000); [|lra]. apply Rsqr_incr_0; [|apply Rabs_pos|lra]. rewrite <- Rsqr_abs. exact H. }
  destruct p as [[p1 p2 p3] p4], q as [[q1 q2 q3] q4]. unfold hnorm2, hsub, hdot, vsub, dot3 in D. cbn [qv qs v1 v2 v3] in *.
  assert (S1 := Rle_0_sqr (p1 - q1)). assert (S2 := Rle_0_sqr (p2 - q2)). assert (S3 := Rle_0_sqr (p3 - q3)). assert (S4 := Rle_0_sqr (p4 - q4)). unfold Rsqr in *.
  split; [|split; [|split]]; apply B; lra.
Qed.
(** A direction or axis of length zero makes it raise. *)
Lemma zero_norm : vnorm (N:=XR) (inV vzero) = Fin 0.
Proof. rewrite vnorm_in. f_equal. unfold len3. replace (dot3 _ _) with 0 by (specu; ring). apply sqrt_0. Qed.
Lemma zero_normalised : isclose (N:=XR) (lit 1 (-8))
  (vnorm (mkV (N:=XR) (div (vx (inV vzero)) (vnorm (inV vzero))) (div (vy (inV vzero)) (vnorm (inV vzero))) (div (vz (inV vzero)) (vnorm (inV vzero))))) n1 = false.
Proof.
  rewrite zero_norm. assert (Z : div (Num:=XR) (Fin 0) (Fin 0) = NaN).
  { cbn [div XR xdiv]. destruct (Req_EM_T 0 0); [|easy]. unfold inf_signed. destruct (Rlt_dec 0 0); [lra|easy]. }
  cbn [inV vzero vx vy vz v1 v2 v3]. cbn [T XR] in *. rewrite Z. reflexivity.
Qed.
Theorem C61_zero_direction : forall time g ar tr dt sign len ax a,
  spoil_initial_guess (N:=XR) time g ar tr (mkSpoil (N:=XR) dt sign (inV vzero) len ax a) = Err AssertionError.
Proof.
  intros. unfold spoil_initial_guess. cbn [d_dir]. assert (E := zero_normalised). cbn [T XR] in *. rewrite E. reflexivity.
Qed.
Theorem C61_zero_axis : forall time g ar tr dt sign dir len a,
  spoil_initial_guess (N:=XR) time g ar tr (mkSpoil (N:=XR) dt sign dir len (inV vzero) a) = Err AssertionError.
Proof.
  intros. unfold spoil_initial_guess. cbn [d_dir d_axis d_angle d_len]. cbv zeta. destruct (isclose _ (vnorm (mkV _ _ _)) _); cbn [assert_ bind]; [|easy].
  unfold get_random. assert (E := zero_normalised). cbn [T XR] in *. rewrite E. reflexivity.
Qed.
Example C61_example : exists g dir axis, unitdq g /\ 0 < len3 dir /\ 0 < len3 axis /\
  spoil_initial_guess (N:=XR) (Fin 1) (inD g) (Fin (1 / 10), Fin 1) (Fin 0, Fin 2)
    (mkSpoil (N:=XR) (Fin (1 / 2)) (Fin (-1)) (inV dir) (Fin 1) (inV axis) (Fin (1 / 5))) <> Err AssertionError.
Proof.
  exists (dq_of (RQ (RV (3/5) 0 0) (4/5)) (RV 1 2 3)), (RV 0 0 1), (RV 0 0 1). assert (L := len3_e3).
  assert (U : unitdq (dq_of (RQ (RV (3/5) 0 0) (4/5)) (RV 1 2 3))) by (apply dq_of_unit; unfold unitq; specu; field).
  split; [easy|]. split; [lra|]. split; [lra|]. assert (P := PI_RGT_0). assert (P3 := PI2_3_2).
  rewrite C61_large; try easy; lra.
Qed.
