(** * Property C90: the windows of the time alignment and of the evaluation. *)

From Coq Require Import String Reals ZArith Bool List Lra Lia.
From Verif Require Import Num Py XReal XFacts Quat DualQuat HandEye TimeAlign Spec TimeSpec Embed ListFacts ResampleFacts PropFilter PropResample Views PropOffsetViews
  PropAligned PropEval PropOffsetPath PropTwoSensors Windows.
Import ListNotations.
Local Open Scope string_scope.
Local Open Scope list_scope.

(** ** Specification *)
(** the curves of a list of vectors or orientations: one colour per component, one value per element *)
Definition xyz {N : Num} (l : list (@vec3 N)) : list (string * list (@T N)) :=
  [("r", map vx l); ("g", map vy l); ("b", map vz l)].
Definition xyzw {N : Num} (l : list (@quat N)) : list (string * list (@T N)) :=
  [("r", map qx l); ("g", map qy l); ("b", map qz l); ("c", map qw l)].
(** v are the rates between consecutive orientations taken at the times s *)
Definition rates_of {N : Num} (qs : list (@quat N)) (s : list (@T N)) (v : list (@vec3 N)) : Prop :=
  length v = (length qs - 1)%nat /\
  forall k q q' a b, nth_error qs k = Some q -> nth_error qs (S k) = Some q' -> nth_error s k = Some a -> nth_error s (S k) = Some b ->
    nth_error v k = Some (angular_velocity_between_quaternions q q' (sub b a)).

(** ** Facts *)
Section Facts.
  Context {N : Num}.
  Local Open Scope num_scope.

  Lemma then_quiet {A B} (r : res A) (k : A -> shows B) :
    then_ (quiet r) k = match r with Ok a => k a | Err e => ([], Err e) end.
  Proof. destruct r; [|easy]. unfold then_. cbn. now destruct (k a). Qed.
  Lemma then_ok {A B} ws (a : A) (k : A -> shows B) : then_ (N:=N) (ws, Ok a) k = (ws ++ fst (k a), snd (k a)).
  Proof. reflexivity. Qed.
  Lemma then_err {A B} ws e (k : A -> shows B) : then_ (N:=N) (ws, Err e) k = (ws, Err e).
  Proof. reflexivity. Qed.
  Lemma then_show {B} (w : window N) (k : unit -> shows B) : then_ (show w) k = (w :: fst (k tt), snd (k tt)).
  Proof. reflexivity. Qed.

  Lemma smooth_length (v w : list vec3) k p : filter_and_smooth v k p = Ok w -> length w = length v.
  Proof.
    unfold filter_and_smooth. intros H. apply bind_ok in H as (m & _ & H). destruct k as [|k]; [discriminate H|].
    apply (f_equal (fun o => match o with Ok v => length v | Err _ => O end)) in H. cbv beta iota in H. rewrite <- H. clear H.
    rewrite map_length, !combine_length.
    assert (L : forall f : vec3 -> T, length (correlate_same (map (fun r => clip (opp m) m (f r)) v) (repeat (n1 / of_nat (S k)) (S k))) = length v).
    { intros f. unfold correlate_same. rewrite firstn_length, skipn_length, map_length.
      destruct v as [|v0 v]; [easy|]. rewrite correlate_length by (cbn [map repeat]; discriminate).
      rewrite map_length, repeat_length. pose proof (Nat.div_le_upper_bound (S k - 1) 2 (S k - 1) ltac:(lia) ltac:(lia)). cbn [length]. lia. }
    rewrite !L, !Nat.min_id. reflexivity.
  Qed.
  Lemma velocities_rates (qs : list quat) : forall s v, angular_velocities qs s = Ok v -> rates_of qs s v.
  Proof.
    induction qs as [|q qs IH]; intros s v H; [injection H as <-; split; [easy|intros [|k]; discriminate]|].
    destruct qs as [|q' qs]; [injection H as <-; split; [easy|intros [|k] ? ? ? ? _ E; [discriminate E|destruct k; discriminate E]]|].
    rewrite velocities_cons in H. apply bind_ok in H as (s1 & S1 & H). apply bind_ok in H as (s0 & S0 & H). apply assert_ok in H as [_ H].
    apply bind_ok in H as (rest & R & H). injection H as <-. destruct (IH (tl s) rest R) as [L E]. split; [cbn [length] in *; lia|].
    intros [|k] p p' a b P P' A B.
    - cbn in P, P'. injection P as <-. injection P' as <-. unfold index in S0, S1. rewrite A in S0. rewrite B in S1. injection S0 as ->. injection S1 as ->. easy.
    - cbn [nth_error] in P, P' |- *. apply (E k p p' a b); try easy; destruct s; try discriminate; easy.
  Qed.
  Lemma norms_total (w : list vec3) n : length w = n -> mapM (fun i => do v <- index w i; Ok (vnorm v)) (seq 0 n) = Ok (map vnorm w).
  Proof.
    intros <-. assert (G : forall u pre, w = pre ++ u -> mapM (fun i => do v <- index w i; Ok (vnorm v)) (seq (length pre) (length u)) = Ok (map vnorm u)).
    { induction u as [|v u IH]; intros pre E; [easy|]. cbn [length seq mapM map].
      unfold index at 1. rewrite E, nth_error_app2, Nat.sub_diag by easy. cbn [nth_error bind].
      rewrite <- E. specialize (IH (pre ++ [v])). rewrite app_length, Nat.add_1_r in IH. rewrite IH; [easy|]. now rewrite <- app_assoc. }
    exact (G w [] eq_refl).
  Qed.

  (** one sensor *)
  Definition norms_windows (qs : list quat) (s : list T) (k : nat) (p : T) (o : shows (list T)) : Prop :=
    snd o = compute_angular_velocity_norms qs s k p /\
    (forall e, snd o = Err e -> fst o = []) /\
    (forall n, snd o = Ok n -> exists v w, angular_velocities qs s = Ok v /\ filter_and_smooth v k p = Ok w /\ length w = (length qs - 1)%nat /\ n = map vnorm w /\ qs <> [] /\
       fst o = [Panels "Angular Velocities" [xyz v; xyz w]]).
  Lemma norms_shown qs s k p : norms_windows qs s k p (compute_angular_velocity_norms_shown qs s k p).
  Proof.
    unfold norms_windows, compute_angular_velocity_norms_shown, compute_angular_velocity_norms. destruct qs as [|q qs]; [easy|].
    rewrite then_quiet. destruct (angular_velocities (q :: qs) s) as [v|e] eqn:V; [|split; [easy|split; easy]].
    unfold filter_and_smooth_shown. rewrite then_quiet. cbn [bind]. destruct (filter_and_smooth v k p) as [w|e] eqn:F; [|split; [easy|split; easy]].
    rewrite then_show. cbn [quiet fst snd bind then_ app]. apply velocities_rates in V as VR. destruct VR as [LV _].
    pose proof (smooth_length v w k p F) as LW. rewrite norms_total by congruence. cbn [bind].
    rewrite map_length. replace (length w =? length (q :: qs) - 1)%nat with true by (symmetry; apply Nat.eqb_eq; congruence). cbn [assert_ bind].
    split; [easy|]. split; [easy|]. intros n E. injection E as <-. exists v, w. repeat split; try easy. congruence.
  Qed.
  Lemma resample_nonempty times (qs : list quat) dt q s : resample_quaternions times qs dt = Ok (q, s) -> length q = length s /\ (q <> [] -> qs <> []).
  Proof.
    unfold resample_quaternions. intros H. apply bind_ok in H as (l & _ & H). apply bind_ok in H as (f & _ & H). apply bind_ok in H as (sm & _ & H).
    apply bind_ok in H as (q' & R & H). injection H as <- <-. unfold resample_quaternions_from_samples in R. split; [now apply mapM_length in R|].
    intros NE E. subst qs. destruct sm as [|x sm]; [injection R as <-; easy|]. cbn [mapM] in R. apply bind_ok in R as (y & Y & _).
    unfold resample_one in Y. apply bind_ok in Y as (? & _ & Y). apply assert_ok in Y as [_ Y]. apply bind_ok in Y as (? & _ & Y). apply assert_ok in Y as [_ Y].
    apply bind_ok in Y as (i & _ & Y). apply bind_ok in Y as (? & _ & Y). destruct (isclose _ _ _); [destruct i; discriminate Y|].
    destruct i; [discriminate Y|]. apply bind_ok in Y as (? & Y & _). destruct i; discriminate Y.
  Qed.
End Facts.

(** ** The time offset *)
(** Everything at once, for the proofs: the four windows of a success, at most one before a failure. *)
Definition offset_windows {N : Num} (tA : list T) (qsA : list quat) (tB : list T) (qsB : list quat) cfg (o : shows (@T N)) : Prop :=
  snd o = calculate_time_offset tA qsA tB qsB cfg /\
  (forall e, snd o = Err e -> fst o = [] \/ exists v w, fst o = [Panels "Angular Velocities" [xyz v; xyz w]]) /\
  (forall x, snd o = Ok x -> exists dt qA sA vA wA qB sB vB wB fig,
     (dt = mean (diff tA) \/ dt = mean (diff tB)) /\
     resample_quaternions tA qsA dt = Ok (qA, sA) /\ resample_quaternions tB qsB dt = Ok (qB, sB) /\
     rates_of qA sA vA /\ rates_of qB sB vB /\
     filter_and_smooth vA (smoothing_kernel_size_A cfg) (clipping_percentile_A cfg) = Ok wA /\
     filter_and_smooth vB (smoothing_kernel_size_B cfg) (clipping_percentile_B cfg) = Ok wB /\
     fst o = [Panels "Angular Velocities" [xyz vA; xyz wA]; Panels "Angular Velocities" [xyz vB; xyz wB];
              Panels "Input Data [A = top, B = bottom]"
                [xyzw qsA; xyzw qA; [("r", map vnorm wA)]; [("r", map vnorm wA)];
                 xyzw qsB; xyzw qB; [("b", map vnorm wB)]; [("b", map vnorm wB)]];
              OffsetWindow fig] /\
     map snd (before_A fig) = map vnorm wA /\ map snd (before_B fig) = map vnorm wB /\
     map snd (correlation fig) = correlate_full (map vnorm wB) (map vnorm wA)).
Lemma offset_shown {N : Num} tA qsA tB qsB cfg : offset_windows tA qsA tB qsB cfg (calculate_time_offset_shown (N:=N) tA qsA tB qsB cfg).
Proof.
  unfold offset_windows, calculate_time_offset_shown, calculate_time_offset.
  set (dt := if leb (mean (diff tB)) (mean (diff tA)) then mean (diff tA) else mean (diff tB)).
  assert (DT : dt = mean (diff tA) \/ dt = mean (diff tB)) by (unfold dt; destruct (leb _ _); auto).
  rewrite then_quiet. destruct (resample_quaternions tA qsA dt) as [[qA sA]|e] eqn:RA; cbn [bind]; [|split; [easy|split; [now left|easy]]].
  rewrite then_quiet. destruct (resample_quaternions tB qsB dt) as [[qB sB]|e] eqn:RB; cbn [bind]; [|split; [easy|split; [now left|easy]]].
  destruct (resample_nonempty _ _ _ _ _ RA) as [LA NA]. destruct (resample_nonempty _ _ _ _ _ RB) as [LB NB].
  destruct (norms_shown qA sA (smoothing_kernel_size_A cfg) (clipping_percentile_A cfg)) as (EA & FA & OA).
  destruct (norms_shown qB sB (smoothing_kernel_size_B cfg) (clipping_percentile_B cfg)) as (EB & FB & OB).
  destruct (compute_angular_velocity_norms_shown qA sA _ _) as [wsA rA]. destruct (compute_angular_velocity_norms_shown qB sB _ _) as [wsB rB].
  cbn [fst snd] in *. rewrite <- EA, <- EB. clear EA EB.
  destruct rA as [nA|e]; [|rewrite then_err; cbn [fst snd bind]; split; [easy|split; [left; now apply (FA e)|easy]]].
  destruct (OA nA eq_refl) as (vA & wA & VA & SA & LWA & -> & QA & ->). clear FA OA.
  rewrite then_ok. cbn [fst snd bind].
  destruct rB as [nB|e].
  2: { rewrite then_err. cbn [fst snd bind]. rewrite (FB e eq_refl). split; [easy|]. split; [|easy]. intros _ _. right. now exists vA, wA. }
  destruct (OB nB eq_refl) as (vB & wB & VB & SB & LWB & -> & QB & ->). clear FB OB.
  rewrite then_ok. cbn [fst snd bind]. rewrite !firstn_length, !map_length. assert (LS : Nat.min (length wA) (length sA) = (length sA - 1)%nat) by (rewrite <- LA; lia).
  rewrite LS, Nat.eqb_refl. rewrite !then_quiet. cbn [bind assert_ fst snd].
  unfold plot_input_data, quaternion_curves. destruct qsA as [|q0 qsA]; [now destruct (NA QA)|]. destruct qsB as [|p0 qsB]; [now destruct (NB QB)|].
  destruct qA as [|q1 qA]; [easy|]. destruct qB as [|p1 qB]; [easy|]. cbn [bind]. rewrite !then_show. cbn [fst snd].
  assert (KA : length (firstn (length wA) sA) = length (map vnorm wA)) by (rewrite firstn_length, map_length; lia).
  assert (KB : length (firstn (length wB) sB) = length (map vnorm wB)) by (rewrite firstn_length, map_length; cbn [length] in *; lia).
  destruct (calculate_time_offset_from_signals (firstn (length wA) sA) (map vnorm wA) (firstn (length wB) sB) (map vnorm wB)) as [x|e] eqn:O.
  - destruct (C82_drawn _ _ _ _ x O) as [D _]. destruct (D KA KB) as (fig & OW & B1 & B2 & _ & _ & B3 & _). rewrite OW. cbn [fst snd bind].
    split; [easy|]. split; [easy|]. intros y E. exists dt, (q1 :: qA), sA, vA, wA, (p1 :: qB), sB, vB, wB, fig.
    apply velocities_rates in VA, VB. repeat (split; [assumption|]). split; [reflexivity|]. easy.
  - (* cannot happen: both signals have a sample *)
    exfalso. clear - O SA SB LA LB LWA LWB. unfold calculate_time_offset_from_signals in O.
    assert (NV : forall v w k p, filter_and_smooth (N:=N) v k p = Ok w -> w <> []).
    { intros v w k p F E. apply smooth_length in F as L. subst w. destruct v; [|discriminate L]. unfold filter_and_smooth in F. cbn in F. discriminate F. }
    specialize (NV _ _ _ _ SA) as WA. specialize (NV _ _ _ _ SB) as WB. destruct wA as [|a wA]; [easy|]. destruct wB as [|b wB]; [easy|].
    cbn [length map firstn] in *. destruct sA as [|s0 sA]; [discriminate LA|]. destruct sB as [|t0 sB]; [discriminate LB|]. 
    destruct (correlate_full (vnorm b :: map vnorm wB) (vnorm a :: map vnorm wA)) as [|c l] eqn:C;
      [apply (f_equal (@length _)) in C; rewrite correlate_length in C by discriminate; cbn [length] in C; lia|].
    cbn in O. discriminate O.
Qed.

(** Plotting changes neither the offset nor the exception, whatever the input and the arithmetic. *)
Theorem C90_offset : forall {N : Num} tA qsA tB qsB (cfg : filtering_config),
  snd (calculate_time_offset_shown (N:=N) tA qsA tB qsB cfg) = calculate_time_offset tA qsA tB qsB cfg.
Proof. intros. apply offset_shown. Qed.
(** A success shows four windows.  The panel of the norms and the panel of the filtered norms have the same curve,
    which is that of the smoothed rates. *)
Theorem C90_windows : forall {N : Num} tA qsA tB qsB (cfg : filtering_config) o,
  calculate_time_offset (N:=N) tA qsA tB qsB cfg = Ok o -> exists dt qA sA vA wA qB sB vB wB fig,
    (dt = mean (diff tA) \/ dt = mean (diff tB)) /\
    resample_quaternions tA qsA dt = Ok (qA, sA) /\ resample_quaternions tB qsB dt = Ok (qB, sB) /\
    rates_of qA sA vA /\ rates_of qB sB vB /\
    filter_and_smooth vA (smoothing_kernel_size_A cfg) (clipping_percentile_A cfg) = Ok wA /\
    filter_and_smooth vB (smoothing_kernel_size_B cfg) (clipping_percentile_B cfg) = Ok wB /\
    fst (calculate_time_offset_shown tA qsA tB qsB cfg) =
      [Panels "Angular Velocities" [xyz vA; xyz wA]; Panels "Angular Velocities" [xyz vB; xyz wB];
       Panels "Input Data [A = top, B = bottom]"
         [xyzw qsA; xyzw qA; [("r", map vnorm wA)]; [("r", map vnorm wA)];
          xyzw qsB; xyzw qB; [("b", map vnorm wB)]; [("b", map vnorm wB)]];
       OffsetWindow fig] /\
    map snd (before_A fig) = map vnorm wA /\ map snd (before_B fig) = map vnorm wB /\
    map snd (correlation fig) = correlate_full (map vnorm wB) (map vnorm wA).
Proof. intros N tA qsA tB qsB cfg o H. destruct (offset_shown tA qsA tB qsB cfg) as (E & _ & W). apply (W o). congruence. Qed.
(** A failure shows no window, or only that of the first sensor's rates. *)
Theorem C90_failure : forall {N : Num} tA qsA tB qsB (cfg : filtering_config) e,
  calculate_time_offset (N:=N) tA qsA tB qsB cfg = Err e ->
  fst (calculate_time_offset_shown tA qsA tB qsB cfg) = [] \/
  exists v w, fst (calculate_time_offset_shown tA qsA tB qsB cfg) = [Panels "Angular Velocities" [xyz v; xyz w]].
Proof. intros N tA qsA tB qsB cfg e H. destruct (offset_shown tA qsA tB qsB cfg) as (E & F & _). apply (F e). congruence. Qed.

(** ** The aligned poses *)
Theorem C90_aligned : forall {N : Num} (A B : list stamped) (o : @T N),
  snd (compute_aligned_poses_shown A B o) = compute_aligned_poses A B o /\
  (forall A' B', compute_aligned_poses A B o = Ok (A', B') ->
     fst (compute_aligned_poses_shown A B o) =
       [Panels "Time Aligned Aligned Poses [A = top, B = bottom]"
          [xyzw (map (fun p => ori (snd p)) A'); xyz (map (fun p => pos (snd p)) A');
           xyzw (map (fun p => ori (snd p)) B'); xyz (map (fun p => pos (snd p)) B')]]) /\
  (forall e, compute_aligned_poses A B o = Err e -> fst (compute_aligned_poses_shown A B o) = []).
Proof.
  intros N A B o. unfold compute_aligned_poses_shown. rewrite then_quiet. destruct (compute_aligned_poses A B o) as [[A' B']|e]; [|split; [easy|split; easy]].
  rewrite then_show. cbn [fst snd quiet]. split; [easy|]. split; [|easy]. intros A1 B1 E.
  apply (f_equal (fun r => match r with Ok p => p | Err _ => (A1, B1) end)) in E. cbv beta iota in E. injection E as -> ->. reflexivity.
Qed.

(** ** The errors of an alignment *)
Theorem C90_errors : forall {N : Num} (cfg : config N) (A B : list pose),
  snd (evaluate_alignment_shown cfg A B) = evaluate_alignment cfg A B /\
  (forall rp ro fl, evaluate_alignment cfg A B = Ok (rp, ro, fl) -> exists es,
     Forall2 (fun p e => compute_pose_error (fst p) (snd p) = Ok e) (combine A B) es /\ length es = length A /\ length B = length A /\
     fst (evaluate_alignment_shown cfg A B) =
       [Panels "Alignment Evaluation"
          [[("r", map fst es); ("k", map (fun _ => mul rp n1) A)]; [("r", map snd es); ("k", map (fun _ => mul ro n1) A)]]]) /\
  (forall e, evaluate_alignment cfg A B = Err e -> fst (evaluate_alignment_shown cfg A B) = []).
Proof.
  intros N cfg A B. unfold evaluate_alignment_shown, evaluate_alignment.
  rewrite then_quiet. destruct (length A =? length B)%nat eqn:L; cbn [assert_ bind]; [|split; [easy|split; easy]]. apply Nat.eqb_eq in L.
  rewrite then_quiet. destruct (for_pairs compute_pose_error A B) as [es|e] eqn:F; cbn [bind]; [|split; [easy|split; easy]].
  rewrite then_quiet. destruct (math_sqrt _) as [rp|e]; cbn [bind]; [|split; [easy|split; easy]].
  rewrite then_quiet. destruct (math_sqrt _) as [ro|e]; cbn [bind]; [|split; [easy|split; easy]].
  unfold plot_alignment_errors. rewrite !map_length, Nat.eqb_refl. cbn [assert_ bind]. rewrite then_quiet, then_show. cbn [fst snd quiet].
  split; [easy|]. split; [|easy]. intros rp' ro' fl E. injection E as <- <- _. exists es.
  assert (G : Forall2 (fun p e => compute_pose_error (fst p) (snd p) = Ok e) (combine A B) es).
  { clear - F. revert B es F. induction A as [|a A IH]; intros [|b B] es F; cbn [for_pairs] in F; try (injection F as <-; constructor).
    - discriminate F.
    - apply bind_ok in F as (e & E & F). apply bind_ok in F as (es' & R & F). injection F as <-. constructor; [exact E|]. now apply IH. }
  assert (LE : length es = length A) by (apply Forall2_len in G; rewrite combine_length in G; lia).
  split; [exact G|]. split; [exact LE|]. split; [easy|]. rewrite LE.
  assert (RR : forall x : @T N, repeat x (length A) = map (fun _ => x) A) by (intros x; clear; induction A; cbn; congruence).
  now rewrite !RR.
Qed.

(** ** Examples *)
(** the turntable of C89_one_way_example: four windows; with an empty smoothing kernel for the second sensor, one *)
Example C90_offset_example : forall qB0 qB1 qB2, unitq qB0 -> unitq qB1 -> unitq qB2 ->
  let shown k := calculate_time_offset_shown (map Fin (ticks 0 1 4)) (inQs (turntable hone [0; 1; 2; 3]%R)) (map Fin (ticks (0 + 7) 1 3)) (inQs [qB0; qB1; qB2])
    (mkFiltering (N:=XR) 25 (Fin (995 / 10)) k (Fin 99)) in
  (snd (shown 25%nat) = Ok (Fin 5) /\ length (fst (shown 25%nat)) = 4%nat) /\
  (snd (shown 0%nat) = Err ValueError /\ length (fst (shown 0%nat)) = 1%nat).
Proof.
  intros q0 q1 q2 U0 U1 U2 shown. pose proof (C89_one_way_example q0 q1 q2 U0 U1 U2) as E.
  destruct (C90_windows _ _ _ _ _ _ E) as (dt & qA & sA & vA & wA & qB & sB & vB & wB & fig & _ & _ & _ & _ & _ & _ & _ & W & _).
  split. { unfold shown. rewrite C90_offset. split; [exact E|]. now rewrite W. }
  clear W dt qA sA vA wA qB sB vB wB fig. unfold shown. clear shown.
  unfold calculate_time_offset in E. unfold calculate_time_offset_shown.
  apply bind_ok in E as ([qA sA] & RA & E). apply bind_ok in E as ([qB sB] & RB & E). apply bind_ok in E as (nA & NA & E). apply bind_ok in E as (nB & NB & _).
  rewrite then_quiet, RA, then_quiet, RB. cbn [smoothing_kernel_size_A clipping_percentile_A smoothing_kernel_size_B clipping_percentile_B] in *.
  destruct (norms_shown qA sA 25 (Fin (995 / 10))) as (X & _ & O). rewrite NA in X. destruct (O _ X) as (v & w & _ & _ & _ & _ & _ & F).
  destruct (compute_angular_velocity_norms_shown qA sA 25 (Fin (995 / 10))) as [ws r]. cbn [fst snd] in X, F. subst ws r. rewrite then_ok. cbn [fst snd].
  destruct (norms_shown qB sB 0 (Fin 99)) as (Y & FB & _).
  assert (Z : compute_angular_velocity_norms qB sB 0 (Fin 99) = Err ValueError).
  { unfold compute_angular_velocity_norms in NB |- *. destruct qB; [discriminate NB|]. apply bind_ok in NB as (vB & -> & NB). apply bind_ok in NB as (wB & WB & _).
    cbn [bind]. unfold filter_and_smooth in WB |- *. apply bind_ok in WB as (m & -> & _). reflexivity. }
  rewrite Z in Y. specialize (FB _ Y). destruct (compute_angular_velocity_norms_shown qB sB 0 (Fin 99)) as [ws r]. cbn [fst snd] in Y, FB. subst ws r.
  rewrite then_err. now cbn [fst snd app length].
Qed.
Example C90_aligned_example : exists outA outB,
  compute_aligned_poses (inS slow) (inS fast) (Fin 5) = Ok (inS outA, inS outB) /\ length outA = 2%nat /\
  length (fst (compute_aligned_poses_shown (inS slow) (inS fast) (Fin 5))) = 1%nat.
Proof.
  destruct C41_example as (oA & oB & E & TA & _). exists oA, oB. split; [exact E|].
  split; [apply (f_equal (@length _)) in TA; unfold row_times in TA; now rewrite map_length in TA|].
  destruct (C90_aligned (inS slow) (inS fast) (Fin 5)) as (_ & W & _). now rewrite (W _ _ E).
Qed.
Example C90_errors_example : forall cfg tp to, ransac_position_error_threshold_m cfg = Fin tp -> ransac_orientation_error_threshold_deg cfg = Fin to ->
  exists r f, evaluate_alignment (N:=XR) cfg (Embed.poses [(RV 0 0 0, hone); (RV 1 0 0, RQ (RV 0 0 1) 0)]%R) (Embed.poses [(RV 0 0 0, hone); (RV 1 1 0, RQ (RV 0 1 0) 0)]%R) = Ok (r, f).
Proof.
  intros cfg tp to P O. destruct C31_example as (L & NE & GA & GB).
  destruct (C31_evaluate cfg tp to _ _ L NE GA GB P O) as (es & f & _ & E & _). now exists (Fin (rms (map fst es)), Fin (rms (map snd es))), f.
Qed.
