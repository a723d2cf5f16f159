(** * C79 for real numbers: the maps of loop errors over perturbations. *)

From Coq Require Import Reals ZArith String List Bool Arith Lra Lia.
From Verif Require Import Num Py XReal XFacts TimeAlign TimeSpec ListFacts Experiments PropTables Plots PropPlots.
Import ListNotations.
Local Open Scope R_scope.
Local Open Scope string_scope.
Local Open Scope list_scope.

(** the magnitude lies in [lo, hi) *)
Definition within (lo hi : R) (x : xr) : bool :=
  match x with Fin a => if Rle_dec lo (Rabs a) then if Rlt_dec (Rabs a) hi then true else false else false | _ => false end.
(** in column i of 15 degrees, line j of 0.03 s, and below 0.1 m *)
Definition in_bin (j i : nat) (r : row XR) : bool :=
  (within (INR i * (PI / 12)) (INR (S i) * (PI / 12)) (r_angle r) && within (INR j * (3 / 100)) (INR (S j) * (3 / 100)) (r_time r) &&
   within 0 (1 / 10) (translation r))%bool.

Lemma index_map_seq {A} (f : nat -> A) n i : (i < n)%nat -> index (map f (seq 0 n)) i = Ok (f i).
Proof. intros L. apply index_some. rewrite nth_error_map, nth_error_nth' with (d := 0%nat) by now rewrite seq_length. now rewrite seq_nth by easy. Qed.

Section Uniform.
  Context (c : R) (n : nat) (Hc : 0 < c) (Hn : (0 < n)%nat).
  Let E : list xr := map (fun i => Fin (INR i * c)) (seq 0 n).
  Lemma E_length : length E = n. Proof. unfold E. now rewrite map_length, seq_length. Qed.

  Lemma loop_fin x : forall fuel lo hi, (hi <= lo + fuel)%nat -> (lo <= hi)%nat -> (hi <= n)%nat ->
    (forall j, (j < lo)%nat -> INR j * c <= x) -> (forall j, (hi <= j < n)%nat -> x < INR j * c) ->
    exists i, bisect_right_loop (N := XR) fuel E (Fin x) lo hi = Ok i /\ (i <= n)%nat /\
      (forall j, (j < i)%nat -> INR j * c <= x) /\ (forall j, (i <= j < n)%nat -> x < INR j * c).
  Proof.
    induction fuel as [|fuel IH]; intros lo hi F L H B A; cbn [bisect_right_loop].
    - assert (lo = hi) by lia. subst. exists hi. now repeat split.
    - destruct (Nat.ltb_spec lo hi) as [LT|GE]; [|assert (lo = hi) by lia; subst; exists hi; now repeat split].
      set (mid := ((lo + hi) / 2)%nat).
      assert (M : (lo <= mid < hi)%nat).
      { unfold mid. pose proof (Nat.div_mod_eq (lo + hi) 2). pose proof (Nat.mod_upper_bound (lo + hi) 2). lia. }
      unfold E at 1. rewrite (index_map_seq (fun i => Fin (INR i * c))) by lia. cbn [bind]. change (@ltb XR (Fin x) (Fin (INR mid * c))) with (Rltb x (INR mid * c)).
      destruct (Rltb x (INR mid * c)) eqn:C; [apply Rltb_iff in C|apply Rltb_false in C].
      + apply IH; try lia; [easy|]. intros j J. apply Rlt_le_trans with (1 := C). apply Rmult_le_compat_r; [lra|]. apply le_INR. lia.
      + apply IH; try lia; [|easy]. intros j J. apply Rle_trans with (2 := C). apply Rmult_le_compat_r; [lra|]. apply le_INR. lia.
  Qed.
  Lemma loop_above (x : xr) : (forall y, @ltb XR x (Fin y) = false) -> forall fuel lo hi, (hi <= lo + fuel)%nat -> (lo <= hi)%nat -> (hi <= n)%nat ->
    bisect_right_loop (N := XR) fuel E x lo hi = Ok hi.
  Proof.
    intros X. induction fuel as [|fuel IH]; intros lo hi F L H; cbn [bisect_right_loop]; [f_equal; lia|].
    destruct (Nat.ltb_spec lo hi) as [LT|GE]; [|f_equal; lia].
    set (mid := ((lo + hi) / 2)%nat).
    assert (M : (lo <= mid < hi)%nat).
    { unfold mid. pose proof (Nat.div_mod_eq (lo + hi) 2). pose proof (Nat.mod_upper_bound (lo + hi) 2). lia. }
    unfold E at 1. rewrite (index_map_seq (fun i => Fin (INR i * c))) by lia. cbn [bind]. rewrite X. apply IH; lia.
  Qed.
  Lemma norm1_fin a : norm1 (N := XR) (Fin a) = Fin (Rabs a).
  Proof. unfold norm1. cbn. destruct (Rlt_dec (a * a) 0) as [L|_]; [exfalso; nra|]. f_equal. apply sqrt_Rsqr_abs. Qed.
  Lemma norm1_inf x : (forall a, x <> Fin a) -> forall y, @ltb XR (norm1 (N := XR) x) (Fin y) = false.
  Proof. intros H y. destruct x; [now destruct (H r)|reflexivity..]. Qed.
  (** the index found: the unique bin, or the number of edges *)
  Lemma uniform (x : xr) : exists idx, bisect_right (N := XR) E (norm1 (N := XR) x) = Ok idx /\
    ((exists i, idx = S i /\ (S i < n)%nat /\ forall i', within (INR i' * c) (INR (S i') * c) x = (i' =? i)%nat) \/
     (idx = n /\ forall i', (S i' < n)%nat -> within (INR i' * c) (INR (S i') * c) x = false)).
  Proof.
    unfold bisect_right. change (@length (@T XR) E) with (@length xr E). rewrite E_length.
    assert (D : (exists a, x = Fin a) \/ forall a, x <> Fin a) by (destruct x; [left; eauto|right; discriminate..]).
    destruct D as [(a & ->)|D].
    - rewrite norm1_fin. destruct (loop_fin (Rabs a) n 0 n) as (idx & R & L & B & A); try lia.
      exists idx. split; [exact R|]. destruct idx as [|i].
      { exfalso. specialize (A 0%nat ltac:(lia)). cbn in A. pose proof (Rabs_pos a). lra. }
      specialize (B i ltac:(lia)). destruct (Nat.eq_dec (S i) n) as [Q|Q].
      + right. split; [exact Q|]. intros i' L'. unfold within. destruct (Rle_dec _ _) as [_|_]; [|easy]. destruct (Rlt_dec _ _) as [G|_]; [|easy]. exfalso.
        assert (INR (S i') * c <= INR i * c) by (apply Rmult_le_compat_r; [lra|apply le_INR; lia]). lra.
      + left. exists i. split; [easy|]. split; [lia|]. intros i'. specialize (A (S i) ltac:(lia)). unfold within.
        destruct (Nat.eqb_spec i' i) as [->|NE].
        * destruct (Rle_dec _ _) as [_|G]; [|easy]. destruct (Rlt_dec _ _) as [_|G]; easy.
        * destruct (Rle_dec _ _) as [G1|_]; [|easy]. destruct (Rlt_dec _ _) as [G2|_]; [|easy]. exfalso.
          destruct (Nat.lt_ge_cases i' i) as [L1|L1].
          -- assert (INR (S i') * c <= INR i * c) by (apply Rmult_le_compat_r; [lra|apply le_INR; lia]). lra.
          -- assert (INR (S i) * c <= INR i' * c) by (apply Rmult_le_compat_r; [lra|apply le_INR; lia]). lra.
    - exists n. split; [apply loop_above; try lia; now apply norm1_inf|]. right. split; [easy|]. intros i' _. unfold within. destruct x; [now destruct (D r)|easy..].
  Qed.
End Uniform.

Definition grid (c : R) (n : nat) : list xr := map (fun i => Fin (INR i * c)) (seq 0 n).
Section Bins.
  Context (cx cy cp : R) (nx ny np : nat) (Hx : 0 < cx) (Hy : 0 < cy) (Hp : 0 < cp).
  Definition cell_of (k j i : nat) (s : @sample XR) : bool :=
    (within (INR i * cx) (INR (S i) * cx) (s_x s) && within (INR j * cy) (INR (S j) * cy) (s_y s) && within (INR k * cp) (INR (S k) * cp) (s_plot s))%bool.
  Lemma assign_spec b s :
    (exists k j i, (k < np)%nat /\ (j < ny)%nat /\ (i < nx)%nat /\ cell_of k j i s = true /\
       exists b', assign (N := XR) (grid cx (S nx)) (grid cy (S ny)) (grid cp (S np)) b s = Ok b' /\
         forall k' j' i', fst b' k' j' i' = fst b k' j' i' ++ map s_position (filter (cell_of k' j' i') [s]) /\
                          snd b' k' j' i' = snd b k' j' i' ++ map s_orientation (filter (cell_of k' j' i') [s])) \/
    ((forall k j i, (k < np)%nat -> (j < ny)%nat -> (i < nx)%nat -> cell_of k j i s = false) /\
     assign (N := XR) (grid cx (S nx)) (grid cy (S ny)) (grid cp (S np)) b s = Err AssertionError).
  Proof.
    unfold assign.
    destruct (uniform cx (S nx) Hx ltac:(lia) (s_x s)) as (ix & Ex & Cx). destruct (uniform cy (S ny) Hy ltac:(lia) (s_y s)) as (iy & Ey & Cy).
    destruct (uniform cp (S np) Hp ltac:(lia) (s_plot s)) as (ip & Ep & Cp). unfold grid. rewrite Ex, Ey, Ep. cbn [bind]. rewrite !map_length, !seq_length.
    assert (Px : (0 < ix)%nat) by (destruct Cx as [(i & -> & _)|[-> _]]; lia). assert (Py : (0 < iy)%nat) by (destruct Cy as [(i & -> & _)|[-> _]]; lia).
    assert (Pp : (0 < ip)%nat) by (destruct Cp as [(i & -> & _)|[-> _]]; lia).
    destruct (Nat.ltb_spec 0 ix); [|lia]. destruct (Nat.ltb_spec 0 iy); [|lia]. destruct (Nat.ltb_spec 0 ip); [|lia]. cbn [assert_ bind].
    destruct Cx as [(i & -> & Lx & Wx)|[-> Wx]].
    2:{ right. split; [intros k j i _ _ L; unfold cell_of; now rewrite Wx by lia|]. destruct (Nat.ltb_spec (S nx) (S nx)); [lia|easy]. }
    destruct (Nat.ltb_spec (S i) (S nx)); [|lia]. cbn [assert_ bind].
    destruct Cy as [(j & -> & Ly & Wy)|[-> Wy]].
    2:{ right. split; [intros k j i' _ L _; unfold cell_of; now rewrite (Wy j), andb_false_r by lia|]. destruct (Nat.ltb_spec (S ny) (S ny)); [lia|easy]. }
    destruct (Nat.ltb_spec (S j) (S ny)); [|lia]. cbn [assert_ bind].
    destruct Cp as [(k & -> & Lp & Wp)|[-> Wp]].
    2:{ right. split; [intros k j' i' L _ _; unfold cell_of; now rewrite (Wp k), andb_false_r by lia|]. destruct (Nat.ltb_spec (S np) (S np)); [lia|easy]. }
    destruct (Nat.ltb_spec (S k) (S np)); [|lia]. cbn [assert_ bind].
    left. exists k, j, i. split; [lia|]. split; [lia|]. split; [lia|]. split; [unfold cell_of; now rewrite Wx, Wy, Wp, !Nat.eqb_refl|].
    eexists. split; [reflexivity|]. intros k' j' i'. cbn [fst snd filter]. unfold bin_append, cell_of. rewrite Wx, Wy, Wp.
    replace (S k - 1)%nat with k by lia. replace (S j - 1)%nat with j by lia. replace (S i - 1)%nat with i by lia.
    destruct (k' =? k)%nat, (j' =? j)%nat, (i' =? i)%nat; cbn [andb map]; rewrite ?app_nil_r; now split.
  Qed.
  Lemma assign_all_spec : forall l b,
    (Forall (fun s => exists k j i, (k < np)%nat /\ (j < ny)%nat /\ (i < nx)%nat /\ cell_of k j i s = true) l /\
       exists b', assign_all (N := XR) (grid cx (S nx)) (grid cy (S ny)) (grid cp (S np)) b l = Ok b' /\
         forall k j i, fst b' k j i = fst b k j i ++ map s_position (filter (cell_of k j i) l) /\
                       snd b' k j i = snd b k j i ++ map s_orientation (filter (cell_of k j i) l)) \/
    (Exists (fun s => forall k j i, (k < np)%nat -> (j < ny)%nat -> (i < nx)%nat -> cell_of k j i s = false) l /\
     assign_all (N := XR) (grid cx (S nx)) (grid cy (S ny)) (grid cp (S np)) b l = Err AssertionError).
  Proof.
    induction l as [|s l IH]; intros b; cbn [assign_all].
    - left. split; [constructor|]. exists b. split; [easy|]. intros. cbn. now rewrite !app_nil_r.
    - destruct (assign_spec b s) as [(k & j & i & Lk & Lj & Li & C & b1 & E1 & H1)|[C E1]]; rewrite E1; cbn [bind].
      + destruct (IH b1) as [(F & b2 & E2 & H2)|[X E2]].
        * left. split; [constructor; [now exists k, j, i|easy]|]. exists b2. split; [exact E2|]. intros k' j' i'.
          destruct (H1 k' j' i') as [A1 A2], (H2 k' j' i') as [B1 B2]. rewrite B1, B2, A1, A2, <- !app_assoc, <- !map_app.
          cbn [filter]. destruct (cell_of k' j' i' s); now split.
        * right. split; [now apply Exists_cons_tl|exact E2].
      + right. split; [now apply Exists_cons_hd|easy].
  Qed.
End Bins.

Lemma Int_part_unique r z : IZR z <= r < IZR z + 1 -> Int_part r = z.
Proof.
  intros [A B]. destruct (base_Int_part r) as [C D].
  assert (IZR (Int_part r) < IZR (z + 1)) by (rewrite plus_IZR; lra). assert (IZR z < IZR (Int_part r + 1)) by (rewrite plus_IZR; lra).
  apply lt_IZR in H. apply lt_IZR in H0. lia.
Qed.
Lemma Rlit_z z : Rlit z 0 = IZR z.
Proof. unfold Rlit. cbn. lra. Qed.
Lemma edges_grid e s n : 0 < s -> (0 < n)%nat -> INR n - 1 < (e + s) / s <= INR n ->
  edges (mkRange (N := XR) (Fin 0) (Fin e) (Fin s)) = Ok (grid s n).
Proof.
  intros S N0 [L U]. unfold edges, arange. cbn [r_start r_end r_step].
  change (@div XR (@sub XR (@add XR (Fin e) (Fin s)) (Fin 0)) (Fin s)) with (xdiv (Fin (e + s - 0)) (Fin s)).
  unfold xdiv. destruct (Req_EM_T s 0) as [|_]; [lra|]. replace (e + s - 0) with (e + s) by lra. set (q := (e + s) / s) in *.
  assert (Q0 : 0 <= q). { apply (le_INR 1) in N0. cbn in N0. lra. }
  cbn [trunc XR xtrunc]. destruct (Rlt_dec q 0) as [|_]; [lra|].
  change (@ltb XR (lit (Int_part q) 0) (Fin q)) with (Rltb (Rlit (Int_part q) 0) q). rewrite Rlit_z.
  assert (C : (if Rltb (IZR (Int_part q)) q then (Int_part q + 1)%Z else Int_part q) = Z.of_nat n).
  { rewrite INR_IZR_INZ in L, U. destruct (Req_dec q (IZR (Z.of_nat n))) as [EQ|NE].
    - rewrite (Int_part_unique q (Z.of_nat n)) by lra. rewrite Rltb_f by lra. reflexivity.
    - rewrite (Int_part_unique q (Z.of_nat n - 1)) by (rewrite minus_IZR; lra). rewrite Rltb_t by (rewrite minus_IZR; lra). lia. }
  rewrite C, Nat2Z.id. f_equal. unfold grid. apply map_ext. intros i. unfold of_nat. rewrite lit_fin, Rlit_z, <- INR_IZR_INZ.
  cbn. f_equal. lra.
Qed.
Lemma main_edges : edges (main_times (N := XR)) = Ok (grid (3 / 100) 9) /\ edges (main_translations (N := XR)) = Ok (grid (1 / 10) 2) /\
  edges (main_angles (N := XR)) = Ok (grid (PI / 12) 9).
Proof.
  pose proof PI_RGT_0 as P.
  assert (L0 : @lit XR 0 0 = Fin 0) by (rewrite lit_fin, Rlit_z; reflexivity).
  assert (D : forall z, degrees (N := XR) z = Fin (IZR z / 180 * PI)).
  { intros z. unfold degrees. rewrite !lit_fin, !Rlit_z. cbn. destruct (Req_EM_T 180 0); [lra|reflexivity]. }
  unfold main_times, main_translations, main_angles. rewrite L0, !D, !lit_fin.
  assert (A : Rlit 23 (-2) = 23 / 100) by (unfold Rlit; cbn; lra). assert (B : Rlit 3 (-2) = 3 / 100) by (unfold Rlit; cbn; lra).
  assert (C : Rlit 1 (-1) = 1 / 10) by (unfold Rlit; cbn; lra). rewrite A, B, C. replace (15 / 180 * PI) with (PI / 12) by lra.
  split; [apply edges_grid; [lra|lia|cbn; lra]|]. split; [apply edges_grid; [lra|lia|cbn; lra]|].
  apply edges_grid; [lra|lia|]. replace ((120 / 180 * PI + PI / 12) / (PI / 12)) with 9 by (field; lra). cbn. lra.
Qed.

(** the rows of a bin *)
Definition bin_rows (k : list (row XR)) (j i : nat) : list (row XR) := filter (in_bin j i) k.
Definition average (l : list xr) : xr := xdiv (fold_left xadd l (Fin 0)) (Fin 60).
Definition matrix (f : row XR -> xr) (k : list (row XR)) : list (list xr) :=
  map (fun j => map (fun i => average (map f (bin_rows k j i))) (seq 0 8)) (seq 0 8).

Lemma samples_map (k : list (row XR)) :
  samples (map r_angle k) (map r_time k) (map translation k) (map r_loop_error_position k) (map r_loop_error_orientation k) =
  map (fun r => mkSample (N := XR) (r_angle r) (r_time r) (translation r) (r_loop_error_position r) (r_loop_error_orientation r)) k.
Proof. induction k as [|r k IH]; [easy|]. cbn [map samples]. now rewrite IH. Qed.
Lemma filter_map {A B} (f : A -> B) (p : B -> bool) l : filter p (map f l) = map f (filter (fun x => p (f x)) l).
Proof. induction l as [|x l IH]; [easy|]. cbn [map filter]. destruct (p (f x)); cbn [map]; now rewrite IH. Qed.

Theorem C79_maps : forall files : list (list (row XR)), files <> [] -> (forall r, files <> [[r]]) ->
  Forall known (concat files) -> Forall parsed (concat files) ->
  let k := filter (fun r => r_success r && negb (r_bad_singular_values r))%bool (concat files) in
  k <> [] -> Forall (full k) (all_datasets k) -> (length (all_datasets k) <= 7)%nat ->
  (Forall (fun r => exists j i, (j < 8)%nat /\ (i < 8)%nat /\ in_bin j i r = true) k ->
   (forall j i, (j < 8)%nat -> (i < 8)%nat -> length (bin_rows k j i) = 60%nat) ->
     generate_plots files = (map (box k) (all_datasets k) ++ [timing k; ErrorMaps (matrix r_loop_error_position k) (matrix r_loop_error_orientation k)], None)) /\
  (Exists (fun r => forall j i, (j < 8)%nat -> (i < 8)%nat -> in_bin j i r = false) k \/
   (exists j i, (j < 8)%nat /\ (i < 8)%nat /\ length (bin_rows k j i) <> 60%nat) ->
     generate_plots files = (map (box k) (all_datasets k) ++ [timing k], Some AssertionError)).
Proof.
  intros files NE ONE K P k NK F L. destruct (C79_figures files NE ONE K P) as (_ & _ & _ & H). fold k in H.
  destruct (H NK F L) as (maps & e & G & M). clear H. rewrite G. clear G. unfold circle_error_plot in M.
  fold (kept (concat files)) in k.
  change (t_loop_position (summary (concat files))) with (map r_loop_error_position k) in M. change (t_loop_orientation (summary (concat files))) with (map r_loop_error_orientation k) in M.
  change (t_angles (summary (concat files))) with (map r_angle k) in M. change (t_times (summary (concat files))) with (map r_time k) in M.
  change (t_translations (summary (concat files))) with (map translation k) in M.
  rewrite !map_length, Nat.eqb_refl, samples_map in M. cbn [negb] in M. destruct main_edges as (Et & Ep & Ea). rewrite Et, Ep, Ea in M.
  pose proof PI_RGT_0 as PP.
  set (sm := fun r : row XR => mkSample (N := XR) (r_angle r) (r_time r) (translation r) (r_loop_error_position r) (r_loop_error_orientation r)) in *.
  assert (CB : forall r j i, cell_of (PI / 12) (3 / 100) (1 / 10) 0 j i (sm r) = in_bin j i r).
  { intros r j i. unfold cell_of, in_bin, sm. cbn [s_x s_y s_plot]. f_equal. cbn [INR]. f_equal; lra. }
  pose proof (assign_all_spec (PI / 12) (3 / 100) (1 / 10) 8 8 1 ltac:(lra) ltac:(lra) ltac:(lra) (map sm k) ((fun _ _ _ => []), (fun _ _ _ => []))) as A.
  assert (OUT : Exists (fun r => forall j i, (j < 8)%nat -> (i < 8)%nat -> in_bin j i r = false) k ->
    assign_all (N := XR) (grid (PI / 12) 9) (grid (3 / 100) 9) (grid (1 / 10) 2) ((fun _ _ _ => []), (fun _ _ _ => [])) (map sm k) = Err AssertionError).
  { intros X. destruct A as [(FA & _)|[_ EA]]; [|exact EA]. exfalso. apply Exists_exists in X. destruct X as (r & IR & X). rewrite Forall_forall in FA.
    destruct (FA (sm r) ltac:(now apply in_map)) as (k0 & j & i & K0 & J & I & C). assert (k0 = 0)%nat by lia. subst k0. rewrite CB, X in C by easy. discriminate. }
  assert (IN : Forall (fun r => exists j i, (j < 8)%nat /\ (i < 8)%nat /\ in_bin j i r = true) k ->
    exists b, assign_all (N := XR) (grid (PI / 12) 9) (grid (3 / 100) 9) (grid (1 / 10) 2) ((fun _ _ _ => []), (fun _ _ _ => [])) (map sm k) = Ok b /\
      forall j i, fst b 0%nat j i = map r_loop_error_position (bin_rows k j i) /\ snd b 0%nat j i = map r_loop_error_orientation (bin_rows k j i)).
  { intros FI. destruct A as [(_ & b & EA & HB)|[X _]].
    - exists b. split; [exact EA|]. intros j i. destruct (HB 0%nat j i) as [B1 B2]. cbn [fst snd app] in B1, B2. rewrite B1, B2, !filter_map, !map_map.
      rewrite (filter_ext _ (in_bin j i) (fun r => CB r j i)). now split.
    - exfalso. apply Exists_exists in X. destruct X as (s & IS & X). apply in_map_iff in IS. destruct IS as (r & <- & IR). rewrite Forall_forall in FI.
      destruct (FI r IR) as (j & i & J & I & C). specialize (X 0%nat j i ltac:(lia) J I). rewrite CB in X. congruence. }
  assert (DEC : Forall (fun r => exists j i, (j < 8)%nat /\ (i < 8)%nat /\ in_bin j i r = true) k \/
    Exists (fun r => forall j i, (j < 8)%nat -> (i < 8)%nat -> in_bin j i r = false) k).
  { destruct A as [(FA & _)|[X _]].
    - left. apply Forall_forall. intros r IR. rewrite Forall_forall in FA. destruct (FA (sm r) ltac:(now apply in_map)) as (k0 & j & i & K0 & J & I & C).
      assert (k0 = 0)%nat by lia. subst k0. rewrite CB in C. now exists j, i.
    - right. apply Exists_exists in X. destruct X as (s & IS & X). apply in_map_iff in IS. destruct IS as (r & <- & IR). apply Exists_exists. exists r. split; [easy|].
      intros j i J I. specialize (X 0%nat j i ltac:(lia) J I). now rewrite CB in X. }
  clear A. change (length (grid (1 / 10) 2) - 1)%nat with 1%nat in M. change (length (grid (3 / 100) 9) - 1)%nat with 8%nat in M. change (length (grid (PI / 12) 9) - 1)%nat with 8%nat in M.
  change (@nil (@T XR)) with (@nil xr) in M.
  split.
  - intros FI FL. destruct (IN FI) as (b & EA & HB). change (@T XR) with xr in *. rewrite EA in M. change (seq 0 1) with [0%nat] in M. cbn [show_maps] in M. unfold error_matrices in M.
    assert (R : forall j i, (j < 8)%nat -> (i < 8)%nat -> bin_means (N := XR) 60 b 0 j i =
      Ok (average (map r_loop_error_position (bin_rows k j i)), average (map r_loop_error_orientation (bin_rows k j i)))).
    { intros j i J I. unfold bin_means. destruct (HB j i) as [-> ->]. rewrite !map_length, FL by easy. cbn [Nat.eqb assert_ bind].
      unfold mean, sumn. rewrite !map_length, FL by easy. unfold of_nat, n0. rewrite !lit_fin, !Rlit_z. reflexivity. }
    rewrite (mapM_ok _ (fun j => map (fun i => (average (map r_loop_error_position (bin_rows k j i)), average (map r_loop_error_orientation (bin_rows k j i)))) (seq 0 8))) in M.
    2:{ intros j J. apply in_seq in J. apply mapM_ok. intros i I. apply in_seq in I. apply R; lia. }
    cbn [bind] in M. injection M as -> ->. reflexivity.
  - intros H. assert (Z : (maps, e) = ([], Some AssertionError)); [|injection Z as -> ->; now rewrite app_nil_r].
    rewrite M. clear M. destruct DEC as [FI|X]; [|change (@T XR) with xr in *; now rewrite (OUT X)].
    destruct H as [X|(j & i & J & I & C)]; [change (@T XR) with xr in *; now rewrite (OUT X)|].
    destruct (IN FI) as (b & EA & HB). change (@T XR) with xr in *. rewrite EA. change (seq 0 1) with [0%nat]. cbn [show_maps]. unfold error_matrices.
    assert (R : forall j i, (exists y, bin_means (N := XR) 60 b 0 j i = Ok y) \/ bin_means (N := XR) 60 b 0 j i = Err AssertionError).
    { intros j' i'. unfold bin_means. destruct (_ =? 60)%nat; [|now right]. cbn [assert_ bind]. destruct (_ =? 60)%nat; [left; cbn; eauto|now right]. }
    assert (RR : forall l j, (exists y, mapM (fun i => bin_means (N := XR) 60 b 0 j i) l = Ok y) \/ mapM (fun i => bin_means (N := XR) 60 b 0 j i) l = Err AssertionError).
    { induction l as [|i' l IHl]; intros j'; cbn [mapM]; [left; eauto|]. destruct (R j' i') as [[y ->]|E]; [|right; now rewrite E]. cbn [bind].
      destruct (IHl j') as [[ys ->]|E]; [left; cbn; eauto|right; now rewrite E]. }
    rewrite (mapM_err _ AssertionError); [easy|intros; apply RR|]. exists j. split; [apply in_seq; lia|].
    apply mapM_err; [intros; apply R|]. exists i. split; [apply in_seq; lia|]. unfold bin_means. destruct (HB j i) as [-> _]. rewrite map_length.
    destruct (Nat.eqb_spec (length (bin_rows k j i)) 60); easy.
Qed.

(** ** When the maps cannot be drawn *)

Lemma within_iff lo hi x : within lo hi x = true <-> exists a, x = Fin a /\ lo <= Rabs a < hi.
Proof.
  unfold within. split.
  - destruct x as [a| | |]; try easy. destruct (Rle_dec lo (Rabs a)); [|easy]. destruct (Rlt_dec (Rabs a) hi); [|easy]. now exists a.
  - intros (a & -> & A & B). destruct (Rle_dec lo (Rabs a)); [|easy]. now destruct (Rlt_dec (Rabs a) hi).
Qed.
Lemma within_unique c x i i' : 0 < c -> within (INR i * c) (INR (S i) * c) x = true -> within (INR i' * c) (INR (S i') * c) x = true -> i = i'.
Proof.
  intros C H H'. apply within_iff in H, H'. destruct H as (a & -> & L & U), H' as (b & E & L' & U'). injection E as <-.
  assert (A : INR i < INR (S i')) by (apply Rmult_lt_reg_r with c; lra). assert (B : INR i' < INR (S i)) by (apply Rmult_lt_reg_r with c; lra).
  apply INR_lt in A, B. lia.
Qed.
Lemma in_bin_unique r j i j' i' : in_bin j i r = true -> in_bin j' i' r = true -> j = j' /\ i = i'.
Proof.
  unfold in_bin. intros H H'. apply andb_prop in H, H'. destruct H as [H _], H' as [H' _]. apply andb_prop in H, H'. destruct H as [A B], H' as [A' B'].
  pose proof PI_RGT_0. split; [apply (within_unique (3 / 100) (r_time r)); try easy; lra|apply (within_unique (PI / 12) (r_angle r)); try easy; lra].
Qed.
Definition cells : list (nat * nat) := list_prod (seq 0 8) (seq 0 8).
Lemma cells_in c : In c cells <-> (fst c < 8)%nat /\ (snd c < 8)%nat.
Proof. destruct c as [j i]. unfold cells. rewrite in_prod_iff, !in_seq. cbn [fst snd]. lia. Qed.
Lemma cells_nodup : NoDup cells.
Proof.
  assert (D : forall x y : nat * nat, {x = y} + {x <> y}) by (repeat decide equality).
  assert (E : nodup (fun x y => match Nat.eq_dec (fst x) (fst y), Nat.eq_dec (snd x) (snd y) with
                                | left a, left b => left (injective_projections x y a b) | right n, _ => right (fun e => n (f_equal fst e)) | _, right n => right (fun e => n (f_equal snd e)) end) cells = cells) by (vm_compute; reflexivity).
  rewrite <- E. apply NoDup_nodup.
Qed.
Lemma sum_plus {A} (f g : A -> nat) l : list_sum (map (fun x => f x + g x)%nat l) = (list_sum (map f l) + list_sum (map g l))%nat.
Proof. induction l as [|x l IH]; [easy|]. cbn [map list_sum fold_right]. unfold list_sum in *. cbn. lia. Qed.
Lemma sum_one {A} (f : A -> nat) l x : NoDup l -> In x l -> f x = 1%nat -> (forall y, In y l -> y <> x -> f y = 0%nat) -> list_sum (map f l) = 1%nat.
Proof.
  induction l as [|y l IH]; intros ND I F Z; [easy|]. inversion ND as [|? ? NI ND']; subst. cbn [map]. change (list_sum (f y :: map f l)) with (f y + list_sum (map f l))%nat.
  destruct I as [->|I].
  - rewrite F. assert (S : list_sum (map f l) = 0%nat); [|lia]. clear - NI Z. assert (H : forall y, In y l -> f y = 0%nat) by (intros y I; apply Z; [now right|intros ->; easy]).
    clear Z NI. induction l as [|y l IH]; [easy|]. cbn [map]. change (list_sum (f y :: map f l)) with (f y + list_sum (map f l))%nat. rewrite IH by (intros z I; apply H; now right). rewrite H by now left. easy.
  - rewrite (Z y) by (first [now left|intros ->; easy]). rewrite IH; [easy|easy|easy|easy|]. intros z I' N. apply Z; [now right|easy].
Qed.
Lemma bins_total k : Forall (fun r => exists j i, (j < 8)%nat /\ (i < 8)%nat /\ in_bin j i r = true) k ->
  list_sum (map (fun c => length (bin_rows k (fst c) (snd c))) cells) = length k.
Proof.
  induction k as [|r k IH]; intros F; [reflexivity|]. inversion F as [|? ? (j & i & J & I & B) F']; subst. cbn [length]. rewrite <- (IH F').
  assert (E : forall c, length (bin_rows (r :: k) (fst c) (snd c)) = ((if in_bin (fst c) (snd c) r then 1 else 0) + length (bin_rows k (fst c) (snd c)))%nat).
  { intros c. unfold bin_rows. cbn [filter]. now destruct (in_bin (fst c) (snd c) r). }
  rewrite (map_ext _ _ E), sum_plus. rewrite (sum_one _ cells (j, i)); [easy|apply cells_nodup|now apply cells_in|cbn [fst snd]; now rewrite B|].
  intros [j' i'] _ NE. cbn [fst snd]. destruct (in_bin j' i' r) eqn:B'; [|easy]. exfalso. apply NE. destruct (in_bin_unique r j i j' i' B B'). congruence.
Qed.

(** One kept row that is not perturbed (its angle or its time offset is not a number), that is perturbed
    by 120 degrees, 0.24 s or 0.1 m or more, or any number of kept rows other than 64 * 60: no map is drawn. *)
Theorem C79_no_maps : forall files : list (list (row XR)), files <> [] -> (forall r, files <> [[r]]) ->
  Forall known (concat files) -> Forall parsed (concat files) ->
  let k := filter (fun r => r_success r && negb (r_bad_singular_values r))%bool (concat files) in
  k <> [] -> Forall (full k) (all_datasets k) -> (length (all_datasets k) <= 7)%nat ->
  (exists r, In r k /\
    ((forall a, r_angle r = Fin a -> 2 / 3 * PI <= Rabs a) \/ (forall a, r_time r = Fin a -> 24 / 100 <= Rabs a) \/
     (forall a, r_translation r = Ok (Fin a) -> 1 / 10 <= Rabs a))) \/ length k <> 3840%nat ->
  generate_plots files = (map (box k) (all_datasets k) ++ [timing k], Some AssertionError).
Proof.
  intros files NE ONE K P k NK F L H. destruct (C79_maps files NE ONE K P NK F L) as [_ G]. fold k in G. apply G. clear G. pose proof PI_RGT_0 as PP.
  destruct (Exists_dec (fun r => forall j i, (j < 8)%nat -> (i < 8)%nat -> in_bin j i r = false) k) as [X|X].
  { intros r. destruct (existsb (fun c => in_bin (fst c) (snd c) r) cells) eqn:E.
    - right. intros A. apply existsb_exists in E. destruct E as ((j & i) & I & B). apply cells_in in I. destruct I as [J I]. rewrite A in B; easy.
    - left. intros j i J I. destruct (in_bin j i r) eqn:B; [|easy]. rewrite <- E. symmetry. apply existsb_exists. exists (j, i). split; [now apply cells_in|exact B]. }
  { now left. }
  assert (FI : Forall (fun r => exists j i, (j < 8)%nat /\ (i < 8)%nat /\ in_bin j i r = true) k).
  { apply Forall_forall. intros r I. destruct (existsb (fun c => in_bin (fst c) (snd c) r) cells) eqn:E.
    - apply existsb_exists in E. destruct E as ((j & i) & IC & B). apply cells_in in IC. destruct IC as [J IC]. now exists j, i.
    - exfalso. apply X. apply Exists_exists. exists r. split; [easy|]. intros j i J IC. destruct (in_bin j i r) eqn:B; [|easy]. rewrite <- E. symmetry. apply existsb_exists.
      exists (j, i). split; [now apply cells_in|exact B]. }
  destruct H as [(r & I & H)|LN].
  - exfalso. rewrite Forall_forall in FI. destruct (FI r I) as (j & i & J & IC & B). unfold in_bin in B. apply andb_prop in B. destruct B as [B T0]. apply andb_prop in B. destruct B as [A T].
    apply within_iff in A, T, T0. destruct A as (a & Ea & _ & A), T as (t & Et & _ & T), T0 as (p & Ep & _ & T0).
    assert (I8 : INR (S i) <= 8) by (change 8 with (IZR (Z.of_nat 8)); rewrite <- INR_IZR_INZ; apply le_INR; lia).
    assert (J8 : INR (S j) <= 8) by (change 8 with (IZR (Z.of_nat 8)); rewrite <- INR_IZR_INZ; apply le_INR; lia).
    destruct H as [H|[H|H]].
    + specialize (H a Ea). assert (INR (S i) * (PI / 12) <= 8 * (PI / 12)) by (apply Rmult_le_compat_r; lra). lra.
    + specialize (H t Et). assert (INR (S j) * (3 / 100) <= 8 * (3 / 100)) by (apply Rmult_le_compat_r; lra). lra.
    + assert (PR : parsed r). { rewrite Forall_forall in P. apply P. now apply filter_In in I. } destruct PR as [x PX]. unfold translation in Ep. rewrite PX in Ep. subst x.
      specialize (H p PX). lra.
  - right. destruct (existsb (fun c => negb (length (bin_rows k (fst c) (snd c)) =? 60)%nat) cells) eqn:E.
    + apply existsb_exists in E. destruct E as ((j & i) & IC & B). apply cells_in in IC. destruct IC as [J IC]. cbn [fst snd] in *. exists j, i. split; [easy|]. split; [easy|].
      now destruct (Nat.eqb_spec (length (bin_rows k j i)) 60).
    + exfalso. apply LN. rewrite <- (bins_total k FI). rewrite (map_ext_in _ (fun _ => 60%nat)); [reflexivity|]. intros c IC.
      destruct (Nat.eqb_spec (length (bin_rows k (fst c) (snd c))) 60) as [Q|Q]; [easy|]. exfalso. assert (Y : existsb (fun c => negb (length (bin_rows k (fst c) (snd c)) =? 60)%nat) cells = true); [|congruence].
      apply existsb_exists. exists c. split; [easy|]. now destruct (Nat.eqb_spec (length (bin_rows k (fst c) (snd c))) 60).
Qed.

(** a table with 60 rows in every bin, and the same table without perturbations *)
Definition perturbed (c : nat * nat) : row XR :=
  mkRow (N := XR) "RC_filter_opt" true (Fin 0) (Fin 0) (Fin 0) (Fin 1) (Fin 2) false (Fin 0) (Fin (- (INR (snd c) * (PI / 12)))) (Ok (Fin (1 / 20))) (Fin (INR (fst c) * (3 / 100))) "A".
Definition perturbed_rows : list (row XR) := flat_map (fun c => repeat (perturbed c) 60) cells.
Lemma perturbed_bin c j i : in_bin j i (perturbed c) = true <-> c = (j, i).
Proof.
  pose proof PI_RGT_0 as PP.
  assert (A : in_bin (fst c) (snd c) (perturbed c) = true).
  { unfold in_bin, perturbed, translation. cbn [r_angle r_time r_translation]. rewrite !andb_true_intro; [easy|split; [apply andb_true_intro; split|]]; apply within_iff.
    - eexists. split; [reflexivity|]. rewrite Rabs_Ropp, Rabs_pos_eq by (apply Rmult_le_pos; [apply pos_INR|lra]). split; [lra|]. apply Rmult_lt_compat_r; [lra|]. rewrite S_INR. lra.
    - eexists. split; [reflexivity|]. rewrite Rabs_pos_eq by (apply Rmult_le_pos; [apply pos_INR|lra]). split; [lra|]. apply Rmult_lt_compat_r; [lra|]. rewrite S_INR. lra.
    - eexists. split; [reflexivity|]. rewrite Rabs_pos_eq; lra. }
  split; [|intros ->; exact A]. intros B. destruct (in_bin_unique _ _ _ _ _ A B). destruct c. cbn in *. congruence.
Qed.
Lemma perturbed_count j i : (j < 8)%nat -> (i < 8)%nat -> bin_rows perturbed_rows j i = repeat (perturbed (j, i)) 60.
Proof.
  intros J I. unfold bin_rows, perturbed_rows. pose proof cells_nodup as ND. assert (IC : In (j, i) cells) by now apply cells_in.
  assert (R : forall c n, filter (in_bin j i) (repeat (perturbed c) n) = if in_bin j i (perturbed c) then repeat (perturbed c) n else []).
  { intros c n. induction n as [|n IH]; cbn [repeat filter]; [now destruct (in_bin j i (perturbed c))|]. rewrite IH. now destruct (in_bin j i (perturbed c)). }
  assert (O : forall l, ~ In (j, i) l -> filter (in_bin j i) (flat_map (fun c => repeat (perturbed c) 60) l) = []).
  { induction l as [|c l IH]; intros NI; [easy|]. cbn [flat_map]. rewrite filter_app, R, IH by (intros X; apply NI; now right).
    destruct (in_bin j i (perturbed c)) eqn:B; [|easy]. apply perturbed_bin in B. exfalso. apply NI. now left. }
  induction cells as [|c l IH]; [easy|]. cbn [flat_map]. rewrite filter_app, R. inversion ND as [|? ? NI ND']; subst. destruct IC as [->|IC].
  - rewrite O by easy. rewrite app_nil_r. now rewrite (proj2 (perturbed_bin (j, i) j i) eq_refl).
  - rewrite IH by easy. destruct (in_bin j i (perturbed c)) eqn:B; [|easy]. apply perturbed_bin in B. now subst c.
Qed.
Lemma distinct_const (s : string) l : l <> [] -> (forall x, In x l -> x = s) -> distinct l = [s].
Proof.
  induction l as [|x l IH] using rev_ind; intros NE H; [easy|]. rewrite distinct_snoc. assert (x = s) as -> by (apply H, in_or_app; right; now left).
  destruct l as [|y l]; [reflexivity|]. destruct (in_dec string_dec s (y :: l)) as [I|NI].
  - apply IH; [easy|]. intros z Z. apply H, in_or_app. now left.
  - exfalso. apply NI. left. apply H. now left.
Qed.
Lemma average_const a : average (repeat (Fin a) 60) = Fin a.
Proof.
  unfold average. assert (H : forall n s, fold_left xadd (repeat (Fin a) n) (Fin s) = Fin (s + INR n * a)).
  { induction n as [|n IH]; intros s; cbn [repeat fold_left]; [cbn; f_equal; lra|]. change (xadd (Fin s) (Fin a)) with (Fin (s + a)). rewrite IH, S_INR. f_equal. lra. }
  rewrite H. unfold xdiv. destruct (Req_EM_T 60 0); [lra|]. f_equal. replace (INR 60) with 60 by (rewrite INR_IZR_INZ; reflexivity). lra.
Qed.
Lemma perturbed_in r : In r perturbed_rows <-> exists c, In c cells /\ r = perturbed c.
Proof.
  unfold perturbed_rows. rewrite in_flat_map. split; intros (c & I & H); exists c; (split; [easy|]); [now apply repeat_spec in H|subst; now left].
Qed.
Lemma filter_all {A} (p : A -> bool) l : (forall x, In x l -> p x = true) -> filter p l = l.
Proof. induction l as [|x l IH]; intros H; [easy|]. cbn [filter]. rewrite H by now left. rewrite IH; [easy|]. intros y I. apply H. now right. Qed.
Lemma example_of data : data <> [] -> (forall r, In r data -> exists c, In c cells /\ r = perturbed c) ->
  (forall j i, (j < 8)%nat -> (i < 8)%nat -> bin_rows data j i = repeat (perturbed (j, i)) 60) ->
  exists boxes times, generate_plots [data; []] =
  ([BoxPlot "A" ["PF_RC_O"] [boxes] [boxes]; TimePlot ["PF_RC_O"] [("A", [times])];
    ErrorMaps (repeat (repeat (Fin 1) 8) 8) (repeat (repeat (Fin 2) 8) 8)], None).
Proof.
  intros NE D B.
  assert (C : concat [data; []] = data) by (cbn [concat]; now rewrite !app_nil_r).
  assert (KN : Forall known data) by (apply Forall_forall; intros r I; destruct (D r I) as (c & _ & ->); eexists; reflexivity).
  assert (PA : Forall parsed data) by (apply Forall_forall; intros r I; destruct (D r I) as (c & _ & ->); eexists; reflexivity).
  pose proof (C79_maps [data; []]) as H. rewrite C in H.
  assert (FL : filter (fun r : row XR => r_success r && negb (r_bad_singular_values r))%bool data = data).
  { apply filter_all. intros r I. now destruct (D r I) as (c & _ & ->). }
  rewrite FL in H. cbn zeta in H.
  assert (DS : all_datasets data = ["A"]).
  { apply distinct_const; [now destruct data|]. intros x I. apply in_map_iff in I. destruct I as (r & <- & I). now destruct (D r I) as (c & _ & ->). }
  assert (MS : all_methods data = ["PF_RC_O"]).
  { apply distinct_const; [now destruct data|]. intros x I. apply in_map_iff in I. destruct I as (r & <- & I). now destruct (D r I) as (c & _ & ->). }
  destruct H as [H _]; [easy|easy|exact KN|exact PA|exact NE| |rewrite DS; cbn; lia|].
  { rewrite DS. constructor; [|constructor]. intros r I. exists r. split; [easy|]. split; [|easy]. now destruct (D r I) as (c & _ & ->). }
  rewrite H.
  - exists (map r_position_rmse (group data "A" "PF_RC_O")), (map total_runtime (group data "A" "PF_RC_O")).
    unfold box, timing. rewrite DS, MS. cbn [map app]. 
    assert (BX : map r_orientation_rmse (group data "A" "PF_RC_O") = map r_position_rmse (group data "A" "PF_RC_O")).
    { apply map_ext_in. intros r I. apply filter_In in I. destruct I as [I _]. now destruct (D r I) as (c & _ & ->). }
    rewrite BX.
    assert (MX : forall (f : row XR -> xr) a, (forall c, f (perturbed c) = Fin a) -> matrix f data = repeat (repeat (Fin a) 8) 8).
    { intros f a Hf. unfold matrix. rewrite (map_ext_in _ (fun _ => repeat (Fin a) 8)); [reflexivity|]. intros j J. apply in_seq in J.
      rewrite (map_ext_in _ (fun _ => Fin a)); [reflexivity|]. intros i I. apply in_seq in I. rewrite B by lia. cbn [repeat map]. rewrite Hf. apply average_const. }
    rewrite (MX _ 1), (MX _ 2) by reflexivity. reflexivity.
  - apply Forall_forall. intros r I. destruct (D r I) as (c & IC & ->). apply cells_in in IC. exists (fst c), (snd c). split; [easy|]. split; [easy|]. apply perturbed_bin. now destruct c.
  - intros j i J I. rewrite B by easy. apply repeat_length.
Qed.
Example C79_maps_example : exists boxes times, generate_plots [perturbed_rows; []] =
  ([BoxPlot "A" ["PF_RC_O"] [boxes] [boxes]; TimePlot ["PF_RC_O"] [("A", [times])];
    ErrorMaps (repeat (repeat (Fin 1) 8) 8) (repeat (repeat (Fin 2) 8) 8)], None).
Proof.
  apply example_of.
  - intros E. assert (I : In (perturbed (0%nat, 0%nat)) perturbed_rows) by (apply perturbed_in; exists (0%nat, 0%nat); split; [apply cells_in; cbn; lia|reflexivity]).
    rewrite E in I. exact I.
  - intros r I. now apply perturbed_in.
  - exact perturbed_count.
Qed.
(** The table of an ordinary experiment, without perturbations: the fields read "None", that is not a number. *)
Example C79_no_maps_example : forall x y, let r d x := mkRow (N := XR) "RC_filter_opt" true x x (Fin 0) x x false (Fin 0) NaN (Ok (Fin 0)) NaN d in
  generate_plots [[r "A" x]; [r "B" y]] =
  ([BoxPlot "A" ["PF_RC_O"] [[x]] [[x]]; BoxPlot "B" ["PF_RC_O"] [[y]] [[y]]; TimePlot ["PF_RC_O"] [("A", [[Fin (0 + 0)]]); ("B", [[Fin (0 + 0)]])]], Some AssertionError).
Proof.
  intros x y r. pose proof (C79_no_maps [[r "A" x]; [r "B" y]]) as H. cbn zeta in H. apply H; clear H.
  - discriminate.
  - discriminate.
  - repeat constructor; eexists; reflexivity.
  - repeat constructor; eexists; reflexivity.
  - discriminate.
  - constructor; [|constructor; [|constructor]].
    + intros s [<- | [<- | []]]; exists (r "A" x); (split; [now left|split; reflexivity]).
    + intros s [<- | [<- | []]]; exists (r "B" y); (split; [right; now left|split; reflexivity]).
  - cbn. lia.
  - left. exists (r "A" x). split; [now left|]. left. intros a E. discriminate E.
Qed.
