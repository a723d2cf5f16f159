(** * Facts about the CSV text layer. *)

From Coq Require Import Reals ZArith List Bool Ascii Lra Lia Psatz.
From Flocq Require Import Core.
From Verif Require Import Py XReal XFacts ListFacts CsvText.
Import ListNotations.
Local Open Scope R_scope.

(** ** Digits *)
Lemma digit_code d : (0 <= d < 10)%Z -> nat_of_ascii (digit d) = (48 + Z.to_nat d)%nat.
Proof. intros H. unfold digit. apply nat_ascii_embedding. lia. Qed.
Lemma digit_val_digit d : (0 <= d < 10)%Z -> digit_val (digit d) = Some d.
Proof.
  intros H. unfold digit_val. rewrite digit_code by easy.
  destruct (Nat.leb_spec 48 (48 + Z.to_nat d)); [|lia]. destruct (Nat.leb_spec (48 + Z.to_nat d) 57); [|lia].
  cbn [andb]. f_equal. lia.
Qed.
Lemma take_digit acc cnt d rest : (0 <= d < 10)%Z ->
  take_digits acc cnt (digit d :: rest) = take_digits (10 * acc + d) (S cnt) rest.
Proof. intros H. cbn [take_digits]. now rewrite digit_val_digit. Qed.
Lemma mod10 z : (0 <= z mod 10 < 10)%Z.
Proof. apply Z.mod_pos_bound. lia. Qed.
Lemma take_fixed k : forall z acc cnt rest, (0 <= z)%Z ->
  take_digits acc cnt (fixed k z ++ rest) = take_digits (acc * 10 ^ Z.of_nat k + z mod 10 ^ Z.of_nat k) (cnt + k) rest.
Proof.
  induction k as [|k IH]; intros z acc cnt rest Z0.
  - cbn [fixed app]. change (10 ^ Z.of_nat 0)%Z with 1%Z. rewrite Z.mod_1_r, Nat.add_0_r. f_equal. lia.
  - cbn [fixed]. rewrite <- app_assoc, IH by (apply Z.div_pos; lia). cbn [app]. rewrite take_digit by apply mod10.
    assert (P : (0 < 10 ^ Z.of_nat k)%Z) by (apply Z.pow_pos_nonneg; lia).
    replace (10 ^ Z.of_nat (S k))%Z with (10 * 10 ^ Z.of_nat k)%Z by (rewrite Nat2Z.inj_succ, Z.pow_succ_r; lia).
    rewrite (Z.rem_mul_r z 10 (10 ^ Z.of_nat k)) by lia. f_equal; [lia|]. lia.
Qed.
Lemma take_all f : forall z acc cnt rest, (0 <= z < 10 ^ Z.of_nat f)%Z -> (0 < f)%nat ->
  exists len, (0 < len)%nat /\
    take_digits acc cnt (digits f z ++ rest) = take_digits (acc * 10 ^ Z.of_nat len + z) (cnt + len) rest.
Proof.
  induction f as [|f IH]; intros z acc cnt rest Z0 F; [lia|]. cbn [digits].
  destruct (Z.ltb_spec z 10) as [L|L].
  - exists 1%nat. split; [lia|]. cbn [app]. rewrite take_digit by lia. f_equal; lia.
  - assert (F0 : (0 < f)%nat). { destruct f; [|lia]. cbn in Z0. lia. }
    assert (B : (0 <= z / 10 < 10 ^ Z.of_nat f)%Z).
    { split; [apply Z.div_pos; lia|]. apply Z.div_lt_upper_bound; [lia|]. rewrite <- Z.pow_succ_r by lia.
      replace (Z.succ (Z.of_nat f)) with (Z.of_nat (S f)) by lia. lia. }
    destruct (IH (z / 10)%Z acc cnt ([digit (z mod 10)] ++ rest) B F0) as (len & L0 & E).
    exists (S len). split; [lia|]. rewrite <- app_assoc, E. cbn [app]. rewrite take_digit by apply mod10.
    replace (10 ^ Z.of_nat (S len))%Z with (10 * 10 ^ Z.of_nat len)%Z by (rewrite Nat2Z.inj_succ, Z.pow_succ_r; lia).
    f_equal; [|lia]. pose proof (Z.div_mod z 10 ltac:(lia)). lia.
Qed.
Lemma fuel_ok z : (0 <= z)%Z -> (z < 10 ^ Z.of_nat (S (Z.to_nat (Z.log2 z))))%Z.
Proof.
  intros H. rewrite Nat2Z.inj_succ, Z2Nat.id by apply Z.log2_nonneg.
  destruct (Z.eq_dec z 0) as [->|NZ]; [now compute|].
  eapply Z.lt_le_trans; [apply Z.log2_spec; lia|]. apply Z.pow_le_mono_l. lia.
Qed.
Lemma parse_fixed int frac : (0 <= int)%Z -> (0 <= frac < 10 ^ 18)%Z ->
  parse_unsigned (digits (S (Z.to_nat (Z.log2 int))) int ++ [dot] ++ fixed 18 frac) = Some ((int * 10 ^ 18 + frac)%Z, 18%nat, 0%Z).
Proof.
  intros I F. unfold parse_unsigned.
  destruct (take_all _ int 0 0 ([dot] ++ fixed 18 frac) (conj I (fuel_ok int I)) ltac:(lia)) as (len & L & E). rewrite E.
  cbn [app take_digits]. change (digit_val dot) with (@None Z). cbn iota beta. unfold take_fraction.
  change (Ascii.eqb dot dot) with true. cbn iota beta.
  rewrite <- (app_nil_r (fixed 18 frac)), take_fixed by lia. cbn [take_digits].
  destruct (Nat.eqb_spec (0 + len + (0 + 18)) 0); [lia|]. rewrite Z.mod_small by (change (Z.of_nat 18) with 18%Z; lia).
  reflexivity.
Qed.

(** ** fmt18 and py_float *)
Lemma scaled_0 n d : scaled n d 0 = IZR n / IZR (10 ^ Z.of_nat d).
Proof. unfold scaled. cbn [powerRZ]. now rewrite Rmult_1_r. Qed.
Definition decimal18 (x : R) : R := IZR (ZnearestE (x * IZR (10 ^ 18))) / IZR (10 ^ 18).

Lemma digit_not_space d : (0 <= d < 10)%Z -> is_space (digit d) = false.
Proof.
  intros H. unfold is_space. rewrite digit_code by easy. set (n := (48 + Z.to_nat d)%nat).
  destruct (Nat.leb_spec 9 n), (Nat.leb_spec n 13), (Nat.eqb_spec n 32); cbn; try lia; easy.
Qed.
Lemma digit_neq d c : (0 <= d < 10)%Z -> (nat_of_ascii c < 48 \/ 57 < nat_of_ascii c)%nat -> Ascii.eqb (digit d) c = false.
Proof.
  intros H C. destruct (Ascii.eqb_spec (digit d) c) as [E|]; [|easy]. rewrite <- E, digit_code in C by easy. lia.
Qed.
Lemma lstrip_first c t : is_space c = false -> lstrip (c :: t) = c :: t.
Proof. intros H. cbn [lstrip]. now rewrite H. Qed.
Lemma digits_first f z : (0 < f)%nat -> (0 <= z < 10 ^ Z.of_nat f)%Z -> exists d t, (0 <= d < 10)%Z /\ digits f z = digit d :: t.
Proof.
  revert z; induction f as [|f IH]; intros z F Z0; [lia|]. cbn [digits]. destruct (Z.ltb_spec z 10) as [L|L].
  - exists z, []. split; [lia|easy].
  - assert (F0 : (0 < f)%nat). { destruct f; [|lia]. cbn in Z0. lia. }
    destruct (IH (z / 10)%Z F0) as (d & t & D & E).
    { split; [apply Z.div_pos; lia|]. apply Z.div_lt_upper_bound; [lia|]. rewrite <- Z.pow_succ_r by lia.
      replace (Z.succ (Z.of_nat f)) with (Z.of_nat (S f)) by lia. lia. }
    exists d, (t ++ [digit (z mod 10)]). rewrite E. easy.
Qed.
Lemma fixed_last k z : exists t d, (0 <= d < 10)%Z /\ fixed (S k) z = t ++ [digit d].
Proof. cbn [fixed]. exists (fixed k (z / 10)), (z mod 10)%Z. split; [apply mod10|easy]. Qed.

Lemma strip_id c t d : is_space c = false -> is_space d = false -> (c = d /\ t = [] \/ exists u, t = u ++ [d]) -> strip (c :: t) = c :: t.
Proof.
  intros C D H. unfold strip. rewrite lstrip_first by easy. destruct H as [[<- ->]|[u ->]].
  - cbn [rev app]. now rewrite lstrip_first.
  - change (c :: u ++ [d]) with ((c :: u) ++ [d]). rewrite rev_app_distr. cbn [rev app]. rewrite lstrip_first by easy.
    cbn [rev]. rewrite rev_app_distr. cbn [rev app]. now rewrite rev_involutive.
Qed.

Lemma fmt18_shape x :
  let n := Z.abs (ZnearestE (x * IZR (10 ^ 18))) in
  exists body, fmt18 x = (if Rltb x 0 then [minus] else []) ++ body /\
    parse_unsigned body = Some (n, 18%nat, 0%Z) /\
    (exists d t, (0 <= d < 10)%Z /\ body = digit d :: t) /\
    (exists d t, (0 <= d < 10)%Z /\ body = t ++ [digit d]).
Proof.
  intros n. eexists. split; [reflexivity|]. fold n.
  assert (N0 : (0 <= n)%Z) by apply Z.abs_nonneg.
  assert (I : (0 <= n / 10 ^ 18)%Z) by (apply Z.div_pos; lia).
  assert (F : (0 <= n mod 10 ^ 18 < 10 ^ 18)%Z) by (apply Z.mod_pos_bound; lia).
  split; [|split].
  - rewrite parse_fixed by easy. do 3 f_equal. pose proof (Z.div_mod n (10 ^ 18) ltac:(lia)). lia.
  - destruct (digits_first (S (Z.to_nat (Z.log2 (n / 10 ^ 18)))) (n / 10 ^ 18)) as (d & t & D & E); [lia|split; [easy|now apply fuel_ok]|].
    rewrite E. exists d. eexists. split; [easy|]. reflexivity.
  - destruct (fixed_last 17 (n mod 10 ^ 18)) as (t & d & D & E). rewrite E. exists d. eexists. split; [easy|].
    rewrite !app_assoc. reflexivity.
Qed.

Lemma nearest_sign x : (x < 0 -> (ZnearestE (x * IZR (10 ^ 18)) <= 0)%Z) /\ (0 <= x -> (0 <= ZnearestE (x * IZR (10 ^ 18)))%Z).
Proof.
  assert (P : 0 < IZR (10 ^ 18)) by (apply IZR_lt; lia).
  split; intros H.
  - assert (M := Zrnd_le ZnearestE (x * IZR (10 ^ 18)) 0 ltac:(nra)). now rewrite (Zrnd_IZR ZnearestE 0) in M.
  - assert (M := Zrnd_le ZnearestE 0 (x * IZR (10 ^ 18)) ltac:(nra)). now rewrite (Zrnd_IZR ZnearestE 0) in M.
Qed.

Lemma float_fmt18 x (sp : bool) : py_float ((if sp then [space] else []) ++ fmt18 x) = Ok (to_double (decimal18 x)).
Proof.
  unfold py_float.
  destruct (fmt18_shape x) as (body & E & P & (d1 & t1 & D1 & B1) & (d2 & t2 & D2 & B2)).
  assert (ST : strip ((if sp then [space] else []) ++ fmt18 x) = fmt18 x).
  { assert (S1 : strip (fmt18 x) = fmt18 x).
    { rewrite E. destruct (Rltb x 0).
      - cbn [app]. apply (strip_id _ _ (digit d2)); [easy|now apply digit_not_space|]. right. now exists t2.
      - cbn [app]. rewrite B1. apply (strip_id _ _ (digit d2)); [now apply digit_not_space|now apply digit_not_space|].
        rewrite B1 in B2. destruct t2 as [|c t2]; cbn [app] in B2.
        + left. split; [exact (f_equal (hd nl) B2)|exact (f_equal (@tl _) B2)].
        + right. exists t2. exact (f_equal (@tl _) B2). }
    destruct sp; [|exact S1]. cbn [app]. unfold strip in *. cbn [lstrip]. change (is_space space) with true. cbn iota. exact S1. }
  rewrite ST, E. destruct (nearest_sign x) as [SN SP]. unfold decimal18.
  destruct (Rltb x 0) eqn:C; [apply Rltb_iff in C|apply Rltb_false in C].
  - cbn [app]. change (Ascii.eqb minus minus) with true. cbn iota. rewrite P, scaled_0. do 2 f_equal.
    rewrite Z.abs_neq by now apply SN. rewrite opp_IZR. change (Z.of_nat 18) with 18%Z. unfold Rdiv. ring.
  - cbn [app]. rewrite B1. rewrite !digit_neq; [|easy|left; cbn; lia|easy|left; cbn; lia]. rewrite <- B1, P, scaled_0. do 2 f_equal.
    rewrite Z.abs_eq by now apply SP. change (Z.of_nat 18) with 18%Z. unfold Rdiv. ring.
Qed.

(** ** The csv reader inverts the writer *)
Definition plain (c : ascii) : Prop := c <> nl /\ c <> cr /\ c <> comma /\ c <> bar.
Lemma neqb a b : a <> b -> Ascii.eqb a b = false.
Proof. intros H. now destruct (Ascii.eqb_spec a b). Qed.
Lemma run_plain f : forall acc fs rest, Forall plain f ->
  crun (mkC InField acc fs) (map Some f ++ rest) = crun (mkC InField (acc ++ f) fs) rest.
Proof.
  induction f as [|c f IH]; intros acc fs rest P; [cbn; now rewrite app_nil_r|].
  inversion P as [|? ? (P1 & P2 & P3 & P4) P']; subst. cbn [map app crun]. unfold cstep. cbn [st].
  unfold is_nl. rewrite !(neqb c) by easy. cbn [orb bind]. unfold addc. cbn [field fields]. rewrite IH by easy.
  now rewrite <- app_assoc.
Qed.
Lemma run_field c f s0 fs rest : s0 = StartRecord \/ s0 = StartField -> Forall plain (c :: f) ->
  crun (mkC s0 [] fs) (map Some (c :: f) ++ rest) = crun (mkC InField (c :: f) fs) rest.
Proof.
  intros S0 P. inversion P as [|? ? (P1 & P2 & P3 & P4) P']; subst. cbn [map app crun].
  assert (E : cstep (mkC s0 [] fs) (Some c) = Ok (mkC InField [c] fs)).
  { unfold cstep, start_field. destruct S0 as [-> | ->]; cbn [st]; unfold is_nl; rewrite !(neqb c) by easy; reflexivity. }
  rewrite E. cbn [bind]. now rewrite run_plain.
Qed.
(** what the reader makes of a line: every field after the first keeps the blank of the separator *)
Definition as_read (row : list text) : list text :=
  match row with [] => [] | f :: fs => f :: map (cons space) fs end.
Lemma plain_space : plain space.
Proof. repeat split; easy. Qed.
Lemma run_row fs : forall f pre, f <> [] -> Forall plain f -> Forall (Forall plain) fs ->
  crun (mkC InField f pre) (map Some (concat (map (fun g => [comma; space] ++ g) fs) ++ [nl]) ++ [None]) =
  Ok (mkC StartRecord [] (pre ++ f :: map (cons space) fs)).
Proof.
  induction fs as [|g fs IH]; intros f pre NE P PF.
  - cbn. reflexivity.
  - inversion PF as [|? ? PG PF']; subst.
    assert (E : map Some (concat (map (fun g => [comma; space] ++ g) (g :: fs)) ++ [nl]) ++ [None] =
      Some comma :: map Some (space :: g) ++ (map Some (concat (map (fun g => [comma; space] ++ g) fs) ++ [nl]) ++ [None])).
    { cbn [map concat app]. rewrite <- app_assoc, map_app, <- app_assoc. reflexivity. }
    rewrite E. cbn [crun].
    replace (cstep (mkC InField f pre) (Some comma)) with (Ok (mkC StartField [] (pre ++ [f]))) by reflexivity. cbn [bind].
    rewrite run_field; [|now right|constructor; [apply plain_space|easy]].
    rewrite IH; [|easy|constructor; [apply plain_space|easy]|easy].
    cbn [map]. now rewrite <- app_assoc.
Qed.
Lemma join_concat f fs : join [comma; space] (f :: fs) = f ++ concat (map (fun g => [comma; space] ++ g) fs).
Proof.
  revert f; induction fs as [|g fs IH]; intros f; [cbn; now rewrite app_nil_r|].
  change (join [comma; space] (f :: g :: fs)) with (f ++ [comma; space] ++ join [comma; space] (g :: fs)). rewrite IH.
  cbn [map concat]. now rewrite <- app_assoc.
Qed.
Lemma run_line row : row <> [] -> Forall (fun f => f <> [] /\ Forall plain f) row ->
  crun cinit (map Some (join [comma; space] row ++ [nl]) ++ [None]) = Ok (mkC StartRecord [] (as_read row)).
Proof.
  destruct row as [|f fs]; [easy|]. intros _ P. inversion P as [|? ? [NE PF] PFS]; subst.
  rewrite join_concat, <- app_assoc, map_app, <- app_assoc. destruct f as [|c f]; [easy|].
  unfold cinit. rewrite run_field; [|now left|easy]. rewrite run_row; [reflexivity|easy|easy|].
  eapply Forall_impl; [|exact PFS]. cbn. intros a [_ H]. exact H.
Qed.
Lemma lines_app l t : Forall (fun c => c <> nl) l -> lines (l ++ nl :: t) = (l ++ [nl]) :: lines t.
Proof.
  induction l as [|c l IH]; intros P; [reflexivity|]. inversion P; subst. cbn [app lines]. rewrite neqb by easy.
  now rewrite IH.
Qed.
Lemma join_no_nl row : Forall (fun f => f <> [] /\ Forall plain f) row -> Forall (fun c => c <> nl) (join [comma; space] row).
Proof.
  intros P. destruct row as [|f fs]; [constructor|]. rewrite join_concat. inversion P as [|? ? [_ PF] PFS]; subst.
  apply Forall_app. split; [eapply Forall_impl; [|exact PF]; intros c (H & _); exact H|].
  clear - PFS. induction PFS as [|g fs [_ H] PFS IH]; [constructor|]. cbn [map concat]. apply Forall_app. split; [|exact IH].
  cbn [app]. constructor; [easy|]. constructor; [easy|]. eapply Forall_impl; [|exact H]. intros c (Q & _); exact Q.
Qed.
Lemma csv_roundtrip rows : Forall (fun row => row <> [] /\ Forall (fun f => f <> [] /\ Forall plain f) row) rows ->
  csv_reader (concat (map (fun row => join [comma; space] row ++ [nl]) rows)) = Ok (map as_read rows).
Proof.
  unfold csv_reader. induction rows as [|row rows IH]; intros P; [reflexivity|]. inversion P as [|? ? [NE PR] PRS]; subst.
  cbn [map concat]. rewrite <- app_assoc. cbn [app]. rewrite lines_app by now apply join_no_nl. cbn [records].
  rewrite run_line by easy. cbn [bind st]. rewrite IH by easy. reflexivity.
Qed.
Lemma digit_plain d : (0 <= d < 10)%Z -> plain (digit d).
Proof.
  intros H. assert (C := digit_code d H).
  repeat split; intros E; rewrite E in C; cbn in C; lia.
Qed.
Lemma fixed_plain k : forall z, Forall plain (fixed k z).
Proof. induction k; intros z; cbn [fixed]; [constructor|]. apply Forall_app. split; [apply IHk|]. repeat constructor; apply digit_plain, mod10. Qed.
Lemma digits_plain f : forall z, (0 <= z)%Z -> Forall plain (digits f z).
Proof.
  induction f as [|f IH]; intros z Z0; cbn [digits]; [constructor|]. destruct (Z.ltb_spec z 10).
  - repeat constructor; apply digit_plain; lia.
  - apply Forall_app. split; [apply IH, Z.div_pos; lia|]. repeat constructor; apply digit_plain, mod10.
Qed.
Lemma fmt18_plain x : fmt18 x <> [] /\ Forall plain (fmt18 x).
Proof.
  split.
  - destruct (fmt18_shape x) as (body & E & _ & (d & t & _ & B) & _). rewrite E, B. now destruct (Rltb x 0).
  - unfold fmt18. apply Forall_app. split; [destruct (Rltb x 0); repeat constructor; easy|].
    apply Forall_app. split; [apply digits_plain, Z.div_pos; [apply Z.abs_nonneg|lia]|].
    apply Forall_app. split; [repeat constructor; easy|apply fixed_plain].
Qed.
