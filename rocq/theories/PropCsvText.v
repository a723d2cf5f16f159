(** * Property C45: arrays written to and read back from CSV text. *)

From Coq Require Import Reals ZArith List Bool Ascii Lra Lia Psatz.
From Flocq Require Import Core.
From Verif Require Import Py XReal XFacts ListFacts CsvText CsvFacts.
Import ListNotations.
Local Open Scope R_scope.

(** ** Specification vocabulary *)
(** the finite IEEE doubles (as real numbers, without upper bound) *)
Definition double (x : R) : Prop := generic_format radix2 (FLT_exp (-1074) 53) x.
Lemma prec53 : Prec_gt_0 53. Proof. reflexivity. Qed.
#[local] Existing Instance prec53.
Definition is_digit (c : ascii) : Prop := (48 <= nat_of_ascii c <= 57)%nat.
(** the natural number written by a string of decimal digits *)
Definition numeral (t : text) : Z := fold_left (fun a c => 10 * a + (Z.of_nat (nat_of_ascii c) - 48))%Z t 0%Z.

(** an exponent: nothing, or the letter e or E, an optional sign and digits *)
Definition mark (c : ascii) : Prop := nat_of_ascii c = 101%nat \/ nat_of_ascii c = 69%nat.
Inductive exponent : text -> Z -> Prop :=
| no_exponent : exponent [] 0
| exponent_plus c sign ds : mark c -> sign = [] \/ sign = [plus] -> Forall is_digit ds -> ds <> [] -> exponent (c :: sign ++ ds) (numeral ds)
| exponent_minus c ds : mark c -> Forall is_digit ds -> ds <> [] -> exponent (c :: minus :: ds) (- numeral ds).
(** the text does not begin with such a character *)
Definition not_first (P : ascii -> Prop) (t : text) : Prop := match t with [] => True | c :: _ => ~ P c end.

(** ** The text of one number *)
Lemma digit_val_iff c : digit_val c = None <-> ~ is_digit c.
Proof.
  unfold digit_val, is_digit. set (n := nat_of_ascii c).
  destruct (Nat.leb_spec 48 n), (Nat.leb_spec n 57); cbn [andb]; split; intros; try easy; lia.
Qed.
Lemma take_stop t rest : Forall is_digit t -> not_first is_digit rest -> forall acc cnt,
  take_digits acc cnt (t ++ rest) = (fold_left (fun a c => 10 * a + (Z.of_nat (nat_of_ascii c) - 48))%Z t acc, (cnt + length t)%nat, rest).
Proof.
  intros D N. induction D as [|c t [C1 C2] D IH]; intros acc cnt; cbn [app take_digits fold_left length].
  - rewrite Nat.add_0_r. destruct rest as [|c rest]; [easy|]. cbn [take_digits]. now rewrite (proj2 (digit_val_iff c)).
  - unfold digit_val. destruct (Nat.leb_spec 48 (nat_of_ascii c)); [|lia]. destruct (Nat.leb_spec (nat_of_ascii c) 57); [|lia].
    cbn [andb]. rewrite IH. replace (Z.of_nat (nat_of_ascii c - 48)) with (Z.of_nat (nat_of_ascii c) - 48)%Z by lia.
    do 2 f_equal. lia.
Qed.
Lemma mark_e c : mark c <-> is_e c = true.
Proof.
  unfold mark, is_e. rewrite orb_true_iff, !Ascii.eqb_eq. split; (intros [H|H]; [left|right]).
  - rewrite <- (ascii_nat_embedding c), H. reflexivity.
  - rewrite <- (ascii_nat_embedding c), H. reflexivity.
  - now rewrite H.
  - now rewrite H.
Qed.
Lemma exponent_digits c u e rest : exponent (c :: u) e -> not_first is_digit rest -> is_e c = true /\ exp_digits (u ++ rest) = Some (e, rest).
Proof.
  intros H N. assert (L : forall ds : text, ds <> [] -> (0 + length ds =? 0)%nat = false) by (now intros []).
  inversion H as [|? sign ds M S D NE|? ds M D NE]; subst; (split; [now apply mark_e|]); unfold exp_digits.
  - destruct S as [-> | ->]; cbn [app].
    + destruct ds as [|d ds]; [easy|]. inversion D as [|? ? DG D']; subst. unfold is_digit in DG.
      cbn [app]. assert (X : Ascii.eqb d minus = false /\ Ascii.eqb d plus = false).
      { split; [destruct (Ascii.eqb_spec d minus) as [-> |]|destruct (Ascii.eqb_spec d plus) as [-> |]]; try easy; cbn in DG; lia. }
      destruct X as [-> ->]. change (d :: ds ++ rest) with ((d :: ds) ++ rest). rewrite (take_stop (d :: ds)) by easy. rewrite L by easy.
      now rewrite Z.mul_1_l.
    + change (Ascii.eqb plus minus) with false. change (Ascii.eqb plus plus) with true. cbn iota. rewrite take_stop by easy. rewrite L by easy. now rewrite Z.mul_1_l.
  - cbn [app]. change (Ascii.eqb minus minus) with true. cbn iota. rewrite take_stop by easy. rewrite L by easy. reflexivity.
Qed.
Lemma exponent_parse t e : exponent t e -> parse_exponent t = Some e.
Proof.
  intros H. destruct t as [|c t]; [inversion H; reflexivity|]. destruct (exponent_digits c t e [] H I) as [E D].
  cbn [parse_exponent]. rewrite E. rewrite app_nil_r in D. now rewrite D.
Qed.
Lemma exponent_first t e : exponent t e -> not_first (fun c => is_digit c \/ c = dot \/ is_space c = true) t.
Proof.
  assert (M : forall c, mark c -> ~ (is_digit c \/ c = dot \/ is_space c = true)).
  { intros c H. unfold is_digit, is_space. intros [D|[-> |S]]; [destruct H; lia|destruct H as [H|H]; cbn in H; lia|].
    destruct H as [H|H]; rewrite H in S; discriminate S. }
  intros H. destruct H; cbn; [easy|now apply M|now apply M].
Qed.
Lemma take_spec t : forall acc cnt, Forall is_digit t ->
  take_digits acc cnt t = (fold_left (fun a c => 10 * a + (Z.of_nat (nat_of_ascii c) - 48))%Z t acc, (cnt + length t)%nat, []).
Proof.
  induction t as [|c t IH]; intros acc cnt D; cbn [take_digits fold_left length]; [now rewrite Nat.add_0_r|].
  inversion D as [|? ? [D1 D2] D']; subst. unfold digit_val.
  destruct (Nat.leb_spec 48 (nat_of_ascii c)); [|lia]. destruct (Nat.leb_spec (nat_of_ascii c) 57); [|lia]. cbn [andb].
  rewrite IH by easy. rewrite Nat2Z.inj_sub by lia. f_equal. f_equal. lia.
Qed.
Lemma digit_is d : (0 <= d < 10)%Z -> is_digit (digit d).
Proof. intros H. unfold is_digit. rewrite digit_code by easy. lia. Qed.
Lemma Forall_one {A} (P : A -> Prop) a : P a -> Forall P [a].
Proof. now repeat constructor. Qed.
Lemma fixed_digits k : forall z, Forall is_digit (fixed k z) /\ length (fixed k z) = k.
Proof.
  induction k as [|k IH]; intros z; cbn [fixed]; [split; [constructor|easy]|]. destruct (IH (z / 10)%Z) as [A B].
  split; [|rewrite app_length, B; cbn; lia]. apply Forall_app. split; [easy|]. apply Forall_one, digit_is, mod10.
Qed.
Lemma digits_digits f : forall z, (0 <= z)%Z -> (0 < f)%nat -> Forall is_digit (digits f z) /\ digits f z <> [].
Proof.
  induction f as [|f IH]; intros z Z0 F; [lia|]. cbn [digits]. destruct (Z.ltb_spec z 10).
  - split; [|easy]. apply Forall_one, digit_is; lia.
  - split; [|now destruct (digits f _)]. apply Forall_app. split; [|apply Forall_one, digit_is, mod10].
    destruct f as [|f]; [constructor|]. apply IH; [apply Z.div_pos; lia|lia].
Qed.
Lemma nearest_half x : Rabs (x - IZR (ZnearestE x)) <= 1 / 2.
Proof. pose proof (Znearest_half (fun x => negb (Z.even x)) x). lra. Qed.
Definition tiny : R := / IZR (10 ^ 18).
Lemma tiny_pos : 0 < tiny.
Proof. apply Rinv_0_lt_compat, IZR_lt. lia. Qed.
Lemma decimal18_near x : Rabs (decimal18 x - x) <= tiny / 2.
Proof.
  unfold decimal18, tiny. set (p := IZR (10 ^ 18)). assert (P : 0 < p) by (apply IZR_lt; lia).
  pose proof (nearest_half (x * p)) as H. replace (IZR (ZnearestE (x * p)) / p - x) with (- ((x * p - IZR (ZnearestE (x * p))) * / p)) by (field; lra).
  rewrite Rabs_Ropp, Rabs_mult, (Rabs_pos_eq (/ p)) by (apply Rlt_le, Rinv_0_lt_compat; easy).
  assert (0 < / p) by now apply Rinv_0_lt_compat. nra.
Qed.

(** A number is written as an optional sign, a non-empty string of digits, a point and exactly
    eighteen digits, and that decimal is within half a unit of the last place. *)
Theorem C45_text : forall x, exists sign int frac,
  fmt18 x = sign ++ int ++ [dot] ++ frac /\ Forall is_digit int /\ int <> [] /\ Forall is_digit frac /\ length frac = 18%nat /\
  (sign = [] /\ Rabs (IZR (numeral (int ++ frac)) / 10 ^ 18 - x) <= / 10 ^ 18 / 2 \/
   sign = [minus] /\ Rabs (- (IZR (numeral (int ++ frac)) / 10 ^ 18) - x) <= / 10 ^ 18 / 2).
Proof.
  intros x. unfold fmt18. set (n := Z.abs (ZnearestE (x * IZR (10 ^ 18)))).
  assert (N0 : (0 <= n)%Z) by apply Z.abs_nonneg.
  assert (I0 : (0 <= n / 10 ^ 18)%Z) by (apply Z.div_pos; lia).
  assert (F0 : (0 <= n mod 10 ^ 18 < 10 ^ 18)%Z) by (apply Z.mod_pos_bound; lia).
  set (int := digits (S (Z.to_nat (Z.log2 (n / 10 ^ 18)))) (n / 10 ^ 18)). set (frac := fixed 18 (n mod 10 ^ 18)).
  destruct (digits_digits (S (Z.to_nat (Z.log2 (n / 10 ^ 18)))) _ I0 ltac:(lia)) as [D1 D2]. fold int in D1, D2.
  destruct (fixed_digits 18 (n mod 10 ^ 18)) as [D3 D4]. fold frac in D3, D4.
  assert (V : numeral (int ++ frac) = n).
  { destruct (take_all _ (n / 10 ^ 18) 0 0 (frac ++ []) (conj I0 (fuel_ok _ I0)) ltac:(lia)) as (len & L & E). fold int in E.
    unfold frac in E at 2. rewrite take_fixed in E by lia. cbn [take_digits] in E. rewrite app_nil_r, take_spec in E by now apply Forall_app.
    apply (f_equal (fun x => fst (fst x))) in E. cbn [fst] in E. unfold numeral. etransitivity; [exact E|]. rewrite Z.mod_small by (change (Z.of_nat 18) with 18%Z; lia).
    change (Z.of_nat 18) with 18%Z. pose proof (Z.div_mod n (10 ^ 18) ltac:(lia)). lia. }
  assert (T18 : 10 ^ 18 = IZR (10 ^ 18)) by exact (pow_IZR 10 18).
  pose proof (decimal18_near x) as NR. unfold decimal18, tiny in NR.
  exists (if Rltb x 0 then [minus] else []), int, frac. do 5 (split; [easy|]). rewrite V, T18.
  destruct (nearest_sign x) as [SN SP].
  destruct (Rltb x 0) eqn:C; [apply Rltb_iff in C; right|apply Rltb_false in C; left]; (split; [easy|]).
  - unfold n. rewrite Z.abs_neq, opp_IZR by now apply SN.
    replace (- (- IZR (ZnearestE (x * IZR (10 ^ 18))) / IZR (10 ^ 18))) with (IZR (ZnearestE (x * IZR (10 ^ 18))) / IZR (10 ^ 18)) by (unfold Rdiv; ring).
    exact NR.
  - unfold n. rewrite Z.abs_eq by now apply SP. exact NR.
Qed.

(** ** The value read back *)
Definition reread (x : R) : R := to_double (decimal18 x).
Lemma reread_double x : double (reread x).
Proof. apply generic_format_round; typeclasses eauto. Qed.
Lemma reread_nearest x g : double g -> Rabs (reread x - decimal18 x) <= Rabs (g - decimal18 x).
Proof.
  intros G. unfold reread, to_double.
  destruct (round_N_pt radix2 (FLT_exp (-1074) 53) (fun x => negb (Z.even x)) (decimal18 x)) as [_ H]. now apply H.
Qed.
Lemma reread_near x : double x -> Rabs (reread x - x) <= tiny.
Proof.
  intros D. pose proof (reread_nearest x x D) as H. pose proof (decimal18_near x) as N. rewrite Rabs_minus_sym in N.
  replace (reread x - x) with ((reread x - decimal18 x) + (decimal18 x - x)) by ring.
  eapply Rle_trans; [apply Rabs_triang|]. rewrite (Rabs_minus_sym (decimal18 x) x). lra.
Qed.
Definition p7 : R := bpow radix2 (-7).
Lemma p7_val : p7 = 1 / 128. Proof. unfold p7. cbn. lra. Qed.
Lemma p7_dec : p7 * IZR (10 ^ 18) = IZR 7812500000000000.
Proof. rewrite p7_val. change (10 ^ 18)%Z with (128 * 7812500000000000)%Z. rewrite mult_IZR. field. Qed.
Lemma double_p7 : double p7.
Proof. apply generic_format_bpow. cbn. lia. Qed.
(** doubles of magnitude at least 2^-7 are multiples of 2^-59 *)
Lemma grid x : double x -> p7 <= Rabs x -> exists k, x = IZR k * bpow radix2 (-59).
Proof.
  intros D M.
  assert (MG : (-6 <= mag radix2 x)%Z) by (apply (mag_ge_bpow radix2 x (-6)); exact M).
  rewrite D. unfold F2R, cexp. cbn [Fnum Fexp]. set (m := Ztrunc _). set (e := FLT_exp (-1074) 53 (mag radix2 x)).
  assert (E : (-59 <= e)%Z) by (unfold e, FLT_exp; lia).
  exists (m * 2 ^ (e + 59))%Z. rewrite mult_IZR. change 2%Z with (radix_val radix2). rewrite IZR_Zpower by lia.
  rewrite Rmult_assoc, <- bpow_plus. do 2 f_equal. lia.
Qed.
Lemma tiny_grid : tiny < bpow radix2 (-59).
Proof.
  unfold tiny. change (bpow radix2 (-59)) with (/ IZR (2 ^ 59)). apply Rinv_lt_contravar; [|apply IZR_lt; reflexivity].
  rewrite <- mult_IZR. apply IZR_lt. reflexivity.
Qed.
Lemma reread_exact x : double x -> p7 <= Rabs x -> reread x = x.
Proof.
  intros D M.
  assert (P : 0 < IZR (10 ^ 18)) by (apply IZR_lt; lia).
  assert (MY : p7 <= Rabs (reread x)).
  { pose proof p7_val as PV. destruct (Rle_lt_dec 0 x) as [X|X].
    - rewrite Rabs_pos_eq in M by easy. apply Rle_trans with (reread x); [|apply Rle_abs].
      apply round_ge_generic; [typeclasses eauto|typeclasses eauto|apply double_p7|]. unfold decimal18.
      apply Rmult_le_reg_r with (IZR (10 ^ 18)); [easy|]. unfold Rdiv. rewrite Rmult_assoc, Rinv_l, Rmult_1_r, p7_dec by lra.
      apply IZR_le. rewrite <- (Zrnd_IZR ZnearestE 7812500000000000). apply Zrnd_le; [typeclasses eauto|]. rewrite <- p7_dec.
      apply Rmult_le_compat_r; lra.
    - rewrite Rabs_left in M by easy. apply Rle_trans with (- reread x); [|rewrite <- Rabs_Ropp; apply Rle_abs].
      apply Ropp_le_cancel. rewrite Ropp_involutive.
      apply round_le_generic; [typeclasses eauto|typeclasses eauto|apply generic_format_opp, double_p7|]. unfold decimal18.
      apply Rmult_le_reg_r with (IZR (10 ^ 18)); [easy|]. unfold Rdiv. rewrite Rmult_assoc, Rinv_l, Rmult_1_r, Ropp_mult_distr_l_reverse, p7_dec, <- opp_IZR by lra.
      apply IZR_le. rewrite <- (Zrnd_IZR ZnearestE (Z.opp 7812500000000000)). apply Zrnd_le; [typeclasses eauto|]. rewrite opp_IZR, <- p7_dec.
      rewrite <- Ropp_mult_distr_l_reverse. apply Rmult_le_compat_r; lra. }
  destruct (grid x D M) as (a & EA). destruct (grid (reread x) (reread_double x) MY) as (b & EB).
  pose proof (reread_near x D) as N. pose proof tiny_grid as TG. rewrite EB, EA in N |- *.
  rewrite <- Rmult_minus_distr_r, <- minus_IZR, Rabs_mult, <- abs_IZR in N.
  rewrite (Rabs_pos_eq (bpow _ _)) in N by apply bpow_ge_0.
  assert (Z.abs (b - a) < 1)%Z; [|assert (b = a) as -> by lia; easy].
  apply lt_IZR. pose proof (bpow_gt_0 radix2 (-59)). nra.
Qed.
Lemma reread_zero : reread 0 = 0.
Proof.
  unfold reread, decimal18. rewrite Rmult_0_l, (Zrnd_IZR ZnearestE 0). unfold Rdiv. rewrite Rmult_0_l. apply round_0. typeclasses eauto.
Qed.

Lemma mapM_all {A B} (f : A -> res B) (g : A -> B) l : (forall x, In x l -> f x = Ok (g x)) -> mapM f l = Ok (map g l).
Proof.
  induction l as [|x l IH]; intros H; [easy|]. cbn [mapM map]. rewrite H by now left. cbn [bind]. rewrite IH; [easy|]. intros; apply H. now right.
Qed.
Lemma roundtrip rows w : Forall (fun r => length r = S w) rows -> read_array (savetxt rows) = Ok (map (map reread) rows).
Proof.
  intros W. unfold read_array, savetxt.
  assert (E : csv_reader (concat (map (fun row => join [comma; space] (map fmt18 row) ++ [nl]) rows)) = Ok (map as_read (map (map fmt18) rows))).
  { rewrite <- (map_map (map fmt18) (fun row => join [comma; space] row ++ [nl])). apply csv_roundtrip.
    apply Forall_forall. intros r I. apply in_map_iff in I as (r0 & <- & I). rewrite Forall_forall in W. specialize (W _ I). split.
    - destruct r0; [discriminate W|easy].
    - apply Forall_forall. intros f J. apply in_map_iff in J as (x & <- & _). apply fmt18_plain. }
  rewrite E. cbn [bind]. clear E. destruct rows as [|r0 rows]; [easy|].
  assert (LA : forall r, length (as_read (map fmt18 r)) = length r).
  { intros [|x r]; [easy|]. cbn [map as_read length]. now rewrite !map_length. }
  assert (FB : forallb (fun r' => length r' =? length (as_read (map fmt18 r0)))%nat (map as_read (map (map fmt18) (r0 :: rows))) = true).
  { apply forallb_forall. intros r I. apply in_map_iff in I as (r1 & <- & I). apply in_map_iff in I as (r2 & <- & I).
    rewrite !LA. apply Nat.eqb_eq. rewrite Forall_forall in W. rewrite (W r2 I), (W r0); [easy|now left]. }
  change (map as_read (map (map fmt18) (r0 :: rows))) with (as_read (map fmt18 r0) :: map as_read (map (map fmt18) rows)) in *.
  cbn iota. rewrite FB. clear FB W.
  change (as_read (map fmt18 r0) :: map as_read (map (map fmt18) rows)) with (map as_read (map (map fmt18) (r0 :: rows))).
  generalize (r0 :: rows). clear. intros rows. induction rows as [|r rows IH]; [easy|]. cbn [map mapM]. rewrite IH.
  assert (E : mapM py_float (as_read (map fmt18 r)) = Ok (map reread r)); [|now rewrite E].
  destruct r as [|x r]; [easy|]. cbn [map as_read mapM]. pose proof (float_fmt18 x false) as F. cbn [app] in F. rewrite F. cbn [bind].
  assert (E : mapM py_float (map (cons space) (map fmt18 r)) = Ok (map reread r)); [|now rewrite E].
  clear. induction r as [|x r IH]; [easy|]. cbn [map mapM]. pose proof (float_fmt18 x true) as F. cbn [app] in F. rewrite F. cbn [bind]. now rewrite IH.
Qed.

(** The round trip: an array with at least one column is read back with the same rows and columns;
    every value is a double within 1e-18 of the original, and the original itself when that is zero
    or at least 2^-7 in magnitude. *)
Theorem C45_roundtrip : forall (rows : list (list R)) w,
  Forall (fun r => length r = S w) rows -> Forall (Forall double) rows ->
  exists rows', read_array (savetxt rows) = Ok rows' /\
    Forall2 (Forall2 (fun x y => double y /\ Rabs (y - x) <= / 10 ^ 18 /\ (x = 0 \/ / 2 ^ 7 <= Rabs x -> y = x))) rows rows'.
Proof.
  intros rows w W D. exists (map (map reread) rows). split; [now apply (roundtrip rows w)|].
  assert (T18 : / 10 ^ 18 = tiny) by (unfold tiny; f_equal; exact (pow_IZR 10 18)).
  assert (P7 : / 2 ^ 7 = p7) by (rewrite p7_val; cbn; lra).
  rewrite T18, P7. clear W. induction D as [|r rows D DS IH]; [constructor|]. cbn [map]. constructor; [|exact IH]. clear DS IH.
  induction D as [|x r DX D IH]; [constructor|]. cbn [map]. constructor; [|exact IH].
  split; [apply reread_double|]. split; [now apply reread_near|]. intros [->|M]; [apply reread_zero|now apply reread_exact].
Qed.

(** An array without rows gives an empty file, which reads as an empty array. *)
Theorem C45_empty : read_array (savetxt []) = Ok [].
Proof. reflexivity. Qed.

(** ** Below 2^-7 a double can change, and can vanish *)
Definition small : R := IZR 4503599627370507 * bpow radix2 (-60).
Lemma small_double : double small.
Proof.
  apply generic_format_FLT. exists (Float radix2 4503599627370507 (-60)); [easy|cbn; lia|cbn; lia].
Qed.
Lemma neighbour_double : double (IZR 4503599627370508 * bpow radix2 (-60)).
Proof.
  apply generic_format_FLT. exists (Float radix2 4503599627370508 (-60)); [easy|cbn; lia|cbn; lia].
Qed.
Lemma small_dec : decimal18 small = IZR 3906250000000010 / IZR (10 ^ 18).
Proof.
  unfold decimal18. do 2 f_equal. apply Znearest_imp. unfold small.
  change (bpow radix2 (-60)) with (/ IZR (2 ^ 60)). set (a := IZR (2 ^ 60)).
  assert (A : 0 < a) by (apply IZR_lt; lia).
  replace (IZR 4503599627370507 * / a * IZR (10 ^ 18) - IZR 3906250000000010)
    with ((IZR 4503599627370507 * IZR (10 ^ 18) - IZR 3906250000000010 * a) * / a) by (field; lra).
  unfold a. rewrite <- !mult_IZR, <- minus_IZR, Rabs_mult, <- abs_IZR, (Rabs_pos_eq (/ _)) by (apply Rlt_le, Rinv_0_lt_compat; exact A).
  fold a. apply Rmult_lt_reg_r with a; [easy|]. rewrite Rmult_assoc, Rinv_l, Rmult_1_r by lra.
  apply Rmult_lt_reg_l with 2; [lra|]. replace (2 * (/ 2 * a)) with a by field. unfold a. rewrite <- mult_IZR. apply IZR_lt. reflexivity.
Qed.
Theorem C45_exact_below_refuted :
  exists x y, double x /\ / 2 ^ 8 < x < / 2 ^ 7 /\ read_array (savetxt [[x]]) = Ok [[y]] /\ y <> x.
Proof.
  assert (A : 0 < IZR (2 ^ 60)) by (apply IZR_lt; lia).
  exists small, (reread small). split; [apply small_double|]. split; [|split].
  - unfold small. change (bpow radix2 (-60)) with (/ IZR (2 ^ 60)). split.
    + apply Rmult_lt_reg_r with (IZR (2 ^ 60)); [easy|]. rewrite Rmult_assoc, Rinv_l, Rmult_1_r by lra.
      replace (/ 2 ^ 8) with (/ IZR 256) by (f_equal; cbn; lra). apply Rmult_lt_reg_l with (IZR 256); [apply IZR_lt; lia|].
      rewrite <- Rmult_assoc, Rinv_r, Rmult_1_l by (apply IZR_neq; lia). rewrite <- mult_IZR. apply IZR_lt. reflexivity.
    + apply Rmult_lt_reg_r with (IZR (2 ^ 60)); [easy|]. rewrite Rmult_assoc, Rinv_l, Rmult_1_r by lra.
      replace (/ 2 ^ 7) with (/ IZR 128) by (f_equal; cbn; lra). apply Rmult_lt_reg_l with (IZR 128); [apply IZR_lt; lia|].
      rewrite <- (Rmult_assoc (IZR 128)), Rinv_r, Rmult_1_l by (apply IZR_neq; lia). rewrite <- mult_IZR. apply IZR_lt. reflexivity.
  - apply (roundtrip [[small]] 0). repeat constructor.
  - intros E. pose proof (reread_nearest small _ neighbour_double) as H. rewrite E, small_dec in H. clear E. unfold small in H.
    change (bpow radix2 (-60)) with (/ IZR (2 ^ 60)) in H. revert H. apply Rlt_not_le.
    set (p := IZR (10 ^ 18)). set (a := IZR (2 ^ 60)) in *. assert (P : 0 < p) by (apply IZR_lt; lia).
    assert (AP : 0 < a * p) by nra.
    assert (G : forall m, Rabs (IZR m * / a - IZR 3906250000000010 / p) = IZR (Z.abs (m * 10 ^ 18 - 3906250000000010 * 2 ^ 60)) * / (a * p)).
    { intros m. replace (IZR m * / a - IZR 3906250000000010 / p) with ((IZR m * p - IZR 3906250000000010 * a) * / (a * p)) by (field; lra).
      rewrite Rabs_mult, (Rabs_pos_eq (/ _)) by (apply Rlt_le, Rinv_0_lt_compat; easy). unfold p, a.
      now rewrite abs_IZR, minus_IZR, !mult_IZR. }
    rewrite !G. apply Rmult_lt_compat_r; [now apply Rinv_0_lt_compat|]. apply IZR_lt. reflexivity.
Qed.
Theorem C45_vanishes :
  exists x, double x /\ x <> 0 /\ read_array (savetxt [[x]]) = Ok [[0]].
Proof.
  exists (bpow radix2 (-70)). split; [apply generic_format_bpow; cbn; lia|]. split; [apply Rgt_not_eq, bpow_gt_0|].
  rewrite (roundtrip [[bpow radix2 (-70)]] 0) by repeat constructor. cbn [map]. do 3 f_equal. unfold reread, decimal18.
  rewrite (Znearest_imp _ _ 0).
  - unfold Rdiv. rewrite Rmult_0_l. apply round_0. typeclasses eauto.
  - change (bpow radix2 (-70)) with (/ IZR (2 ^ 70)). rewrite Rminus_0_r.
    assert (A : 0 < IZR (2 ^ 70)) by (apply IZR_lt; lia). assert (P : 0 < IZR (10 ^ 18)) by (apply IZR_lt; lia).
    rewrite Rabs_pos_eq by (apply Rmult_le_pos; [apply Rlt_le, Rinv_0_lt_compat|]; lra).
    apply Rmult_lt_reg_l with (IZR (2 ^ 70)); [easy|]. rewrite <- Rmult_assoc, Rinv_r, Rmult_1_l by lra.
    apply Rmult_lt_reg_r with 2; [lra|]. rewrite Rmult_assoc, Rinv_l, Rmult_1_r by lra. rewrite <- mult_IZR. apply IZR_lt. reflexivity.
Qed.

(** Non-vacuity: a 2 x 2 array that survives unchanged. *)
Example C45_example : read_array (savetxt [[1; -(3 / 4)]; [0; / 128]]) = Ok [[1; -(3 / 4)]; [0; / 128]].
Proof.
  assert (D1 : double 1) by (apply (generic_format_bpow radix2 _ 0); cbn; lia).
  assert (D2 : double (-(3 / 4))).
  { apply generic_format_FLT. exists (Float radix2 (-3) (-2)); [unfold F2R; cbn; lra|cbn; lia|cbn; lia]. }
  assert (D3 : double (/ 128)). { replace (/ 128) with p7 by (rewrite p7_val; lra). apply double_p7. }
  rewrite (roundtrip _ 1) by (repeat constructor). cbn [map]. rewrite reread_zero.
  pose proof p7_val as P. rewrite !reread_exact; try easy; rewrite P.
  - rewrite Rabs_pos_eq; lra. - rewrite Rabs_left; lra. - rewrite Rabs_pos_eq; lra.
Qed.
