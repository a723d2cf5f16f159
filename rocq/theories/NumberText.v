(** * Model of the text of the numbers in the pose files of hand_eye_calibration_target_extractor/src/target_extractor.cc
      (cited as te.cc) and of hand_eye_calibration/bin/tf_to_csv.py (cited as tf.py)

    A finite double is modelled by its real value, as in CsvText.v (no sign of zero, no inf and nan). *)

From Coq Require Import Reals ZArith List Bool Ascii.
From Flocq Require Import Core.
From Verif Require Import Py XReal CsvText.
Import ListNotations.
Local Open Scope R_scope.

Definition radix10 : radix := Build_radix 10 eq_refl.
(** the decimal exponent of x and its first P digits, correctly rounded (ties to even): what printf("%.*e") of the C
    library and Python's own conversion compute; a carry into a new digit increases the exponent *)
Definition significant (P : nat) (x : R) : Z * Z :=
  if Req_bool x 0 then (0, 0)%Z
  else
    let e := (mag radix10 x - 1)%Z in
    let n := ZnearestE (Rabs x * powerRZ 10 (Z.of_nat P - 1 - e)) in
    if (n =? 10 ^ Z.of_nat P)%Z then (e + 1, 10 ^ (Z.of_nat P - 1))%Z else (e, n).
(** zeros at the end are removed *)
Fixpoint strip_zeros (t : text) : text :=
  match t with
  | [] => []
  | c :: t' => match strip_zeros t' with
               | [] => if Ascii.eqb c (digit 0) then [] else [c]
               | u => c :: u
               end
  end.
(** the digits behind the point, or [whole] if there is none left *)
Definition point (whole frac : text) : text := match strip_zeros frac with [] => whole | f => dot :: f end.
Definition natural (z : Z) : text := digits (S (Z.to_nat (Z.log2 z))) z.
(** at least two digits *)
Definition exponent_text (e : Z) : text :=
  ascii_of_nat 101 :: (if (e <? 0)%Z then minus else plus) :: (if (Z.abs e <? 10)%Z then fixed 2 (Z.abs e) else natural (Z.abs e)).
(** "%.Pg" % x: fixed notation for exponents from -4 to below [limit], otherwise with an exponent; [whole] is appended
    to a number without a point and without an exponent *)
Definition general (P : nat) (limit : Z) (whole : text) (x : R) : text :=
  let '(e, n) := significant P x in
  (if Rltb x 0 then [minus] else []) ++
    if ((-4 <=? e) && (e <? limit))%Z then
      let d := Z.to_nat (Z.of_nat P - 1 - e) in
      let m := (n * 10 ^ Z.max 0 (e + 1 - Z.of_nat P))%Z in
      natural (m / 10 ^ Z.of_nat d) ++ point whole (fixed d (m mod 10 ^ Z.of_nat d))
    else
      let d := (P - 1)%nat in
      natural (n / 10 ^ Z.of_nat d) ++ point [] (fixed d (n mod 10 ^ Z.of_nat d)) ++ exponent_text e.
(** std::ostream << double with std::setprecision(max_digits10), te.cc:293, 299, 307, 315 *)
Definition cpp17 (x : R) : text := general 17 17 [] x.
(** str(float) of Python 2: "%.12g" with ".0" behind whole numbers, tf.py:69-73 *)
Definition str2 (x : R) : text := general 12 11 [dot; digit 0] x.
(** str(float) of Python 3, tf.py:69-73: as many digits as are needed to read the number back.  Simplified: beside a power
    of two Python sometimes finds a shorter text than the rounded one. *)
Fixpoint enough (k P : nat) (x : R) : nat :=
  match k with
  | O => P
  | S k' => if Req_bool (to_double (round radix10 (FLX_exp (Z.of_nat P)) ZnearestE x)) x then P else enough k' (S P) x
  end.
Definition str3 (x : R) : text := general (enough 16 1 x) 16 [dot; digit 0] x.
(** the rows te.cc:298-303 and 313-321 (time stamps of type double, te.cc:112, 120) and tf.py:68-73; the files with the
    number of the image instead of the time stamp are not modelled *)
Definition table (number : R -> text) (rows : list (list R)) : text :=
  concat (map (fun row => join [comma; space] (map number row) ++ [nl]) rows).
