(** * The scalar operations of numpy float64: IEEE binary64 with rounding to nearest even (Flocq).

    The elementary functions and np.mod are those of some libm: an arbitrary record of functions.
    [lit m e] divides the integers m and 10^(-e) (or multiplies by 10^e); both are exact in binary64 for
    every literal of the repository, so the quotient is the correctly rounded literal Python reads.
    np.dot of four numbers is summed from left to right without fused operations. *)

From Coq Require Import ZArith Bool.
From Flocq Require Import Core BinarySingleNaN.
From Verif Require Import Num.
Local Open Scope Z_scope.

Definition f64 : Set := binary_float 53 1024.
#[global] Instance f64_prec : Prec_gt_0 53 := eq_refl.
#[global] Instance f64_emax : Prec_lt_emax 53 1024 := eq_refl.

Definition f_of_Z (n : Z) : f64 := binary_normalize 53 1024 f64_prec f64_emax mode_NE n 0 false.
Definition f_lit (m e : Z) : f64 :=
  if e <? 0 then Bdiv mode_NE (f_of_Z m) (f_of_Z (10 ^ (- e))) else f_of_Z (m * 10 ^ e).
(** math.pi = 884279719003555 / 2^48 *)
Definition f_pi : f64 := binary_normalize 53 1024 f64_prec f64_emax mode_NE 884279719003555 (-48) false.

Record libm := { m_sin : f64 -> f64; m_cos : f64 -> f64; m_acos : f64 -> f64; m_ln : f64 -> f64; m_mod : f64 -> f64 -> f64 }.

Definition F64 (L : libm) : Num := {|
  T := f64;
  lit := f_lit;
  add := Bplus mode_NE;
  sub := Bminus mode_NE;
  mul := Bmult mode_NE;
  div := Bdiv mode_NE;
  opp := Bopp;
  absv := Babs;
  sqrtn := Bsqrt mode_NE;
  sinn := m_sin L;
  cosn := m_cos L;
  acosn := m_acos L;
  lnn := m_ln L;
  npi := f_pi;
  modn := m_mod L;
  ninf := B754_infinity false;
  isfin := is_finite;
  ltb := Bltb;
  leb := Bleb;
  eqb := Beqb;
  trunc := fun x => if is_finite x then Some (Btrunc x) else None
|}.
