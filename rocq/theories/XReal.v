(** * The exact instance: reals extended with infinities and NaN.

    Differences to IEEE binary64: no rounding, no overflow/underflow, and a single unsigned zero
    (so x/0 has the sign of x). *)

From Coq Require Import Reals ZArith Bool Lra.
From Verif Require Import Num.
Local Open Scope R_scope.

Inductive xr := Fin (r : R) | PInf | NInf | NaN.

Definition Rltb (a b : R) : bool := if Rlt_dec a b then true else false.
Definition Rleb (a b : R) : bool := if Rle_dec a b then true else false.
Definition Reqb (a b : R) : bool := if Req_EM_T a b then true else false.

(** Decimal literal m * 10^e. *)
Definition Rlit (m e : Z) : R :=
  match e with
  | Z0 => IZR m
  | Zpos p => IZR (m * Z.pow_pos 10 p)
  | Zneg p => IZR m / IZR (Z.pow_pos 10 p)
  end.

Definition xopp (a : xr) : xr :=
  match a with Fin r => Fin (- r) | PInf => NInf | NInf => PInf | NaN => NaN end.

Definition xadd (a b : xr) : xr :=
  match a, b with
  | NaN, _ => NaN | _, NaN => NaN
  | Fin x, Fin y => Fin (x + y)
  | Fin _, c => c | c, Fin _ => c
  | PInf, PInf => PInf | NInf, NInf => NInf
  | PInf, NInf => NaN | NInf, PInf => NaN
  end.

Definition xsub (a b : xr) : xr :=
  match a, b with
  | Fin x, Fin y => Fin (x - y)
  | _, _ => xadd a (xopp b)
  end.

(** Infinity with the sign of a (non-zero) real factor; 0 * inf = NaN. *)
Definition inf_signed (r : R) (i : xr) : xr :=
  if Rlt_dec 0 r then i else if Rlt_dec r 0 then xopp i else NaN.

Definition xmul (a b : xr) : xr :=
  match a, b with
  | NaN, _ => NaN | _, NaN => NaN
  | Fin x, Fin y => Fin (x * y)
  | Fin x, i => inf_signed x i
  | i, Fin y => inf_signed y i
  | PInf, i => i
  | NInf, i => xopp i
  end.

Definition xdiv (a b : xr) : xr :=
  match a, b with
  | NaN, _ => NaN | _, NaN => NaN
  | Fin x, Fin y => if Req_EM_T y 0 then inf_signed x PInf else Fin (x / y)
  | Fin _, _ => Fin 0
  | i, Fin y => if Rlt_dec y 0 then xopp i else i
  | _, _ => NaN
  end.

Definition xabs (a : xr) : xr :=
  match a with Fin r => Fin (Rabs r) | NaN => NaN | _ => PInf end.

Definition xsqrt (a : xr) : xr :=
  match a with
  | Fin r => if Rlt_dec r 0 then NaN else Fin (sqrt r)
  | PInf => PInf | _ => NaN
  end.

Definition xsin (a : xr) : xr := match a with Fin r => Fin (sin r) | _ => NaN end.
Definition xcos (a : xr) : xr := match a with Fin r => Fin (cos r) | _ => NaN end.
Definition xacos (a : xr) : xr :=
  match a with
  | Fin r => if Rle_dec (-1) r then if Rle_dec r 1 then Fin (acos r) else NaN else NaN
  | _ => NaN
  end.
Definition xln (a : xr) : xr :=
  match a with
  | Fin r => if Rlt_dec 0 r then Fin (ln r) else if Req_EM_T r 0 then NInf else NaN
  | PInf => PInf | _ => NaN
  end.

(** np.mod for a positive finite modulus: x - y*floor(x/y). *)
Definition xmod (a b : xr) : xr :=
  match a, b with
  | Fin x, Fin y =>
      if Req_EM_T y 0 then NaN else Fin (x - y * IZR (Int_part (x / y)))
  | Fin x, PInf => if Rlt_dec x 0 then PInf else Fin x
  | Fin x, NInf => if Rlt_dec 0 x then NInf else Fin x
  | _, _ => NaN
  end.

Definition xltb (a b : xr) : bool :=
  match a, b with
  | Fin x, Fin y => Rltb x y
  | Fin _, PInf => true | NInf, Fin _ => true | NInf, PInf => true
  | _, _ => false
  end.
Definition xleb (a b : xr) : bool :=
  match a, b with
  | Fin x, Fin y => Rleb x y
  | Fin _, PInf => true | NInf, Fin _ => true | NInf, PInf => true
  | PInf, PInf => true | NInf, NInf => true
  | _, _ => false
  end.
Definition xeqb (a b : xr) : bool :=
  match a, b with
  | Fin x, Fin y => Reqb x y
  | PInf, PInf => true | NInf, NInf => true
  | _, _ => false
  end.
Definition xfin (a : xr) : bool := match a with Fin _ => true | _ => false end.
Definition xtrunc (a : xr) : option Z :=
  match a with
  | Fin r => Some (if Rlt_dec r 0 then (- Int_part (- r))%Z else Int_part r)
  | _ => None
  end.

#[export] Instance XR : Num := {|
  T := xr; lit m e := Fin (Rlit m e);
  add := xadd; sub := xsub; mul := xmul; div := xdiv; opp := xopp; absv := xabs;
  sqrtn := xsqrt; sinn := xsin; cosn := xcos; acosn := xacos; lnn := xln; npi := Fin PI;
  modn := xmod; ninf := PInf; isfin := xfin; ltb := xltb; leb := xleb; eqb := xeqb;
  trunc := xtrunc |}.
