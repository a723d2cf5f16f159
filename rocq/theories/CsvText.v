(** * Model of the CSV text layer: np.savetxt(delimiter=", ", fmt="%.18f") (csv_io.py:36), the csv
      module's reader (csv_io.py:15-16, bash_utils.py:40-42) and float().

    A finite double is modelled by its real value (the sign of zero is not represented).  Text is a
    list of characters.  inf and nan are in CsvSpecial.v. *)

From Coq Require Import Reals ZArith List Bool Ascii.
From Flocq Require Import Core.
From Verif Require Import Py XReal.
Import ListNotations.
Local Open Scope R_scope.

Definition text := list ascii.
Definition nl : ascii := ascii_of_nat 10.
Definition cr : ascii := ascii_of_nat 13.
Definition comma : ascii := ascii_of_nat 44.
Definition bar : ascii := ascii_of_nat 124.
Definition space : ascii := ascii_of_nat 32.
Definition minus : ascii := ascii_of_nat 45.
Definition plus : ascii := ascii_of_nat 43.
Definition dot : ascii := ascii_of_nat 46.

(** ** Writing *)
Definition digit (d : Z) : ascii := ascii_of_nat (48 + Z.to_nat d).
(** the last k decimal digits *)
Fixpoint fixed (k : nat) (z : Z) : text :=
  match k with
  | O => []
  | S k' => fixed k' (z / 10) ++ [digit (z mod 10)]
  end.
(** all decimal digits of z >= 0; a number has at most as many decimal as binary digits *)
Fixpoint digits (fuel : nat) (z : Z) : text :=
  match fuel with
  | O => []
  | S f => if (z <? 10)%Z then [digit z] else digits f (z / 10) ++ [digit (z mod 10)]
  end.
(** "%.18f" % x: the exact value is rounded to 18 decimals, ties to even *)
Definition fmt18 (x : R) : text :=
  let n := Z.abs (ZnearestE (x * IZR (10 ^ 18))) in
  let int := (n / 10 ^ 18)%Z in
  (if Rltb x 0 then [minus] else [])
    ++ digits (S (Z.to_nat (Z.log2 int))) int ++ [dot] ++ fixed 18 (n mod 10 ^ 18).
Fixpoint join (sep : text) (l : list text) : text :=
  match l with
  | [] => []
  | [f] => f
  | f :: l' => f ++ sep ++ join sep l'
  end.
(** np.savetxt(file, array, delimiter=", ", fmt="%.18f"); a 1-d array is written as one column *)
Definition savetxt (rows : list (list R)) : text :=
  concat (map (fun row => join [comma; space] (map fmt18 row) ++ [nl]) rows).

(** ** csv.reader(delimiter=',', quotechar='|'): the state machine of CPython's _csv.c *)
Inductive cstate := StartRecord | StartField | InField | InQuoted | QuoteInQuoted | EatCrnl.
Record cst := mkC { st : cstate; field : text; fields : list text }.
Definition is_nl (c : ascii) : bool := Ascii.eqb c nl || Ascii.eqb c cr.
Definition save (s : cst) (next : cstate) : cst := mkC next [] (fields s ++ [field s]).
Definition addc (s : cst) (c : ascii) (next : cstate) : cst := mkC next (field s ++ [c]) (fields s).
(** parse_process_char; [None] is the end-of-line marker passed after each line.  An unexpected
    character after a line end raises csv.Error, written ValueError here. *)
Definition start_field (s : cst) (c : ascii) : cst :=
  if is_nl c then save s EatCrnl
  else if Ascii.eqb c bar then mkC InQuoted (field s) (fields s)
  else if Ascii.eqb c comma then save s StartField
  else addc s c InField.
Definition cstep (s : cst) (c : option ascii) : res cst :=
  match st s, c with
  | StartRecord, None => Ok s
  | StartRecord, Some c => if is_nl c then Ok (mkC EatCrnl (field s) (fields s)) else Ok (start_field s c)
  | StartField, None => Ok (save s StartRecord)
  | StartField, Some c => Ok (start_field s c)
  | InField, None => Ok (save s StartRecord)
  | InField, Some c =>
      if is_nl c then Ok (save s EatCrnl)
      else if Ascii.eqb c comma then Ok (save s StartField)
      else Ok (addc s c InField)
  | InQuoted, None => Ok s
  | InQuoted, Some c => if Ascii.eqb c bar then Ok (mkC QuoteInQuoted (field s) (fields s)) else Ok (addc s c InQuoted)
  | QuoteInQuoted, None => Ok (save s StartRecord)
  | QuoteInQuoted, Some c =>
      if Ascii.eqb c bar then Ok (addc s c InQuoted)
      else if Ascii.eqb c comma then Ok (save s StartField)
      else if is_nl c then Ok (save s EatCrnl)
      else Ok (addc s c InField)
  | EatCrnl, None => Ok (mkC StartRecord (field s) (fields s))
  | EatCrnl, Some c => if is_nl c then Ok s else Err ValueError
  end.
Fixpoint crun (s : cst) (cs : list (option ascii)) : res cst :=
  match cs with
  | [] => Ok s
  | c :: cs' => do s' <- cstep s c; crun s' cs'
  end.
(** the lines of a text file, each with its line end *)
Fixpoint lines (t : text) : list text :=
  match t with
  | [] => []
  | c :: t' =>
      if Ascii.eqb c nl then [c] :: lines t'
      else match lines t' with
           | [] => [[c]]
           | l :: ls => (c :: l) :: ls
           end
  end.
Definition cinit : cst := mkC StartRecord [] [].
(** list(csv_reader): a record is complete when a line ends in the start state *)
Fixpoint records (s : cst) (ls : list text) : res (list (list text)) :=
  match ls with
  | [] => match st s with StartRecord => Ok [] | _ => Ok [fields s ++ [field s]] end
  | l :: ls' =>
      do s' <- crun s (map Some l ++ [None]);
      match st s' with
      | StartRecord => do rest <- records cinit ls'; Ok (fields s' :: rest)
      | _ => records s' ls'
      end
  end.
Definition csv_reader (t : text) : res (list (list text)) := records cinit (lines t).

(** ** float(str): surrounding white space, sign, digits, optional point and digits, optional exponent.
    inf, nan and underscores raise ValueError here; CsvSpecial.v has them. *)
Definition is_space (c : ascii) : bool :=
  let n := nat_of_ascii c in ((9 <=? n) && (n <=? 13) || (n =? 32))%nat.
Fixpoint lstrip (t : text) : text :=
  match t with
  | c :: t' => if is_space c then lstrip t' else t
  | [] => []
  end.
Definition strip (t : text) : text := rev (lstrip (rev (lstrip t))).
Definition digit_val (c : ascii) : option Z :=
  let n := nat_of_ascii c in
  if ((48 <=? n) && (n <=? 57))%nat then Some (Z.of_nat (n - 48)) else None.
(** leading digits: value, number of digits, rest *)
Fixpoint take_digits (acc : Z) (count : nat) (t : text) : Z * nat * text :=
  match t with
  | c :: t' => match digit_val c with
               | Some d => take_digits (10 * acc + d) (S count) t'
               | None => (acc, count, t)
               end
  | [] => (acc, count, [])
  end.
Definition is_e (c : ascii) : bool := Ascii.eqb c (ascii_of_nat 101) || Ascii.eqb c (ascii_of_nat 69).
(** what follows the letter of an exponent: optional sign and digits; value and rest *)
Definition exp_digits (t : text) : option (Z * text) :=
  let '(sign, body) :=
    match t with
    | c :: t' => if Ascii.eqb c minus then (-1, t') else if Ascii.eqb c plus then (1, t') else (1, t)
    | [] => (1, [])
    end%Z in
  let '(e, k, rest) := take_digits 0 0 body in
  if (k =? 0)%nat then None else Some ((sign * e)%Z, rest).
(** the end of a number: nothing or an exponent *)
Definition parse_exponent (t : text) : option Z :=
  match t with
  | [] => Some 0%Z
  | c :: t' => if is_e c then match exp_digits t' with Some (e, []) => Some e | _ => None end else None
  end.
(** optional point and digits behind the digits of [int]: all digits as one number, number of decimals, rest *)
Definition take_fraction (int : Z) (t : text) : Z * nat * text :=
  match t with
  | c :: r => if Ascii.eqb c dot then take_digits int 0 r else (int, O, t)
  | [] => (int, O, [])
  end.
(** unsigned decimal: numerator, number of decimals and exponent *)
Definition parse_unsigned (t : text) : option (Z * nat * Z) :=
  let '(int, k, rest) := take_digits 0 0 t in
  let '(n, d, rest') := take_fraction int rest in
  if (k + d =? 0)%nat then None
  else match parse_exponent rest' with Some e => Some (n, d, e) | None => None end.
(** the number with the given numerator, number of decimals and exponent *)
Definition scaled (n : Z) (d : nat) (e : Z) : R := IZR n / IZR (10 ^ Z.of_nat d) * powerRZ 10 e.
(** nearest double, ties to even (no overflow to infinity) *)
Definition to_double (x : R) : R := round radix2 (FLT_exp (-1074) 53) ZnearestE x.
Definition py_float (t : text) : res R :=
  let t := strip t in
  let '(sign, body) :=
    match t with
    | c :: t' => if Ascii.eqb c minus then (-1, t') else if Ascii.eqb c plus then (1, t') else (1, t)
    | [] => (1, [])
    end in
  match parse_unsigned body with
  | Some (n, d, e) => Ok (to_double (sign * scaled n d e))
  | None => Err ValueError
  end.
(** np.array(list(csv_reader)).astype(float): rows of unequal length raise *)
Definition read_array (t : text) : res (list (list R)) :=
  do rows <- csv_reader t;
  match rows with
  | [] => Ok []
  | r :: _ =>
      if forallb (fun r' => length r' =? length r)%nat rows then mapM (mapM py_float) rows
      else Err ValueError
  end.
