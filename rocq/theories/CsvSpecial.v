(** * Model of the CSV text layer for all doubles: infinities, nan, overflow and digit groups.

    CsvText.v models the numbers of csv_io.py:15-17,36 and bash_utils.py:39-42 for finite doubles.  Here the same two functions
    for every double.  The sign of zero and of nan is not represented. *)

From Coq Require Import Reals ZArith List Bool Ascii.
From Flocq Require Import Core.
From Verif Require Import Py XReal CsvText.
Import ListNotations.
Local Open Scope R_scope.

Definition letters (l : list nat) : text := map ascii_of_nat l.
Definition word_nan : text := letters [110; 97; 110]%nat.
Definition word_inf : text := letters [105; 110; 102]%nat.
Definition word_infinity : text := letters [105; 110; 102; 105; 110; 105; 116; 121]%nat.
Definition underscore : ascii := ascii_of_nat 95.

(** "%.18f" % x in np.savetxt, csv_io.py:36 *)
Definition fmt18x (x : xr) : text :=
  match x with
  | Fin r => fmt18 r
  | PInf => word_inf
  | NInf => minus :: word_inf
  | NaN => word_nan
  end.
(** np.savetxt(csv_file, array, delimiter=", ", fmt="%.18f"), csv_io.py:36 *)
Definition savetxtx (rows : list (list xr)) : text :=
  concat (map (fun row => join [comma; space] (map fmt18x row) ++ [nl]) rows).

(** the letter in lower case; other characters are left as they are *)
Definition lower (c : ascii) : ascii :=
  let n := nat_of_ascii c in if ((65 <=? n) && (n <=? 90))%nat then ascii_of_nat (n + 32) else c.
Fixpoint text_eqb (s t : text) : bool :=
  match s, t with
  | [], [] => true
  | c :: s', d :: t' => Ascii.eqb c d && text_eqb s' t'
  | _, _ => false
  end.
Definition is_word (w t : text) : bool := text_eqb (map lower t) w.
(** _Py_parse_inf_or_nan of CPython's pystrtod.c *)
Definition special (t : text) : option xr :=
  let '(negative, body) :=
    match t with
    | c :: t' => if Ascii.eqb c minus then (true, t') else if Ascii.eqb c plus then (false, t') else (false, t)
    | [] => (false, [])
    end in
  if is_word word_inf body || is_word word_infinity body then Some (if negative then NInf else PInf)
  else if is_word word_nan body then Some NaN
  else None.
Definition is_digitb (c : ascii) : bool := match digit_val c with Some _ => true | None => false end.
(** _Py_string_to_number_with_underscores of CPython's floatobject.c/object.c: [prev] is the character before *)
Fixpoint ungroup (prev : option ascii) (t : text) : option text :=
  let digit_before := match prev with Some p => is_digitb p | None => false end in
  let mark_before := match prev with Some p => Ascii.eqb p underscore | None => false end in
  match t with
  | [] => if mark_before then None else Some []
  | c :: t' =>
      if Ascii.eqb c underscore then if digit_before then ungroup (Some c) t' else None
      else if mark_before && negb (is_digitb c) then None
      else match ungroup (Some c) t' with Some u => Some (c :: u) | None => None end
  end.
(** the rounded value, or an infinity when it is beyond the largest double *)
Definition overflow (r : R) : xr :=
  if Rltb (Rabs r) (bpow radix2 1024) then Fin r else if Rltb 0 r then PInf else NInf.
(** float(str), as called by astype(float) csv_io.py:17 and np.array(dtype=float) bash_utils.py:42.
    [groups]: underscores between digits are accepted (Python 3.6 and later). *)
Definition py_floatx (groups : bool) (t : text) : res xr :=
  match (if groups then ungroup None (strip t) else Some (strip t)) with
  | None => Err ValueError
  | Some body =>
      match special body with
      | Some v => Ok v
      | None => do r <- py_float body; Ok (overflow r)
      end
  end.
(** np.array(list(csv_reader)).astype(float), csv_io.py:16-17; np.array(list(csv_reader), dtype=float), bash_utils.py:42 *)
Definition read_arrayx (groups : bool) (t : text) : res (list (list xr)) :=
  do rows <- csv_reader t;
  match rows with
  | [] => Ok []
  | r :: _ =>
      if forallb (fun r' => length r' =? length r)%nat rows then mapM (mapM (py_floatx groups)) rows
      else Err ValueError
  end.
