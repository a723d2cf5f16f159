(** * Model of hand_eye_calibration/scripts/close_the_circle_test.py

    The script is a small build system: each step runs when requiresUpdate says so.  Files carry their
    modification time and whether they were written to the end.  Simplifications: commands write
    nothing but their outputs, write nothing when an input is missing, and write all outputs when they
    succeed; the group directory exists; nobody else writes during a run; times are clock ticks. *)

From Coq Require Import String Ascii List Bool Arith.
Import ListNotations.
Local Open Scope string_scope.

Definition path := string.
Definition files := path -> option (nat * bool).

(** getMTimes, :18-19 *)
Definition get_mtimes (fs : files) (inputs : list path) : list nat :=
  flat_map (fun p => match fs p with Some (t, _) => [t] | None => [] end) inputs.
(** max and min of a non-empty list *)
Fixpoint list_maximum (l : list nat) : nat := match l with [] => 0 | [x] => x | x :: l' => Nat.max x (list_maximum l') end.
Fixpoint list_minimum (l : list nat) : nat := match l with [] => 0 | [x] => x | x :: l' => Nat.min x (list_minimum l') end.
(** requiresUpdate, :22-25 *)
Definition requires_update (fs : files) (inputs outputs : list path) : bool :=
  let its := get_mtimes fs inputs in
  let ots := get_mtimes fs outputs in
  (List.length ots =? 0)%nat || ((0 <? List.length its)%nat && (list_minimum ots <? list_maximum its)%nat).

(** a guarded step, or files that are read (ExtrinsicCalibration.fromJson) *)
Inductive item := Make (inputs outputs : list path) | Load (paths : list path).

(** calibrateTwo, :35-79 *)
Definition a_aligned (group a : string) : path := group ++ "/" ++ a ++ "_aligned.csv".
Definition time_offset_file (group : string) : path := group ++ "/" ++ "time_offset.csv".
Definition pose_file (group : string) : path := group ++ "/" ++ "pose.csv".
Definition init_guess_file (group : string) : path := group ++ "_init_guess.json".
Definition calib_file (group : string) : path := group ++ ".json".
Definition calibrate_two (group : string) (a_in b_in : path) (a b : string) : list item :=
  [Make [a_in; b_in] [a_aligned group a; a_aligned group b; time_offset_file group];
   Make [a_aligned group a; a_aligned group b] [pose_file group];
   Make [time_offset_file group; pose_file group] [init_guess_file group];
   Make [a_in; b_in; init_guess_file group] [calib_file group];
   Load [calib_file group; init_guess_file group]].

(** os.path.basename: what follows the last slash *)
Fixpoint basename_from (s acc : string) : string :=
  match s with
  | EmptyString => acc
  | String c s' => if Ascii.eqb c "/" then basename_from s' "" else basename_from s' (acc ++ String c "")
  end.
Definition basename (s : string) : string := basename_from s "".
(** os.path.splitext(...)[0] of a base name: up to the last dot, unless only dots come before it *)
Fixpoint last_dot (s : string) (i : nat) (best : option nat) : option nat :=
  match s with
  | EmptyString => best
  | String c s' => last_dot s' (S i) (if Ascii.eqb c "." then Some i else best)
  end.
Fixpoint all_dots (s : string) : bool :=
  match s with EmptyString => true | String c s' => Ascii.eqb c "." && all_dots s' end.
Definition splitext (s : string) : string :=
  match last_dot s 0 None with
  | Some i => if all_dots (substring 0 i s) then s else substring 0 i s
  | None => s
  end.
(** :84 *)
Definition name_of (p : path) : string := splitext (basename p).

(** __main__, :82-103 *)
Definition script (input : list path) : list item :=
  match input with
  | [a; b] => calibrate_two "test" a b (name_of a) (name_of b)
  | [a; b; c] =>
      (calibrate_two "0_1" a b (name_of a) (name_of b) ++ calibrate_two "1_2" b c (name_of b) (name_of c) ++
       calibrate_two "2_0" c a (name_of c) (name_of a))%list
  | _ => []
  end.

(** ** Executions *)
(** the files and the clock *)
Definition state := (files * nat)%type.
Definition write_file (fs : files) (p : path) (t : nat) (whole : bool) : files :=
  fun q => if String.eqb q p then Some (t, whole) else fs q.
(** time passes and some of [outs] are written, completely or not *)
Inductive writes (outs : list path) : state -> state -> Prop :=
| w_nil : forall s, writes outs s s
| w_tick : forall fs t t' s, (t <= t')%nat -> writes outs (fs, t') s -> writes outs (fs, t) s
| w_write : forall fs t p whole s, In p outs -> writes outs (write_file fs p t whole, t) s -> writes outs (fs, t) s.
Definition exist (fs : files) (ps : list path) : Prop := Forall (fun p => fs p <> None) ps.
(** a command that exits with code 0 *)
Definition succeeds (ins outs : list path) (s s' : state) : Prop :=
  exist (fst s) ins /\ writes outs s s' /\ Forall (fun p => exists t, fst s' p = Some (t, true) /\ (snd s <= t)%nat) outs.

(** A run: which steps were executed, whether it got to the end, and the state left behind.  It can be
    killed, or stop with an exception, before any item and within any command. *)
Inductive run_items : list item -> state -> list bool -> bool -> state -> Prop :=
| r_done : forall s, run_items [] s [] true s
| r_stop : forall is s, run_items is s [] false s
| r_skip : forall ins outs is s ex c s', requires_update (fst s) ins outs = false ->
    run_items is s ex c s' -> run_items (Make ins outs :: is) s (false :: ex) c s'
| r_make : forall ins outs is s s1 ex c s', requires_update (fst s) ins outs = true ->
    succeeds ins outs s s1 -> run_items is s1 ex c s' -> run_items (Make ins outs :: is) s (true :: ex) c s'
| r_fail : forall ins outs is s s1, requires_update (fst s) ins outs = true ->
    exist (fst s) ins -> writes outs s s1 -> run_items (Make ins outs :: is) s [true] false s1
| r_load : forall ps is s ex c s', exist (fst s) ps -> run_items is s ex c s' -> run_items (Load ps :: is) s ex c s'.

(** Later runs, with time passing in between; the inputs are left alone. *)
Inductive runs (is : list item) : state -> list bool -> state -> Prop :=
| rs_nil : forall s, runs is s [] s
| rs_wait : forall fs t t' cs s, (t <= t')%nat -> runs is (fs, t') cs s -> runs is (fs, t) cs s
| rs_run : forall s ex c s1 cs s2, run_items is s ex c s1 -> runs is s1 cs s2 -> runs is s (c :: cs) s2.
