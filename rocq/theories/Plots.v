(** * Model of hand_eye_calibration_experiments/bin/generate_plots.py: the numbers that are plotted

    A figure is what plt.show() shows: the data handed to boxplot and imshow.  Labels, colours and the drawing itself
    are left out; drawing is assumed not to fail. *)

From Coq Require Import ZArith String List Bool Arith.
From Verif Require Import Num Py TimeAlign Experiments.
Import ListNotations.
Local Open Scope list_scope.

Section Plots.
  Context {N : Num}.
  Local Open Scope num_scope.

  Inductive figure :=
  | BoxPlot (dataset : string) (methods : list string) (positions orientations : list (list T))
  | TimePlot (methods : list string) (runtimes : list (string * list (list T)))
  | ErrorMaps (translations angles : list (list T)).      (** rows by y, columns by x *)

  (** np.arange(start, stop, step): ceil((stop - start) / step) numbers *)
  Definition arange (start stop step : T) : res (list T) :=
    let q := (stop - start) / step in
    match trunc q with
    | None => Err ValueError
    | Some n =>
        let n := if lit n 0 <? q then (n + 1)%Z else n in
        Ok (map (fun i => start + of_nat i * ((start + step) - start)) (seq 0 (Z.to_nat n)))
    end.
  (** bisect.bisect_right, binary search as in TimeAlign.bisect_loop *)
  Fixpoint bisect_right_loop (fuel : nat) (l : list T) (x : T) (lo hi : nat) : res nat :=
    match fuel with
    | O => Ok lo
    | S fuel' =>
        if (lo <? hi)%nat then
          let mid := ((lo + hi) / 2)%nat in
          do m <- index l mid;
          if x <? m then bisect_right_loop fuel' l x lo mid
          else bisect_right_loop fuel' l x (S mid) hi
        else Ok lo
    end.
  Definition bisect_right (l : list T) (x : T) : res nat := bisect_right_loop (length l) l x 0 (length l).

  (** ** generate_optimization_circle_error_plot :99-283 *)
  (** 'start', 'end' and 'step' *)
  Record range := mkRange { r_start : T; r_end : T; r_step : T }.
  (** :109-120 *)
  Definition edges (r : range) : res (list T) := arange (r_start r) (r_end r + r_step r) (r_step r).
  (** the bins :167-173, error_bins[k][j][i], as a function *)
  Definition bins : Type := nat -> nat -> nat -> list T.
  Definition bin_append (b : bins) (k j i : nat) (x : T) : bins :=
    fun k' j' i' => if ((k' =? k) && (j' =? j) && (i' =? i))%nat then b k' j' i' ++ [x] else b k' j' i'.
  (** np.linalg.norm of a number *)
  Definition norm1 (x : T) : T := sqrtn (x * x).
  (** one measurement: offsets for x, y and the plot, and the two errors *)
  Record sample := mkSample { s_x : T; s_y : T; s_plot : T; s_position : T; s_orientation : T }.
  (** the loop body :184-199 *)
  Definition assign (xs ys ps : list T) (b : bins * bins) (s : sample) : res (bins * bins) :=
    do x_idx <- bisect_right xs (norm1 (s_x s));
    do y_idx <- bisect_right ys (norm1 (s_y s));
    do plot_idx <- bisect_right ps (norm1 (s_plot s));
    assert (0 <? x_idx)%nat;
    assert (0 <? y_idx)%nat;
    assert (0 <? plot_idx)%nat;
    assert (x_idx <? length xs)%nat;
    assert (y_idx <? length ys)%nat;
    assert (plot_idx <? length ps)%nat;
    Ok (bin_append (fst b) (plot_idx - 1) (y_idx - 1) (x_idx - 1) (s_position s),
        bin_append (snd b) (plot_idx - 1) (y_idx - 1) (x_idx - 1) (s_orientation s)).
  Fixpoint assign_all (xs ys ps : list T) (b : bins * bins) (l : list sample) : res (bins * bins) :=
    match l with
    | [] => Ok b
    | s :: l' => do b' <- assign xs ys ps b s; assign_all xs ys ps b' l'
    end.
  (** :208-227 for one bin; the caps are switched off (:125-126) *)
  Definition bin_means (n : nat) (b : bins * bins) (k j i : nat) : res (T * T) :=
    assert (length (fst b k j i) =? n)%nat;
    assert (length (snd b k j i) =? n)%nat;
    Ok (mean (fst b k j i), mean (snd b k j i)).
  Fixpoint mapM {A B} (f : A -> res B) (l : list A) : res (list B) :=
    match l with
    | [] => Ok []
    | x :: l' => do y <- f x; do ys <- mapM f l'; Ok (y :: ys)
    end.
  (** :206-227 *)
  Definition error_matrices (n : nat) (b : bins * bins) (ny nx k : nat) : res figure :=
    do rows <- mapM (fun j => mapM (fun i => bin_means n b k j i) (seq 0 nx)) (seq 0 ny);
    Ok (ErrorMaps (map (map fst) rows) (map (map snd) rows)).
  (** :201-283: the figures shown and the exception that ends the loop, if any *)
  Fixpoint show_maps (n : nat) (b : bins * bins) (ny nx : nat) (ks : list nat) : list figure * option exn :=
    match ks with
    | [] => ([], None)
    | k :: ks' =>
        match error_matrices n b ny nx k with
        | Err e => ([], Some e)
        | Ok f => let '(fs, e) := show_maps n b ny nx ks' in (f :: fs, e)
        end
    end.
  (** the order "translation_time_angle" :130-139 that is selected in :323: angles along x, times along y, one plot per
      translation.  zip stops at the shortest list. *)
  Fixpoint samples (angles times translations positions orientations : list T) : list sample :=
    match angles, times, translations, positions, orientations with
    | a :: angles', t :: times', p :: translations', e :: positions', o :: orientations' =>
        mkSample a t p e o :: samples angles' times' translations' positions' orientations'
    | _, _, _, _, _ => []
    end.
  Definition circle_error_plot (time_range translation_range angle_range : range) (t : table N) (n : nat) : list figure * option exn :=
    if negb (length (t_loop_position t) =? length (t_loop_orientation t))%nat then ([], Some AssertionError)
    else
      match edges time_range, edges translation_range, edges angle_range with
      | Ok ys, Ok ps, Ok xs =>
          match assign_all xs ys ps (fun _ _ _ => [], fun _ _ _ => [])
                  (samples (t_angles t) (t_times t) (t_translations t) (t_loop_position t) (t_loop_orientation t)) with
          | Err e => ([], Some e)
          | Ok b => show_maps n b (length ys - 1) (length xs - 1) (seq 0 (length ps - 1))
          end
      | _, _, _ => ([], Some ValueError)
      end.

  (** ** the other plots *)
  (** d[dataset][method] *)
  Definition per_item (d : dict (dict (list T))) (dataset method : string) : res (list T) :=
    do inner <- dict_item d dataset; dict_item inner method.
  (** :314-319 *)
  Fixpoint box_plots (t : table N) (datasets : list string) : list figure * option exn :=
    match datasets with
    | [] => ([], None)
    | d :: datasets' =>
        match (do p <- mapM (per_item (t_position_per t) d) (t_methods t);
               do o <- mapM (per_item (t_orientation_per t) d) (t_methods t);
               Ok (BoxPlot d (t_methods t) p o)) with
        | Err e => ([], Some e)
        | Ok f => let '(fs, e) := box_plots t datasets' in (f :: fs, e)
        end
    end.
  (** generate_time_plot :62-96; seven colours :307 *)
  Definition time_plot (t : table N) : res figure :=
    if (length (t_methods t) =? 0)%nat then Err ZeroDivisionError
    else if (length (t_datasets t) =? 0)%nat then Err ZeroDivisionError
    else
      do rows <- mapM (fun '(i, d) =>
                         do r <- mapM (per_item (t_runtimes_per t) d) (t_methods t);
                         if (i <? 7)%nat then Ok (d, r) else Err IndexError)
                      (combine (seq 0 (length (t_datasets t))) (t_datasets t));
      Ok (TimePlot (t_methods t) rows).
  (** ** the main program :286-424 *)
  Definition degrees (z : Z) : T := lit z 0 / lit 180 0 * npi.
  Definition main_times : range := mkRange (lit 0 0) (lit 23 (-2)) (lit 3 (-2)).
  Definition main_translations : range := mkRange (lit 0 0) (lit 1 (-1)) (lit 1 (-1)).
  Definition main_angles : range := mkRange (lit 0 0) (degrees 120) (degrees 15).
  Definition generate_plots (files : list (list (row N))) : list figure * option exn :=
    match collect_data_from_csv files true with
    | Err e => ([], Some e)
    | Ok t =>
        match box_plots t (t_datasets t) with
        | (fs, Some e) => (fs, Some e)
        | (fs, None) =>
            match time_plot t with
            | Err e => (fs, Some e)
            | Ok f => let '(fs', e) := circle_error_plot main_times main_translations main_angles t 60 in (fs ++ [f] ++ fs', e)
            end
        end
    end.
End Plots.
Arguments figure : clear implicits.
