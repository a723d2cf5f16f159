(** * Model of python/hand_eye_calibration/time_alignment.py

    Line numbers refer to that file.  Printing and plotting are not modelled.  Library calls are
    modelled by their documented meaning over [Num]: numpy sums run left to right, and
    scipy.signal.correlate is the direct sum (scipy may choose an FFT for long signals). *)

From Coq Require Import ZArith List Bool Arith.
From Verif Require Import Num Py Quat DualQuat.
Import ListNotations.
Local Open Scope num_scope.

(** Python indexing with a possibly negative index: l[-1] is the last element. *)
Definition py_index {A} (l : list A) (i : Z) : res A :=
  if (i <? 0)%Z
  then (if (i + Z.of_nat (length l) <? 0)%Z then Err IndexError
        else index l (Z.to_nat (i + Z.of_nat (length l))))
  else index l (Z.to_nat i).

Section TimeAlign.
  Context {N : Num}.

  (** ** Library functions *)

  (** np.nan *)
  Definition nan : T := n0 / n0.
  Definition isnan (x : T) : bool := negb (x =? x).

  (** np.diff *)
  Fixpoint diff (l : list T) : list T :=
    match l with
    | x :: (y :: _) as l' => (y - x) :: diff l'
    | _ => []
    end.
  (** np.mean; the mean of an empty array is nan *)
  Definition mean (l : list T) : T := sumn l / of_nat (length l).

  (** np.sort *)
  Fixpoint insert (x : T) (l : list T) : list T :=
    match l with
    | [] => [x]
    | y :: l' => if y <? x then y :: insert x l' else x :: l
    end.
  Definition sort (l : list T) : list T := fold_right insert [] l.

  (** np.median: nan for an empty array or when some entry is nan; otherwise the mean of the one
      or two middle elements *)
  Definition median (l : list T) : T :=
    if existsb isnan l then nan
    else
      let s := sort l in
      let n := length s in
      match n with
      | O => nan
      | _ =>
          if Nat.odd n then mean [nth (n / 2) s nan]
          else mean [nth (n / 2 - 1) s nan; nth (n / 2) s nan]
      end.

  (** np.percentile(a, p) of the flattened array, linear interpolation between order statistics;
      IndexError for an empty array *)
  Definition percentile (l : list T) (p : T) : res T :=
    match l with
    | [] => Err IndexError
    | _ =>
        if (p <? n0) || (p >? lit 100 0) then Err ValueError
        else if existsb isnan l then Ok nan
        else
          let s := sort l in
          let pos := p / lit 100 0 * of_nat (length s - 1) in
          match trunc pos with
          | None => Err ValueError
          | Some k =>
              let lo := Z.to_nat k in
              let hi := Nat.min (S lo) (length s - 1) in
              let w := pos - of_nat lo in
              Ok (nth lo s nan * (n1 - w) + nth hi s nan * w)
          end
    end.

  (** np.linspace(start, stop, num) with a float num, which numpy (< 1.18) truncates.  int(inf)
      raises OverflowError in Python, written ValueError here as for int(nan). *)
  Definition linspace (start stop num : T) : res (list T) :=
    match trunc num with
    | None => Err ValueError
    | Some k =>
        if (k <? 0)%Z then Err ValueError
        else
          let n := Z.to_nat k in
          let delta := stop - start in
          match n with
          | O => Ok []
          | S O => Ok [n0 * delta + start]
          | S d =>
              let step := delta / of_nat d in
              Ok (map (fun i => of_nat i * step + start) (seq 0 d) ++ [stop])
          end
    end.

  (** bisect.bisect_left: binary search; the interval [lo, hi) shrinks in every step, so its
      initial length is enough fuel *)
  Fixpoint bisect_loop (fuel : nat) (l : list T) (x : T) (lo hi : nat) : res nat :=
    match fuel with
    | O => Ok lo
    | S fuel' =>
        if (lo <? hi)%nat then
          let mid := ((lo + hi) / 2)%nat in
          do m <- index l mid;
          if m <? x then bisect_loop fuel' l x (S mid) hi
          else bisect_loop fuel' l x lo mid
        else Ok lo
    end.
  Definition bisect_left (l : list T) (x : T) : res nat := bisect_loop (length l) l x 0 (length l).

  (** np.interp(x, xp, fp) at one point, for sorted xp: constant beyond the ends, otherwise linear
      between the last xp <= x and its successor *)
  Fixpoint interp_from (x xj fj : T) (rest : list (T * T)) : T :=
    match rest with
    | [] => fj
    | (xk, fk) :: rest' =>
        if xk <=? x then interp_from x xk fk rest'
        else (fk - fj) / (xk - xj) * (x - xj) + fj
    end.
  Definition interp (x : T) (pts : list (T * T)) : res T :=
    match pts with
    | [] => Err ValueError
    | (x0, f0) :: rest => if x <? x0 then Ok f0 else Ok (interp_from x x0 f0 rest)
    end.

  (** value of a signal at an integer position, zero outside (zero padding) *)
  Definition padded (l : list T) (i : Z) : T :=
    if (i <? 0)%Z then n0 else nth (Z.to_nat i) l n0.
  (** scipy.signal.correlate(x, y), mode 'full':
      out[k] = sum_l x[l] * y[l - k + len(y) - 1],  0 <= k <= len(x) + len(y) - 2.  An empty input
      gives an empty output. *)
  Definition correlate_full (x y : list T) : list T :=
    match x, y with
    | [], _ | _, [] => []
    | _, _ =>
        map (fun k => sumn (map (fun l => padded x (Z.of_nat l)
                                          * padded y (Z.of_nat l - Z.of_nat k + Z.of_nat (length y) - 1))
                                (seq 0 (length x))))
            (seq 0 (length x + length y - 1))
    end.
  (** mode 'same': the len(x) central values of the full output, from (len(y) - 1) // 2 on *)
  Definition correlate_same (x y : list T) : list T :=
    firstn (length x) (skipn ((length y - 1) / 2) (correlate_full x y)).

  (** np.argmax: first index of the maximum; ValueError for an empty array (nan entries are not
      given numpy's special treatment) *)
  Fixpoint argmax_from (best_i : nat) (best : T) (i : nat) (l : list T) : nat :=
    match l with
    | [] => best_i
    | x :: l' => if x >? best then argmax_from i x (S i) l' else argmax_from best_i best (S i) l'
    end.
  Definition argmax (l : list T) : res nat :=
    match l with
    | [] => Err ValueError
    | x :: l' => Ok (argmax_from 0 x 1 l')
    end.

  (** ** The functions of the file *)

  (** class FilteringConfig :14-20 *)
  Record filtering_config := mkFiltering {
    smoothing_kernel_size_A : nat;
    clipping_percentile_A : T;
    smoothing_kernel_size_B : nat;
    clipping_percentile_B : T;
  }.
  Definition default_filtering : filtering_config := mkFiltering 25 (lit 995 (-1)) 25 (lit 99 0).

  (** the (n, 3) array as a list of rows, and one of its columns *)
  Definition flatten3 (l : list vec3) : list T := flat_map (fun v => [vx v; vy v; vz v]) l.

  (** filter_and_smooth_angular_velocity :23-44; the kernel has shape (k, 1), so each column is
      smoothed on its own.  A kernel of size 0 is rejected by scipy. *)
  Definition filter_and_smooth (v : list vec3) (kernel_size : nat) (clip_percentile : T) : res (list vec3) :=
    do max_value <- percentile (flatten3 v) clip_percentile;
    let clipped f := map (fun r => clip (- max_value) max_value (f r)) v in
    match kernel_size with
    | O => Err ValueError
    | _ =>
        let kernel := repeat (n1 / of_nat kernel_size) kernel_size in
        let smoothed f := correlate_same (clipped f) kernel in
        Ok (map (fun p => mkV (fst (fst p)) (snd (fst p)) (snd p))
                (combine (combine (smoothed vx) (smoothed vy)) (smoothed vz)))
    end.

  (** calculate_time_offset_from_signals :47-60 *)
  Definition calculate_time_offset_from_signals (times_A signal_A times_B signal_B : list T) : res T :=
    let convoluted_signals := correlate_full signal_B signal_A in
    let dt_A := mean (diff times_A) in
    do max_index <- argmax convoluted_signals;
    let offset_index := (Z.of_nat max_index - Z.of_nat (length signal_A) + 1)%Z in
    do tB <- index times_B 0;
    do tA <- index times_A 0;
    Ok (dt_A * lit offset_index 0 + tB - tA).

  (** the body of the loop of resample_quaternions_from_samples :69-85.  The assertion
      [right_idx < times.shape[0]] :78 cannot fail after times[right_idx] :74. *)
  Definition resample_one (times : list T) (quaternions : list quat) (sample : T) : res quat :=
    do last <- py_index times (-1);
    assert sample <=? last;
    do first <- py_index times 0;
    assert first <=? sample;
    do right_idx <- bisect_left times sample;
    do t_right <- index times right_idx;
    if isclose (lit 1 (-16)) sample t_right then index quaternions right_idx
    else
      match right_idx with
      | O => Err AssertionError                              (* left_idx >= 0 :79 *)
      | S left_idx =>
          do q_left <- index quaternions left_idx;
          do t_left <- index times left_idx;
          do q_right <- index quaternions right_idx;
          do l <- quaternions_interpolate q_left t_left q_right t_right [sample];
          index l 0
      end.
  (** resample_quaternions_from_samples :63-88; one quaternion is appended per sample, so the final
      length assertion holds by construction *)
  Definition resample_quaternions_from_samples (times : list T) (quaternions : list quat) (samples : list T)
    : res (list quat) :=
    mapM (resample_one times quaternions) samples.

  (** resample_quaternions :91-100 *)
  Definition resample_quaternions (times : list T) (quaternions : list quat) (dt : T) : res (list quat * list T) :=
    do last <- py_index times (-1);
    do first <- py_index times 0;
    let interval := last - first in
    do samples <- linspace first last (interval / dt + n1);
    do qs <- resample_quaternions_from_samples times quaternions samples;
    Ok (qs, samples).

  (** the loop :107-111 of compute_angular_velocity_norms *)
  Fixpoint angular_velocities (quaternions : list quat) (samples : list T) : res (list vec3) :=
    match quaternions with
    | q :: (q' :: _) as quaternions' =>
        do s' <- index samples 1;
        do s <- index samples 0;
        let dt := s' - s in
        assert dt >? n0;
        do rest <- angular_velocities quaternions' (tl samples);
        Ok (angular_velocity_between_quaternions q q' dt :: rest)
    | _ => Ok []
    end.
  (** compute_angular_velocity_norms :103-121; with no quaternion np.zeros((-1, 3)) raises *)
  Definition compute_angular_velocity_norms (quaternions : list quat) (samples : list T)
      (smoothing_kernel_size : nat) (clipping_percentile : T) : res (list T) :=
    match quaternions with
    | [] => Err ValueError
    | _ =>
        do velocity <- angular_velocities quaternions samples;
        do filtered <- filter_and_smooth velocity smoothing_kernel_size clipping_percentile;
        do norms <- mapM (fun i => do v <- index filtered i; Ok (vnorm v)) (seq 0 (length quaternions - 1));
        assert (length norms =? length quaternions - 1)%nat;
        Ok norms
    end.

  (** calculate_time_offset :124-180 *)
  Definition calculate_time_offset (times_A : list T) (quaternions_A : list quat)
      (times_B : list T) (quaternions_B : list quat) (cfg : filtering_config) : res T :=
    let dt_A := mean (diff times_A) in
    let dt_B := mean (diff times_B) in
    let dt := if dt_A >=? dt_B then dt_A else dt_B in
    do ra <- resample_quaternions times_A quaternions_A dt;
    let '(qA, samples_A) := ra in
    do rb <- resample_quaternions times_B quaternions_B dt;
    let '(qB, samples_B) := rb in
    do norms_A <- compute_angular_velocity_norms qA samples_A (smoothing_kernel_size_A cfg) (clipping_percentile_A cfg);
    do norms_B <- compute_angular_velocity_norms qB samples_B (smoothing_kernel_size_B cfg) (clipping_percentile_B cfg);
    let length_before := length samples_A in
    let samples_A := firstn (length norms_A) samples_A in
    let samples_B := firstn (length norms_B) samples_B in
    assert (length samples_A =? length_before - 1)%nat;
    calculate_time_offset_from_signals samples_A norms_A samples_B norms_B.

  (** A row [t, x, y, z, qx, qy, qz, qw] of a time stamped pose array is (t, pose); arrays with
      another number of columns are not modelled. *)
  Definition stamped : Type := T * pose.
  Definition stamps (l : list stamped) : list T := map fst l.

  (** interpolate_poses_from_samples :183-216 *)
  Definition interpolate_poses_from_samples (poses : list stamped) (samples : list T) : res (list stamped) :=
    do quaternions_interp <- resample_quaternions_from_samples (stamps poses) (map (fun p => ori (snd p)) poses) samples;
    let column f := mapM (fun s => interp s (map (fun p => (fst p, f (pos (snd p)))) poses)) samples in
    do xs <- column vx;
    do ys <- column vy;
    do zs <- column vz;
    mapM (fun i => do s <- index samples i; do x <- index xs i; do y <- index ys i; do z <- index zs i;
                   do q <- index quaternions_interp i;
                   Ok (s, mkPose (mkV x y z) q))
         (seq 0 (length samples)).

  (** the loop :258-282: the samples taken from timestamps_low *)
  Fixpoint select_samples (start_time : T) (high : list T) (low : list T) : res (list T) :=
    match low with
    | [] => Ok []
    | timestamp :: low' =>
        if timestamp <? start_time then select_samples start_time high low'
        else
          do idx <- bisect_left high timestamp;
          if (Z.of_nat (length high) - 1 <=? Z.of_nat idx)%Z then Ok []           (* break :264-266 *)
          else
            do t_right <- index high idx;
            if timestamp =? t_right then
              do rest <- select_samples start_time high low'; Ok (timestamp :: rest)
            else
              do t_left <- py_index high (Z.of_nat idx - 1);
              if timestamp <? t_left then select_samples start_time high low'
              else
                if (timestamp - t_left <? lit 1 (-1)) && (t_right - timestamp <=? lit 1 (-1)) then
                  do rest <- select_samples start_time high low'; Ok (timestamp :: rest)
                else select_samples start_time high low'
    end.

  (** Python's max(a, b) *)
  Definition py_max (a b : T) : T := if b >? a then b else a.

  (** compute_aligned_poses :219-301 (end_time, interval and dt are computed but not used) *)
  Definition compute_aligned_poses (poses_A poses_B : list stamped) (time_offset : T)
    : res (list stamped * list stamped) :=
    let shifted := map (fun p => (fst p + time_offset, snd p)) poses_A in
    do first_A <- index (stamps shifted) 0;
    do first_B <- index (stamps poses_B) 0;
    let start_time := py_max first_A first_B in
    let dt_A := median (diff (stamps shifted)) in
    let dt_B := median (diff (stamps poses_B)) in
    let '(low, high) := if dt_A >=? dt_B then (stamps shifted, stamps poses_B)
                        else (stamps poses_B, stamps shifted) in
    do samples <- select_samples start_time high low;
    do aligned_A <- interpolate_poses_from_samples shifted samples;
    do aligned_B <- interpolate_poses_from_samples poses_B samples;
    assert (length aligned_A =? length aligned_B)%nat;
    assert allclose (lit 1 (-8)) (stamps aligned_A) (stamps aligned_B);
    Ok (aligned_A, aligned_B).
End TimeAlign.
