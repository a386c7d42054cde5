(** Model of filter_and_resample_measurement, /repo/src/simulation/noise.py:111-143.

    [scipy.interpolate.interp1d(x, y)(x_new)] is modelled by its linear branch: the points are
    sorted by x (stable), a point outside the range is refused, and the value is
    slope * (x_new - x_lo) + y_lo on the interval found by searchsorted.  Fewer than two points
    are refused (recent scipy versions return nan instead).  Arithmetic is exact; two equal
    times give nan in the code and an arbitrary value here.
    [fparam] is a natural number: the callers pass int(floor(..)). *)
From Coq Require Import Arith List Bool.
From Verif Require Import BasePy BaseFld BaseOrd BaseSum BaseMat BaseLin.
Import ListNotations.
Local Open Scope K_scope.

(** a standard deviation given for all columns or one per column (noise.py:133-134) *)
Inductive stdarg (D : Type) := StdScalar (d : D) | StdIter (l : list D).
Arguments StdScalar {D} d.
Arguments StdIter {D} l.
Definition std_at {D} (a : stdarg D) (i : nat) : res D :=
  match a with
  | StdScalar d => Ok d
  | StdIter l => match nth_error l i with Some d => Ok d | None => Err IndexError end
  end.

Section Resample.
Context {K : Type} {O : Ops K} {O2 : OrdOps K}.
Notation CK := (cplx K).

Fixpoint insert_point (p : K * CK) (l : list (K * CK)) : list (K * CK) :=
  match l with
  | [] => [p]
  | q :: r => if kleb (fst p) (fst q) then p :: l else q :: insert_point p r
  end.
Fixpoint sort_points (l : list (K * CK)) : list (K * CK) :=
  match l with [] => [] | p :: r => insert_point p (sort_points r) end.

(** searchsorted of a sorted array, side 'left', clipped to 1 .. len-1 *)
Definition search (x : list K) (v : K) : nat := length (filter (fun a => kltb a v) x).
Definition clip (lo hi i : nat) : nat := Nat.min (Nat.max i lo) hi.

Definition interp_at (x : list K) (y : list CK) (v : K) : CK :=
  let hi := clip 1 (length x - 1) (search x v) in
  let lo := (hi - 1)%nat in
  let dy := csub (vget y hi) (vget y lo) in
  let dx := vget x hi - vget x lo in
  let d := v - vget x lo in
  cadd (Cx (re dy / dx * d) (im dy / dx * d)) (vget y lo).

Definition interp1d (x : list K) (y : list CK) (x_new : list K) : res (list CK) :=
  if negb (length x =? length y)%nat then Err ValueError else
  if (length x <? 2)%nat then Err ValueError else
  let pts := sort_points (combine x y) in
  let xs := map fst pts in let ys := map snd pts in
  if existsb (fun v => kltb v (vget xs 0) || kltb (vget xs (length xs - 1)) v) x_new then Err ValueError
  else Ok (map (interp_at xs ys) x_new).

(** [noise_fcn] with the state of the random generator *)
Context {St D : Type}.
Definition noise_fun := list CK -> D -> D -> St -> res (list CK * St).

(** noise.py:131-134 *)
Definition add_noise (noise_fcn : option noise_fun) (std_m std_p : option (stdarg D)) (i : nat) (v : list CK) (s : St)
  : res (list CK * St) :=
  match noise_fcn, std_m, std_p with
  | Some f, Some m, Some p => a <- std_at m i ;; b <- std_at p i ;; f v a b s
  | _, _, _ => Ok (v, s)
  end.

(** noise.py:130-141: the columns one after the other *)
Fixpoint resample_columns (M : mat CK) (oldtimes newtimes : list K) (steps fparam : nat)
  (noise_fcn : option noise_fun) (std_m std_p : option (stdarg D)) (cols : list nat) (s : St) : res (list (list CK) * St) :=
  match cols with
  | [] => Ok ([], s)
  | i :: r =>
    tmp <- interp1d oldtimes (mcol M i) newtimes ;;
    '(resampled, s1) <- add_noise noise_fcn std_m std_p i tmp s ;;
    let filtered := map (fun t => let sum := lsum (firstn fparam (skipn (t * fparam) resampled)) in
                                  Cx (re sum / knat fparam) (im sum / knat fparam)) (range steps) in
    '(rest, s2) <- resample_columns M oldtimes newtimes steps fparam noise_fcn std_m std_p r s1 ;;
    Ok (filtered :: rest, s2)
  end.

(** noise.py:111-143.  Without [newtimes] line 124 takes the length of None; without [oldtimes]
    line 125 uses 0 .. steps-1 with steps the number of output samples. *)
Definition filter_and_resample_measurement (M : mat CK) (oldtimes newtimes : option (list K)) (fparam : nat)
  (std_m std_p : option (stdarg D)) (noise_fcn : option noise_fun) (s : St) : res (mat CK * St) :=
  match newtimes with
  | None => Err TypeError
  | Some new =>
    if (fparam =? 0)%nat then Err ZeroDivisionError else
    let steps := (length new / fparam)%nat in
    let old := match oldtimes with Some l => l | None => map knat (range steps) end in
    '(cols, s') <- resample_columns M old new steps fparam noise_fcn std_m std_p (range (nc M)) s ;;
    Ok (mk steps (nc M) (fun t i => vget (nth i cols []) t), s')
  end.
End Resample.
