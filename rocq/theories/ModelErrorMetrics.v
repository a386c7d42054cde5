(** Model of /repo/src/models/error_metrics.py.

    Arrays are modelled by their list of entries in C order (the 2-norm of a vector and
    the Frobenius norm of a matrix are the same function of that list, lines 20 and 42).
    Simplification: only arrays of equal size are accepted; numpy would also broadcast
    arrays of different shape, a case in which "error of an estimate" makes no sense.
    Division by a zero norm does not raise in numpy; it gives nan or inf with a warning,
    modelled by [NonFinite]. *)
From Coq Require Import List Reals Bool.
From Verif Require Import BasePy BaseFld BaseSum BaseMat.
Import ListNotations.
Local Open Scope R_scope.

Inductive flt := Fin (r : R) | NonFinite.

(** complex modulus, [np.abs] *)
Definition cabs (z : C) : R := sqrt (re z * re z + im z * im z).

(** [np.linalg.norm(a, 'fro')] = [np.linalg.norm(a, 2)] of the entries *)
Definition np_norm (l : list C) : R := sqrt (lsum (map (fun z => cabs z * cabs z) l)).

(** elementwise difference; ValueError if the sizes differ *)
Definition np_sub (y h : list C) : res (list C) :=
  if Nat.eqb (length y) (length h) then Ok (map (fun p => csub (fst p) (snd p)) (combine y h))
  else Err ValueError.

(** [np.max] of a 1-D array; ValueError on an empty one *)
Fixpoint rmax_list (x : R) (l : list R) : R :=
  match l with [] => x | y :: r => rmax_list (Rmax x y) r end.
Definition np_max (l : list R) : res R :=
  match l with [] => Err ValueError | x :: r => Ok (rmax_list x r) end.

(** error_metrics.py:12-20 *)
Definition fro_error (y y_hat : list C) : res R :=
  d <- np_sub y y_hat ;; Ok (np_norm d).

(** error_metrics.py:23-31 *)
Definition max_error (y y_hat : list C) : res R :=
  d <- np_sub y y_hat ;; np_max (map cabs d).

(** float division *)
Definition fdiv (a b : R) : flt := if Req_EM_T b 0 then NonFinite else Fin (a / b).
Definition fscale (x : flt) (k : R) : flt := match x with Fin r => Fin (r * k) | NonFinite => NonFinite end.

(** error_metrics.py:34-42 *)
Definition rrms_error (y y_hat : list C) : res flt :=
  f <- fro_error y y_hat ;; Ok (fscale (fdiv f (np_norm y)) 100).

(** boolean-mask selection [a[mask]]; IndexError if the sizes differ *)
Fixpoint select {A} (mask : list bool) (l : list A) : list A :=
  match mask, l with
  | b :: m, x :: r => if b then x :: select m r else select m r
  | _, _ => []
  end.
Definition np_mask {A} (l : list A) (mask : list bool) : res (list A) :=
  if Nat.eqb (length l) (length mask) then Ok (select mask l) else Err IndexError.

(** error_metrics.py:45-56; [np.linalg.norm(np.abs(a))] is the 2-norm of the moduli *)
Definition rnorm (l : list R) : R := sqrt (lsum (map (fun x => x * x) l)).
Definition map_error (y y_hat : list C) : res flt :=
  let mask := map (fun z => negb (z =? 0)%K) y in
  y_non_zero <- np_mask y mask ;;
  y_hat_non_zero <- np_mask y_hat mask ;;
  d <- np_sub y_non_zero y_hat_non_zero ;;
  Ok (fscale (fdiv (rnorm (map cabs d)) (rnorm (map cabs y_non_zero))) 100).

(** error_metrics.py:59-73 *)
Record ErrorMetrics := mkErrorMetrics { em_fro : R; em_max : R; em_rrms : flt; em_map : flt }.
Definition error_metrics (y y_hat : list C) : res ErrorMetrics :=
  f <- fro_error y y_hat ;; m <- max_error y y_hat ;;
  r <- rrms_error y y_hat ;; p <- map_error y y_hat ;;
  Ok (mkErrorMetrics f m r p).
