(** Smoothed penalties over the reals. *)
From Coq Require Import Arith List Reals.
From Verif Require Import BasePy BaseFld BaseOrd BaseSum BaseMat BaseLin ModelMatrixOps ModelPrior SpecPrior SpecMatrix SpecLS ModelFit SpecFit.
Import ListNotations.
Local Open Scope R_scope.

(** smoothed penalty of one residual of absolute value [t]: l2, l1 and l0 orders *)
Definition psi (order : nat) (a t : R) : R :=
  match order with
  | 0%nat => ln (t * t + a)
  | 1%nat => 2 * (t - a * ln (1 + t / a))
  | _ => t * t / (1 + a)
  end.

Definition smooth_penalty (p : sprior R) (u : list R) : R :=
  sumn (length (bmu (base p))) (fun i => psi (nth i (gamma p) 0%nat) (alpha p) (kabs (residual (base p) u i))).

(** smoothed regularised misfit *)
Definition br_smooth (lam : R) (p : sprior R) (x z : mat (cplx R)) (u : list R) (Y : mat (cplx R)) : R :=
  fro2 (msubt z (mmul x Y)) + lam * smooth_penalty p u.

(** smoothed error-in-variables objective *)
Definition eiv_smooth (lam : R) (p : sprior R) (W : mat R) (x z D : mat (cplx R)) (u : list R) (Y : mat (cplx R)) : R :=
  input_objective W W x z Y D + lam * smooth_penalty p u.
