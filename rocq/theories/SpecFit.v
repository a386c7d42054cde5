(** Vocabulary for the iterative estimators, independent of their loops. *)
From Coq Require Import Arith List Bool.
From Verif Require Import BasePy BaseFld BaseOrd BaseSum BaseMat BaseLin ModelMatrixOps ModelPrior SpecPrior SpecMatrix SpecLS ModelFit.
Import ListNotations.
Local Open Scope K_scope.

Section Spec.
Context {K : Type} {O : Ops K} {O2 : OrdOps K}.
Notation CK := (cplx K).

(** the two targets are close and the last one is not larger *)
Definition settled (abs_tol rel_tol cur prev : K) : Prop :=
  cur <=! prev /\ (kabs (cur - prev) <! abs_tol \/ (prev <> 0 /\ kabs (cur - prev) / kabs prev <! rel_tol)).

(** target of the k-th record *)
Definition target_at (l : list (status K)) (k : nat) : K := nth k (map st_target l) 0.

(** the solver only returns solutions of the system it is given *)
Definition solver_sound (spsolve : mat K -> list K -> res (list K)) : Prop :=
  forall A m b y, shape A m m -> length b = m -> spsolve A b = Ok y -> length y = m /\ mvmul A y = b.

(** the solver solves every regular system *)
Definition solver_complete (spsolve : mat K -> list K -> res (list K)) : Prop :=
  forall A m b, shape A m m -> length b = m -> inj A -> exists y, spsolve A b = Ok y.

(** weighted squares with the weights frozen at [w]:
    sum over the rows of residual(u)^2 / (|residual(w)|^(2-order) + alpha) *)
Definition frozen_penalty (p : sprior K) (w u : list K) : K :=
  sumn (length (bmu (base p))) (fun i =>
    residual (base p) u i * residual (base p) u i /
    (kpow (kabs (residual (base p) w i)) (2 - nth i (gamma p) 0%nat) + alpha p)).

(** quadratic form of a weight matrix at the real form of a complex matrix *)
Definition wnorm2 (W : mat K) (m : mat CK) : K :=
  let v := make_real_vector (vectorize_matrix m) in vdot v (mvmul W v).

(** symmetric positive semidefinite *)
Definition psd (m : nat) (W : mat K) : Prop :=
  shape W m m /\ tr W = W /\ forall v, length v = m -> 0 <=! vdot v (mvmul W v).

(** sum over the rows of |residual|^(2-order) + alpha, the reported penalty *)
Definition prior_sum (p : sprior K) (u : list K) : K :=
  sumn (length (bmu (base p))) (fun i => kpow (kabs (residual (base p) u i)) (2 - nth i (gamma p) 0%nat) + alpha p).

(** regularised squared misfit, with the prior frozen at [w] *)
Definition br_objective (lam : K) (p : sprior K) (x z : mat CK) (w u : list K) (Y : mat CK) : K :=
  fro2 (msubt z (mmul x Y)) + lam * frozen_penalty p w u.

Definition br_target (lam : K) (p : sprior K) (x z : mat CK) (u : list K) (Y : mat CK) : K :=
  fro2 (msubt z (mmul x Y)) + lam * prior_sum p u.

(** [u] holds the real then the imaginary parts of the P parameters of the n-by-n matrix
    [Y]: entry (i, j) is the combination of them given by row j*n+i of [DT] *)
Definition represents (DT : mat K) (n P : nat) (u : list K) (Y : mat CK) : Prop :=
  length u = (2 * P)%nat /\ shape Y n n /\
  forall i j, (i < n)%nat -> (j < n)%nat ->
    get Y i j = Cx (sumn P (fun k => get DT (j * n + i) k * vget u k))
                   (sumn P (fun k => get DT (j * n + i) k * vget u (P + k))).

(** the data determine the parameters *)
Definition identifiable (x : mat CK) (DT : mat K) (n P : nat) : Prop :=
  forall u v Yu Yv, represents DT n P u Yu -> represents DT n P v Yv -> mmul x Yu = mmul x Yv -> u = v.

(** weighted input and output errors *)
Definition input_objective (zw xw : mat K) (x z Y D : mat CK) : K :=
  wnorm2 zw (msubt z (mmul (msubt x D) Y)) + wnorm2 xw D.

(** regularised weighted misfit for corrected inputs [xc] *)
Definition eiv_objective (lam : K) (p : sprior K) (zw : mat K) (xc z : mat CK) (w u : list K) (Y : mat CK) : K :=
  wnorm2 zw (msubt z (mmul xc Y)) + lam * frozen_penalty p w u.

Definition eiv_target (lam : K) (p : sprior K) (zw xw : mat K) (x z D : mat CK) (u : list K) (Y : mat CK) : K :=
  wnorm2 zw (msubt z (mmul (msubt x D) Y)) + wnorm2 xw D + lam * prior_sum p u.

(** previous estimate of the k-th iteration *)
Definition prev_y (y0 : mat CK) (new : list (status K)) (k : nat) : mat CK :=
  match k with 0 => y0 | S j => st_y (nth j new (St 0 y0 0)) end.

(** corrected data: both halves of the result *)
Definition satisfies_flow (n : nat) (Y : mat CK) (d : mat CK) : Prop :=
  mmul (mslice d 0 (nr d) 0 n) Y = mslice d 0 (nr d) n (2 * n).

(** *** The unweighted iteration *)
Definition first_half (n : nat) (d : mat CK) : mat CK := mslice d 0 (nr d) 0 n.

(** an estimator with penalty rows [p], n nodes, P complex parameters: [DT] builds the
    matrix from the parameters, [El] extracts them *)
Definition setting (e : estimator K) (p : sprior K) (n P : nat) (DT El : mat K) : Prop :=
  (forall v, e_prior e v = log_distribution p v) /\ well_formed p (2 * P) /\ 0 <! alpha p /\ 0 <=! e_lambda e /\
  e_dt e n = Ok DT /\ e_el e n = Ok El /\ shape DT (n * n) P.

(** real form of the parameters extracted from a matrix *)
Definition params (El : mat K) (Y : mat CK) : list K := make_real_vector (mvmul (cmat El) (vectorize_matrix Y)).

(** all penalties vanish *)
Definition prior_satisfied (p : sprior K) (u : list K) : Prop :=
  forall i, (i < length (bmu (base p)))%nat -> residual (base p) u i = 0.

(** symmetric positive definite *)
Definition posdef (m : nat) (W : mat K) : Prop :=
  psd m W /\ forall v, length v = m -> vdot v (mvmul W v) = 0 -> v = vzeros m.
End Spec.
