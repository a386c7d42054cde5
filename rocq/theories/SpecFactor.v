(** The factor of the penalties and the weights of the measurements. *)
From Coq Require Import Arith List.
From Verif Require Import BasePy BaseFld BaseOrd BaseSum BaseMat ModelFit ModelRun SpecMatrix SpecFit SpecIdent SpecBayes.
Import ListNotations.
Local Open Scope K_scope.

Section Spec.
Context {K : Type} {O : Ops K} {O2 : OrdOps K}.
(** the configuration with the factor of the Bayesian penalties and the absolute tolerance multiplied by [c] *)
Definition with_factor (c : K) (k : config K) : config K :=
  Config K (lambda_lasso k) (c * lambda_eiv k) (lambdaprime k) (c * abs_tol k) (rel_tol k) (use_tls_diag k) (contrast_each_row k) (regularize_diag k)
    (voltage_magnitude_sd k) (current_magnitude_sd k) (voltage_phase_sd k) (current_phase_sd k).
(** another factor of the Bayesian penalties *)
Definition other_factor (l : K) (k : config K) : config K :=
  Config K (lambda_lasso k) l (lambdaprime k) (abs_tol k) (rel_tol k) (use_tls_diag k) (contrast_each_row k) (regularize_diag k)
    (voltage_magnitude_sd k) (current_magnitude_sd k) (voltage_phase_sd k) (current_phase_sd k).
(** another factor of the penalty of the Lasso *)
Definition other_lasso (l : K) (k : config K) : config K :=
  Config K l (lambda_eiv k) (lambdaprime k) (abs_tol k) (rel_tol k) (use_tls_diag k) (contrast_each_row k) (regularize_diag k)
    (voltage_magnitude_sd k) (current_magnitude_sd k) (voltage_phase_sd k) (current_phase_sd k).
(** the same iteration and the same estimate, the target multiplied by [c] *)
Definition record_scaled (c : K) (r r' : status K) : Prop := st_it r' = st_it r /\ st_y r' = st_y r /\ st_target r' = c * st_target r.
(** every weight multiplied by [c] *)
Definition weights_scaled (c : K) (W W' : mat K) : Prop :=
  wf W /\ wf W' /\ nr W' = nr W /\ nc W' = nc W /\ forall i j, (i < nr W)%nat -> (j < nc W)%nat -> get W' i j = c * get W i j.
End Spec.
