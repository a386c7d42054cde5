(** Model of eiv_fim (/repo/src/identification/run.py:458-534).  The function of the same
    name for three phases (run3ph.py:282-308) computes nothing and returns zeros; it is not modelled.

    Arithmetic is exact.  [np.random.multivariate_normal] is a parameter: it takes the mean,
    the covariance matrix, the number of samples and the state of the generator; it may fail.
    [np.random.seed(seed)] is the constant state [seeded].
    Where [fisher_info] divides by zero the arrays hold inf or nan; the model then stops with
    None and says nothing about the results or the file. *)
From Coq Require Import Arith List Bool Reals.
From Verif Require Import BasePy BaseFld BaseSum BaseMat BaseNumpy ModelMatrixOps ModelErrorMetrics ModelNoiseCov ModelFisher ModelRun.
Import ListNotations.
Local Open Scope R_scope.

(** the keys of [fim_results_<name>.npz], run.py:517 *)
Record fim_file := mkFim { ff_y : mat C; ff_v : mat C; ff_i : mat C; ff_f : mat R; ff_c : mat R; ff_e : flt }.

(** [np.mean] and [np.std] of a 1-D array; nan for an empty one *)
Definition np_mean (l : list R) : flt := fdiv (lsum l) (INR (length l)).
Definition np_std (l : list R) : flt :=
  match np_mean l with
  | Fin m => match np_mean (map (fun x => (x - m) * (x - m)) l) with Fin v => Fin (sqrt v) | NonFinite => NonFinite end
  | NonFinite => NonFinite
  end.
(** run.py:515 *)
Definition err_std (samples : list (list R)) (y : list R) : flt :=
  match np_std (map (fun s => rnorm (vsubt s y)) samples) with Fin s => fdiv s (rnorm y) | NonFinite => NonFinite end.

(** without inversion every entry of a covariance matrix is finite (C32), the other case is never used *)
Definition unflt (m : mat flt) : mat R := mmap (fun x => match x with Fin a => a | NonFinite => 0 end) m.

Section Fim.
Context {St : Type} (seeded : St) (mvn : list R -> mat R -> nat -> St -> res (list (list R)) * St).

(** run.py:458-534.  [file] is the content of [fim_results_<name>.npz].  The result is the state of the
    generator, the file and what is returned. *)
Definition eiv_fim (file : option fim_file) (voltage current : option (mat C)) (voltage_sd_polar current_sd_polar : C) (pmu_ratings : list R)
  (y_mat : mat C) (n_samples : option nat) (laplacian : bool) : option (St * option fim_file * res (mat R * mat R * flt)) :=
  let n_samples := match n_samples with None => (100 * 100)%nat | Some n => n end in
  match voltage, current with
  | Some voltage, Some current =>
    match (v <- average_true_noise_covariance voltage (SdFloat (re voltage_sd_polar)) (im voltage_sd_polar) false ;;
           i <- average_true_noise_covariance current (SdArray (map (fun r => re current_sd_polar * r) pmu_ratings)) (im current_sd_polar) false ;;
           Ok (v, i)) with
    | Err e => Some (seeded, file, Err e)
    | Ok (sigma_voltage, sigma_current) =>
      let '(noisy_voltage, noisy_current) := if laplacian then (minus_mean voltage, current) else (minus_col_means voltage, minus_col_means current) in
      match fisher_info noisy_voltage noisy_current (Some (unflt sigma_voltage)) (Some (unflt sigma_current)) y_mat with
      | Err e => Some (seeded, file, Err e)
      | Ok DivZero => None
      | Ok (Info fim cov) =>
        let y := make_real_vector (vectorize_matrix y_mat) in
        match mvn y cov n_samples seeded with
        | (Err e, g) => Some (g, file, Err e)
        | (Ok samples, g) =>
          let e := err_std samples y in
          Some (g, Some (mkFim y_mat voltage current fim cov e), Ok (fim, cov, e))
        end
      end
    end
  | _, _ =>
    match file with
    | None => Some (seeded, file, Err FileNotFoundError)
    | Some s => Some (seeded, file, Ok (ff_f s, ff_c s, ff_e s))
    end
  end.
End Fim.
