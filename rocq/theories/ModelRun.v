(** Model of the identification runs: [standard_methods] and [bayesian_eiv] of
    /repo/src/identification/run.py:246-455 and /repo/src/identification/run3ph.py:89-279, and the program
    /repo/identify_network.py:25-128.

    Parameters that stand for code that is not modelled here: [pinv], [svd], [spsolve], [cabs] as in ModelLS.v and
    ModelFit.v; [ksqrt] for np.sqrt; [true_cov] and [naive_cov] for the covariance functions
    average_true_noise_covariance and naive_noise_covariance (modelled over R in ModelNoiseCov.v).
    The folder /repo/data is a function from file names to contents; an array saved with np.savez is read back
    as saved, except that the list of iterations comes back as an array (no [extend]).
    Simplifications: exact arithmetic; printing left out; [fitted_admittance_matrix] of the total least squares of one node
    is used as a 1-by-1 matrix; numpy's broadcasting of arrays with one row or column in [*] and [/] is an error. *)
From Coq Require Import String.
From Coq Require Import Bool Arith List ZArith.
From Verif Require Import BasePy BaseFld BaseOrd BaseSum BaseMat BaseNumpy BaseLin ModelMatrixOps ModelPrior ModelFit ModelLS ModelIdent.
Import ListNotations.
Close Scope string_scope.
Local Open Scope K_scope.

(** conf/identification.py and the standard deviations of conf/simulation.py *)
Record config (K : Type) := Config {
  lambda_lasso : K; lambda_eiv : K; lambdaprime : K; abs_tol : K; rel_tol : K;
  use_tls_diag : bool; contrast_each_row : bool; regularize_diag : bool;
  voltage_magnitude_sd : K; current_magnitude_sd : K; voltage_phase_sd : K; current_phase_sd : K }.
Arguments lambda_lasso {K}. Arguments lambda_eiv {K}. Arguments lambdaprime {K}. Arguments abs_tol {K}. Arguments rel_tol {K}.
Arguments use_tls_diag {K}. Arguments contrast_each_row {K}. Arguments regularize_diag {K}.
Arguments voltage_magnitude_sd {K}. Arguments current_magnitude_sd {K}.
Arguments voltage_phase_sd {K}. Arguments current_phase_sd {K}.

(** the arrays of an npz file, by the program that wrote it *)
Inductive content (K : Type) :=
| Simulation (i v j w y : mat (cplx K)) (p : list K) (f : K) (h : list Z)
| Standard (o t l : mat (cplx K))
| Bayesian (y : mat (cplx K)) (i : list (status K))
| Reference (y : mat (cplx K)) (p : string) (l : bool)
| Uncertainty (e b : mat (cplx K)).
Arguments Simulation {K}. Arguments Standard {K}. Arguments Bayesian {K}. Arguments Reference {K}. Arguments Uncertainty {K}.

Definition files (K : Type) := string -> option (content K).
(** a program that reads and writes files *)
Definition io (K A : Type) := files K -> files K * res A.
Definition lift {K A} (r : res A) : io K A := fun s => (s, r).
Definition bind_io {K A B} (m : io K A) (f : A -> io K B) : io K B :=
  fun s => match m s with (s', Ok a) => f a s' | (s', Err e) => (s', Err e) end.
Notation "x <-- e ;;; k" := (bind_io e (fun x => k)) (at level 61, e at next level, right associativity).
Notation "! p <-- e ;;; k" := (bind_io e (fun p => k)) (at level 61, p pattern, e at next level, right associativity).

Section Paths.
Local Open Scope string_scope.
Definition simulation_path (name : string) : string := "simulations_output/" ++ name ++ ".npz".
Definition standard_path (name : string) : string := "simulations_output/standard_results_" ++ name ++ ".npz".
Definition bayesian_path (name : string) : string := "simulations_output/bayesian_results_" ++ name ++ ".npz".
Definition reference_path (name : string) : string := "simulations_output/reference_results_" ++ name ++ ".npz".
End Paths.

(** [np.savez] *)
Definition save {K} (path : string) (c : content K) : io K unit :=
  fun s => ((fun p => if String.eqb p path then Some c else s p), Ok tt).
(** [np.load] and the lookup of its arrays *)
Definition load {K} (path : string) : io K (content K) :=
  fun s => (s, match s path with Some c => Ok c | None => Err FileNotFoundError end).
Definition load_standard {K} (name : string) : io K (mat (cplx K) * mat (cplx K) * mat (cplx K)) :=
  c <-- load (standard_path name) ;;; match c with Standard o t l => lift (Ok (o, t, l)) | _ => lift (Err KeyError) end.
Definition load_bayesian {K} (name : string) : io K (mat (cplx K) * list (status K)) :=
  c <-- load (bayesian_path name) ;;; match c with Bayesian y i => lift (Ok (y, i)) | _ => lift (Err KeyError) end.

(** [phases_ids == i] and the positions it selects *)
Definition is_phase (ids : list Z) (i : Z) : list bool := map (fun p => (p =? i)%Z) ids.
Definition selected (mask : list bool) : list nat := filter (fun k => nth k mask false) (range (length mask)).

(** [m[np.outer(mask, mask)] = v] takes the values in row-major order *)
Fixpoint fill_row {T} (mask : list bool) (old v : list T) : list T * list T :=
  match mask, old with
  | true :: m, _ :: r => match v with
    | x :: v' => let '(new, rest) := fill_row m r v' in (x :: new, rest)
    | [] => (old, [])
    end
  | false :: m, x :: r => let '(new, rest) := fill_row m r v in (x :: new, rest)
  | _, _ => (old, v)
  end.
Fixpoint fill_rows {T} (all mask : list bool) (old : list (list T)) (v : list T) : list (list T) :=
  match mask, old with
  | true :: m, row :: r => let '(new, rest) := fill_row all row v in new :: fill_rows all m r rest
  | false :: m, row :: r => row :: fill_rows all m r v
  | _, _ => old
  end.
Definition mask_assign {T} (m : mat T) (mask : list bool) (v : list T) : res (mat T) :=
  let count := length (selected mask) in
  if negb ((nr m =? length mask) && (nc m =? length mask))%nat then Err IndexError
  else if (length v =? count * count)%nat then Ok (Mat (nr m) (nc m) (fill_rows mask mask (dat m) v))
  else match v with
  | [x] => Ok (Mat (nr m) (nc m) (fill_rows mask mask (dat m) (repeat x (count * count))))
  | _ => Err ValueError
  end.
(** [m.flatten()] *)
Definition flatten {T} (m : mat T) : list T := concat (dat m).

Section Run.
Context {K : Type} {O : Ops K} {O2 : OrdOps K}.
Notation CK := (cplx K).
Variable pinv : mat CK -> mat CK.
Variable svd : mat CK -> mat CK * list K * mat CK.
Variable spsolve : mat K -> list K -> res (list K).
Variable cabs : CK -> K.
Variable ksqrt : K -> K.
Variables true_cov naive_cov : mat CK -> arg K -> K -> bool -> res (mat K).
Variable conf : config K.

(** [m[:, mask]], [m[mask, :][:, mask]], [v[mask]] *)
Definition mask_cols (m : mat CK) (mask : list bool) : res (mat CK) :=
  if (nc m =? length mask)%nat then Ok (mcols m (selected mask)) else Err IndexError.
Definition mask_square (m : mat CK) (mask : list bool) : res (mat CK) :=
  if ((nr m =? length mask) && (nc m =? length mask))%nat then Ok (mcols (mrows m (selected mask)) (selected mask)) else Err IndexError.
Definition mask_list (v : list K) (mask : list bool) : res (list K) :=
  if (length v =? length mask)%nat then Ok (map (vget v) (selected mask)) else Err IndexError.

(** [np.mean(m)] and [m - np.mean(m)] *)
Definition mean_all (m : mat CK) : CK := sumn (nr m) (fun t => sumn (nc m) (fun j => get m t j)) / knat (nr m * nc m).
Definition minus_mean (m : mat CK) : mat CK := mk (nr m) (nc m) (fun t j => get m t j - mean_all m).
(** [m - np.tile(np.mean(m, axis=0), (m.shape[0], 1))] *)
Definition mean_col (m : mat CK) (j : nat) : CK := sumn (nr m) (fun t => get m t j) / knat (nr m).
Definition minus_col_means (m : mat CK) : mat CK := mk (nr m) (nc m) (fun t j => get m t j - mean_col m j).
(** run.py:270-274 = run3ph.py:123-127 = run.py:425-431 *)
Definition centred (laplacian : bool) (voltage current : mat CK) : mat CK * mat CK :=
  if laplacian then (minus_mean voltage, current) else (minus_col_means voltage, minus_col_means current).
(** [(y + y.T) / 2] *)
Definition half_sum (y : mat CK) : res (mat CK) :=
  if (nr y =? nc y)%nat then Ok (mk (nr y) (nc y) (fun i j => (get y i j + get y j i) / (1 + 1))) else Err ValueError.
Definition as_matrix (a : arr CK) : mat CK := match a with A1 v => colm v | A2 m => m end.
(** what a finished fit leaves in the object *)
Definition fit_result (r : estimator K * option exn) : res (mat CK * list (status K)) :=
  match r with
  | (_, Some e) => Err e
  | (est, None) => match e_adm est with Some y => Ok (y, e_iters est) | None => Err AttributeError end
  end.

(** run.py:266-330 = run3ph.py:111-177 *)
Definition standard_estimates (voltage current : mat CK) (laplacian : bool) (max_iterations : Z) : res (mat CK * mat CK * mat CK) :=
  let nodes := nc voltage in
  let '(noisy_voltage, noisy_current) := centred laplacian voltage current in
  y_ols <- complex_regression_fit pinv noisy_voltage noisy_current ;;
  t <- tls_fit svd noisy_voltage (A2 noisy_current) ;;
  let y_tls := as_matrix t in
  prior <- build_lasso_prior nodes y_ols laplacian ;;
  let lasso := new_estimator (sp_log_distribution prior) (lambda_lasso conf) (abs_tol conf) (rel_tol conf)
    (Z.to_nat max_iterations) (fun n => dt_of n laplacian) (fun n => e_of n laplacian) in
  if (0 <? max_iterations)%Z then
    y_init <- half_sum y_ols ;;
    '(y_lasso, _) <- fit_result (br_fit spsolve lasso noisy_voltage noisy_current y_init) ;;
    Ok (y_ols, y_tls, y_lasso)
  else Ok (y_ols, y_tls, y_ols).

(** run.py:246-345; current is never None in the calls *)
Definition standard_methods (name : string) (voltage : option (mat CK)) (current : mat CK) (laplacian : bool) (max_iterations : Z)
  : io K (mat CK * mat CK * mat CK) :=
  match voltage with
  | Some v =>
      !(o, t, l) <-- lift (standard_estimates v current laplacian max_iterations) ;;;
      _ <-- save (standard_path name) (Standard o t l) ;;;
      lift (Ok (o, t, l))
  | None => load_standard name
  end.

(** entrywise product and quotient of two arrays *)
Definition np_map2 {A B C} (dA : A) (dB : B) (f : A -> B -> C) (a : mat A) (b : mat B) : res (mat C) :=
  if ((nr a =? nr b) && (nc a =? nc b))%nat then Ok (mk (nr a) (nc a) (fun i j => f (gget dA a i j) (gget dB b i j))) else Err ValueError.
(** [np.abs(voltage)] as a complex array and [(current * voltage.conj()) / np.abs(voltage)], run.py:413-414 *)
Definition magnitudes (voltage : mat CK) : mat CK := mmap (fun z => cre (cabs z)) voltage.
Definition relative_current (voltage current : mat CK) : res (mat CK) :=
  np_map2 (0 : CK) (0 : CK) (fun i v => i * conj v / cre (cabs v)) current voltage.
(** [m.data = 1.0 / m.data] of a sparse matrix *)
Definition inverted_data (m : mat K) : mat K := mmap (fun x => if x =? 0 then 0 else 1 / x) m.

(** run.py:401-423: data and weights of the fit *)
Definition eiv_data (voltage current : mat CK) (voltage_sd current_sd : CK) (pmu_ratings : list K) (weighted use_pmu_data : bool)
  : res (mat CK * mat CK * option (mat K) * option (mat K)) :=
  let current_sds := AList (map (fun r => re current_sd * r) pmu_ratings) in
  if weighted && use_pmu_data then
    sv <- true_cov voltage (AScalar (re voltage_sd)) (im voltage_sd) true ;;
    sc <- true_cov current current_sds (im current_sd) true ;;
    Ok (voltage, current, Some sv, Some sc)
  else if weighted && negb use_pmu_data then
    let cv := magnitudes voltage in
    cc <- relative_current voltage current ;;
    sv <- naive_cov cv (AScalar (re voltage_sd)) (im voltage_sd * knat 100) false ;;
    sc <- naive_cov current current_sds (im current_sd) true ;;
    Ok (cv, cc, Some (inverted_data sv), Some sc)
  else Ok (voltage, current, None, None).

(** run.py:381-398: prior and estimator object *)
Definition eiv_object (nodes : nat) (y_init : mat CK) (y_exact : option (mat CK)) (laplacian : bool) (max_iterations : Z)
  : res (estimator K) :=
  prior <- bayesian_prior nodes (lambdaprime conf) y_init y_exact laplacian (use_tls_diag conf) (contrast_each_row conf) (regularize_diag conf) ;;
  Ok (new_estimator (sp_log_distribution prior) (lambda_eiv conf) (abs_tol conf) (rel_tol conf)
    (Z.to_nat max_iterations) (fun n => dt_of n laplacian) (fun n => e_of n laplacian)).

(** run.py:348-455 *)
Definition bayesian_eiv (name : string) (voltage current : mat CK) (voltage_sd current_sd : CK) (pmu_ratings : list K)
  (y_init : mat CK) (y_exact : option (mat CK)) (laplacian weighted : bool) (max_iterations : Z) (use_pmu_data : bool)
  : io K (mat CK * list (status K)) :=
  sparse_tls_cov <-- lift (eiv_object (nc voltage) y_init y_exact laplacian max_iterations) ;;;
  if (0 <? max_iterations)%Z then
    !(v, i, sv, sc) <-- lift (eiv_data voltage current voltage_sd current_sd pmu_ratings weighted use_pmu_data) ;;;
    let '(centered_voltage, centered_current) := centred laplacian v i in
    !(y, iterations) <-- lift (fit_result (eiv_fit spsolve cabs sparse_tls_cov centered_voltage centered_current sv sc y_init)) ;;;
    _ <-- save (bayesian_path name) (Bayesian y iterations) ;;;
    lift (Ok (y, iterations))
  else load_bayesian name.

(** run3ph.py:182-195, one round of the loop *)
Definition standard_phase (name : string) (voltage current : mat CK) (ids : list Z) (laplacian : bool) (max_iterations : Z)
  (y : mat CK * mat CK * mat CK) (i : Z) : io K (mat CK * mat CK * mat CK) :=
  let mask := is_phase ids i in
  let '(y_ols, y_tls, y_lasso) := y in
  v <-- lift (mask_cols voltage mask) ;;;
  c <-- lift (mask_cols current mask) ;;;
  !(o, t, l) <-- standard_methods name (Some v) c laplacian max_iterations ;;;
  y_ols <-- lift (mask_assign y_ols mask (flatten o)) ;;;
  y_tls <-- lift (mask_assign y_tls mask (flatten t)) ;;;
  y_lasso <-- lift (mask_assign y_lasso mask (flatten l)) ;;;
  lift (Ok (y_ols, y_tls, y_lasso)).

(** run3ph.py:89-211 *)
Definition standard_methods_3ph (name : string) (voltage : option (mat CK)) (current : mat CK) (phases_ids : option (list Z))
  (laplacian : bool) (max_iterations : Z) : io K (mat CK * mat CK * mat CK) :=
  match voltage with
  | Some v =>
      !(o, t, l) <--
        match phases_ids with
        | None => lift (standard_estimates v current laplacian max_iterations)
        | Some ids =>
            let z := mzeros (nc v) (nc v) in
            y <-- standard_phase name v current ids laplacian max_iterations (z, z, z) 0 ;;;
            y <-- standard_phase name v current ids laplacian max_iterations y 1 ;;;
            standard_phase name v current ids laplacian max_iterations y 2
        end ;;;
      _ <-- save (standard_path name) (Standard o t l) ;;;
      lift (Ok (o, t, l))
  | None => load_standard name
  end.

(** run3ph.py:250-258, one round of the loop *)
Definition bayesian_phase (name : string) (voltage current : mat CK) (ids : list Z) (voltage_sd current_sd : CK)
  (pmu_ratings : list K) (y_init : mat CK) (y_exact : option (mat CK)) (laplacian weighted : bool) (max_iterations : Z)
  (use_pmu_data : bool) (y_fin : mat CK) (i : Z) : io K (mat CK * list (status K)) :=
  let mask := is_phase ids i in
  v <-- lift (mask_cols voltage mask) ;;;
  c <-- lift (mask_cols current mask) ;;;
  r <-- lift (mask_list pmu_ratings mask) ;;;
  y0 <-- lift (mask_square y_init mask) ;;;
  ye <-- lift (match y_exact with None => Ok None | Some y => m <- mask_square y mask ;; Ok (Some m) end) ;;;
  !(y, its) <-- bayesian_eiv name v c voltage_sd current_sd r y0 ye laplacian weighted max_iterations use_pmu_data ;;;
  y_fin <-- lift (mask_assign y_fin mask (flatten y)) ;;;
  lift (Ok (y_fin, its)).

(** run3ph.py:260-268, one merged iteration *)
Definition merge_status (N : nat * nat) (ids : list Z) (k : nat) (parts : list (Z * status K)) : res (status K) :=
  for_each parts (St k (mzeros (fst N) (snd N)) 0) (fun s part =>
    y <- mask_assign (st_y s) (is_phase ids (fst part)) (flatten (st_y (snd part))) ;;
    Ok (St k y (st_target s + st_target (snd part)))).
Fixpoint merge_from (N : nat * nat) (ids : list Z) (k : nat) (a b c : list (status K)) : res (list (status K)) :=
  match a, b, c with
  | x :: a', y :: b', z :: c' =>
      s <- merge_status N ids k [(0, x); (1, y); (2, z)]%Z ;;
      r <- merge_from N ids (S k) a' b' c' ;;
      Ok (s :: r)
  | _, _, _ => Ok []
  end.

(** run3ph.py:214-279 *)
Definition bayesian_eiv_3ph (name : string) (voltage current : mat CK) (ids : list Z) (voltage_sd current_sd : CK)
  (pmu_ratings : list K) (y_init : mat CK) (y_exact : option (mat CK)) (laplacian weighted : bool) (max_iterations : Z)
  (use_pmu_data : bool) : io K (mat CK * list (status K)) :=
  if existsb (Z.eqb 0) ids then
    let phase := bayesian_phase name voltage current ids voltage_sd current_sd pmu_ratings y_init y_exact laplacian weighted max_iterations use_pmu_data in
    !(y, i0) <-- phase (mzeros (nr y_init) (nc y_init)) 0%Z ;;;
    !(y, i1) <-- phase y 1%Z ;;;
    !(y, i2) <-- phase y 2%Z ;;;
    iterations <-- lift (merge_from (nr y, nc y) ids 0 i0 i1 i2) ;;;
    _ <-- save (bayesian_path name) (Bayesian y iterations) ;;;
    lift (Ok (y, iterations))
  else lift (Err NotImplementedError).

(** the options of identify_network.py:11-23 *)
Record options := Options {
  network : string; max_iterations : Z; standard : bool; bayesian : bool; continue_id : bool; phases : string; sequence : bool;
  exact : bool; laplacian : bool; weighted : bool; uncertainty : bool; unsynchronized : bool }.

(** identify_network.py:33-36 *)
Definition phases_refused (p : string) (sequence : bool) : bool :=
  (negb (p =? "012") && negb (p =? "0") && negb (p =? "1") && negb (p =? "2") && sequence
   || negb (p =? "123") && negb (p =? "1") && negb (p =? "2") && negb (p =? "3") && negb sequence)%string.
(** identify_network.py:37 *)
Definition three_phased (p : string) : bool := ((p =? "012") || (p =? "123"))%string.
(** [int(phases)] of an accepted single phase *)
Definition int_of (p : string) : Z :=
  if (p =? "0")%string then 0%Z else if (p =? "1")%string then 1%Z else if (p =? "2")%string then 2%Z else 3%Z.

(** identify_network.py:52-64; [np.delete] of the columns of the other phases keeps those of this phase *)
Definition keep_phase (p : string) (i v j w y : mat CK) (r : list K) (ids : list Z)
  : res (mat CK * mat CK * mat CK * mat CK * mat CK * list K) :=
  if negb (three_phased p) && existsb (fun x => negb (x =? 1)%Z) ids then
    if negb (existsb (Z.eqb (int_of p)) ids) then Err IndexError
    else
      let mask := is_phase ids (int_of p) in
      y <- mask_square y mask ;; r <- mask_list r mask ;;
      v <- mask_cols v mask ;; i <- mask_cols i mask ;; w <- mask_cols w mask ;; j <- mask_cols j mask ;;
      Ok (i, v, j, w, y, r)
  else Ok (i, v, j, w, y, r).

(** identify_network.py:25-128 *)
Definition identify (o : options) : io K unit :=
  if phases_refused (phases o) (sequence o) then lift (Err NotImplementedError) else
  let three := three_phased (phases o) in
  let redo_standard := standard o || (negb (standard o) && negb (bayesian o)) in
  let redo_stls := bayesian o || (negb (standard o) && negb (bayesian o)) in
  let name := network o in
  c <-- load (simulation_path name) ;;;
  match c with
  | Simulation i v j w y p f h =>
      !(noisy_current, noisy_voltage, current, voltage, y_bus, pmu_ratings) <-- lift (keep_phase (phases o) i v j w y p h) ;;;
      _ <-- save (reference_path name) (Reference y_bus (phases o) (laplacian o)) ;;;
      let voltage_sd := Cx (voltage_magnitude_sd conf / ksqrt f) (voltage_phase_sd conf / ksqrt f) in
      let current_sd := Cx (current_magnitude_sd conf / ksqrt f) (current_phase_sd conf / ksqrt f) in
      let given := if redo_standard then Some noisy_voltage else None in
      !(y_ols, y_tls, y_lasso) <--
        (if three
         then standard_methods_3ph name given noisy_current (if (phases o =? "012")%string then Some h else None) (laplacian o) (max_iterations o)
         else standard_methods name given noisy_current (laplacian o) (max_iterations o)) ;;;
      y_init <-- (if continue_id o then !(y, _) <-- load_bayesian name ;;; lift (Ok y) else lift (half_sum y_tls)) ;;;
      let y_exact := if exact o && negb (laplacian o) then Some y_bus else None in
      let iterations := if redo_stls then max_iterations o else 0%Z in
      !(y, its) <--
        (if three
         then bayesian_eiv_3ph name noisy_voltage noisy_current h voltage_sd current_sd pmu_ratings y_init y_exact (laplacian o) (weighted o)
                iterations (negb (unsynchronized o))
         else bayesian_eiv name noisy_voltage noisy_current voltage_sd current_sd pmu_ratings y_init y_exact (laplacian o) (weighted o)
                iterations (negb (unsynchronized o))) ;;;
      if continue_id o then lift (Err AttributeError)  (* line 102: [extend] of an array *)
      else if uncertainty o then lift (Err NameError)  (* line 110: [three_phases] *)
      else lift (Ok tt)
  | _ => lift (Err KeyError)
  end.
End Run.
