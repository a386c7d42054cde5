(** Model of BayesianRegression (/repo/src/models/regression.py:49-148) and
    BayesianEIVRegression (/repo/src/models/error_in_variable.py:130-288), CPU branch.

    Parameters of the model that stand for code that is not modelled:
    - [spsolve a b]: scipy.sparse.linalg.spsolve; any function (an exception is [Err]);
    - [cabs]: numpy.abs of a complex number (only the unweighted EIV target needs it).
    The prior is any function from parameter vectors to (matrix, vector, penalty):
    [log_distribution p] of ModelPrior is one.

    Simplifications: exact arithmetic, sparse and dense storage are the same matrix,
    dtype conversions are the identity, progress bars are omitted.  [.squeeze()] of the
    solver's result only matters for one-entry vectors, which do not occur because the
    real form of a parameter vector has even length. *)
From Coq Require Import Arith ZArith List Bool.
From Verif Require Import BasePy BaseFld BaseOrd BaseSum BaseMat BaseNumpy BaseLin ModelMatrixOps SpecMatrix.
Import ListNotations.
Local Open Scope K_scope.

Section Fit.
Context {K : Type} {O : Ops K} {O2 : OrdOps K}.
Notation CK := (cplx K).

(** abstract_models.py:21-25, IterationStatus *)
Record status := St { st_it : nat; st_y : mat CK; st_target : K }.

(** attributes used by fit; the builders may raise when fit calls them *)
Record estimator := Est {
  e_prior : list K -> res (mat K * list K * K);
  e_lambda : K; e_abs_tol : K; e_rel_tol : K; e_max : nat;
  e_dt : nat -> res (mat K); e_el : nat -> res (mat K);
  e_iters : list status;
  e_adm : option (mat CK) }.

(** regression.py:55-82 and error_in_variable.py:136-163 *)
Definition new_estimator prior lam abs_tol rel_tol max_it dt el : estimator :=
  Est prior lam abs_tol rel_tol max_it dt el [] None.
(** default builders: error_in_variable.py:137 gives a numpy matrix; regression.py:56 gives a
    scipy sparse matrix, which [np.array(.., dtype=float32)] (regression.py:113) cannot convert *)
Definition eiv_default_builder (n : nat) : res (mat K) := Ok (meye (n * n)).
Definition br_default_builder (n : nat) : res (mat K) := Err TypeError.

(** builders used by identification/run.py:314-319 and 393-398 *)
Definition lap_dt (n : nat) : res (mat K) :=
  d <- duplication_matrix n ;; t <- transformation_matrix n ;; matmul d t.
Definition lap_el (n : nat) : res (mat K) :=
  a <- elimination_lap_matrix n ;; b <- elimination_sym_matrix n ;; matmul a b.

(** regression.py:88-90, error_in_variable.py:169-171.  A zero previous target makes the
    quotient inf or nan in numpy, which is not less than the tolerance. *)
Definition is_stationary_point (abs_tol rel_tol f_cur f_prev : K) : bool :=
  (kltb (kabs (f_cur - f_prev)) abs_tol ||
   (negb (f_prev =? 0) && kltb (kabs (f_cur - f_prev) / kabs f_prev) rel_tol))
  && kleb f_cur f_prev.

(** sum of two sparse matrices *)
Definition sp_add (a b : mat K) : res (mat K) :=
  if ((nr a =? nr b) && (nc a =? nc b))%nat then Ok (madd a b) else Err ValueError.
Definition np_vadd (u v : list K) : res (list K) := broadcast1 kadd u v.
Definition np_vsub (u v : list K) : res (list K) := broadcast1 ksub u v.
(** real matrix used in a product with complex ones *)
Definition cmat (m : mat K) : mat CK := mmap cre m.

(** [y_mat = unvectorize_matrix(DT @ make_complex_vector(y), (n, n))] *)
Definition rebuild (DT : mat K) (n : nat) (y : list K) : res (mat CK) :=
  v <- make_complex_vector y ;; w <- matvec (cmat DT) v ;; unvectorize_matrix w n n.

(** loop state between two iterations: y_mat, M, mu *)
Definition lstate := (mat CK * mat K * list K)%type.

(** the iteration loop, common to both fits: regression.py:127-145 and
    error_in_variable.py:216-282.  [step] is the body up to the target;
    the result is the list of records and the final state or the exception. *)
Fixpoint fit_loop (abs_tol rel_tol : K) (step : lstate -> res (lstate * K)) (fuel it : nat)
    (iters : list status) (s : lstate) : list status * res lstate :=
  match fuel with
  | 0 => (iters, Ok s)
  | S fuel' =>
      match step s with
      | Err e => (iters, Err e)
      | Ok (s', target) =>
          let iters' := iters ++ [St it (fst (fst s')) target] in
          let stop :=
            if (0 <? it)%nat then
              match nth_error iters' (it - 1) with
              | Some prev => is_stationary_point abs_tol rel_tol target (st_target prev)
              | None => false
              end
            else false in
          if stop then (iters', Ok s') else fit_loop abs_tol rel_tol step fuel' (S it) iters' s'
      end
  end.

(** save the records, and the matrix unless an exception was raised *)
Definition finish_fit (e : estimator) (r : list status * res lstate) : estimator * option exn :=
  match snd r with
  | Ok s => (Est (e_prior e) (e_lambda e) (e_abs_tol e) (e_rel_tol e) (e_max e) (e_dt e) (e_el e) (fst r) (Some (fst (fst s))), None)
  | Err x => (Est (e_prior e) (e_lambda e) (e_abs_tol e) (e_rel_tol e) (e_max e) (e_dt e) (e_el e) (fst r) (e_adm e), Some x)
  end.

(** common initialisation, regression.py:112-121 and error_in_variable.py:196-214:
    DT, A, M, mu (a and b cannot fail) *)
Definition fit_init (e : estimator) (x y_init : mat CK) : res (mat K * mat K * mat K * list K) :=
  let n := nc x in
  DT <- e_dt e n ;;
  El <- e_el e n ;;
  kd <- matmul (mkron (meye n) x) (cmat DT) ;;
  vy <- matvec (cmat El) (vectorize_matrix y_init) ;;
  '(M, mu, _) <- e_prior e (make_real_vector vy) ;;
  Ok (DT, make_real_matrix kd, M, mu).

Section Solver.
Variable spsolve : mat K -> list K -> res (list K).

(** solve for y, rebuild the matrix, evaluate the prior at y *)
Definition solve_y (e : estimator) (DT : mat K) (n : nat) (iASA : mat K) (ASb : list K)
  : res (list K * lstate * K) :=
  y <- spsolve iASA ASb ;;
  y_mat <- rebuild DT n y ;;
  '(M, mu, penalty) <- e_prior e y ;;
  Ok (y, (y_mat, M, mu), penalty).

(** *** BayesianRegression *)

(** regression.py:128-141 *)
Definition br_step (e : estimator) (DT A : mat K) (b : list K) (n : nat) (s : lstate) : res (lstate * K) :=
  let '(_, M, mu) := s in
  ata <- matmul (tr A) A ;;
  iASA <- sp_add ata (mscal (e_lambda e) M) ;;
  atb <- matvec (tr A) b ;;
  ASb <- np_vadd atb (vscal (e_lambda e) mu) ;;
  '(y, s', penalty) <- solve_y e DT n iASA ASb ;;
  ay <- matvec A y ;;
  db <- np_vsub b ay ;;
  Ok (s', kabs (vdot db db + e_lambda e * penalty)).

(** regression.py:92-148 *)
Definition br_fit (e : estimator) (x z y_init : mat CK) : estimator * option exn :=
  let b := make_real_vector (vectorize_matrix z) in
  match fit_init e x y_init with
  | Err err => (e, Some err)
  | Ok (DT, A, M, mu) =>
      finish_fit e (fit_loop (e_abs_tol e) (e_rel_tol e) (br_step e DT A b (nc x)) (e_max e) 0 (e_iters e) (y_init, M, mu))
  end.

(** *** BayesianEIVRegression *)
Variable cabs : CK -> K.

(** error_in_variable.py:219-222 *)
Definition underline_y (samples : nat) (y_mat : mat CK) : mat K :=
  let r := mkron (mmap re y_mat) (meye samples) in
  let i := mkron (mmap im y_mat) (meye samples) in
  mblock r (mopp i) i r.

(** error_in_variable.py:225-241: the weighted input error [da] *)
Definition input_error (samples : nat) (y_mat : mat CK) (x_weight z_weight : mat K) (a b : list K) : res (list K) :=
  let u := underline_y samples y_mat in
  uz <- matmul (tr u) z_weight ;;
  ysy <- matmul uz u ;;
  sys_matrix <- sp_add ysy x_weight ;;
  v1 <- matvec ysy a ;;
  v2 <- matvec uz b ;;
  sys_vector <- np_vsub v1 v2 ;;
  spsolve sys_matrix sys_vector.

(** error_in_variable.py:219-248 and 264-273, weighted iteration *)
Definition eiv_step_weighted (e : estimator) (DT A : mat K) (x_weight z_weight : mat K) (a b : list K)
    (samples n : nat) (s : lstate) : res (lstate * K) :=
  let '(y_mat, M, mu) := s in
  da <- input_error samples y_mat x_weight z_weight a b ;;
  cda <- make_complex_vector da ;;
  e_qp <- unvectorize_matrix cda samples n ;;
  kd <- matmul (mkron (meye n) e_qp) (cmat DT) ;;
  AmdA <- (if ((nr A =? nr (make_real_matrix kd)) && (nc A =? nc (make_real_matrix kd)))%nat
           then Ok (msubt A (make_real_matrix kd)) else Err ValueError) ;;
  az <- matmul (tr AmdA) z_weight ;;
  aza <- matmul az AmdA ;;
  iASA <- sp_add aza (mscal (e_lambda e) M) ;;
  azb <- matvec az b ;;
  ASb <- np_vadd azb (vscal (e_lambda e) mu) ;;
  '(y, s', penalty) <- solve_y e DT n iASA ASb ;;
  ay <- matvec AmdA y ;;
  db <- np_vsub b ay ;;
  zdb <- matvec z_weight db ;;
  xda <- matvec x_weight da ;;
  Ok (s', kabs (vdot db zdb + vdot da xda + e_lambda e * penalty)).

(** error_in_variable.py:251-255: projection of the data on the power flow equations;
    returns all 2n columns ([e_qp] is the first n of them) *)
Definition eiv_project (n : nat) (y_mat x z : mat CK) : res (mat CK) :=
  if negb (nc y_mat =? n)%nat then Err ValueError else
  let nullsp := vstack2 y_mat (mopp (meye n)) in
  g <- matmul (ctr nullsp) nullsp ;;
  gi <- kinverse g ;;
  p1 <- matmul nullsp gi ;;
  p2 <- matmul p1 (ctr nullsp) ;;
  projor <- (if ((nr p2 =? 2 * n) && (nc p2 =? 2 * n))%nat then Ok (msubt (meye (2 * n)) p2) else Err ValueError) ;;
  xz <- (if (nr x =? nr z)%nat then Ok (hstack2 x z) else Err ValueError) ;;
  matmul xz projor.

(** error_in_variable.py:251-262 and 264-278, unweighted iteration *)
Definition eiv_step_unweighted (e : estimator) (DT : mat K) (x z : mat CK) (b : list K) (n : nat) (s : lstate) : res (lstate * K) :=
  let '(y_mat, M, mu) := s in
  xz' <- eiv_project n y_mat x z ;;
  let e_qp := mslice xz' 0 (nr xz') 0 n in
  let da := vectorize_matrix e_qp in
  kd <- matmul (mkron (meye n) e_qp) (cmat DT) ;;
  let AmdA := make_real_matrix kd in
  ata <- matmul (tr AmdA) AmdA ;;
  iASA <- sp_add ata (mscal (e_lambda e) M) ;;
  atb <- matvec (tr AmdA) b ;;
  ASb <- np_vadd atb (vscal (e_lambda e) mu) ;;
  '(y, s', penalty) <- solve_y e DT n iASA ASb ;;
  ay <- matvec AmdA y ;;
  db <- np_vsub b ay ;;
  Ok (s', cabs (cre (vdot db db) + vdot da da + cre (e_lambda e * penalty))).

(** error_in_variable.py:207-210: both arguments of csr_matrix are [x_weight];
    csr_matrix(None) is a 1-by-1 zero matrix *)
Definition eiv_z_weight (x_weight z_weight : option (mat K)) : option (mat K) :=
  match z_weight with
  | None => None
  | Some _ => match x_weight with Some w => Some w | None => Some (mzeros 1 1) end
  end.

(** error_in_variable.py:173-288 *)
Definition eiv_fit (e : estimator) (x z : mat CK) (x_weight z_weight : option (mat K)) (y_init : mat CK) : estimator * option exn :=
  let a := make_real_vector (vectorize_matrix x) in
  let b := make_real_vector (vectorize_matrix z) in
  match fit_init e x y_init with
  | Err err => (e, Some err)
  | Ok (DT, A, M, mu) =>
      let step :=
        match eiv_z_weight x_weight z_weight, x_weight with
        | Some zw, Some xw => eiv_step_weighted e DT A xw zw a b (nr x) (nc x)
        | _, _ => eiv_step_unweighted e DT x z b (nc x)
        end in
      finish_fit e (fit_loop (e_abs_tol e) (e_rel_tol e) step (e_max e) 0 (e_iters e) (y_init, M, mu))
  end.
End Solver.
End Fit.
Arguments status K : clear implicits.
Arguments estimator K : clear implicits.
Arguments lstate K : clear implicits.
