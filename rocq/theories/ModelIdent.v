(** Model of the priors built for identification: /repo/src/identification/run.py:15-243 and the functions
    of the same name in /repo/src/identification/run3ph.py:17-61.

    Numbers are exact: the constants 0.00001, 1e-8, 1e-10, 1.1 and 0.01 are the decimal numbers written.
    A zero in a denominator gives inf in numpy and the unspecified value of the field division here.
    Elimination and duplication matrices are real; [cmat] is their use in a product with complex vectors. *)
From Coq Require Import String.
From Coq Require Import Bool Arith List ZArith.
From Verif Require Import BasePy BaseFld BaseOrd BaseSum BaseMat BaseNumpy BaseLin ModelMatrixOps ModelPrior ModelFit.
Import ListNotations.
Close Scope string_scope.
Local Open Scope K_scope.

(** [sub in s] *)
Definition contains (sub s : string) : bool := match index 0 sub s with Some _ => true | None => false end.

Section Ident.
Context {K : Type} {O : Ops K} {O2 : OrdOps K}.
Notation CK := (cplx K).

Fixpoint tenth (k : nat) : K := match k with 0%nat => 1 | S j => tenth j / knat 10 end.

(** run.py:23-28 = 84-89 = 164-169 *)
Definition e_of (n : nat) (laplacian : bool) : res (mat K) := if laplacian then lap_el n else elimination_sym_matrix n.
Definition dt_of (n : nat) (laplacian : bool) : res (mat K) := if laplacian then lap_dt n else duplication_matrix n.

(** [E @ vectorize_matrix(y)] *)
Definition eliminated (E : mat K) (y : mat CK) : res (list CK) := matvec (cmat E) (vectorize_matrix y).
(** the same for a real matrix *)
Definition eliminated_real (E : mat K) (y : mat K) : res (list K) := matvec E (vectorize_matrix y).
(** [unvectorize_matrix(DT @ E @ vectorize_matrix(y), (nodes, nodes))] *)
Definition symmetrised (n : nat) (E DT : mat K) (y : mat CK) : res (mat CK) :=
  p <- matmul DT E ;; w <- matvec (cmat p) (vectorize_matrix y) ;; unvectorize_matrix w n n.
(** [np.where(v > 0)[0]] *)
Definition where_pos (v : list K) : list nat := filter (fun k => kltb 0 (vget v k)) (range (length v)).
(** [v[idx]]; the indices used are those of a vector of the same length *)
Definition pick (v : list K) (idx : list nat) : list K := map (vget v) idx.
(** a real vector times a complex number *)
Definition times (z : CK) (v : list K) : list CK := map (fun x => z * cre x) v.
(** a call of an add method of SparseSmoothPrior, whose exception ends the caller *)
Definition added (p : spprior K) (a : addition K) : res (spprior K) :=
  match via_dense p (fun d => apply_addition d a) with (q, None) => Ok q | (_, Some e) => Err e end.

(** run.py:15-35 = run3ph.py:17-32 *)
Definition build_lasso_prior (nodes : nat) (y_ols : mat CK) (laplacian : bool) : res (spprior K) :=
  DT <- dt_of nodes laplacian ;;
  E <- e_of nodes laplacian ;;
  y_sym_ols <- symmetrised nodes E DT y_ols ;;
  v <- eliminated E y_sym_ols ;;
  let adaptive_lasso := map (fun x => 1 / kabs x) (make_real_vector v) in
  w <- eliminated E y_ols ;;
  let n := (length w * 2)%nat in
  added (spprior_init (tenth 5) n None) (AddAdaptiveSparsity (map Z.of_nat (range n)) adaptive_lasso (AScalar LAPLACE)).

(** [np.ones((nodes, nodes)) - np.eye(nodes)] *)
Definition off_diagonal (n : nat) : mat K := mk n n (fun i j => 1 - (if (i =? j)%nat then 1 else 0)).

(** run.py:37-63 *)
Definition build_loads_id_prior (nodes : nat) (y_bus : mat CK) : res (spprior K) :=
  E <- e_of nodes false ;;
  o <- eliminated_real E (off_diagonal nodes) ;;
  let idx_offdiag := where_pos (make_real_vector (times (Cx 1 1) o)) in
  v <- eliminated E y_bus ;;
  added (spprior_init (tenth 10) (length v * 2) None)
    (AddExact (map Z.of_nat idx_offdiag) (pick (make_real_vector v) idx_offdiag) ANone (AScalar LAPLACE)).

(** run.py:117-119: ones in row and column i, zero where they meet *)
Definition cross (n i : nat) : mat K :=
  let d a := if (a =? i)%nat then 1 else 0 in
  mk n n (fun a b => d a + d b - (1 + 1) * (d a * d b)).
(** [np.array] of lists of indices: rows of one length *)
Definition index_array (rows : list (list nat)) : res (mat Z) :=
  let w := match rows with [] => 0%nat | r :: _ => length r end in
  if forallb (fun r => (length r =? w)%nat) rows then Ok (Mat (length rows) w (map (map Z.of_nat) rows)) else Err ValueError.
(** [np.split(v, 2)] *)
Definition split2 {A} (v : list A) : res (list A * list A) :=
  let h := (length v / 2)%nat in
  if (length v mod 2 =? 0)%nat then Ok (firstn h v, skipn h v) else Err ValueError.

(** run.py:65-144 *)
Definition build_complex_prior (nodes : nat) (lambdaprime : K) (y_tls : mat CK)
  (laplacian use_tls_diag contrast_each_row regularize_diag : bool) : res (spprior K) :=
  DT <- dt_of nodes laplacian ;;
  E <- e_of nodes laplacian ;;
  y_sym_tls <- symmetrised nodes E DT y_tls ;;
  let y_sym_tls_ns := msubt y_sym_tls (mdiag (mdiagonal y_sym_tls)) in
  w <- eliminated E y_tls ;;
  let prior := spprior_init (tenth 8) (length w * 2) None in
  o <- eliminated_real E (off_diagonal nodes) ;;
  let idx_offdiag := where_pos (make_real_vector (times (Cx 1 1) (map kabs o))) in
  v <- eliminated E y_sym_tls ;;
  prior <- added prior (AddAdaptiveSparsity (map Z.of_nat idx_offdiag) (pick (map kabs (make_real_vector v)) idx_offdiag) (AScalar LAPLACE)) ;;
  let diag := mdiagonal y_tls in
  let sums := mkv nodes (fun i => sumn nodes (fun j => get y_sym_tls_ns i j)) in
  let values_contrast := if use_tls_diag then map re diag ++ map im diag else map kopp (map re sums ++ map im sums) in
  let values_contrast := if laplacian then values_contrast else map kopp values_contrast in
  if contrast_each_row then
    rows_re <- mapM (fun i => c <- eliminated_real E (cross nodes i) ;; Ok (where_pos (map kabs (make_real_vector (times (Cx 1 0) c))))) (range nodes) ;;
    rows_im <- mapM (fun i => c <- eliminated_real E (cross nodes i) ;; Ok (where_pos (map kabs (make_real_vector (times (Cx 0 1) c))))) (range nodes) ;;
    idx_contrast <- index_array (rows_re ++ rows_im) ;;
    prior <- added prior (AddContrast idx_contrast values_contrast
      (AList (map (fun s => lambdaprime * s) (repeat (- (1)) nodes ++ repeat 1 nodes))) (AScalar LAPLACE)) ;;
    if regularize_diag then
      e <- eliminated_real E (meye nodes) ;;
      let idx_diag := where_pos (map kabs (make_real_vector (times (Cx 1 1) e))) in
      added prior (AddExactAdaptive (map Z.of_nat idx_diag) (map re diag ++ map im diag) (AScalar lambdaprime) (AScalar LAPLACE))
    else Ok prior
  else
    '(i1, i2) <- split2 idx_offdiag ;;
    idx <- index_array [i1; i2] ;;
    '(v1, v2) <- split2 values_contrast ;;
    added prior (AddContrast idx [- lsum v1; - lsum v2] (AList [lambdaprime * 1; lambdaprime * - (1)]) (AScalar LAPLACE)).

(** [m[i, :], m[:, i] = x, x] *)
Definition set_cross (m : mat CK) (i : nat) (x : CK) : res (mat CK) :=
  if (i <? nr m)%nat && (i <? nc m)%nat
  then Ok (mk (nr m) (nc m) (fun a b => if (a =? i)%nat || (b =? i)%nat then x else get m a b))
  else Err IndexError.
Definition set_entry (m : mat CK) (i j : nat) (x : CK) : res (mat CK) := set_at m (Z.of_nat i) (Z.of_nat j) x.
(** [y[i, j]] *)
Definition at_entry (y : mat CK) (i j : nat) : res CK :=
  if (i <? nr y)%nat && (j <? nc y)%nat then Ok (get y i j) else Err IndexError.
(** [m[i, j], m[j, i] = y[i, j], y[j, i]] *)
Definition copy_line (y m : mat CK) (i j : nat) : res (mat CK) :=
  a <- at_entry y i j ;; b <- at_entry y j i ;; m <- set_entry m i j a ;; set_entry m j i b.

(** run.py:176-195 *)
Definition optimal_lines (y_bus : mat CK) : res (mat CK * mat CK) :=
  let w := mzeros (nr y_bus) (nc y_bus) in
  let c := mzeros (nr y_bus) (nc y_bus) in
  w <- set_cross w 0 (Cx 1 1) ;; w <- set_entry w 0 0 0 ;;
  c <- set_cross c 0 0 ;; c <- copy_line y_bus c 1 0 ;;
  w <- set_cross w 26 (Cx 1 1) ;; w <- set_cross w 25 (Cx 1 1) ;;
  w <- set_entry w 26 26 0 ;; w <- set_entry w 25 25 0 ;;
  c <- set_cross c 26 0 ;; c <- set_cross c 25 0 ;;
  c <- copy_line y_bus c 24 25 ;; c <- copy_line y_bus c 26 25 ;;
  c <- copy_line y_bus c 26 27 ;; c <- copy_line y_bus c 26 28 ;;
  Ok (w, c).
(** run.py:204-220 *)
Definition suboptimal_lines (y_bus : mat CK) : res (mat CK * mat CK) :=
  let w := mzeros (nr y_bus) (nc y_bus) in
  let c := mzeros (nr y_bus) (nc y_bus) in
  w <- set_cross w 7 (Cx 1 1) ;; w <- set_entry w 7 7 0 ;;
  c <- set_cross c 7 0 ;; c <- copy_line y_bus c 7 6 ;; c <- copy_line y_bus c 7 8 ;;
  w <- set_cross w 21 (Cx 1 1) ;; w <- set_cross w 20 (Cx 1 1) ;;
  w <- set_entry w 21 21 0 ;; w <- set_entry w 20 20 0 ;;
  c <- set_cross c 21 0 ;; c <- set_cross c 20 0 ;;
  c <- copy_line y_bus c 19 20 ;; c <- copy_line y_bus c 21 20 ;; c <- copy_line y_bus c 21 22 ;;
  Ok (w, c).

(** run.py:147-243 *)
Definition add_known_lines (nodes : nat) (prior : spprior K) (lambdaprime : K) (y_bus : mat CK) (laplacian : bool)
  (prior_type : string) : res (spprior K) :=
  E <- e_of nodes laplacian ;;
  '(weights, centers) <-
    (if contains "optimal" prior_type then optimal_lines y_bus
     else if contains "suboptimal" prior_type then suboptimal_lines y_bus
     else Ok (mzeros (nr y_bus) (nc y_bus), mzeros (nr y_bus) (nc y_bus))) ;;
  w <- eliminated E weights ;;
  c <- eliminated E centers ;;
  let idx := where_pos (map kabs (make_real_vector w)) in
  let wrong := contains "wrong" prior_type in
  added prior (AddExactAdaptive (map Z.of_nat idx)
    (map (fun x => x * (if wrong then knat 11 / knat 10 else 1)) (pick (make_real_vector c) idx))
    (AScalar (lambdaprime * (if wrong then tenth 2 else 1))) (AScalar LAPLACE)).

(** run.py:383-388: the prior of bayesian_eiv *)
Definition bayesian_prior (nodes : nat) (lambdaprime : K) (y_init : mat CK) (y_exact : option (mat CK))
  (laplacian use_tls_diag contrast_each_row regularize_diag : bool) : res (spprior K) :=
  prior <- build_complex_prior nodes lambdaprime y_init laplacian use_tls_diag contrast_each_row regularize_diag ;;
  match y_exact with
  | None => Ok prior
  | Some y => add_known_lines nodes prior lambdaprime y false "optimal"
  end.
End Ident.
