(** Model of /repo/src/models/bayesian_prior.py and /repo/src/models/smooth_prior.py.

    An object is a record; a method returns the object after the call together with
    the exception raised, if any, because attributes assigned before the exception
    keep their new value.

    Simplifications: arithmetic is exact in an ordered field; 1-D arguments are lists,
    the 2-D [indices] arguments are matrices of integers; orders are natural numbers
    (the package only uses DELTA=0, LAPLACE=1, GAUSS=2); a zero in a denominator gives
    inf in numpy and the unspecified value of the field division here. *)
From Coq Require Import Arith ZArith List Bool.
From Verif Require Import BasePy BaseFld BaseOrd BaseSum BaseMat BaseNumpy BaseLin.
Import ListNotations.
Local Open Scope K_scope.

(** element access [l[i]] with a non-negative index *)
Definition pyget {A} (l : list A) (i : nat) : res A :=
  match nth_error l i with Some x => Ok x | None => Err IndexError end.

(** optional argument that is None, a number or an array *)
Inductive arg (A : Type) := ANone | AScalar (x : A) | AList (l : list A).
Arguments ANone {A}.
Arguments AScalar {A} x.
Arguments AList {A} l.

(** bayesian_prior.py:29-35, [_std_weights(weights, standard)]; only the length of
    [standard] matters.  [one] is the number 1. *)
Definition std_weights {A} (one : A) (w : arg A) (len : nat) : list A :=
  match w with ANone => repeat one len | AScalar x => repeat x len | AList l => l end.

Section Prior.
Context {K : Type} {O : Ops K}.

(** BayesianPrior attributes *)
Record bprior := mkBP { bL : mat K; bmu : list K; bn : nat }.

(** bayesian_prior.py:24-27 *)
Definition bprior_init (n : nat) (other : option bprior) : bprior :=
  match other with
  | Some o => mkBP (bL o) (bmu o) n
  | None => mkBP (mzeros 0 n) [] n
  end.

(** [np.vstack((a, b))] *)
Definition np_vstack (a b : mat K) : res (mat K) :=
  if (nc a =? nc b)%nat then Ok (vstack2 a b) else Err ValueError.

(** common last statements: the rows are built, then stacked under L *)
Definition stack_rows (p : bprior) (added : res (mat K)) : bprior * option exn :=
  match (a <- added ;; np_vstack (bL p) a) with
  | Ok l => (mkBP l (bmu p) (bn p), None)
  | Err e => (p, Some e)
  end.

(** [added_L = np.zeros((len, n)); for i in range(len): added_L[i, indices[i]] = entry(i)] *)
Definition build_rows (n : nat) (indices : list Z) (entry : nat -> res K) : res (mat K) :=
  for_each (range (length indices)) (mzeros (length indices) n) (fun m i =>
    x <- entry i ;; k <- pyget indices i ;; set_at m (Z.of_nat i) k x).

(** [m[i, ks] = xs] with an index array: later assignments win *)
Fixpoint set_many (m : mat K) (i : Z) (ks : list Z) (xs : list K) : res (mat K) :=
  match ks, xs with
  | k :: ks', x :: xs' => m' <- set_at m i k x ;; set_many m' i ks' xs'
  | _, _ => Ok m
  end.
Definition build_rows2 (n : nat) (indices : mat Z) (entries : nat -> res (list K)) : res (mat K) :=
  for_each (range (nr indices)) (mzeros (nr indices) n) (fun m i =>
    xs <- entries i ;; set_many m (Z.of_nat i) (nth i (dat indices) []) xs).

Definition with_mu (p : bprior) (more : list K) : bprior := mkBP (bL p) (bmu p ++ more) (bn p).

(** bayesian_prior.py:37-52 *)
Definition add_exact_prior (p : bprior) (indices : list Z) (values : list K) (weights : arg K) : bprior * option exn :=
  let weights := std_weights 1 weights (length values) in
  match broadcast1 kmul weights values with
  | Err e => (p, Some e)
  | Ok m => stack_rows (with_mu p m) (build_rows (bn p) indices (fun i => pyget weights i))
  end.

(** bayesian_prior.py:54-69 *)
Definition add_exact_adaptive_prior (p : bprior) (indices : list Z) (values : list K) (weights : arg K) : bprior * option exn :=
  let weights := std_weights 1 weights (length values) in
  stack_rows (with_mu p weights)
    (build_rows (bn p) indices (fun i => w <- pyget weights i ;; v <- pyget values i ;; Ok (w / v))).

(** bayesian_prior.py:71-85 *)
Definition add_sparsity_prior (p : bprior) (indices : list Z) (weights : arg K) : bprior * option exn :=
  let weights := std_weights 1 weights (length indices) in
  stack_rows (with_mu p (vzeros (length indices))) (build_rows (bn p) indices (fun i => pyget weights i)).

(** bayesian_prior.py:87-100 *)
Definition add_adaptive_sparsity_prior (p : bprior) (indices : list Z) (values : list K) : bprior * option exn :=
  stack_rows (with_mu p (vzeros (length indices)))
    (build_rows (bn p) indices (fun i => v <- pyget values i ;; Ok (1 / v))).

(** bayesian_prior.py:102-117; a scalar is assigned to all positions of the row *)
Definition add_contrast_prior (p : bprior) (indices : mat Z) (values : list K) (weights : arg K) : bprior * option exn :=
  let weights := std_weights 1 weights (length values) in
  stack_rows (with_mu p weights)
    (build_rows2 (bn p) indices (fun i =>
       w <- pyget weights i ;; v <- pyget values i ;; Ok (repeat (w / v) (nc indices)))).

(** bayesian_prior.py:119-134; an array of two values only fits rows of two indices *)
Definition add_ratios_prior (p : bprior) (indices : mat Z) (values : list K) (weights : arg K) : bprior * option exn :=
  if (nc indices <? 2)%nat then (p, Some AssertionError) else
  let weights := std_weights 1 weights (nr indices) in
  stack_rows (with_mu p (vzeros (nr indices)))
    (build_rows2 (bn p) indices (fun i =>
       v <- pyget values i ;; w <- pyget weights i ;;
       if (nc indices =? 2)%nat then Ok [1 * w; - v * w] else Err ValueError)).

(** *** SmoothPrior *)
Record sprior := mkSP { base : bprior; alpha : K; gamma : list nat }.

(** smooth_prior.py:27-33; [other] is a SmoothPrior (gamma copied) or a plain
    BayesianPrior (gamma filled with 2) *)
Inductive other_prior := OSmooth (p : sprior) | OPlain (p : bprior).
Definition sprior_init (smoothness : K) (n : nat) (other : option other_prior) : sprior :=
  match other with
  | None => let b := bprior_init n None in mkSP b smoothness (repeat 2%nat (length (bmu b)))
  | Some (OSmooth p) => mkSP (bprior_init n (Some (base p))) smoothness (gamma p)
  | Some (OPlain p) => let b := bprior_init n (Some p) in mkSP b smoothness (repeat 2%nat (length (bmu b)))
  end.

(** smooth_prior.py:36-38 *)
Definition DELTA := 0%nat.
Definition LAPLACE := 1%nat.
Definition GAUSS := 2%nat.

(** after the base class method: extend gamma unless it raised *)
Definition then_gamma (p : sprior) (r : bprior * option exn) (orders : list nat) : sprior * option exn :=
  match snd r with
  | Some e => (mkSP (fst r) (alpha p) (gamma p), Some e)
  | None => (mkSP (fst r) (alpha p) (gamma p ++ orders), None)
  end.

(** smooth_prior.py:48-60 *)
Definition s_add_exact p indices values weights orders :=
  then_gamma p (add_exact_prior (base p) indices values weights) (std_weights 1%nat orders (length values)).
(** smooth_prior.py:62-74: calls BayesianPrior.add_exact_prior *)
Definition s_add_exact_adaptive p indices values weights orders :=
  then_gamma p (add_exact_prior (base p) indices values weights) (std_weights 1%nat orders (length values)).
(** smooth_prior.py:76-87 *)
Definition s_add_sparsity p indices weights orders :=
  then_gamma p (add_sparsity_prior (base p) indices weights) (std_weights 1%nat orders (length indices)).
(** smooth_prior.py:89-101 *)
Definition s_add_adaptive_sparsity p indices values orders :=
  then_gamma p (add_adaptive_sparsity_prior (base p) indices values) (std_weights 1%nat orders (length values)).
(** smooth_prior.py:103-115 *)
Definition s_add_contrast p indices values weights orders :=
  then_gamma p (add_contrast_prior (base p) indices values weights) (std_weights 1%nat orders (length values)).
(** smooth_prior.py:117-129 *)
Definition s_add_ratios p indices values weights orders :=
  then_gamma p (add_ratios_prior (base p) indices values weights) (std_weights 1%nat orders (length values)).

Fixpoint kpow (x : K) (n : nat) : K := match n with 0 => 1 | S m => x * kpow x m end.

Context {O2 : OrdOps K}.

(** [x.squeeze()]: an array with a single entry becomes 0-dimensional and [L @ x] raises *)
Definition squeezed_matvec (l : mat K) (x : list K) : res (list K) :=
  if (length x =? 1)%nat then Err ValueError else matvec l x.

(** the vector w of smooth_prior.py:41 and 141 *)
Definition prior_w (p : sprior) (x : list K) : res (list K) :=
  lx <- squeezed_matvec (bL (base p)) x ;;
  r <- broadcast1 ksub lx (bmu (base p)) ;;
  q <- broadcast1 (fun u g => kpow (kabs u) (2 - g)) r (gamma p) ;;
  Ok (map (fun u => u + alpha p) q).

(** smooth_prior.py:40-46 *)
Definition log_distribution (p : sprior) (x : list K) : res (mat K * list K * K) :=
  w <- prior_w p x ;;
  let l := bL (base p) in
  let d := mdiag (map (fun u => 1 / u) w) in
  lw <- matmul (tr l) d ;;
  a <- matmul lw l ;;
  b <- matvec lw (bmu (base p)) ;;
  Ok (a, b, lsum w).

(** *** SparseSmoothPrior: the same object with L stored as a sparse matrix.  [is_sparse]
    records whether the attribute L currently is one: the methods convert it to a dense
    array first, and back only if nothing was raised. *)
Record spprior := mkSSP { dense : sprior; is_sparse : bool }.

(** smooth_prior.py:137-139 *)
Definition spprior_init (smoothness : K) (n : nat) (other : option other_prior) : spprior :=
  mkSSP (sprior_init smoothness n other) true.

(** smooth_prior.py:150-226: [self.L = self.L.toarray(); SmoothPrior.add_...; self.L = csr(self.L)] *)
Definition via_dense (p : spprior) (f : sprior -> sprior * option exn) : spprior * option exn :=
  if is_sparse p then
    let (d, e) := f (dense p) in (mkSSP d (match e with None => true | Some _ => false end), e)
  else (p, Some AttributeError).

(** smooth_prior.py:141-148; [self.mu.squeeze()] of a single target is 0-dimensional *)
Definition sp_log_distribution (p : spprior) (x : list K) : res (mat K * list K * K) :=
  w <- prior_w (dense p) x ;;
  let l := bL (base (dense p)) in
  let d := mdiag (map (fun u => 1 / u) w) in
  lw <- matmul (tr l) d ;;
  a <- matmul lw l ;;
  b <- (if (length (bmu (base (dense p))) =? 1)%nat then Err ValueError else matvec lw (bmu (base (dense p)))) ;;
  Ok (a, b, lsum w).

(** one call of an add method, and a history of calls stopping at the first exception *)
Inductive addition :=
| AddExact (i : list Z) (v : list K) (w : arg K) (o : arg nat)
| AddExactAdaptive (i : list Z) (v : list K) (w : arg K) (o : arg nat)
| AddSparsity (i : list Z) (w : arg K) (o : arg nat)
| AddAdaptiveSparsity (i : list Z) (v : list K) (o : arg nat)
| AddContrast (i : mat Z) (v : list K) (w : arg K) (o : arg nat)
| AddRatios (i : mat Z) (v : list K) (w : arg K) (o : arg nat).

Definition apply_addition (p : sprior) (a : addition) : sprior * option exn :=
  match a with
  | AddExact i v w o => s_add_exact p i v w o
  | AddExactAdaptive i v w o => s_add_exact_adaptive p i v w o
  | AddSparsity i w o => s_add_sparsity p i w o
  | AddAdaptiveSparsity i v o => s_add_adaptive_sparsity p i v o
  | AddContrast i v w o => s_add_contrast p i v w o
  | AddRatios i v w o => s_add_ratios p i v w o
  end.
Fixpoint history (p : sprior) (l : list addition) : sprior * option exn :=
  match l with
  | [] => (p, None)
  | a :: r => match apply_addition p a with
              | (q, None) => history q r
              | (q, Some e) => (q, Some e)
              end
  end.
Fixpoint sp_history (p : spprior) (l : list addition) : spprior * option exn :=
  match l with
  | [] => (p, None)
  | a :: r => match via_dense p (fun d => apply_addition d a) with
              | (q, None) => sp_history q r
              | (q, Some e) => (q, Some e)
              end
  end.
End Prior.
Arguments bprior K : clear implicits.
Arguments sprior K : clear implicits.
Arguments spprior K : clear implicits.
Arguments addition K : clear implicits.
Arguments other_prior K : clear implicits.
