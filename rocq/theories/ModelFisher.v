(** Model of TotalLeastSquares.fisher_info
    (/repo/src/models/error_in_variable.py:53-127), CPU branch.

    Arithmetic is exact and sparse storage is ignored.  Where the code divides by zero numpy
    goes on with inf or nan entries; the model stops there with the outcome [DivZero] and says
    nothing about the arrays returned.  [np.linalg.inv] is [kinverse].  The unused arrays
    [A] (line 90) and [den] (line 100) are left out. *)
From Coq Require Import Arith List Bool.
From Verif Require Import BasePy BaseFld BaseSum BaseMat BaseLin ModelMatrixOps ModelFit.
Import ListNotations.
Local Open Scope K_scope.

Inductive finfo (K : Type) := Info (F C : mat K) | DivZero.
Arguments Info {K} F C.
Arguments DivZero {K}.

Section Fisher.
Context {K : Type} {O : Ops K}.
Notation CK := (cplx K).

(** lines 103-104: row k*2n+ii of the permutation has its one in column ii*samples+k *)
Definition fi_idxs (samples n : nat) : list nat :=
  flat_map (fun k => map (fun ii => (ii * samples + k)%nat) (range (2 * n))) (range samples).
Definition fi_perm (samples n : nat) : mat K :=
  let idxs := fi_idxs samples n in
  mk (2 * n * samples) (2 * n * samples) (fun r c => if (nth r idxs 0 =? c)%nat then 1 else 0).

(** lines 106-108 *)
Definition fi_ws (samples n : nat) (x_cov z_cov : mat K) (y : list K) : res (mat K) :=
  let perm := fi_perm samples n in
  let bigy := mkron (meye samples) (colm y) in
  px <- matmul perm x_cov ;;
  pxp <- matmul px (tr perm) ;;
  bk <- matmul (tr bigy) (mkron pxp (meye n)) ;;
  Ws <- matmul bk bigy ;;
  pk <- matmul (tr perm) (mkron (meye (2 * n)) Ws) ;;
  pkp <- matmul pk perm ;;
  sp_add pkp z_cov.

(** lines 114-116; None when one of the divisions is by zero *)
Definition fi_weights (w1 w2 w3 : K) : option (K * K * K) :=
  if keqb w3 0 then None else
  if keqb w1 0 then None else
  let d1 := w1 - w2 * (w2 / w3) in
  let d3 := w3 - w2 * (w2 / w1) in
  if keqb d1 0 then None else
  if keqb d3 0 then None else
  let w1i := 1 / d1 in
  let w3i := 1 / d3 in
  Some (w1i, - ((w2 * w1i) / w3), w3i).

Fixpoint all_some {A} (l : list (option A)) : option (list A) :=
  match l with
  | [] => Some []
  | None :: _ => None
  | Some a :: r => match all_some r with Some t => Some (a :: t) | None => None end
  end.

(** lines 89-127.  [coo_matrix] cannot infer a shape from empty index lists; a covariance
    that is None fails in the products of lines 107-108. *)
Definition fisher_info (x z : mat CK) (x_cov z_cov : option (mat K)) (y_mat : mat CK) : res (finfo K) :=
  let samples := nr x in
  let n := nc x in
  let y := make_real_vector (vectorize_matrix y_mat) in
  if (n * samples =? 0)%nat then Err ValueError else
  match x_cov, z_cov with
  | Some xc, Some zc =>
    Ws <- fi_ws samples n xc zc y ;;
    let m := (n * samples)%nat in
    let w1 := mdiagonal (mslice Ws m (nr Ws) m (nc Ws)) in
    let w2 := mdiagonal (mslice Ws 0 m m (nc Ws)) in
    let w3 := mdiagonal (mslice Ws 0 m 0 m) in
    match all_some (map (fun k => fi_weights (vget w1 k) (vget w2 k) (vget w3 k)) (range (length w1))) with
    | None => Ok DivZero
    | Some ws =>
      let w1i := mdiag (map (fun w => fst (fst w)) ws) in
      let w2i := mdiag (map (fun w => snd (fst w)) ws) in
      let w3i := mdiag (map (fun w => snd w) ws) in
      let Ar := mkron (meye n) (mmap re x) in
      let Ai := mkron (meye n) (mmap im x) in
      let F := mblock (mmul (mmul (tr Ar) w1i) Ar) (mmul (mmul (tr Ar) w2i) Ai)
                      (mmul (mmul (tr Ai) w2i) Ar) (mmul (mmul (tr Ai) w3i) Ai) in
      C <- kinverse F ;;
      Ok (Info F C)
    end
  | _, _ => Err TypeError
  end.
End Fisher.
