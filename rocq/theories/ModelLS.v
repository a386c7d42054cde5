(** Model of the two data-only estimators:
    ComplexRegression (/repo/src/models/regression.py:32-46) and
    TotalLeastSquares.fit (/repo/src/models/error_in_variable.py:34-51).

    External routines: [scipy.linalg.pinv] and [np.linalg.svd] are parameters; the
    properties proved about the estimators assume only the textbook contract of
    these routines (Penrose equations, singular value decomposition), stated in
    SpecLS.v.  [np.linalg.inv] is the exact inverse [kinverse] of BaseLin.v.
    Arithmetic is exact. *)
From Coq Require Import Arith List.
From Verif Require Import BasePy BaseFld BaseSum BaseMat BaseLin.
Import ListNotations.

(** a numpy array of one or two dimensions *)
Inductive arr (T : Type) := A1 (v : list T) | A2 (m : mat T).
Arguments A1 {T} v.
Arguments A2 {T} m.

Section LS.
Context {K : Type} {O : Ops K}.
Notation CK := (cplx K).

(** regression.py:38-46 *)
Definition complex_regression_fit (pinv : mat CK -> mat CK) (x z : mat CK) : res (mat CK) :=
  matmul (pinv x) z.

(** [np.block([a, b])]: ValueError if the numbers of rows differ *)
Definition np_block2 (a b : mat CK) : res (mat CK) :=
  if (nr a =? nr b)%nat then Ok (hstack2 a b) else Err ValueError.

(** error_in_variable.py:36-51.  [svd a] = (u, s, vh); only vh is used. *)
Definition tls_fit (svd : mat CK -> mat CK * list K * mat CK) (x : mat CK) (y : arr CK) : res (arr CK) :=
  let n := nc x in
  let y_matrix := match y with A1 v => colm v | A2 m => m end in
  a <- np_block2 x y_matrix ;;
  let '(_, _, vh) := svd a in
  let v := mk (nc vh) (nr vh) (fun i j => conj (get vh j i)) in
  let v_xy := mslice v 0 n n (nc v) in
  let v_yy := mslice v n (nr v) n (nc v) in
  i <- kinverse v_yy ;;
  beta <- matmul (mopp v_xy) i ;;
  Ok (if (1 <? nc beta)%nat then A2 beta else A1 (concat (dat beta))).
End LS.
