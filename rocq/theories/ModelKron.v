(** Model of [Net.kron_reduction] (/repo/src/simulation/abstract_network.py:98-113) for a given
    admittance matrix.  [np.linalg.pinv] is a parameter [pinv]; indices are non-negative. *)
From Coq Require Import Arith List.
From Verif Require Import BasePy BaseFld BaseSum BaseMat ModelErrorMetrics ModelSet.
Import ListNotations.

Section Kron.
Context {K : Type} {O : Ops K}.

(** [a[idx, :]] and [a[:, idx]]: IndexError for an index outside *)
Definition take_rows (a : mat K) (idx : list nat) : res (mat K) :=
  if forallb (fun i => i <? nr a) idx then Ok (mk (length idx) (nc a) (fun i j => get a (nth i idx 0) j))
  else Err IndexError.
Definition take_cols (a : mat K) (idx : list nat) : res (mat K) :=
  if forallb (fun j => j <? nc a) idx then Ok (mk (nr a) (length idx) (fun i j => get a i (nth j idx 0)))
  else Err IndexError.
Definition take2 (a : mat K) (ri ci : list nat) : res (mat K) := x <- take_rows a ri ;; take_cols x ci.

(** abstract_network.py:98-113 *)
Definition kron_reduction (pinv : mat K -> mat K) (idx_tored : list nat) (y_bus : mat K) : res (mat K) :=
  let not_idx_tored := remaining (nr y_bus) idx_tored in
  ykk <- take2 y_bus not_idx_tored not_idx_tored ;;
  ykr <- take2 y_bus not_idx_tored idx_tored ;;
  yrr <- take2 y_bus idx_tored idx_tored ;;
  yrk <- take2 y_bus idx_tored not_idx_tored ;;
  a <- matmul ykr (pinv yrr) ;;
  b <- matmul a yrk ;;
  Ok (msubt ykk b).
End Kron.
