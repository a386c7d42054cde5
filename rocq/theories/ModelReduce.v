(** Model of [reduce_network] (/repo/src/simulation/run.py:246-295) and of the removal of the reduced
    nodes' columns (/repo/simulate_network.py:97-103), one phase.
    [np.linalg.pinv] is a parameter.  A mean voltage of zero makes numpy return nan; here the quotient is 0.
    Printing is left out. *)
From Coq Require Import Bool Arith List.
From Verif Require Import BasePy BaseFld BaseSum BaseMat ModelErrorMetrics ModelSet ModelKron ModelNet.
Import ListNotations.
Local Open Scope K_scope.

(** [np.delete] along an axis of length [n]: the positions that stay, IndexError for one outside *)
Definition staying (n : nat) (idx : list nat) : list nat := filter (fun i => negb (mem i idx)) (range n).
Definition delete_rows {K} {O : Ops K} (m : mat K) (idx : list nat) : res (mat K) :=
  if forallb (fun i => i <? nr m)%nat idx
  then let s := staying (nr m) idx in Ok (mk (length s) (nc m) (fun i j => get m (nth i s 0%nat) j))
  else Err IndexError.
Definition delete_cols {K} {O : Ops K} (m : mat K) (idx : list nat) : res (mat K) :=
  if forallb (fun i => i <? nc m)%nat idx
  then let s := staying (nc m) idx in Ok (mk (nr m) (length s) (fun i j => get m i (nth j s 0%nat)))
  else Err IndexError.

(** run.py:282-284 *)
Definition shift (pcc_idx l : list nat) : list nat :=
  fold_left (fun l i => map (fun idx => if (i <? idx)%nat then (idx - 1)%nat else idx) l) pcc_idx l.
(** [list(set(a).union(b).difference(c))] *)
Definition union_difference (a b c : list nat) : list nat :=
  keys (set_discard (set_copy (fold_left set_add b (set_copy (set_of a)))) c).

Section Reduce.
Context {K : Type} {O : Ops K}.
Notation CK := (cplx K).

(** [[net.bus.index.tolist().index(idx) for idx in l]] *)
Fixpoint positions (n : net (K := K)) (l : list nat) : res (list nat) :=
  match l with
  | [] => Ok []
  | i :: r => match position n i with
    | None => Err ValueError
    | Some p => q <- positions n r ;; Ok (p :: q)
    end
  end.
(** [np.mean(m, axis=0)] of one column *)
Definition col_mean (m : mat CK) (j : nat) : CK := sumn (nr m) (fun t => get m t j) / knat (nr m).
(** run.py:288-289 *)
Definition make_shunts (size : nat) (voltage current : mat CK) (hidden_idx : list nat) : res (list CK) :=
  if forallb (fun i => i <? nc current)%nat hidden_idx && forallb (fun i => i <? nc voltage)%nat hidden_idx
     && forallb (fun i => i <? size)%nat hidden_idx
  then Ok (mkv size (fun i => if mem i hidden_idx then col_mean current i / col_mean voltage i else 0))
  else Err IndexError.
(** [np.diag] *)
Definition diagonal (v : list CK) : mat CK := mk (length v) (length v) (fun i j => if (i =? j)%nat then vget v i else 0).

(** run.py:246-295 *)
Definition reduce_network (pinv : mat CK -> mat CK) (n : net (K := K)) (voltage current : mat CK) (hidden_nodes : list nat)
  (laplacian : bool) : res (list nat * mat CK) :=
  y_bus <- make_y_bus n ;;
  passive <- give_passive_nodes n ;;
  passive_idx <- positions n (passive 0%nat) ;;
  hidden_idx <- positions n hidden_nodes ;;
  pcc_idx <- positions n (grids n) ;;
  let idx_todel := union_list hidden_idx passive_idx in
  let hidden_idx := filter (fun i => negb (mem i pcc_idx)) hidden_idx in
  '(y_bus, hidden_idx, passive_idx) <-
    (if laplacian then Ok (y_bus, hidden_idx, passive_idx)
     else a <- delete_cols y_bus pcc_idx ;; b <- delete_rows a pcc_idx ;; Ok (b, shift pcc_idx hidden_idx, shift pcc_idx passive_idx)) ;;
  shunts <- make_shunts (nr y_bus) voltage current hidden_idx ;;
  y_red <- kron_reduction pinv (union_difference hidden_idx passive_idx pcc_idx) (madd y_bus (diagonal shunts)) ;;
  Ok (idx_todel, y_red).

(** simulate_network.py:44-49: the substations become hidden nodes unless the matrix is a Laplacian *)
Definition with_substations (bus_data : list (bus_data (K := K))) (laplacian : bool) (hidden_nodes : list nat) : list nat :=
  if laplacian then hidden_nodes
  else hidden_nodes ++ map bd_id (filter (fun b => bd_type b =? TYPE_PCC)%nat bus_data).
End Reduce.
