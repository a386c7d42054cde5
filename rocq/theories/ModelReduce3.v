(** Model of [reduce_network] for three phases (/repo/src/simulation/run3ph.py:322-383) and of the admittance
    matrix it starts from (/repo/src/simulation/network_3ph.py:98-127).
    [np.linalg.pinv] is a parameter; so are the three sequence matrices of pandapower's [runpp_3ph]
    (the argument [ys]).  A mean voltage of zero makes numpy return nan; here the quotient is 0.
    Printing is left out, and so is the argument [laplacian], which the function never reads. *)
From Coq Require Import Bool Arith List Reals.
From Verif Require Import BasePy BaseFld BaseSum BaseMat BaseReal ModelErrorMetrics ModelSet ModelKron ModelLines ModelNet ModelReduce.
Import ListNotations.
Local Open Scope K_scope.

(** [np.kron(a, diag([1, 0, 0])) + np.kron(b, diag([0, 1, 0])) + np.kron(c, diag([0, 0, 1]))]: the numbers of rows and
    columns are multiples of three, so arrays of different shapes cannot be broadcast *)
Definition same_shape (a b : mat C) : bool := ((nr a =? nr b) && (nc a =? nc b))%nat.
Definition sum_kron (a b c : mat C) : res (mat C) :=
  if same_shape a b && same_shape a c then Ok (assemble_012 a b c) else Err ValueError.
(** network_3ph.py:98-127 *)
Definition make_y_bus3 (ys : mat C * mat C * mat C) : res (mat C) :=
  let '(y_bus0, y_bus1, y_bus2) := ys in
  y_012 <- sum_kron y_bus0 y_bus1 y_bus2 ;; admittance_sequence_to_phase y_012.
(** [y[k::3, k::3]] *)
Definition every_third (k : nat) (y : mat C) : mat C :=
  mk ((nr y - k + 2) / 3)%nat ((nc y - k + 2) / 3)%nat (fun i j => get y (3 * i + k)%nat (3 * j + k)%nat).
(** [np.intersect1d]: the common elements, sorted *)
Definition intersect1d (a b : list nat) : list nat := filter (fun i => mem i a && mem i b) (range (S (list_max a))).
(** [l[l % 3 == ph]], then [(l - ph) / 3]; the quotients are whole floats, equal to and hashed like the integers *)
Definition of_phase (ph : nat) (l : list nat) : list nat := map (fun i => i / 3)%nat (filter (fun i => i mod 3 =? ph)%nat l).

Section Reduce3.
Variable pinv : mat C -> mat C.

(** run3ph.py:351-354: one substation after the other *)
Definition drop_substations (n : net (K := R)) (y_bus : mat C) : res (list nat * mat C) :=
  for_each (grids n) ([], y_bus) (fun acc idx =>
    let '(idx_todel, y_bus) := acc in
    match position n idx with
    | None => Err ValueError
    | Some p =>
      let d := [3 * p; 3 * p + 1; 3 * p + 2]%nat in
      a <- delete_cols y_bus d ;; b <- delete_rows a d ;; Ok ((idx_todel ++ d)%list, b)
    end).
(** run3ph.py:356-360 *)
Definition passive3 (n : net (K := R)) (reduce_single : bool) : res (nat -> list nat) :=
  passive_nodes <- give_passive_nodes n ;;
  Ok (if reduce_single then passive_nodes
      else fun _ => intersect1d (passive_nodes 0%nat) (intersect1d (passive_nodes 1%nat) (passive_nodes 2%nat))).
(** run3ph.py:363-371 *)
Definition passive_indices (n : net (K := R)) (ph : nat) (l : list nat) : res (list nat) :=
  ps <- positions n l ;; Ok (map (fun p => 3 * p + ph)%nat ps).
Definition add_hidden (n : net (K := R)) (voltage current : mat C) (ph : nat) (hidden_nodes : list nat)
  (acc : list nat * list C) : res (list nat * list C) :=
  for_each hidden_nodes acc (fun acc idx =>
    let '(idx_tored, shunts) := acc in
    match position n idx with
    | None => Err ValueError
    | Some p =>
      let i := (3 * p + ph)%nat in
      if (i <? nc current)%nat && (i <? nc voltage)%nat && (i <? length shunts)%nat
      then Ok ((idx_tored ++ [i])%list, mkv (length shunts) (fun k => if (k =? i)%nat then col_mean current i / col_mean voltage i else vget shunts k))
      else Err IndexError
    end).
Definition to_reduce (n : net (K := R)) (voltage current : mat C) (passive_nodes : nat -> list nat) (hidden_nodes : list nat)
  (size : nat) : res (list nat * list C) :=
  for_each (range 3) ([], mkv size (fun _ => 0)) (fun acc ph =>
    p <- passive_indices n ph (passive_nodes ph) ;;
    add_hidden n voltage current ph hidden_nodes ((fst acc ++ p)%list, snd acc)).

(** run3ph.py:322-383 *)
Definition reduce_network3 (ys : mat C * mat C * mat C) (n : net (K := R)) (voltage current : mat C) (hidden_nodes : list nat)
  (reduce_single : bool) : res (list nat * mat C) :=
  y_bus <- make_y_bus3 ys ;;
  '(idx_todel, y_bus) <- drop_substations n y_bus ;;
  passive_nodes <- passive3 n reduce_single ;;
  '(idx_tored, shunts) <- to_reduce n voltage current passive_nodes hidden_nodes (nr y_bus) ;;
  y_bus <- admittance_phase_to_sequence (madd y_bus (diagonal shunts)) ;;
  y0 <- kron_reduction pinv (of_phase 0 idx_tored) (every_third 0 y_bus) ;;
  y1 <- kron_reduction pinv (of_phase 1 idx_tored) (every_third 1 y_bus) ;;
  y2 <- kron_reduction pinv (of_phase 2 idx_tored) (every_third 2 y_bus) ;;
  y_bus <- sum_kron y0 y1 y2 ;;
  y_bus <- admittance_sequence_to_phase y_bus ;;
  Ok ((idx_todel ++ idx_tored)%list, y_bus).
End Reduce3.
