(** What a run of the time series should do. *)
From Coq Require Import String.
From Coq Require Import Arith List.
From Verif Require Import BasePy BaseFld BaseSum BaseMat ModelNet ModelSimRun.
Import ListNotations.

Section Spec.
Context {K : Type} {O : Ops K}.
Notation net := (net (K := K)).
(** the network [m] is [n] with the active powers [P] and the reactive powers [Q] in the rows of the table of the loads *)
Definition loaded (n m : net) (P Q : nat -> K) : Prop :=
  (buses m = buses n /\ grids m = grids n /\ lines m = lines n /\ sn m = sn n /\ types m = types n) /\ length (loads m) = length (loads n) /\
  forall k l, nth_error (loads n) k = Some l -> nth_error (loads m) k = Some (Load (l_id l) (l_bus l) (P k) (Q k) (l_z l) (l_i l)).
(** the unbalanced loads of [m] are those of [n] with the active powers [P] and the reactive powers [Q] of each phase *)
Definition unbalanced (n m : net) (P Q : nat -> nat -> K) : Prop :=
  length (asyms m) = length (asyms n) /\
  forall k a, nth_error (asyms n) k = Some a -> exists a', nth_error (asyms m) k = Some a' /\ a_id a' = a_id a /\ a_bus a' = a_bus a /\
    forall i, i < 3 -> a_p a' i = P i k /\ a_q a' i = Q i k.
(** the loads of the sample [t] *)
Definition sample (p q : mat K) (t : nat) (n m : net) : Prop := loaded n m (get p t) (get q t) /\ asyms m = asyms n.
Definition sample3 (p q : mat K) (a : list (mat K)) (t : nat) (n m : net) : Prop :=
  loaded n m (get p t) (get q t) /\ unbalanced n m (fun i => get (nth i a p) t) (fun i => get (nth (3 + i) a p) t).
(** all files of the directory have the names of files of this kind of simulation *)
Definition own_files (logged : list (string * string)) (l : list (file (K := K))) : Prop := forall f, In f l -> In (fst f) logged.
(** every logged quantity is a field of the results, and its row [t] holds the values of the power flow [t] *)
Definition holds (logged : list (string * string)) (T : nat) (r : nat -> columns (K := K)) (res : results (K := K)) : Prop :=
  forall tb v, In (tb, v) logged -> exists m, field res v = Some m /\ nr m = T /\ forall t, t < T -> table_row m t = r t tb v.
(** each column of the results has the same number of values in all samples *)
Definition steady (logged : list (string * string)) (T : nat) (r : nat -> columns (K := K)) : Prop :=
  forall tb v t, In (tb, v) logged -> t < T -> length (r t tb v) = length (r 0 tb v).
(** the columns of the magnitudes and of the angles of the phases *)
Definition vm_column (h : nat) : string := nth h ["vm_a_pu"; "vm_b_pu"; "vm_c_pu"]%string EmptyString.
Definition va_column (h : nat) : string := nth h ["va_a_degree"; "va_b_degree"; "va_c_degree"]%string EmptyString.
(** no program reads before it has written *)
Definition in_order (l : list action) : Prop := forall l1 k l2, l = l1 ++ Reads k :: l2 -> In (Writes k) l1.
End Spec.
