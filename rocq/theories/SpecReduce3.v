(** Vocabulary for the reduction of three-phase networks: node [i] occupies the positions 3i, 3i+1, 3i+2. *)
From Coq Require Import Bool Arith List Reals.
From Verif Require Import BasePy BaseFld BaseSum BaseMat BaseReal ModelNet SpecNet SpecKron SpecReduce.
Import ListNotations.
Local Open Scope K_scope.

(** the positions of all phases of the nodes *)
Definition phases3 (l : list nat) : list nat := flat_map (fun i => [3 * i; 3 * i + 1; 3 * i + 2]%nat) l.
(** the load of a node is the same on its three phases: mean current over mean voltage *)
Definition balanced (V I : mat C) (x : nat) : Prop :=
  mean_at I (3 * x + 1) / mean_at V (3 * x + 1) = mean_at I (3 * x) / mean_at V (3 * x) /\
  mean_at I (3 * x + 2) / mean_at V (3 * x + 2) = mean_at I (3 * x) / mean_at V (3 * x).
(** the load of a node, averaged over its three phases *)
Definition mean_load (V I : mat C) (x : nat) : C :=
  let load i := mean_at I i / mean_at V i in (load (3 * x)%nat + load (3 * x + 1)%nat + load (3 * x + 2)%nat) / knat 3.
(** [Y] with the same shunt on the three phases of every node of [H] *)
Definition mean_loaded (Y V I : mat C) (H : list nat) : mat C :=
  mk (nr Y) (nr Y) (fun i j => get Y i j + (if (i =? j)%nat && existsb (Nat.eqb (i / 3)) H then mean_load V I (i / 3) else 0)).
(** the matrix of one sequence with the loads of the nodes [H] *)
Definition sequence_loaded (y V I : mat C) (H : list nat) : mat C :=
  mk (nr y) (nr y) (fun i j => get y i j + (if (i =? j)%nat && existsb (Nat.eqb i) H then mean_load V I i else 0)).
(** nodes without injection on any phase *)
Definition idle_node (n : net (K := R)) (x : nat) : Prop :=
  exists i, nth_error (ids n) x = Some i /\ idle n 0 i /\ idle n 1 i /\ idle n 2 i.
(** a node without injection on one phase has none on the others *)
Definition phases_alike (n : net (K := R)) : Prop := forall i ph, In i (ids n) -> (ph < 3)%nat -> idle n ph i -> idle n 0 i /\ idle n 1 i /\ idle n 2 i.
