(** Vocabulary for the reduction of a simulated network; nodes are positions in the bus table. *)
From Coq Require Import Bool Arith List.
From Verif Require Import BasePy BaseFld BaseSum BaseMat ModelNet SpecNet SpecKron.
Import ListNotations.
Local Open Scope K_scope.

(** [ps] are the positions of the given nodes *)
Definition located {K} (n : net (K := K)) (nodes ps : list nat) : Prop :=
  Forall2 (fun i p => nth_error (ids n) p = Some i) nodes ps.
(** [ps] are the positions of the buses without injection *)
Definition idle_positions {K} {O : Ops K} (n : net (K := K)) (ps : list nat) : Prop :=
  forall p, In p ps <-> exists i, nth_error (ids n) p = Some i /\ idle n 0 i.
(** how many of [G] come before [x] *)
Definition before (x : nat) (G : list nat) : nat := length (filter (fun p => p <? x)%nat G).
(** the hidden nodes that are not substations *)
Definition non_grid (G H : list nat) : list nat := filter (fun i => negb (existsb (Nat.eqb i) G)) H.
Definition all_before (l G : list nat) : Prop := forall x p, In x l -> In p G -> (x < p)%nat.
Fixpoint descending (G : list nat) : Prop :=
  match G with [] => True | p :: r => (forall q, In q r -> (q < p)%nat) /\ descending r end.
(** sizes for which the rows of the reduction are known to come in ascending order (see C45):
    [m] nodes before the reduction, [k] after *)
Definition orderly (m k : nat) : Prop :=
  (m <= 8 \/ (5 <= k /\ m <= 32) \/ (19 <= k /\ m <= 128) \/ (77 <= k /\ m <= 512) \/ (307 <= k /\ m <= 2048) \/ 3 * m <= 5 * k)%nat.

Section SpecReduce.
Context {K : Type} {O : Ops K}.
(** the nodes of [G] are held at zero *)
Definition grounded (G : list nat) (V : mat K) : Prop := forall t i, (t < nr V)%nat -> In i G -> get V t i = 0.
(** [Z] is what remains of [Y] when the nodes [G] are held at zero and the nodes [E] are left alone;
    row and column k of [Z] belong to the k-th node of [order] *)
Definition behaves (N : nat) (G E order : list nat) (Y Z : mat K) : Prop :=
  shape Z (length order) (length order) /\
  (forall V, nc V = N -> wf V -> grounded G V -> no_injection E V Y ->
     forall t k, (t < nr V)%nat -> (k < length order)%nat ->
       get (mmul V Y) t (nth k order 0%nat) =
       sumn (length order) (fun j => get V t (nth j order 0%nat) * get Z j k)) /\
  (forall T W, shape W T (length order) -> exists V, shape V T N /\ grounded G V /\ no_injection E V Y /\
     forall t k, (t < T)%nat -> (k < length order)%nat -> get V t (nth k order 0%nat) = get W t k).
(** mean of a column *)
Definition mean_at (m : mat K) (j : nat) : K := sumn (nr m) (fun t => get m t j) / knat (nr m).
(** [Y] with a shunt at every node of [H]: the mean current of the node over its mean voltage *)
Definition loaded (Y V I : mat K) (H : list nat) : mat K :=
  mk (nr Y) (nr Y) (fun i j => get Y i j + (if (i =? j)%nat && existsb (Nat.eqb i) H then mean_at I i / mean_at V i else 0)).
(** node [x] draws [c] times its voltage (currents [W @ Y] are injections) *)
Definition draws (W Y : mat K) (x : nat) (c : K) : Prop := forall t, (t < nr W)%nat -> get (mmul W Y) t x = - (c * get W t x).
(** column [x] of [I] is [c] times column [x] of [V] *)
Definition proportional (V I : mat K) (x : nat) (c : K) : Prop := forall t, (t < nr V)%nat -> get I t x = c * get V t x.
(** the columns of a matrix *)
Definition columns (m : mat K) (l : list nat) : mat K := mk (nr m) (length l) (fun t k => get m t (nth k l 0%nat)).
End SpecReduce.
