(** Vocabulary for network reduction.  Samples are rows: currents are [V @ Y]. *)
From Coq Require Import Arith List Permutation.
From Verif Require Import BasePy BaseFld BaseSum BaseMat.
Import ListNotations.
Local Open Scope K_scope.

(** the nodes that are not eliminated, in ascending order *)
Definition kept_ascending (n : nat) (idx : list nat) : list nat :=
  filter (fun i => negb (existsb (Nat.eqb i) idx)) (seq 0 n).

Section SpecKron.
Context {K : Type} {O : Ops K}.

(** rows [ri] and columns [ci] of a matrix *)
Definition block_of (Y : mat K) (ri ci : list nat) : mat K :=
  mk (length ri) (length ci) (fun i j => get Y (nth i ri 0%nat) (nth j ci 0%nat)).

(** no sample of [V @ Y] injects anything at the nodes [idx] *)
Definition no_injection (idx : list nat) (V Y : mat K) : Prop :=
  forall t i, (t < nr V)%nat -> In i idx -> get (mmul V Y) t i = 0.

(** [Z] is what remains of [Y] when the nodes [idx] are left alone: row and column k of [Z] belong to
    the k-th node of [order] *)
Definition describes (n : nat) (order idx : list nat) (Y Z : mat K) : Prop :=
  shape Z (length order) (length order) /\
  (forall V, nc V = n -> wf V -> no_injection idx V Y ->
     forall t k, (t < nr V)%nat -> (k < length order)%nat ->
       get (mmul V Y) t (nth k order 0%nat) =
       sumn (length order) (fun j => get V t (nth j order 0%nat) * get Z j k)) /\
  (forall T W, shape W T (length order) -> exists V, shape V T n /\ no_injection idx V Y /\
     forall t k, (t < T)%nat -> (k < length order)%nat -> get V t (nth k order 0%nat) = get W t k).
End SpecKron.
