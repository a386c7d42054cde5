(** The same samples in another order. *)
From Coq Require Import Arith List Permutation.
From Verif Require Import BasePy BaseFld BaseOrd BaseSum BaseMat.
Import ListNotations.
Local Open Scope nat_scope.

(** [p t] is the number of the sample that is found at place [t] *)
Definition new_order (T : nat) (p : nat -> nat) : Prop := Permutation (map p (seq 0 T)) (seq 0 T).
(** the table [x'] has the rows of the table [x] (one row for each of [T] samples) in the order [p] *)
Definition reordered {X} {O : Ops X} (T n : nat) (p : nat -> nat) (x x' : mat X) : Prop :=
  shape x T n /\ shape x' T n /\ forall t j, t < T -> j < n -> get x' t j = get x (p t) j.
(** the weights [w'] belong to the reordered samples.  The entries of the weights belong to real parts (c = 0)
    and imaginary parts (c = 1), nodes k and samples t, in this order. *)
Definition reordered_weights {X} {O : Ops X} (T n : nat) (p : nat -> nat) (w w' : mat X) : Prop :=
  shape w' (2 * (n * T)) (2 * (n * T)) /\
  forall c c' k k' t t', c < 2 -> c' < 2 -> k < n -> k' < n -> t < T -> t' < T ->
    get w' ((c * n + k) * T + t) ((c' * n + k') * T + t') = get w ((c * n + k) * T + p t) ((c' * n + k') * T + p t').
(** the singular values with index below [n] are larger than the other ones of the [M] *)
Definition apart {K} {O : Ops K} {O2 : OrdOps K} (n M : nat) (s : list K) : Prop :=
  forall i j, i < n -> n <= j -> j < M -> vget s j <! vget s i.
