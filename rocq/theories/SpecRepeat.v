(** Repeated samples: every sample is recorded the same number of times, in any order. *)
From Coq Require Import Arith List.
From Verif Require Import BaseFld BaseSum BaseMat.
Import ListNotations.

(** [T'] records of [T] samples: record [t] is a copy of sample [p t], and every sample has [k] records *)
Definition repeats (k T T' : nat) (p : nat -> nat) : Prop :=
  (forall t, t < T' -> p t < T) /\ forall t, t < T -> count_occ Nat.eq_dec (map p (seq 0 T')) t = k.
(** the table of the records *)
Definition repeated {A} {O : Ops A} (T T' n : nat) (p : nat -> nat) (x x' : mat A) : Prop :=
  shape x T n /\ shape x' T' n /\ forall t j, t < T' -> j < n -> get x' t j = get x (p t) j.
