(** Measurements with constant offsets. *)
From Coq Require Import Arith List.
From Verif Require Import BasePy BaseFld BaseSum BaseMat BaseNumpy ModelErrorMetrics.
From Coq Require Import Reals.
Close Scope R_scope.
Import ListNotations.
Local Open Scope nat_scope.

(** the table [x'] (one row for each of [T] samples) is the table [x] with [c j] added to every value of the column [j] *)
Definition offset {X} {O : Ops X} (T n : nat) (c : nat -> X) (x x' : mat X) : Prop :=
  shape x T n /\ shape x' T n /\ forall t j, t < T -> j < n -> get x' t j = (get x t j + c j)%K.
(** the offsets that do not matter: without the Laplacian option any offset of each column; with it one offset of all voltages *)
Definition only_offsets {X} {O : Ops X} (laplacian : bool) (T n : nat) (v v' i i' : mat X) : Prop :=
  if laplacian then (exists c, offset T n (fun _ => c) v v') /\ i' = i else exists c d, offset T n c v v' /\ offset T n d i i'.

(** the weights [w'] belong to the reordered samples, for matrices of floats (see [reordered_weights] in SpecOrder.v) *)
Definition reordered_floats (T n : nat) (p : nat -> nat) (w w' : mat flt) : Prop :=
  nr w' = 2 * (n * T) /\ nc w' = 2 * (n * T) /\ nr w = nr w' /\ nc w = nc w' /\
  forall c c' k k' t t', c < 2 -> c' < 2 -> k < n -> k' < n -> t < T -> t' < T ->
    gget (Fin 0%R) w' ((c * n + k) * T + t) ((c' * n + k') * T + t') = gget (Fin 0%R) w ((c * n + k) * T + p t) ((c' * n + k') * T + p t').
