(** The same nodes with other numbers; other units; another basis of the columns. *)
From Coq Require Import Arith List Permutation.
From Verif Require Import BasePy BaseFld BaseOrd BaseSum BaseMat ModelLS ModelFit SpecMatrix SpecLS SpecFit SpecOrder SpecTLS.
Import ListNotations.
Local Open Scope nat_scope.

(** the node with the new number [j] is the one with the old number [p j] *)
Definition numbering (n : nat) (p : nat -> nat) : Prop := new_order n p.
(** the table [x'] has the columns of the table [x] in the new order; one row for each of [T] samples *)
Definition columns_renumbered {X} {O : Ops X} (T n : nat) (p : nat -> nat) (x x' : mat X) : Prop :=
  shape x T n /\ shape x' T n /\ forall t j, t < T -> j < n -> get x' t j = get x t (p j).
(** the matrix [y'] has the rows and columns of the matrix [y] in the new order *)
Definition renumbered {X} {O : Ops X} (n : nat) (p : nat -> nat) (y y' : mat X) : Prop :=
  shape y n n /\ shape y' n n /\ forall i j, i < n -> j < n -> get y' i j = get y (p i) (p j).
(** all values of the table are multiplied by a number *)
Definition scaled {X} {O : Ops X} (r c : nat) (a : X) (x x' : mat X) : Prop :=
  shape x r c /\ shape x' r c /\ forall t j, t < r -> j < c -> get x' t j = (a * get x t j)%K.
(** two calls end in the same way: with results that are related or with the same exception *)
Definition both {A B} (R : A -> B -> Prop) (r : res A) (r' : res B) : Prop :=
  match r, r' with Ok a, Ok b => R a b | Err e, Err e' => e = e' | _, _ => False end.
(** the arrays of coefficients stand for related matrices *)
Definition coefficients {K} {O : Ops K} (n m : nat) (R : mat (cplx K) -> mat (cplx K) -> Prop) (r r' : arr (cplx K)) : Prop :=
  exists b b', stands_for n m r b /\ stands_for n m r' b' /\ R b b'.
(** a change of basis that preserves lengths *)
Definition unitary {K} {O : Ops K} (n : nat) (q : mat (cplx K)) : Prop := shape q n n /\ mmul (ctr q) q = meye n.
(** the three matrices of the standard methods *)
Definition three_renumbered {X} {O : Ops X} (n : nat) (p : nat -> nat) (r r' : mat X * mat X * mat X) : Prop :=
  let '(o, t, l) := r in let '(o', t', l') := r' in renumbered n p o o' /\ renumbered n p t t' /\ renumbered n p l l'.
(** the same weights for the deviations of the renumbered nodes *)
Definition weights_renumbered {K} {O : Ops K} (T n : nat) (p : nat -> nat) (W W' : mat K) : Prop :=
  shape W' (2 * (n * T)) (2 * (n * T)) /\ tr W' = W' /\ forall X X' : mat (cplx K), columns_renumbered T n p X X' -> wnorm2 W' X' = wnorm2 W X.
(** two records of iterations: the same number, the same target, related estimates *)
Definition same_record {K} (R : mat (cplx K) -> mat (cplx K) -> Prop) (r r' : status K) : Prop := st_it r = st_it r' /\ st_target r = st_target r' /\ R (st_y r) (st_y r').
