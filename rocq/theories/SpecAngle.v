(** Phasors with another reference angle for each sample. *)
From Coq Require Import Arith List.
From Verif Require Import BasePy BaseFld BaseOrd BaseSum BaseMat SpecMatrix SpecLS SpecFit.
Import ListNotations.
Local Open Scope nat_scope.

Section SpecAngle.
Context {K : Type} {O : Ops K} {O2 : OrdOps K}.
Notation CK := (cplx K).
(** complex numbers of modulus one *)
Definition angles (T : nat) (c : nat -> CK) : Prop := forall t, t < T -> cnorm2 (c t) = 1%K.
(** the phasors of sample [t] are turned by the angle [c t] *)
Definition turned_phasors (T n : nat) (c : nat -> CK) (x x' : mat CK) : Prop :=
  shape x T n /\ shape x' T n /\ forall t j, t < T -> j < n -> get x' t j = (c t * get x t j)%K.
(** turned deviations cost with the weights [w'] what the deviations cost with the weights [w] *)
Definition turned_weights (T n : nat) (c : nat -> CK) (w w' : mat K) : Prop :=
  shape w' (2 * (n * T)) (2 * (n * T)) /\ tr w' = w' /\ forall d d', turned_phasors T n c d d' -> wnorm2 w' d' = wnorm2 w d.
End SpecAngle.
