(** Specification of the voltages and currents saved by the simulation program. *)
From Coq Require Import Arith List.
From Verif Require Import BasePy BaseFld BaseSum BaseMat.
Local Open Scope nat_scope.

Section SpecResults.
Context {K : Type} {O : Ops K}.
Notation CK := (cplx K).
(** [V] has one row for each time and one column for each bus, with the magnitudes [m] and the angles [a] *)
Definition polar_form (polar : K -> K -> CK) (m a : mat K) (V : mat CK) : Prop :=
  shape V (nr m) (nc m) /\ nr a = nr m /\ nc a = nc m /\ forall t k, t < nr m -> k < nc m -> get V t k = polar (get m t k) (get a t k).
(** three columns for each bus, one for each phase *)
Definition polar_form3 (polar : K -> K -> CK) (m a : nat -> mat K) (V : mat CK) : Prop :=
  shape V (nr (m 0)) (3 * nc (m 0)) /\
  forall ph, ph < 3 -> nr (m ph) = nr (m 0) /\ nc (m ph) = nc (m 0) /\ nr (a ph) = nr (m 0) /\ nc (a ph) = nc (m 0) /\
    forall t k, t < nr (m 0) -> k < nc (m 0) -> get V t (3 * k + ph) = polar (get (m ph) t k) (get (a ph) t k).
(** the currents into the network are those of the admittance matrix *)
Definition injected (V Y I : mat CK) : Prop :=
  nc V = nr Y /\ shape I (nr V) (nc Y) /\ forall t k, t < nr V -> k < nc Y -> get I t k = sumn (nr Y) (fun j => (get V t j * get Y j k)%K).
End SpecResults.
