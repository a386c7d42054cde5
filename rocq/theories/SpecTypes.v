(** What the comment at /repo/src/simulation/net_templates_3ph.py:168-183 says about the lines, in phase values. *)
From Coq Require Import String.
From Coq Require Import List Reals.
From Verif Require Import BasePy BaseFld BaseSum BaseMat BaseReal ModelErrorMetrics.
Import ListNotations.
Local Open Scope R_scope.

(** the impedance of a phase and the one between two phases, in ohm per kft; a kft is 0.3 km *)
Definition documented : list (string * (C * C)) := [
  ("OG3"%string, (Cx (87 / 1000) (20 / 100), Cx (29 / 1000) (8 / 100)));
  ("UG3"%string, (Cx (29 / 100) (14 / 100), Cx (95 / 1000) (5 / 100)));
  ("OG1"%string, (Cx (25 / 100) (25 / 100), Cx 0 0))].
(** the impedance between the phases [p] and [q] of a line of [len] km *)
Definition phase_impedance (own mutual : C) (len : R) (p q : nat) : C :=
  (Cx (len / (3 / 10)) 0 * (if Nat.eqb p q then own else mutual))%K.
(** in the sequence matrix [y] a line with the impedance [z] per km and the length [len] joins the nodes [i] and [j]; [base] is the unit *)
Definition joins (base : R) (len : R) (z : R * R) (y : mat C) (i j : nat) : Prop :=
  (get y i j * (Cx len 0 * Cx (fst z) (snd z)) = - Cx base 0)%K.
(** the entries of [Y] between the phases of two nodes are those of a line: their product with the impedances is the unit matrix, times minus the base *)
Definition phase_line (base : R) (imp : nat -> nat -> C) (Y : mat C) (i j : nat) : Prop :=
  forall p q, (p < 3)%nat -> (q < 3)%nat -> sumn 3 (fun r => (get Y (i * 3 + p) (j * 3 + r) * imp r q)%K) = if Nat.eqb p q then (- Cx base 0)%K else 0%K.
