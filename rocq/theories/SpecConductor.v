(** What is meant by a line made of a conductor. Independent of the network tables. *)
From Coq Require Import List ZArith.
From Verif Require Import BasePy BaseFld BaseOrd ModelNet ModelTemplates.
Import ListNotations.
Local Open Scope K_scope.

Section Spec.
Context {K : Type} {O : Ops K} {O2 : OrdOps K}.
(** [x] differs from [c] by at most [tol] *)
Definition near (tol x c : K) : Prop := c <=! x + tol /\ x <=! c + tol.
(** resistance and reactance of a conductor, per unit of length *)
Definition conductor : Type := (K * K)%type.
(** every line of the network has one of the given conductors *)
Definition wired (tol : K) (cs : list conductor) (n : net (K := K)) : Prop :=
  forall l, In l (lines n) -> exists c, In c cs /\ near tol (n_r l) (fst c) /\ near tol (n_x l) (snd c).
(** the two conductors of the IEEE 123-bus test feeder in the tables of Bolognani; the factor 17.3 is that of the tables *)
Definition main_conductor : conductor := (dec 33496557 10000000000000 * dec 173 10, dec 6862707 1000000000000 * dec 173 10).
Definition thin_conductor : conductor := (dec 110998184 10000000000000 * dec 173 10, dec 52885096 10000000000000 * dec 173 10).
(** the underground cable of the CIGRE network: 0.501 and 0.716 ohms per kilometre *)
Definition cigre_cable : conductor := (dec 501 1000, dec 716 1000).
End Spec.
