(** Vocabulary for networks whose lines have resistance. *)
From Coq Require Import Arith List.
From Verif Require Import BasePy BaseFld BaseOrd BaseSum BaseMat ModelNet SpecNet.
Import ListNotations.
Local Open Scope K_scope.

Section Spec.
Context {K : Type} {O : Ops K} {O2 : OrdOps K}.

(** lines have a positive resistance, constant-impedance loads do not produce power *)
Definition resistive (n : net (K := K)) : Prop :=
  0 <! sn n /\ (forall b, In b (buses n) -> b_kv b <> 0) /\ (forall l, In l (lines n) -> 0 <! n_r l * n_len l) /\
  (forall l, In l (loads n) -> 0 <=! l_z l /\ 0 <=! l_p l).
(** no constant-impedance loads *)
Definition unloaded (n : net (K := K)) : Prop := forall l, In l (loads n) -> l_z l = 0.
(** a line joins the buses at positions [a] and [b] *)
Definition joined (n : net (K := K)) (a b : nat) : Prop := exists l, In l (lines n) /\
  ((nth_error (ids n) a = Some (n_from l) /\ nth_error (ids n) b = Some (n_to l)) \/
   (nth_error (ids n) a = Some (n_to l) /\ nth_error (ids n) b = Some (n_from l))).
(** links [J] lead from position [k] to a position below [m] that is not in [E] *)
Inductive leads_out (m : nat) (J : nat -> nat -> Prop) (E : list nat) : nat -> Prop :=
| already_out k : (k < m)%nat -> ~ In k E -> leads_out m J E k
| one_link a b : J a b -> leads_out m J E b -> leads_out m J E a.
(** [M] has an inverse *)
Definition invertible {T} {OT : Ops T} (r : nat) (M : mat T) : Prop := exists B, shape B r r /\ mmul M B = meye r /\ mmul B M = meye r.
(** [pinv] inverts what has an inverse *)
Definition inverts {T} {OT : Ops T} (pinv : mat T -> mat T) : Prop := forall r M B, shape M r r -> shape B r r -> mmul M B = meye r -> mmul B M = meye r -> pinv M = B.

(** the same for the tables a network is built from *)
Definition resistive_tables (ns : list (bus_data (K := K))) (ls : list (line_data (K := K))) : Prop :=
  (forall b, In b ns -> bd_kv b <> 0) /\ (forall l, In l ls -> active l = true -> 0 <! ld_r l) /\
  (forall b, In b ns -> bd_type b = 1%nat -> 0 <=! bd_z b /\ 0 <=! number (bd_p b)).
(** a line in service joins the buses at positions [a] and [b] *)
Definition linked (ns : list (bus_data (K := K))) (ls : list (line_data (K := K))) (a b : nat) : Prop := exists l, In l ls /\ active l = true /\
  ((nth_error (map bd_id ns) a = Some (ld_start l) /\ nth_error (map bd_id ns) b = Some (ld_end l)) \/
   (nth_error (map bd_id ns) a = Some (ld_end l) /\ nth_error (map bd_id ns) b = Some (ld_start l))).
End Spec.
