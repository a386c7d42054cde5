(** Vocabulary for the networks and settings shipped with the package. *)
From Coq Require Import String.
From Coq Require Import Arith List ZArith.
From Verif Require Import BasePy BaseFld BaseOrd BaseSum BaseMat ModelNet SpecNet SpecPassive.
Import ListNotations.
Local Open Scope K_scope.

(** links [J] lead from [a] to [b] *)
Inductive path (J : nat -> nat -> Prop) : nat -> nat -> Prop :=
| arrived a : path J a a
| step_on a b c : J a b -> path J b c -> path J a c.

Section Spec.
Context {K : Type} {O : Ops K}.
Notation nodes := (list (bus_data (K := K))).
Notation branches := (list (line_data (K := K))).

(** the bus at position [s] is the only substation, all others are loads *)
Definition only_substation (ns : nodes) (s : nat) : Prop :=
  (exists b, nth_error ns s = Some b /\ bd_type b = 3%nat) /\ forall k b, nth_error ns k = Some b -> k <> s -> bd_type b = 1%nat.
(** lines in service lead from every bus to the one at position [s] *)
Definition connected (ns : nodes) (ls : branches) (s : nat) : Prop := forall k, (k < length ns)%nat -> path (linked ns ls) k s.

(** a bus under another label *)
Definition relabelled (f : nat -> nat) (b : bus_data (K := K)) : bus_data (K := K) :=
  BusData (f (bd_id b)) (bd_type b) (bd_p b) (bd_q b) (bd_kv b) (bd_z b) (bd_i b).
(** line [l] with its ends relabelled is line [m], whichever way round *)
Definition same_line (f : nat -> nat) (l m : line_data (K := K)) : Prop :=
  ((f (ld_start l) = ld_start m /\ f (ld_end l) = ld_end m) \/ (f (ld_start l) = ld_end m /\ f (ld_end l) = ld_start m)) /\
  ld_length l = ld_length m /\ ld_r l = ld_r m /\ ld_x l = ld_x m /\ ld_status l = ld_status m.
(** the first network consists of buses of the second one and of all lines between them *)
Definition subnetwork (f : nat -> nat) (ns : nodes) (ls : branches) (ns' : nodes) (ls' : branches) : Prop :=
  (forall b, In b ns -> In (relabelled f b) ns') /\
  (forall l, In l ls -> exists m, In m ls' /\ same_line f l m) /\
  (forall m, In m ls' -> (exists b, In b ns /\ f (bd_id b) = ld_start m) -> (exists b, In b ns /\ f (bd_id b) = ld_end m) ->
     exists l, In l ls /\ same_line f l m).
(** the loads of a three-phase bus add up to those of a bus; its substation is a substation *)
Definition adds_up (b b3 : bus_data (K := K)) : Prop :=
  bd_id b3 = bd_id b /\ bd_type b3 = bd_type b /\ bd_kv b3 = bd_kv b /\
  (bd_type b = 1%nat -> exists p1 p2 p3 q1 q2 q3, bd_p b3 = Phases p1 p2 p3 /\ bd_q b3 = Phases q1 q2 q3 /\
     bd_p b = Single (p1 + p2 + p3) /\ bd_q b = Single (q1 + q2 + q3)).
(** every phase has the load of the bus *)
Definition each_phase (b b3 : bus_data (K := K)) : Prop :=
  bd_id b3 = bd_id b /\ bd_type b3 = bd_type b /\ bd_kv b3 = bd_kv b /\
  (bd_type b = 1%nat -> exists p q, bd_p b3 = Phases p p p /\ bd_q b3 = Phases q q q /\ bd_p b = Single p /\ bd_q b = Single q).
(** the same line in service, its length in other units *)
Definition scaled_line (c : K) (l l3 : line_data (K := K)) : Prop :=
  ld_start l3 = ld_start l /\ ld_end l3 = ld_end l /\ ld_length l3 = ld_length l * c /\ active l = true /\ active l3 = true.
End Spec.

(** a power on one phase *)
Definition phase_power {K} (p : power (K := K)) (ph : nat) : K :=
  match p with Single x => x | Phases a b c => match ph with 0%nat => a | 1%nat => b | _ => c end end.
(** [E] are the positions of the buses, other than substations, that are hidden or have no load on phase [ph] *)
Definition removed_on {K} {O : Ops K} (hidden : list nat) (ns : list (bus_data (K := K))) (ph : nat) (E : list nat) : Prop :=
  NoDup E /\ forall k, In k E <-> exists b, nth_error ns k = Some b /\ bd_type b <> 3%nat /\
    (In (bd_id b) hidden \/ (phase_power (bd_p b) ph = 0 /\ phase_power (bd_q b) ph = 0)).
(** a dictionary of labels; labels that are not in it stay *)
Definition renamed (d : list (nat * nat)) (i : nat) : nat := match find (fun e => (fst e =? i)%nat) d with Some e => snd e | None => i end.
