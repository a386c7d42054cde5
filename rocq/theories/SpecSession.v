(** Vocabulary for several calls of simulate_network.py in one process. *)
From Coq Require Import String.
From Coq Require Import Bool Arith List ZArith.
From Verif Require Import BasePy BaseFld ModelNet ModelScript ModelSession.
Import ListNotations.
Close Scope string_scope.

Section Spec.
Context {K : Type}.

(** one process for every call: [process d l] describes what the process with the calls [l] does *)
Fixpoint separately (process : disk K -> list (call K) -> disk K * list (res unit)) (d : disk K) (l : list (call K)) : disk K * list (res unit) :=
  match l with
  | [] => (d, [])
  | c :: l => let '(d1, r) := process d [c] in let '(d2, rs) := separately process d1 l in (d2, r ++ rs)
  end.
(** one phase, and not a Laplacian: the substation is left out of the data *)
Definition grounded_call (c : call K) : Prop := three_phased (c_options c) = false /\ laplacian (c_options c) = false.
(** the numbers of the substations of a template *)
Fixpoint substation_ids (ns : list (bus_data (K := K))) : list nat :=
  match ns with
  | [] => []
  | b :: r => if Nat.eq_dec (bd_type b) 3 then bd_id b :: substation_ids r else substation_ids r
  end.
(** after the first grounded call there are only grounded calls of networks whose substations have the same numbers *)
Definition compatible (l : list (call K)) : Prop :=
  exists before after P, l = before ++ after /\ (forall c, In c before -> ~ grounded_call c) /\
    forall c, In c after -> grounded_call c /\ forall ns ls, c_template c = Some (ns, ls) -> substation_ids ns = P.
End Spec.
