(** Model of several calls of the program /repo/simulate_network.py:30-125 in one Python process, for instance from a notebook.
    Lines 44-49 append the substations to the list [conf.simulation.hidden_nodes] itself, so the list grows from call to call.
    An exception ends its call only.  The files of a network are found by its name. *)
From Coq Require Import String.
From Coq Require Import Bool Arith List ZArith.
From Verif Require Import BasePy BaseFld BaseOrd BaseSum BaseMat ModelNet ModelReduce ModelResample ModelLoads ModelMeasure ModelScript.
Import ListNotations.
Close Scope string_scope.

(** the settings with another content of the list [hidden_nodes] *)
Definition with_hidden {K} (conf : settings K) (h : list nat) : settings K :=
  Settings K h (constant_load_hidden_nodes conf) (load_constantness conf) (selected_weeks conf) (days conf) (time_steps conf)
    (measurement_frequency conf) (safety_factor conf) (s_voltage_magnitude_sd conf) (s_current_magnitude_sd conf)
    (s_voltage_phase_sd conf) (s_current_phase_sd conf).

(** one call: the argument [network], the options, and the template of this name in the module of templates in use *)
Record call (K : Type) := Call { c_name : string; c_options : options K; c_template : option (list (bus_data (K := K)) * list (line_data (K := K))) }.
Arguments Call {K}. Arguments c_name {K}. Arguments c_options {K}. Arguments c_template {K}.
Definition disk (K : Type) := string -> data_files K.
Definition write {K} (d : disk K) (name : string) (f : data_files K) : disk K := fun m => if String.eqb m name then f else d m.

Section Session.
Context {K : Type} {O : Ops K} {O2 : OrdOps K}.
Notation CK := (cplx K).
Context (pinv : mat CK -> mat CK) (rnd : K -> Z) (root : K -> K) (polar : K -> K -> CK).
Context {St : Type} (randint : nat -> nat -> St -> list nat * St) (gauss : St -> K * St) (noise : @noise_fun K St K) (seeded : St).
Context (flow1 : net (K := K) -> mat K -> mat K -> res (mat K * mat K)).
Context (flow3 : net (K := K) -> mat K -> mat K -> list (mat K) -> res ((mat K * mat K) * (mat K * mat K) * (mat K * mat K))).
Context (y_bus3 : net (K := K) -> res (mat CK)).
Context (reduce3 : net (K := K) -> mat CK -> mat CK -> list nat -> bool -> res (list nat * mat CK)).
Context (seq_measurement seq_admittance : mat CK -> res (mat CK)).
Context (conf : settings K) (ts : list (string * (K * K))).

(** simulate_network.py:41-49: the list after a call *)
Definition list_after (h : list nat) (c : call K) : list nat :=
  match (if three_phased (c_options c) then make_net3 ts (c_template c) else make_net (c_template c)) with
  | Ok (_, bus_data) => hidden_list (with_hidden conf h) (c_options c) bus_data
  | Err _ => h
  end.
(** one call, with the list [h] *)
Definition run_call (h : list nat) (d : disk K) (c : call K) : disk K * res unit :=
  let '(f, r) := simulate pinv rnd root polar randint gauss noise seeded flow1 flow3 y_bus3 reduce3 seq_measurement seq_admittance
    (with_hidden conf h) (c_options c) ts (c_template c) (d (c_name c)) in
  (write d (c_name c) f, r).
(** the calls one after the other *)
Fixpoint session (h : list nat) (d : disk K) (l : list (call K)) : disk K * list (res unit) :=
  match l with
  | [] => (d, [])
  | c :: l => let '(d1, r) := run_call h d c in let '(d2, rs) := session (list_after h c) d1 l in (d2, r :: rs)
  end.
(** a Python process that imports the settings and makes these calls *)
Definition process (d : disk K) (l : list (call K)) : disk K * list (res unit) := session (hidden_nodes conf) d l.
End Session.
