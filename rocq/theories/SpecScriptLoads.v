(** Vocabulary for the loads saved by simulate_network.py. *)
From Coq Require Import String.
From Coq Require Import Bool Arith List ZArith.
From Verif Require Import BasePy BaseFld BaseOrd BaseSum BaseMat ModelNet ModelScript SpecNet SpecLoads.
Import ListNotations.
Close Scope string_scope.
Local Open Scope nat_scope.

Section Spec.
Context {K : Type} {O : Ops K} {O2 : OrdOps K}.

(** the options with which loads are recomputed: -p, or none of -p, -s and -d *)
Definition recomputes_loads (o : options K) : Prop :=
  loads_only o = true \/ (loads_only o = false /\ network_sim_only o = false /\ noise_only o = false).
(** the nodes whose loads are kept nearly constant *)
Definition kept_constant (conf : settings K) : option (list nat) := if constant_load_hidden_nodes conf then Some (hidden_nodes conf) else None.
(** the nominal load of a row of a table: none at a substation *)
Definition nominal_p (b : bus_data (K := K)) : K := if Nat.eq_dec (bd_type b) 1 then number (bd_p b) else 0%K.
Definition nominal_q (b : bus_data (K := K)) : K := if Nat.eq_dec (bd_type b) 1 then number (bd_q b) else 0%K.
(** the nominal load of phase [ph] of a row with three of them *)
Definition of_phase (p : power (K := K)) (ph : nat) : K :=
  match p, ph with Phases a _ _, 0 => a | Phases _ b _, 1 => b | Phases _ _ c, 2 => c | _, _ => 0%K end.
(** one row for every minute of the days, one column for each of [N] loads *)
Definition every_minute (d N : nat) (lf : loads_file K) : Prop :=
  shape (lf_p lf) (1440 * d) N /\ shape (lf_q lf) (1440 * d) N /\
  length (lf_t lf) = 1440 * d /\ forall k, k < 1440 * d -> nth k (lf_t lf) 0%Z = (60 * Z.of_nat k)%Z.
(** the settings loads depend on are the same *)
Definition same_load_settings (c1 c2 : settings K) : Prop :=
  hidden_nodes c1 = hidden_nodes c2 /\ constant_load_hidden_nodes c1 = constant_load_hidden_nodes c2 /\
  load_constantness c1 = load_constantness c2 /\ selected_weeks c1 = selected_weeks c2 /\ days c1 = days c2.
End Spec.
