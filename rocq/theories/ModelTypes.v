(** The line types of the three-phase networks with their zero-sequence impedances: /repo/src/simulation/net_templates_3ph.py:184-207.
    ModelTemplates.v has the positive-sequence impedances only.  Capacitances are 0; the limits of the currents are left out.  Python's
    decimal literals are exact numbers here. *)
From Coq Require Import String.
From Coq Require Import List ZArith.
From Verif Require Import BasePy BaseFld BaseOrd BaseSum BaseMat ModelSet ModelNet ModelScript ModelTemplates.
Import ListNotations.
Local Open Scope K_scope.

Section Types.
Context {K : Type} {O : Ops K}.
(** net_templates_3ph.py:184, 187, 189: complex numbers as pairs *)
Definition Z3_0_og : K * K := (((dec 87 1000) + dec 2 1 * (dec 29 1000)) / (dec 3 10), ((dec 20 100) + dec 2 1 * (dec 8 100)) / (dec 3 10)).
Definition Z1_0_og : K * K := (fst Z1_1_og / (dec 3 10), snd Z1_1_og / (dec 3 10)).
Definition Z3_0_ug : K * K := (((dec 29 100) + dec 2 1 * (dec 95 1000)) / (dec 3 10), ((dec 14 100) + dec 2 1 * (dec 5 100)) / (dec 3 10)).
(** net_templates_3ph.py:192-207: positive- and zero-sequence resistance and reactance per km *)
Definition sequence_types : list (string * ((K * K) * (K * K))) := [
  ("OG3"%string, (Z3_1_og, Z3_0_og));
  ("UG3"%string, (Z3_1_ug, Z3_0_ug));
  ("OG1"%string, (Z1_1_og, Z1_0_og));
  ("UG3CIGRE"%string, ((fst Z3_1_ug / (dec 3 1), (dec 3 1) * snd Z3_1_ug / (dec 3 1)), ((dec 3 1) * fst Z3_0_ug / (dec 3 1), (dec 3 1) * snd Z3_0_ug / (dec 3 1))))].
End Types.
