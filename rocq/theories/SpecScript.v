(** Vocabulary for the program simulate_network.py: its flags and files. *)
From Coq Require Import String.
From Coq Require Import Bool Arith List ZArith.
From Verif Require Import BasePy BaseFld BaseOrd BaseSum BaseMat ModelNet ModelMeasure ModelRun ModelScript.
Import ListNotations.
Close Scope string_scope.
Local Open Scope K_scope.

Section Spec.
Context {K : Type} {O : Ops K}.
Notation CK := (cplx K).

(** the same options with the flags -p, -s and -d as given *)
Definition with_flags (o : options K) (p s d : bool) : options K :=
  Options K (profiles o) (gaussian_loads o) p s d (three_phased o) (sequence o) (equivalent_noise o) (laplacian o).
(** the options with which loads, simulation and noise are all recomputed: no flag, or all of them *)
Definition complete (o : options K) : Prop :=
  (loads_only o = false /\ network_sim_only o = false /\ noise_only o = false) \/
  (loads_only o = true /\ network_sim_only o = true /\ noise_only o = true).
(** the saved measurements are the same up to the ratings and the averaging factor *)
Definition same_measurements (a b : option (content K)) : Prop :=
  exists i v j w y h p f p' f', a = Some (Simulation i v j w y p f h) /\ b = Some (Simulation i v j w y p' f' h).
(** the ratings [p'] for the safety factor 4 and [p] for the safety factor [x] *)
Definition rescaled (x : K) (p p' : list K) : Prop :=
  length p' = length p /\ forall k, (k < length p)%nat -> x * vget p' k = knat 4 * vget p k.
End Spec.
