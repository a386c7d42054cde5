(** C41 and C42: sequence and phase values. *)
From Coq Require Import Arith Lia List Reals Lra.
From Verif Require Import BasePy BaseFld BaseSum BaseMat ModelErrorMetrics ModelLines SpecLines ProofLines.
Import ListNotations.

(** C41: nothing is lost *)
Theorem C41_admittances_round_trip : forall n Y, shape Y (n * 3) (n * 3) ->
  (exists Z, admittance_phase_to_sequence Y = Ok Z /\ admittance_sequence_to_phase Z = Ok Y) /\
  (exists Z, admittance_sequence_to_phase Y = Ok Z /\ admittance_phase_to_sequence Z = Ok Y).
Proof. exact p_admittance_round. Qed.
Theorem C41_measurements_round_trip : forall n T M, shape M T (n * 3) ->
  (exists Z, measurement_phase_to_sequence M = Ok Z /\ measurement_sequence_to_phase Z = Ok M) /\
  (exists Z, measurement_sequence_to_phase M = Ok Z /\ measurement_phase_to_sequence Z = Ok M).
Proof. exact p_measurement_round. Qed.
Theorem C41_other_sizes_rejected : forall M : mat C, nc M mod 3 <> 0 ->
  measurement_phase_to_sequence M = Err ValueError /\ measurement_sequence_to_phase M = Err ValueError /\
  admittance_phase_to_sequence M = Err ValueError /\ admittance_sequence_to_phase M = Err ValueError.
Proof. exact p_rejected. Qed.
Theorem C41_rectangular_admittances_rejected : forall M : mat C, nr M <> nc M ->
  admittance_phase_to_sequence M = Err ValueError /\ admittance_sequence_to_phase M = Err ValueError.
Proof. exact p_rejected_square. Qed.
Print Assumptions C41_admittances_round_trip.
Print Assumptions C41_measurements_round_trip.
Print Assumptions C41_other_sizes_rejected.
Print Assumptions C41_rectangular_admittances_rejected.
Example C41_ex : shape (mk 6 6 (fun i j => Cx (INR (i + j)) (INR j)) : mat C) (2 * 3) (2 * 3) /\ nc (mk 2 7 (fun _ _ => Cx R1 R0)) mod 3 <> 0.
Proof. split; [apply shape_mk|cbn; lia]. Qed.

(** C42: the relation currents = voltages @ admittance survives exactly when exchanging
    phases b and c changes nothing *)
Theorem C42_relation_preserved_iff_symmetric_phases : forall n Y, shape Y (n * 3) (n * 3) ->
  ((forall T V I Vs Is Ys, shape V T (n * 3) -> I = mmul V Y -> measurement_phase_to_sequence V = Ok Vs ->
     measurement_phase_to_sequence I = Ok Is -> admittance_phase_to_sequence Y = Ok Ys -> Is = mmul Vs Ys) <->
   bc_symmetric (0%K : C) n Y).
Proof. exact p_relation_iff. Qed.
(** for a network put together from its sequence matrices: exactly when the positive and the
    negative sequence matrix are equal *)
Theorem C42_networks_with_equal_sequences : forall n y0 y1 y2, shape y0 n n -> shape y1 n n -> shape y2 n n -> exists Y,
  admittance_sequence_to_phase (assemble_012 y0 y1 y2) = Ok Y /\ (bc_symmetric (0%K : C) n Y <-> y1 = y2).
Proof. exact p_assembled. Qed.
Theorem C42_relation_refuted : exists Y V I Vs Is Ys, shape Y 3 3 /\ tr Y = Y /\ shape V 3 3 /\ I = mmul V Y /\
  measurement_phase_to_sequence V = Ok Vs /\ measurement_phase_to_sequence I = Ok Is /\
  admittance_phase_to_sequence Y = Ok Ys /\ Is <> mmul Vs Ys.
Proof. exact p_relation_refuted. Qed.
Print Assumptions C42_relation_preserved_iff_symmetric_phases.
Print Assumptions C42_networks_with_equal_sequences.
Print Assumptions C42_relation_refuted.
(** a symmetric three-phase line: self admittance 3, mutual admittance -1 *)
Example C42_ex : let Y := mk 3 3 (fun i j => if Nat.eqb i j then Cx 3%R 0%R else Cx (-1)%R 0%R) : mat C in
  shape Y (1 * 3) (1 * 3) /\ bc_symmetric (0%K : C) 1 Y.
Proof.
  split; [apply shape_mk|]. intros i j p q Hi Hj Hp Hq. replace i with 0 by lia. replace j with 0 by lia.
  cases3 p Hp; cases3 q Hq; reflexivity.
Qed.
