(** Vocabulary for the data saved by simulate_network.py for one phase. *)
From Coq Require Import String.
From Coq Require Import Bool Arith List ZArith Sorted Permutation.
From Verif Require Import BasePy BaseFld BaseOrd BaseSum BaseMat BaseLin ModelNet ModelResample ModelMeasure ModelRun ModelScript SpecLS SpecKron SpecNet SpecResample SpecMeasure.
Import ListNotations.
Close Scope string_scope.
Local Open Scope K_scope.

Section Spec.
Context {K : Type} {O : Ops K} {O2 : OrdOps K}.
Notation CK := (cplx K).

(** the flags with which the simulation and the measurements are recomputed *)
Definition recomputes (o : options K) : Prop :=
  (noise_only o = true /\ network_sim_only o = true) \/ (loads_only o = false /\ network_sim_only o = false /\ noise_only o = false).
(** the loads file, if there is one, has at least two increasing times from 0 on *)
Definition timed (s : data_files K) : Prop := forall lf, f_loads s = Some lf ->
  increasing (seconds (lf_t lf) : list K) /\ (2 <= length (lf_t lf))%nat /\ nth 0 (lf_t lf) 0%Z = 0%Z.

(** square of the apparent power of a bus of a template *)
Definition squared_power (b : bus_data (K := K)) : K := number (bd_p b) * number (bd_p b) + number (bd_q b) * number (bd_q b).
(** the bus is neither hidden nor without load; substations stay only if the matrix is to be a Laplacian *)
Definition stays (hidden : list nat) (laplacian : bool) (b : bus_data (K := K)) : Prop :=
  ~ In (bd_id b) hidden /\ (bd_type b = 3%nat -> laplacian = true) /\ (bd_type b <> 3%nat -> number (bd_p b) <> 0 \/ number (bd_q b) <> 0).
(** [kept] are the positions of these buses in ascending order *)
Definition stay (hidden : list nat) (laplacian : bool) (ns : list (bus_data (K := K))) (kept : list nat) : Prop :=
  StronglySorted lt kept /\ forall k, In k kept <-> exists b, nth_error ns k = Some b /\ stays hidden laplacian b.
(** [x] is the rating of bus number [k]: a multiple of the square of its power; for the only substation
    the sum of all others *)
Definition rated (factor : K) (ns : list (bus_data (K := K))) (k : nat) (x : K) : Prop :=
  exists b, nth_error ns k = Some b /\ (bd_type b <> 3%nat -> x = factor * squared_power b) /\
    (bd_type b = 3%nat -> (forall j c, nth_error ns j = Some c -> bd_type c = 3%nat -> j = k) ->
     x = lsum (map (fun c => if (bd_type c =? 3)%nat then 0 else factor * squared_power c) ns)).

(** positions of the substations; positions of the other buses that are removed *)
Definition substations (ns : list (bus_data (K := K))) (G : list nat) : Prop := forall k, In k G <-> exists b, nth_error ns k = Some b /\ bd_type b = 3%nat.
Definition eliminated (hidden : list nat) (ns : list (bus_data (K := K))) (E : list nat) : Prop :=
  NoDup E /\ forall k, In k E <-> exists b, nth_error ns k = Some b /\ bd_type b <> 3%nat /\ (In (bd_id b) hidden \/ (number (bd_p b) = 0 /\ number (bd_q b) = 0)).
(** no substation is hidden *)
Definition shown (hidden : list nat) (ns : list (bus_data (K := K))) : Prop := forall b, In b ns -> bd_type b = 3%nat -> ~ In (bd_id b) hidden.
(** no current at the nodes [E] at any time *)
Definition no_current (E : list nat) (I : mat CK) : Prop := forall t x, (t < nr I)%nat -> In x E -> get I t x = 0.
(** the voltage of the nodes [G] does not change *)
Definition steady (G : list nat) (V : mat CK) : Prop := forall x, In x G -> exists u, forall t, (t < nr V)%nat -> get V t x = u.
(** the nodes [E] can be eliminated from [Y], and [pinv] inverts the blocks it is asked to *)
Definition solvable (pinv : mat CK -> mat CK) (Y : mat CK) (E : list nat) : Prop :=
  (exists B, shape B (length E) (length E) /\ mmul (block_of Y E E) B = meye (length E)) /\
  forall E', Permutation E E' -> penrose (length E') (length E') (block_of Y E' E') (pinv (block_of Y E' E')).
(** none of the loads of the template has a part of constant impedance *)
Definition no_shunts (ns : list (bus_data (K := K))) : Prop := forall b, In b ns -> bd_type b = 1%nat -> bd_z b = 0.
(** noise of deviation 0 changes nothing; all deviations are 0 *)
Definition silent {St} (noise : @noise_fun K St K) : Prop := forall v s w s', noise v 0 0 s = Ok (w, s') -> w = v.
Definition noise_free (conf : settings K) : Prop :=
  s_voltage_magnitude_sd conf = 0 /\ s_current_magnitude_sd conf = 0 /\ s_voltage_phase_sd conf = 0 /\ s_current_phase_sd conf = 0.
(** [P] are the ratings of the three phases of all buses: entry [ph * N + i] is that of phase [ph] of bus number [i], a multiple of
    the square of its power; at a substation the sum of the ratings before and of those the buses after would have by themselves *)
Definition phase_ratings (factor : K) (n : net (K := K)) (P : list K) : Prop :=
  let N := length (buses n) in
  length P = (3 * N)%nat /\ exists sq : nat -> nat -> K,
    (forall ph i b, (ph < 3)%nat -> nth_error (map b_id (buses n)) i = Some b -> exists p q, counted n b ph p q /\ sq ph i = p * p + q * q) /\
    forall ph i, (ph < 3)%nat -> (i < N)%nat ->
      (~ at_substation n i -> vget P (ph * N + i) = factor * sq ph i) /\
      (at_substation n i -> vget P (ph * N + i) = sumn i (fun j => vget P (ph * N + j)) + sumn (N - i) (fun j => factor * sq ph (i + j)%nat)).
End Spec.
