(** Specification of what the simulation program needs to run to its end. *)
From Coq Require Import Bool Arith List ZArith.
From Verif Require Import BasePy BaseFld BaseOrd BaseSum BaseMat ModelNet ModelScript SpecNet SpecResample SpecLoads.
Import ListNotations.
Local Open Scope nat_scope.

Section SpecSucceed.
Context {K : Type} {O : Ops K} {O2 : OrdOps K}.
(** single-phase values, different labels, and lines in service between buses, of some length *)
Definition valid_tables (ns : list (bus_data (K := K))) (ls : list (line_data (K := K))) : Prop :=
  (forall b, In b ns -> both is_single b) /\ NoDup (map bd_id ns) /\
  (forall l, In l ls -> active l = true -> In (ld_start l) (map bd_id ns) /\ In (ld_end l) (map bd_id ns) /\ ld_length l <> 0%K).
(** the power flow finds a magnitude and an angle of the voltage of every bus at every time *)
Definition converges (flow : net (K := K) -> mat K -> mat K -> res (mat K * mat K)) (n : net (K := K)) : Prop :=
  forall p q, nr p = nr q -> exists m a, flow n p q = Ok (m, a) /\ nr m = nr p /\ nr a = nr p /\ nc m = length (buses n) /\ nc a = length (buses n).
(** the loads of the buses are not negative *)
Definition consumers (ns : list (bus_data (K := K))) : Prop :=
  forall b, In b ns -> bd_type b = 1 -> (0 <=! number (bd_p b))%K /\ (0 <=! number (bd_q b))%K.
(** a profile long enough for [c] days of each of the weeks, with some consumption of every household at every time *)
Definition good_profile (m : mat K) (weeks : list Z) (c : nat) (x : K) : Prop :=
  0 < nc m /\ long_enough m weeks (1440 * c) /\ forall t h, t < nr m -> h < nc m -> (x <=! kabs (get m t h))%K.
(** every minute of some days, in seconds *)
Definition minutes (days : nat) : list Z := map (fun k => 60 * Z.of_nat k)%Z (seq 0 (1440 * days)).

(** loads at some [times] are given: in the file of an earlier run, by the profiles, or at random *)
Inductive loads_given (conf : settings K) (o : options K) (ns : list (bus_data (K := K))) (s : data_files K) : list Z -> Prop :=
| in_file : forall lf, loads_only o = false -> noise_only o = true -> f_loads s = Some lf ->
    increasing (seconds (lf_t lf) : list K) -> 2 <= length (lf_t lf) -> nth 0 (lf_t lf) 0%Z = 0%Z -> nr (lf_p lf) = length (lf_t lf) -> nr (lf_q lf) = length (lf_t lf) ->
    loads_given conf o ns s (lf_t lf)
| by_profiles : forall act react c x, loads_only o = true \/ noise_only o = false -> (gaussian_loads o <=! 0)%K -> profiles o = Some (act, react) ->
    selected_weeks conf <> [] -> days conf = c * length (selected_weeks conf) -> 0 < c -> (Z.of_nat c * 1440 <= 2 ^ 53)%Z -> (0 <! x)%K ->
    good_profile act (selected_weeks conf) c x -> good_profile react (selected_weeks conf) c x -> consumers ns ->
    loads_given conf o ns s (minutes (days conf))
| at_random : loads_only o = true \/ noise_only o = false -> (0 <! gaussian_loads o)%K -> 0 < days conf -> consumers ns ->
    loads_given conf o ns s (minutes (days conf)).
End SpecSucceed.
