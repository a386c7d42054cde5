(** C50, C51, C52 and C66: the loads given to the simulation. *)
From Coq Require Import String Bool Arith List Lia ZArith QArith Qcanon.
From Verif Require Import BasePy BaseFld BaseOrd BaseSum BaseMat BaseLin BaseEx BaseRound ModelNet ModelLoads SpecLoads
  ProofLoads ProofLoadsFloat ProofLoadsMain ProofLoadsSmall ProofDraws.
Import ListNotations.
Close Scope Qc_scope. Close Scope Q_scope. Close Scope string_scope. Open Scope list_scope. Open Scope nat_scope.

(** ** C50 *)
Theorem C50_one_phase : forall K (O : Ops K) (F : Fld K) (O2 : OrdOps K) (OF : OrdFld K) St rnd randint (gauss : St -> K * St)
    a seeded (n : net (K := K)) prm saved s P Q times saved' s', rounds rnd ->
  generate_loads rnd randint gauss a seeded n (Some prm) saved s = Ok ((P, Q, times), saved', s') ->
  forall i l, nth_error (loads n) i = Some l ->
  (l_p l = 0%K -> forall t, t < nr P -> get P t i = 0%K) /\ (l_q l = 0%K -> forall t, t < nr Q -> get Q t i = 0%K).
Proof. exact @no_load_one_phase. Qed.
Theorem C50_three_phases : forall K (O : Ops K) (F : Fld K) (O2 : OrdOps K) (OF : OrdFld K) St rnd (randint : nat -> nat -> St -> list nat * St)
    a seeded (n : net (K := K)) active reactive weeks days const P Q asym times s', rounds rnd ->
  generate_loads_3ph rnd randint a seeded n (FromProfiles active reactive weeks days const) = Ok (P, Q, asym, times, s') ->
  (forall i l, nth_error (loads n) i = Some l ->
    (l_p l = 0%K -> forall t, t < nr P -> get P t i = 0%K) /\ (l_q l = 0%K -> forall t, t < nr Q -> get Q t i = 0%K)) /\
  (forall k i l d, k < 3 -> nth_error (asyms n) i = Some l ->
    (a_p l k = 0%K -> forall t, t < nr (nth k asym d) -> get (nth k asym d) t i = 0%K) /\
    (a_q l k = 0%K -> forall t, t < nr (nth (3 + k) asym d) -> get (nth (3 + k) asym d) t i = 0%K)).
Proof. exact @no_load_three_phases. Qed.
Print Assumptions C50_one_phase.
Print Assumptions C50_three_phases.

(** ** C51 *)
(** weeks that divide the days: one row per minute of every day, and what is in it *)
Theorem C51_profiles : forall K (O : Ops K) (F : Fld K) (O2 : OrdOps K) (OF : OrdFld K) St rnd randint (gauss : St -> K * St)
    a seeded (n : net (K := K)) active reactive weeks days c const saved s P Q times saved' s',
  rounds rnd -> fair randint -> weeks <> [] -> days = c * length weeks -> (Z.of_nat c * 1440 <= 2 ^ 53)%Z ->
  long_enough active weeks (1440 * c) -> long_enough reactive weeks (1440 * c) ->
  generate_loads rnd randint gauss a seeded n (Some (FromProfiles active reactive weeks days const)) saved s = Ok ((P, Q, times), saved', s') ->
  shape P (1440 * days) (length (loads n)) /\ shape Q (1440 * days) (length (loads n)) /\
  length times = 1440 * days /\ (forall k, k < 1440 * days -> nth k times 0%Z = (60 * Z.of_nat k)%Z) /\
  exists MP MQ sp sq, selects active weeks (1440 * c) MP /\ selects reactive weeks (1440 * c) MQ /\
    (loads n <> [] -> typical_share MP sp /\ typical_share MQ sq) /\
    forall i l, nth_error (loads n) i = Some l -> exists p q,
      sum_of_households MP sp (l_p l) p /\ sum_of_households MQ sq (l_q l) q /\
      forall t, t < 1440 * days -> mixes a (l_p l) const (l_bus l) (p t) (get P t i) /\ mixes a (l_q l) const (l_bus l) (q t) (get Q t i).
Proof.
  intros K O F O2 OF St rnd randint gauss a seeded n active reactive weeks days c const saved s P Q times saved' s' R FA Hw Hd Hc L1 L2 H.
  assert (W : 0 < length weeks) by (destruct weeks; [congruence|simpl; lia]).
  assert (HL : lines_per_week days (length weeks) = Ok (Z.of_nat (1440 * c))).
  { rewrite (lines_exact days (length weeks) c W Hd Hc). f_equal. lia. }
  destruct (profile_rows rnd randint gauss a seeded n active reactive weeks days const saved s P Q times saved' s' (1440 * c) R FA HL L1 L2 H) as (A & B & C & D).
  replace (length weeks * (1440 * c)) with (1440 * days) in * by nia. split; [exact A|]. split; [exact B|].
  split; [rewrite C; apply length_times|]. split; [intros k Hk; rewrite C; apply nth_times; exact Hk|].
  destruct D as (MP & MQ & sp & sq & D1 & D2 & D3 & D4). exists MP, MQ, sp, sq. split; [exact D1|]. split; [exact D2|]. split; [exact D3|].
  intros i l Hl. destruct (D4 i l Hl) as (p & q & E1 & E2 & E3). exists p, q. split; [exact E1|]. split; [exact E2|].
  intros t Ht. destruct (E3 t Ht) as [-> ->]. split; apply mixed_mixes.
Qed.
(** the households of all loads come from one generator, one request after the other, beginning with the seed: the active
    and the reactive power of the first load, of the second load and so on *)
Theorem C51_successive_draws : forall K (O : Ops K) (F : Fld K) (O2 : OrdOps K) (OF : OrdFld K) St rnd randint (gauss : St -> K * St)
    a seeded (n : net (K := K)) active reactive weeks days c const saved s P Q times saved' s',
  rounds rnd -> fair randint -> weeks <> [] -> days = c * length weeks -> (Z.of_nat c * 1440 <= 2 ^ 53)%Z ->
  long_enough active weeks (1440 * c) -> long_enough reactive weeks (1440 * c) ->
  generate_loads rnd randint gauss a seeded n (Some (FromProfiles active reactive weeks days const)) saved s = Ok ((P, Q, times), saved', s') ->
  exists MP MQ sp sq, selects active weeks (1440 * c) MP /\ selects reactive weeks (1440 * c) MQ /\
  (loads n <> [] -> typical_share MP sp /\ typical_share MQ sq) /\
  exists dp dq : nat -> list nat,
    in_turn randint seeded (flat_map (fun i => [(nc active, dp i); (nc reactive, dq i)]) (seq 0 (length (loads n)))) s' /\
    forall i l, nth_error (loads n) i = Some l ->
      from_picks a MP sp (l_p l) const (l_bus l) (dp i) (fun t => get P t i) /\
      from_picks a MQ sq (l_q l) const (l_bus l) (dq i) (fun t => get Q t i).
Proof.
  intros K O F O2 OF St rnd randint gauss a seeded n active reactive weeks days c const saved s P Q times saved' s' R FA Hw Hd Hc L1 L2 H.
  assert (W : 0 < length weeks) by (destruct weeks; [congruence|simpl; lia]).
  assert (HL : lines_per_week days (length weeks) = Ok (Z.of_nat (1440 * c))).
  { rewrite (lines_exact days (length weeks) c W Hd Hc). f_equal. lia. }
  destruct (profile_draws rnd randint gauss R FA a seeded n active reactive weeks days const saved s P Q times saved' s' (1440 * c) HL L1 L2 H)
    as (MP & MQ & sp & sq & D1 & D2 & D3 & dp & dq & I & V).
  exists MP, MQ, sp, sq. split; [exact D1|]. split; [exact D2|]. split; [exact D3|]. exists dp, dq. split; [exact I|].
  destruct D1 as ((_ & R1 & _) & _). destruct D2 as ((_ & R2 & _) & _).
  intros i l Hl. destruct (V i l Hl) as [[N1 V1] [N2 V2]]. split; split; auto; intros t Ht; [rewrite V1 by congruence|rewrite V2 by congruence]; apply mixed_mixes.
Qed.
(** any weeks: at most one line per week is missing *)
Theorem C51_rows_bound : forall K (O : Ops K) (F : Fld K) (O2 : OrdOps K) (OF : OrdFld K) St rnd randint (gauss : St -> K * St)
    a seeded (n : net (K := K)) active reactive weeks days const saved s P Q times saved' s',
  rounds rnd -> fair randint -> weeks <> [] -> (Z.of_nat (length weeks) <= 2 ^ 50)%Z -> (Z.of_nat days * 1440 <= 2 ^ 50)%Z ->
  (forall len, len * length weeks <= 1440 * days -> long_enough active weeks len /\ long_enough reactive weeks len) ->
  generate_loads rnd randint gauss a seeded n (Some (FromProfiles active reactive weeks days const)) saved s = Ok ((P, Q, times), saved', s') ->
  nr P <= length times <= nr P + length weeks /\ nr Q = nr P /\ nc P = length (loads n) /\ nc Q = length (loads n).
Proof.
  intros K O F O2 OF St rnd randint gauss a seeded n active reactive weeks days const saved s P Q times saved' s' R FA Hw Hw2 Hd L H.
  assert (W : 0 < length weeks) by (destruct weeks; [congruence|simpl; lia]).
  destruct (lines_near days (length weeks) W Hw2 Hd) as (len & HL & B).
  destruct (L len) as [L1 L2]; [lia|].
  destruct (profile_rows rnd randint gauss a seeded n active reactive weeks days const saved s P Q times saved' s' len R FA HL L1 L2 H) as ((_ & A1 & A2) & (_ & B1 & B2) & C & _).
  rewrite C, length_times, A1, B1. repeat split; auto; lia.
Qed.
(** profiles are found for all loads that are not negative *)
Theorem C51_profiles_succeed : forall K (O : Ops K) (F : Fld K) (O2 : OrdOps K) (OF : OrdFld K) St rnd randint (gauss : St -> K * St)
    a seeded (n : net (K := K)) active reactive weeks days c const saved s x,
  rounds rnd -> weeks <> [] -> days = c * length weeks -> 0 < c -> (Z.of_nat c * 1440 <= 2 ^ 53)%Z ->
  0 < nc active -> 0 < nc reactive -> (0 <! x)%K -> long_enough active weeks (1440 * c) -> long_enough reactive weeks (1440 * c) ->
  (forall t h, t < nr active -> h < nc active -> (x <=! kabs (get active t h))%K) ->
  (forall t h, t < nr reactive -> h < nc reactive -> (x <=! kabs (get reactive t h))%K) ->
  (forall l, In l (loads n) -> (0 <=! l_p l)%K /\ (0 <=! l_q l)%K) ->
  exists P Q times saved' s', generate_loads rnd randint gauss a seeded n (Some (FromProfiles active reactive weeks days const)) saved s = Ok ((P, Q, times), saved', s').
Proof.
  intros K O F O2 OF St rnd randint gauss a seeded n active reactive weeks days c const saved s x R Hw Hd H0 Hc.
  assert (W : 0 < length weeks) by (destruct weeks; [congruence|simpl; lia]).
  assert (HL : lines_per_week days (length weeks) = Ok (Z.of_nat (1440 * c))).
  { rewrite (lines_exact days (length weeks) c W Hd Hc). f_equal. lia. }
  intros. eapply profiles_succeed with (len := 1440 * c) (c := x); eauto. lia.
Qed.
(** a generator, that is a load well below zero, is refused *)
Theorem C51_negative_loads_fail : forall K (O : Ops K) (F : Fld K) (O2 : OrdOps K) (OF : OrdFld K) St rnd randint (gauss : St -> K * St)
    a seeded (n : net (K := K)) active reactive weeks days c const saved s x l,
  rounds rnd -> weeks <> [] -> days = c * length weeks -> 0 < c -> (Z.of_nat c * 1440 <= 2 ^ 53)%Z ->
  0 < nc active -> 0 < nc reactive -> (0 <! x)%K -> long_enough active weeks (1440 * c) -> long_enough reactive weeks (1440 * c) ->
  (forall t h, t < nr active -> h < nc active -> (x <=! kabs (get active t h))%K) ->
  (forall t h, t < nr reactive -> h < nc reactive -> (x <=! kabs (get reactive t h))%K) ->
  In l (loads n) -> (forall m y, selects active weeks (1440 * c) m -> typical_share m y -> (knat 2 * l_p l <! - y)%K) ->
  generate_loads rnd randint gauss a seeded n (Some (FromProfiles active reactive weeks days const)) saved s = Err ValueError.
Proof.
  intros K O F O2 OF St rnd randint gauss a seeded n active reactive weeks days c const saved s x l R Hw Hd H0 Hc.
  assert (W : 0 < length weeks) by (destruct weeks; [congruence|simpl; lia]).
  assert (HL : lines_per_week days (length weeks) = Ok (Z.of_nat (1440 * c))).
  { rewrite (lines_exact days (length weeks) c W Hd Hc). f_equal. lia. }
  intros. eapply negative_loads_fail with (len := 1440 * c) (c := x); eauto. lia.
Qed.
Theorem C51_gaussian : forall K (O : Ops K) (F : Fld K) (O2 : OrdOps K) St rnd randint (gauss : St -> K * St)
    a seeded (n : net (K := K)) sd days const saved s P Q times saved' s',
  generate_loads rnd randint gauss a seeded n (Some (FromStd sd days const)) saved s = Ok ((P, Q, times), saved', s') ->
  let N := length (loads n) in
  shape P (1440 * days) N /\ shape Q (1440 * days) N /\
  length times = 1440 * days /\ (forall k, k < 1440 * days -> nth k times 0%Z = (60 * Z.of_nat k)%Z) /\
  forall i l t, nth_error (loads n) i = Some l -> t < 1440 * days ->
    mixes a (l_p l) const (l_bus l) (l_p l + l_p l * sd * drawn gauss seeded (t * N + i))%K (get P t i) /\
    mixes a (l_q l) const (l_bus l) (l_q l + l_q l * sd * drawn gauss seeded ((1440 * days + t) * N + i))%K (get Q t i).
Proof.
  intros K O F O2 St rnd randint gauss a seeded n sd days const saved s P Q times saved' s' H N.
  destruct (gaussian_rows rnd randint gauss a seeded n sd days const saved s P Q times saved' s' H) as (A & B & C & D). fold N in A, B, D.
  split; [exact A|]. split; [exact B|]. split; [rewrite C; apply length_times|]. split; [intros k Hk; rewrite C; apply nth_times; exact Hk|].
  intros i l t Hl Ht. destruct (D i l t Hl Ht) as [-> ->]. split; apply mixed_mixes.
Qed.
Print Assumptions C51_profiles.
Print Assumptions C51_successive_draws.
Print Assumptions C51_rows_bound.
Print Assumptions C51_profiles_succeed.
Print Assumptions C51_negative_loads_fail.
Print Assumptions C51_gaussian.

(** ** C52 *)
(** the six matrices made from profiles are those of p_a, p_b, p_c, q_a, q_b, q_c *)
Theorem C52_profiles_order : forall K (O : Ops K) (F : Fld K) (O2 : OrdOps K) (OF : OrdFld K) St rnd (randint : nat -> nat -> St -> list nat * St)
    a seeded (n : net (K := K)) active reactive weeks days c const P Q asym times s',
  rounds rnd -> fair randint -> weeks <> [] -> days = c * length weeks -> (Z.of_nat c * 1440 <= 2 ^ 53)%Z ->
  long_enough active weeks (1440 * c) -> long_enough reactive weeks (1440 * c) ->
  generate_loads_3ph rnd randint a seeded n (FromProfiles active reactive weeks days const) = Ok (P, Q, asym, times, s') ->
  length asym = 6 /\ exists MP MQ sp sq, selects active weeks (1440 * c) MP /\ selects reactive weeks (1440 * c) MQ /\
    (asyms n <> [] -> typical_share MP sp /\ typical_share MQ sq) /\
    forall k d, k < 3 ->
      shape (nth k asym d) (1440 * days) (length (asyms n)) /\ shape (nth (3 + k) asym d) (1440 * days) (length (asyms n)) /\
      forall i l, nth_error (asyms n) i = Some l -> exists p q,
        sum_of_households MP sp (a_p l k) p /\ sum_of_households MQ sq (a_q l k) q /\
        forall t, t < 1440 * days ->
          mixes a (a_p l k) const (a_bus l) (p t) (get (nth k asym d) t i) /\
          mixes a (a_q l k) const (a_bus l) (q t) (get (nth (3 + k) asym d) t i).
Proof.
  intros K O F O2 OF St rnd randint a seeded n active reactive weeks days c const P Q asym times s' R FA Hw Hd Hc L1 L2 H.
  assert (W : 0 < length weeks) by (destruct weeks; [congruence|simpl; lia]).
  assert (HL : lines_per_week days (length weeks) = Ok (Z.of_nat (1440 * c))).
  { rewrite (lines_exact days (length weeks) c W Hd Hc). f_equal. lia. }
  destruct (three_phase_order rnd randint a seeded n active reactive weeks days const P Q asym times s' (1440 * c) R FA HL L1 L2 H) as (A & MP & MQ & sp & sq & D1 & D2 & D3 & D4).
  split; [exact A|]. exists MP, MQ, sp, sq. split; [exact D1|]. split; [exact D2|]. split; [exact D3|].
  replace (length weeks * (1440 * c)) with (1440 * days) in D4 by nia.
  intros k d Hk. destruct (D4 k d Hk) as (S1 & S2 & N). split; [exact S1|]. split; [exact S2|].
  intros i l Hl. destruct (N i l Hl) as (p & q & E1 & E2 & E3). exists p, q. split; [exact E1|]. split; [exact E2|].
  intros t Ht. destruct (E3 t Ht) as [-> ->]. split; apply mixed_mixes.
Qed.
(** with three phases the generator first serves the balanced loads and then the unbalanced ones, for each the active power
    of the three phases and then the reactive power *)
Theorem C52_successive_draws : forall K (O : Ops K) (F : Fld K) (O2 : OrdOps K) (OF : OrdFld K) St rnd (randint : nat -> nat -> St -> list nat * St)
    a seeded (n : net (K := K)) active reactive weeks days c const P Q asym times s',
  rounds rnd -> fair randint -> weeks <> [] -> days = c * length weeks -> (Z.of_nat c * 1440 <= 2 ^ 53)%Z ->
  long_enough active weeks (1440 * c) -> long_enough reactive weeks (1440 * c) ->
  generate_loads_3ph rnd randint a seeded n (FromProfiles active reactive weeks days const) = Ok (P, Q, asym, times, s') ->
  exists MP MQ sp sq, selects active weeks (1440 * c) MP /\ selects reactive weeks (1440 * c) MQ /\
  (loads n <> [] \/ asyms n <> [] -> typical_share MP sp /\ typical_share MQ sq) /\
  exists (dp dq : nat -> list nat) (ap aq : nat -> nat -> list nat),
    in_turn randint seeded (flat_map (fun i => [(nc active, dp i); (nc reactive, dq i)]) (seq 0 (length (loads n))) ++
      flat_map (fun i => [(nc active, ap i 0); (nc active, ap i 1); (nc active, ap i 2); (nc reactive, aq i 0); (nc reactive, aq i 1); (nc reactive, aq i 2)])
        (seq 0 (length (asyms n)))) s' /\
    (forall i l, nth_error (loads n) i = Some l ->
      from_picks a MP sp (l_p l) const (l_bus l) (dp i) (fun t => get P t i) /\
      from_picks a MQ sq (l_q l) const (l_bus l) (dq i) (fun t => get Q t i)) /\
    (forall i l k d, nth_error (asyms n) i = Some l -> k < 3 ->
      from_picks a MP sp (a_p l k) const (a_bus l) (ap i k) (fun t => get (nth k asym d) t i) /\
      from_picks a MQ sq (a_q l k) const (a_bus l) (aq i k) (fun t => get (nth (3 + k) asym d) t i)).
Proof.
  intros K O F O2 OF St rnd randint a seeded n active reactive weeks days c const P Q asym times s' R FA Hw Hd Hc L1 L2 H.
  assert (W : 0 < length weeks) by (destruct weeks; [congruence|simpl; lia]).
  assert (HL : lines_per_week days (length weeks) = Ok (Z.of_nat (1440 * c))).
  { rewrite (lines_exact days (length weeks) c W Hd Hc). f_equal. lia. }
  destruct (three_phase_draws rnd randint R FA a seeded n active reactive weeks days const P Q asym times s' (1440 * c) HL L1 L2 H)
    as (MP & MQ & sp & sq & D1 & D2 & D3 & dp & dq & ap & aq & I & V & VA).
  exists MP, MQ, sp, sq. split; [exact D1|]. split; [exact D2|]. split; [exact D3|]. exists dp, dq, ap, aq. split; [exact I|].
  destruct D1 as ((_ & R1 & _) & _). destruct D2 as ((_ & R2 & _) & _). split.
  - intros i l Hl. destruct (V i l Hl) as [[N1 V1] [N2 V2]]. split; split; auto; intros t Ht; [rewrite V1 by congruence|rewrite V2 by congruence]; apply mixed_mixes.
  - intros i l k d Hl Hk. destruct (VA i l k d Hl Hk) as [[N1 V1] [N2 V2]]. split; split; auto; intros t Ht; [rewrite V1 by congruence|rewrite V2 by congruence]; apply mixed_mixes.
Qed.
(** the normally distributed ones are those of p_a, q_a, p_b, q_b, p_c, q_c *)
Theorem C52_gaussian_order : forall K (O : Ops K) (O2 : OrdOps K) St (gauss : St -> K * St) sd n (refs : list (phased (K := K))) s l s',
  generate_gaussian_asym gauss sd n refs s = Ok (l, s') ->
  length l = 6 /\ forall k d dr, k < 6 -> shape (nth k l d) n (length refs) /\ forall t i, t < n -> i < length refs ->
    let r := nth k [pa (nth i refs dr); qa (nth i refs dr); pb (nth i refs dr); qb (nth i refs dr); pc (nth i refs dr); qc (nth i refs dr)] 0%K in
    get (nth k l d) t i = (r + r * sd * drawn gauss s ((k * n + t) * length refs + i))%K.
Proof. exact @gaussian_order. Qed.
Print Assumptions C52_profiles_order.
Print Assumptions C52_successive_draws.
Print Assumptions C52_gaussian_order.

(** ** C66 *)
(** half a household or less is rounded to nothing *)
Theorem C66_small_loads_vanish : forall K (O : Ops K) (F : Fld K) (O2 : OrdOps K) (OF : OrdFld K) St rnd randint (gauss : St -> K * St)
    a seeded (n : net (K := K)) active reactive weeks days c const saved s x P Q times saved' s' i l,
  rounds rnd -> fair randint -> weeks <> [] -> days = c * length weeks -> 0 < c -> (Z.of_nat c * 1440 <= 2 ^ 53)%Z ->
  long_enough active weeks (1440 * c) -> long_enough reactive weeks (1440 * c) ->
  0 < nc active -> (0 <! x)%K -> (forall t h, t < nr active -> h < nc active -> (x <=! kabs (get active t h))%K) ->
  generate_loads rnd randint gauss a seeded n (Some (FromProfiles active reactive weeks days const)) saved s = Ok ((P, Q, times), saved', s') ->
  nth_error (loads n) i = Some l -> ~ (exists L, const = Some L /\ In (l_bus l) L) ->
  (forall m y, selects active weeks (1440 * c) m -> typical_share m y -> (knat 2 * kabs (l_p l) <=! y)%K) ->
  forall t, t < 1440 * days -> get P t i = 0%K.
Proof.
  intros K O F O2 OF St rnd randint gauss a seeded n active reactive weeks days c const saved s x P Q times saved' s' i l R FA Hw Hd H0 Hc L1 L2 Ha Hx G H Hl HC HS t Ht.
  destruct (C51_profiles K O F O2 OF St rnd randint gauss a seeded n active reactive weeks days c const saved s P Q times saved' s' R FA Hw Hd Hc L1 L2 H)
    as (_ & _ & _ & _ & MP & MQ & sp & sq & D1 & _ & D3 & D4).
  destruct D3 as [D3 _]; [intro E; rewrite E in Hl; destruct i; discriminate|].
  destruct (D4 i l Hl) as (p & q & E1 & _ & E3). destruct (E3 t Ht) as [[_ M] _]. rewrite (M HC).
  assert (Y : (0 <! sp)%K) by (apply (selected_share_pos active weeks (1440 * c) MP sp x); auto; lia).
  apply (households_none MP sp (l_p l) p Y (HS MP sp D1 D3) E1). destruct D1 as ((_ & D1 & _) & _). rewrite D1. nia.
Qed.
(** more than half a household of positive consumption gives a positive load *)
Theorem C66_large_loads_draw : forall K (O : Ops K) (F : Fld K) (O2 : OrdOps K) (OF : OrdFld K) St rnd randint (gauss : St -> K * St)
    a seeded (n : net (K := K)) active reactive weeks days c const saved s x P Q times saved' s' i l,
  rounds rnd -> fair randint -> weeks <> [] -> days = c * length weeks -> 0 < c -> (Z.of_nat c * 1440 <= 2 ^ 53)%Z ->
  long_enough active weeks (1440 * c) -> long_enough reactive weeks (1440 * c) ->
  0 < nc active -> (0 <! x)%K -> (forall t h, t < nr active -> h < nc active -> (x <=! get active t h)%K) ->
  generate_loads rnd randint gauss a seeded n (Some (FromProfiles active reactive weeks days const)) saved s = Ok ((P, Q, times), saved', s') ->
  nth_error (loads n) i = Some l -> (0 <=! a)%K -> (a <=! 1)%K ->
  (forall m y, selects active weeks (1440 * c) m -> typical_share m y -> (y <! knat 2 * l_p l)%K) ->
  forall t, t < 1440 * days -> (0 <! get P t i)%K.
Proof.
  intros K O F O2 OF St rnd randint gauss a seeded n active reactive weeks days c const saved s x P Q times saved' s' i l R FA Hw Hd H0 Hc L1 L2 Ha Hx G H Hl A0 A1 HS t Ht.
  destruct (C51_profiles K O F O2 OF St rnd randint gauss a seeded n active reactive weeks days c const saved s P Q times saved' s' R FA Hw Hd Hc L1 L2 H)
    as (_ & _ & _ & _ & MP & MQ & sp & sq & D1 & _ & D3 & D4).
  destruct D3 as [D3 _]; [intro E; rewrite E in Hl; destruct i; discriminate|].
  destruct (D4 i l Hl) as (p & q & E1 & _ & E3). destruct (E3 t Ht) as [M _].
  assert (Y : (0 <! sp)%K).
  { apply (selected_share_pos active weeks (1440 * c) MP sp x); auto; [lia|]. intros u h Hu Hh. rewrite kabs_pos_id; [apply G; auto|].
    eapply kle_trans; [apply klt_le; exact Hx|apply G; auto]. }
  assert (B : (0 <! p t)%K).
  { apply (households_some MP sp (l_p l) p Y (HS MP sp D1 D3)); auto.
    - intros u h Hu Hh. destruct (selects_line active weeks (1440 * c) MP u h L1 D1 Hu Hh) as (u' & V1 & V2 & ->).
      apply div_pos; [|apply million_pos]. eapply klt_trans_le; [exact Hx|apply G; auto].
    - destruct D1 as ((_ & D1 & _) & _). rewrite D1. nia. }
  assert (LP : (0 <! l_p l)%K) by exact (twice_pos _ _ Y (HS MP sp D1 D3)).
  exact (mixes_pos _ _ _ _ _ _ A0 A1 LP B M).
Qed.
Print Assumptions C66_small_loads_vanish.
Print Assumptions C66_large_loads_draw.

(** ** Examples *)
Definition draw (b n s : nat) : list nat * nat := (map (fun k => (s + k) mod b) (range n), s + n).
Lemma draw_fair : fair draw.
Proof.
  intros b n s Hb. unfold draw. cbn [fst]. split; [rewrite map_length; apply length_range|].
  intros h Hh. apply in_map_iff in Hh. destruct Hh as [k [<- _]]. apply Nat.mod_upper_bound. lia.
Qed.
Definition noise0 (s : nat) : Qc * nat := (zq 0, s).
(** values of 1 to 4 MW *)
Definition long_file : mat Qc := mk (Z.to_nat 11520) 2 (fun t h => zq ((if Z.of_nat t <? 10080 then 1 else 2) * (1 + Z.of_nat h) * 1000000)%Z).
Lemma long_file_bounds : forall t h, t < nr long_file -> h < nc long_file ->
  (zq 1 * million <=! get long_file t h)%K /\ (get long_file t h <=! zq 4 * million)%K.
Proof.
  intros t h Ht Hh. unfold long_file in *. cbn [nr nc mk] in Ht, Hh. rewrite get_mk by auto.
  destruct (Z.of_nat t <? 10080)%Z; destruct h as [|[|h]]; try lia; split; vm_compute; reflexivity.
Qed.
Lemma long_file_abs : forall t h, t < nr long_file -> h < nc long_file ->
  (zq 1 * million <=! kabs (get long_file t h))%K /\ (kabs (get long_file t h) <=! zq 4 * million)%K.
Proof.
  intros t h Ht Hh. destruct (long_file_bounds t h Ht Hh) as [A B]. rewrite kabs_pos_id; [auto|].
  eapply kle_trans; [|exact A]. vm_compute. reflexivity.
Qed.
Lemma long_file_long : long_enough long_file [0; 1]%Z (1440 * 1).
Proof. intros w [<-|[<-|[]]]; unfold long_file; cbn [nr mk]; lia. Qed.
Lemma long_file_share : forall m y, selects long_file [0; 1]%Z (1440 * 1) m -> typical_share m y -> (zq 1 <=! y)%K /\ (y <=! zq 4)%K.
Proof. intros m y S T. apply (selected_share_bounds long_file _ _ m y _ _ long_file_long S T); [unfold long_file; cbn [nc mk]; lia|exact long_file_abs]. Qed.
(** load 7 + 4j MVA at bus 1, none at bus 2, 0.5 + 5j at bus 3; bus 1 is one of the constant nodes *)
Definition c51_n : net (K := Qc) := Net [] [Load 0 1 (zq 7) (zq 4) (zq 0) (zq 0); Load 1 2 (zq 0) (zq 0) (zq 0) (zq 0); Load 2 3 (qq 1 2) (zq 5) (zq 0) (zq 0)] [] [] [] (zq 1) [].
Notation c51_run := (generate_loads roundq draw noise0 (qq 4 5) 0 c51_n (Some (FromProfiles long_file long_file [0; 1]%Z 2 (Some [1]))) None 7).
Definition check (r : res ((mat Qc * mat Qc * list Z) * option (mat Qc * mat Qc * list Z) * nat)) (f : mat Qc -> mat Qc -> list Z -> bool) : bool :=
  match r with Ok (p, q, t, _, _) => f p q t | Err _ => false end.
Lemma check_ok : forall r f, check r f = true -> exists P Q times saved s, r = Ok (P, Q, times, saved, s) /\ f P Q times = true.
Proof. intros [[[[[P Q] times] saved] s]|e] f H; [|discriminate]. exists P, Q, times, saved, s. auto. Qed.
Definition row_is (m : mat Qc) (t : Z) (v : list Qc) : bool := veqb (nth (Z.to_nat t) (dat m) []) v.
Lemma c51_check : check c51_run (fun p q _ => row_is p 0 [qq 31 5; zq 0; zq 0] && row_is p 1440 [qq 34 5; zq 0; zq 0] &&
    row_is q 0 [qq 17 5; zq 0; zq 3] && row_is q 2879 [qq 18 5; zq 0; zq 6] && forallb (fun r => vget r 2 =? 0)%K (dat p))%bool = true.
Proof. unfold generate_loads. change (length [0; 1]%Z) with 2. rewrite (lines_exact 2 2 1) by (cbn; lia). vm_compute. reflexivity. Qed.
Lemma and4 : forall a b c d e : bool, (a && b && c && d && e)%bool = true -> a = true /\ b = true /\ c = true /\ d = true /\ e = true.
Proof. intros [] [] [] [] []; auto; discriminate. Qed.
(** the hypotheses of C50, C51 and C66 are met; the first load is 0.2 * (1 + 2) + 0.8 * 7 and in the second week 0.2 * (2 + 4) + 0.8 * 7 *)
Example C51_ex : rounds roundq /\ fair draw /\ [0; 1]%Z <> [] /\ 2 = 1 * length [0; 1]%Z /\ (Z.of_nat 1 * 1440 <= 2 ^ 53)%Z /\
  long_enough long_file [0; 1]%Z (1440 * 1) /\ 0 < nc long_file /\ (0 <! zq 1000000)%K /\
  (forall t h, t < nr long_file -> h < nc long_file -> (zq 1000000 <=! kabs (get long_file t h))%K) /\
  (forall l, In l (loads c51_n) -> (0 <=! l_p l)%K /\ (0 <=! l_q l)%K) /\
  exists P Q times saved s, c51_run = Ok (P, Q, times, saved, s) /\ nr P = 1440 * 2 /\ length times = nr P /\
    nth 0 (dat P) [] = [qq 31 5; zq 0; zq 0] /\ nth (Z.to_nat 1440) (dat P) [] = [qq 34 5; zq 0; zq 0] /\
    nth 0 (dat Q) [] = [qq 17 5; zq 0; zq 3] /\ nth (Z.to_nat 2879) (dat Q) [] = [qq 18 5; zq 0; zq 6].
Proof.
  assert (A : [0; 1]%Z <> []) by discriminate. assert (B : 2 = 1 * length [0; 1]%Z) by reflexivity.
  assert (C : (Z.of_nat 1 * 1440 <= 2 ^ 53)%Z) by (cbn; lia).
  split; [exact roundq_rounds|]. split; [exact draw_fair|]. split; [exact A|]. split; [exact B|]. split; [exact C|]. split; [exact long_file_long|].
  split; [unfold long_file; cbn [nc mk]; lia|]. split; [vm_compute; reflexivity|].
  split; [intros t h Ht Hh; exact (proj1 (long_file_abs t h Ht Hh))|].
  split; [intros l [<-|[<-|[<-|[]]]]; split; vm_compute; reflexivity|].
  destruct (check_ok _ _ c51_check) as (P & Q & times & saved & s & E & H). exists P, Q, times, saved, s. split; [exact E|].
  destruct (C51_profiles _ _ _ _ _ _ _ _ _ _ _ _ _ _ _ _ _ _ _ _ _ _ _ _ _ roundq_rounds draw_fair A B C long_file_long long_file_long E) as ((_ & S1 & _) & _ & T & _).
  apply and4 in H. destruct H as (H1 & H2 & H3 & H4 & _).
  split; [exact S1|]. split; [congruence|]. repeat split; apply veqb_eq; assumption.
Qed.
Example C66_ex : ~ (exists L, Some [1] = Some L /\ In (l_bus (nth 2 (loads c51_n) (Load 0 0 (zq 0) (zq 0) (zq 0) (zq 0)))) L) /\
  (forall m y, selects long_file [0; 1]%Z (1440 * 1) m -> typical_share m y -> (knat 2 * kabs (qq 1 2) <=! y)%K) /\
  (forall t h, t < nr long_file -> h < nc long_file -> (zq 1000000 <=! get long_file t h)%K) /\
  (0 <=! qq 4 5)%K /\ (qq 4 5 <=! 1)%K /\
  (forall m y, selects long_file [0; 1]%Z (1440 * 1) m -> typical_share m y -> (y <! knat 2 * zq 7)%K).
Proof.
  split; [intros [L [E I]]; injection E as <-; destruct I as [I|[]]; discriminate|].
  split; [intros m y S T; eapply kle_trans; [|exact (proj1 (long_file_share m y S T))]; vm_compute; reflexivity|].
  split; [intros t h Ht Hh; exact (proj1 (long_file_bounds t h Ht Hh))|].
  split; [vm_compute; reflexivity|]. split; [vm_compute; reflexivity|].
  intros m y S T. eapply kle_lt_trans; [exact (proj2 (long_file_share m y S T))|]. vm_compute. reflexivity.
Qed.
(** bus 3 has a nominal load of 0.5 MW, which is dropped *)
Theorem C66_every_load_draws_refuted : exists (n : net (K := Qc)) active reactive weeks days c const P Q times saved s i l,
  rounds roundq /\ fair draw /\ weeks <> [] /\ days = c * length weeks /\ long_enough active weeks (1440 * c) /\ long_enough reactive weeks (1440 * c) /\
  generate_loads roundq draw noise0 (qq 4 5) 0 n (Some (FromProfiles active reactive weeks days const)) None 7 = Ok ((P, Q, times), saved, s) /\
  nth_error (loads n) i = Some l /\ l_p l <> 0%K /\ 0 < nr P /\ forall t, t < nr P -> get P t i = 0%K.
Proof.
  destruct (check_ok _ _ c51_check) as (P & Q & times & saved & s & E & H).
  exists c51_n, long_file, long_file, [0; 1]%Z, 2, 1, (Some [1]), P, Q, times, saved, s, 2, (Load 2 3 (qq 1 2) (zq 5) (zq 0) (zq 0)).
  assert (A : [0; 1]%Z <> []) by discriminate. assert (B : 2 = 1 * length [0; 1]%Z) by reflexivity.
  assert (C : (Z.of_nat 1 * 1440 <= 2 ^ 53)%Z) by (cbn; lia).
  destruct (C51_profiles _ _ _ _ _ _ _ _ _ _ _ _ _ _ _ _ _ _ _ _ _ _ _ _ _ roundq_rounds draw_fair A B C long_file_long long_file_long E) as ((W & S1 & _) & _).
  split; [exact roundq_rounds|]. split; [exact draw_fair|]. split; [exact A|]. split; [exact B|]. split; [exact long_file_long|]. split; [exact long_file_long|].
  split; [exact E|]. split; [reflexivity|]. split; [apply keqb_neq; vm_compute; reflexivity|]. split; [lia|].
  intros t Ht. apply and4 in H. destruct H as (_ & _ & _ & _ & H). rewrite forallb_forall in H.
  apply keqb_eq. unfold get. apply H. apply nth_In. destruct W as [W _]. lia.
Qed.
Print Assumptions C66_every_load_draws_refuted.

(** a generator of 3 MW *)
Example C51_ex_negative : forall m y, selects long_file [0; 1]%Z (1440 * 1) m -> typical_share m y -> (knat 2 * zq (-3) <! - y)%K.
Proof.
  intros m y S T. destruct (long_file_share m y S T) as [_ H]. apply klt_spec. intro C. apply klt_spec with (x := (zq (-6))%K) (y := (zq (-4))%K); [vm_compute; reflexivity|].
  assert (D : (- zq 4 <=! - y)%K) by (apply kle_sub; apply kle_sub in H; replace (- y - - zq 4)%K with (zq 4 - y)%K by (cbn; ring); exact H).
  eapply kle_trans; [|exact C]. exact D.
Qed.

(** 5 weeks in 23 days: every week has 6624 of the 33120 minutes, but 6623 are read *)
Definition flat_file (r : nat) : mat Qc := mk r 1 (fun _ _ => zq 1000000).
Definition one_load : net (K := Qc) := Net [] [Load 0 1 (zq 7) (zq 4) (zq 0) (zq 0)] [] [] [] (zq 1) [].
Theorem C51_one_row_per_time_refuted : exists (n : net (K := Qc)) file weeks days len P Q times saved s,
  rounds roundq /\ fair draw /\ len * length weeks = 1440 * days /\ long_enough file weeks len /\
  generate_loads roundq draw noise0 (qq 4 5) 0 n (Some (FromProfiles file file weeks days None)) None 7 = Ok ((P, Q, times), saved, s) /\
  nr P <> length times.
Proof.
  set (file := flat_file (Z.to_nat 46944)). set (weeks := [0; 1; 2; 3; 4]%Z).
  assert (L : long_enough file weeks (Z.to_nat 6624)).
  { intros w Hw. unfold file, flat_file. cbn [nr mk]. repeat (destruct Hw as [<-|Hw]; [lia|]). destruct Hw. }
  assert (L' : long_enough file weeks (Z.to_nat 6623)) by (intros w Hw; destruct (L w Hw); split; lia).
  assert (HL : lines_per_week 23 (length weeks) = Ok (Z.of_nat (Z.to_nat 6623))) by (rewrite Z2Nat.id by lia; exact lines_23_5).
  assert (G : forall t h, t < nr file -> h < nc file -> (zq 1000000 <=! kabs (get file t h))%K).
  { intros t h Ht Hh. unfold file, flat_file in *. cbn [nr nc mk] in Ht, Hh. rewrite get_mk by auto. vm_compute. reflexivity. }
  assert (N1 : 0 < Z.to_nat 6623) by lia. assert (N2 : 0 < nc file) by (unfold file, flat_file; cbn [nc mk]; lia).
  assert (N3 : (0 <! zq 1000000)%K) by (vm_compute; reflexivity).
  destruct (profiles_succeed roundq draw noise0 (qq 4 5) 0 one_load file file weeks 23 None None 7 (Z.to_nat 6623) (zq 1000000)) as (P & Q & times & saved & s & E); auto.
  - exact roundq_rounds.
  - discriminate.
  - intros l [<-|[]]; split; vm_compute; reflexivity.
  - exists one_load, file, weeks, 23, (Z.to_nat 6624), P, Q, times, saved, s.
    destruct (profile_rows roundq draw noise0 (qq 4 5) 0 one_load file file weeks 23 None None 7 P Q times saved s (Z.to_nat 6623) roundq_rounds draw_fair HL L' L' E) as ((_ & R & _) & _ & T & _).
    split; [exact roundq_rounds|]. split; [exact draw_fair|]. split; [change (length weeks) with 5; lia|]. split; [exact L|]. split; [exact E|].
    rewrite R, T, length_times. change (length weeks) with 5. lia.
Qed.
(** a file shorter than a week is read without an error *)
Theorem C51_short_file_refuted : exists (n : net (K := Qc)) file P Q times saved s,
  rounds roundq /\ fair draw /\ generate_loads roundq draw noise0 (qq 4 5) 0 n (Some (FromProfiles file file [0]%Z 7 None)) None 7 = Ok ((P, Q, times), saved, s) /\
  nr P = 3 /\ length times = 1440 * 7.
Proof.
  assert (H : check (generate_loads roundq draw noise0 (qq 4 5) 0 one_load (Some (FromProfiles (flat_file 3) (flat_file 3) [0]%Z 7 None)) None 7)
    (fun p q t => (nr p =? 3) && (length t =? 1440 * 7))%bool = true).
  { unfold generate_loads. change (length [0]%Z) with 1. rewrite (lines_exact 7 1 7) by (cbn; lia). vm_compute. reflexivity. }
  destruct (check_ok _ _ H) as (P & Q & times & saved & s & E & H'). apply andb_prop in H'. destruct H' as [H1 H2].
  apply Nat.eqb_eq in H1. apply Nat.eqb_eq in H2.
  exists one_load, (flat_file 3), P, Q, times, saved, s. split; [exact roundq_rounds|]. split; [exact draw_fair|]. auto.
Qed.
Print Assumptions C51_one_row_per_time_refuted.
Print Assumptions C51_short_file_refuted.

(** one asymmetric load; no deviation *)
Definition c52_r : phased (K := Qc) := Phased (zq 1) (zq 2) (zq 3) (zq 4) (zq 5) (zq 6).
Theorem C52_gaussian_order_refuted : exists (n : nat) (refs : list (phased (K := Qc))) l s' d,
  generate_gaussian_asym noise0 (zq 0) n refs 0 = Ok (l, s') /\ length l = 6 /\ length refs = 1 /\ 0 < n /\
  ~ (forall k t i, k < 6 -> t < n -> i < 1 ->
       get (nth k l d) t i = nth k [pa (nth i refs c52_r); pb (nth i refs c52_r); pc (nth i refs c52_r); qa (nth i refs c52_r); qb (nth i refs c52_r); qc (nth i refs c52_r)] 0%K).
Proof.
  destruct (generate_gaussian_asym noise0 (zq 0) 2 [c52_r] 0) as [[l s']|e] eqn:E; [|discriminate].
  destruct (C52_gaussian_order _ _ _ _ _ _ _ _ _ _ _ E) as (L & G).
  exists 2, [c52_r], l, s', (zrows []). split; [exact E|]. split; [exact L|]. split; [reflexivity|]. split; [lia|].
  intro H. specialize (H 1 0 0 ltac:(lia) ltac:(lia) ltac:(lia)). destruct (G 1 (zrows []) c52_r ltac:(lia)) as [_ G1].
  rewrite (G1 0 0 ltac:(lia) ltac:(simpl; lia)) in H. revert H. apply keqb_neq. vm_compute. reflexivity.
Qed.
(** normally distributed three-phase loads cannot be generated at all *)
Definition c52_n : net (K := Qc) := Net [] [] [Asym 0 1 (fun k => zq (Z.of_nat (k + 1))) (fun k => zq (Z.of_nat (k + 4)))] [] [] (zq 1) [].
Theorem C52_gaussian_branch_refuted : exists (n : net (K := Qc)) sd days const,
  asyms n <> [] /\ (0 <=! sd)%K /\ (forall l k, In l (asyms n) -> (0 <=! a_p l k)%K /\ (0 <=! a_q l k)%K) /\
  generate_loads_3ph roundq draw (qq 4 5) 0 n (FromStd sd days const) = Err NameError.
Proof.
  exists c52_n, (qq 1 10), 7, None. split; [discriminate|]. split; [vm_compute; reflexivity|]. split; [|reflexivity].
  intros l k [<-|[]]. cbn [a_p a_q]. unfold zq. rewrite <- !knat_Qc. split; apply knat_nonneg.
Qed.
Print Assumptions C52_gaussian_order_refuted.
Print Assumptions C52_gaussian_branch_refuted.

(** no load on phase a of the first load *)
Definition c50_n : net (K := Qc) := Net [] [] [Asym 0 1 (fun k => zq (Z.of_nat k)) (fun k => zq (Z.of_nat (k + 4))); Asym 1 2 (fun k => zq 1) (fun k => zq 0)] [] [] (zq 1) [].
Notation c50_run := (generate_loads_3ph roundq draw (qq 4 5) 0 c50_n (FromProfiles (flat_file (Z.to_nat 1440)) (flat_file (Z.to_nat 1440)) [0]%Z 1 (Some [2]))).
Lemma c50_check : match c50_run with Ok (P, Q, asym, times, s) =>
    (nr P =? Z.to_nat 1440) && (nc P =? 0) && (length asym =? 6) && rows_eqb (map (fun m => nth 7 (dat m) []) asym)
      (map (map zq) [[0; 1]; [1; 1]; [2; 1]; [4; 0]; [5; 0]; [6; 0]]%Z) | Err _ => false end%bool = true.
Proof. unfold generate_loads_3ph. change (length [0]%Z) with 1. rewrite (lines_exact 1 1 1) by (cbn; lia). vm_compute. reflexivity. Qed.
Example C50_ex_three_phases : long_enough (flat_file (Z.to_nat 1440)) [0]%Z (1440 * 1) /\ exists P Q asym times s,
  c50_run = Ok (P, Q, asym, times, s) /\ map (fun m => nth 7 (dat m) []) asym = map (map zq) [[0; 1]; [1; 1]; [2; 1]; [4; 0]; [5; 0]; [6; 0]]%Z.
Proof.
  split; [intros w [<-|[]]; unfold flat_file; cbn [nr mk]; lia|].
  pose proof c50_check as H. destruct c50_run as [[[[[P Q] asym] times] s]|e]; [|discriminate]. exists P, Q, asym, times, s. split; [reflexivity|].
  apply andb_prop in H. destruct H as [_ H]. apply rows_eqb_eq. exact H.
Qed.
