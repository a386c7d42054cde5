(** C99-C102: the networks and settings shipped with the package. *)
From Coq Require Import String.
From Coq Require Import Bool Arith List Lia ZArith QArith Qcanon Sorted Permutation Reals.
From Verif Require Import BasePy ProofSet BaseFld BaseOrd BaseSum BaseMat BaseLin BaseNumpy BaseEx BaseReal BaseRound ModelPrior ModelNet ModelReduce ModelReduce3 ModelResample ModelLoads ModelMeasure ModelRun ModelScript ModelTemplates
  SpecLS SpecNet SpecKron SpecReduce SpecReduce3 SpecResample SpecLoads SpecMeasure SpecRun SpecScript SpecScriptData SpecPassive SpecTemplates ProofReduce ProofScriptData ProofScriptLap ProofPassive ProofPassiveRun ProofDec ProofTemplates ProofTemplatesRun ProofTemplates3 ProofTemplatesSame
  PropKron PropNet PropMeasure PropRun PropScript PropScriptData PropPassive.
Import ListNotations.
Close Scope R_scope. Close Scope Qc_scope. Close Scope Q_scope. Close Scope string_scope. Open Scope list_scope. Open Scope nat_scope.

(** ** C99: every shipped single-phase network *)
(** can be built; its buses have the labels 1, 2, ...; one of them is the substation, to which lines in service lead from all others *)
Theorem C99_networks : forall K (O : Ops K) (F : Fld K) (O2 : OrdOps K) (OF : OrdFld K) name (ns : list (bus_data (K := K))) ls, template1 name = Some (ns, ls) ->
  exists n Y s, NetData (Some ns) (Some ls) None = Ok n /\ make_y_bus n = Ok Y /\ consistent n /\ ids n = seq 1 (length ns) /\ grids n = [S s] /\
    only_substation ns s /\ connected ns ls s /\ (name <> "ieee_33"%string -> s = length ns - 1) /\ (name = "ieee_33"%string -> s = 0).
Proof. intros K O F O2 OF. exact p_networks. Qed.
(** all nodes but the substation can be eliminated, in any combination *)
Theorem C99_can_be_eliminated : forall K (O : Ops K) (F : Fld K) (O2 : OrdOps K) (OF : OrdFld K) name (ns : list (bus_data (K := K))) ls n Y E, template1 name = Some (ns, ls) ->
  NetData (Some ns) (Some ls) None = Ok n -> make_y_bus n = Ok Y -> NoDup E -> (forall k, In k E -> exists b, nth_error ns k = Some b /\ bd_type b <> 3) ->
  invertible (length E) (block_of Y E E).
Proof. intros K O F O2 OF. exact p_eliminate. Qed.
Print Assumptions C99_networks.
Print Assumptions C99_can_be_eliminated.

Section Theorems.
Context {K : Type} {O : Ops K} {F : Fld K} {O2 : OrdOps K} {OF : OrdFld K}.
Notation CK := (cplx K).
Context (pinv : mat CK -> mat CK) (rnd : K -> Z) (root : K -> K) (polar : K -> K -> CK).
Context {St : Type} (randint : nat -> nat -> St -> list nat * St) (gauss : St -> K * St) (noise : @noise_fun K St K) (seeded : St).
Context (flow1 : net (K := K) -> mat K -> mat K -> res (mat K * mat K)).
Context (flow3 : net (K := K) -> mat K -> mat K -> list (mat K) -> res ((mat K * mat K) * (mat K * mat K) * (mat K * mat K))).
Context (y_bus3 : net (K := K) -> res (mat CK)).
Context (reduce3 : net (K := K) -> mat CK -> mat CK -> list nat -> bool -> res (list nat * mat CK)).
Context (seq_measurement seq_admittance : mat CK -> res (mat CK)).
Notation run := (simulate pinv rnd root polar randint gauss noise seeded flow1 flow3 y_bus3 reduce3 seq_measurement seq_admittance).

(** C85 without conditions on the network: with the substation *)
Theorem C99_saved_laplacian : forall conf o ts name ns ls s s' V I Y nv ni v i E kept, template1 name = Some (ns, ls) -> inverts pinv ->
  three_phased o = false -> sequence o = false -> recomputes o -> laplacian o = true ->
  run conf o ts (template1 name) s = (s', Ok tt) -> timed s' -> keeps_length noise -> f_results s' = Some (V, I, Y) -> f_filtered s' = Some (nv, ni, v, i) ->
  shown (hidden_nodes conf) ns -> eliminated (hidden_nodes conf) ns E -> no_current E I ->
  (forall k b, nth_error ns k = Some b -> bd_type b <> 3 -> In (bd_id b) (hidden_nodes conf) -> mean_at v k <> 0%K) ->
  stay (hidden_nodes conf) true ns kept -> orderly (length ns) (length kept) ->
  exists i1 v1 i2 v2 y P f h, f_output s' = Some (Simulation i1 v1 i2 v2 y P f h) /\
    explained (nr v) (length kept) (length kept) v2 y i2 (fun _ => 0%K) /\ zero_column_sums (length kept) (length kept) y /\
    (silent noise -> noise_free conf -> i1 = i2 /\ v1 = v2).
Proof.
  intros conf o ts name ns ls s s' V I Y nv ni v i E kept T IV H3 HQ HR HL RUN TM KL RES FIL SH EE NC MV ST OR. rewrite T in RUN. destruct (template1_nice name ns ls T) as (q & N & Hq & _).
  rewrite <- HL in ST.
  destruct (C98_saved_laplacian pinv rnd root polar randint gauss noise seeded flow1 flow3 y_bus3 reduce3 seq_measurement seq_admittance conf o ts ns ls s s' H3 HQ HR (n_single _ _ _ N) RUN
    V I Y nv ni v i E kept TM KL RES FIL EE NC (n_res _ _ _ N) IV (nice_leads ns ls q E N Hq (elim_types _ _ _ EE)) MV ST HL SH OR) as (i1 & v1 & i2 & v2 & y & P & f & h & EO & EX & ZS & NF).
  exists i1, v1, i2, v2, y, P, f, h. split; [exact EO|]. split; [exact EX|]. split; [exact (ZS (n_no _ _ _ N))|exact NF].
Qed.
(** without the substation, in the networks where it is the last bus *)
Theorem C99_saved_grounded : forall conf o ts name ns ls s s' V I Y nv ni v i E kept, template1 name = Some (ns, ls) -> name <> "ieee_33"%string -> inverts pinv ->
  three_phased o = false -> sequence o = false -> recomputes o -> laplacian o = false ->
  run conf o ts (template1 name) s = (s', Ok tt) -> timed s' -> keeps_length noise -> f_results s' = Some (V, I, Y) -> f_filtered s' = Some (nv, ni, v, i) ->
  eliminated (hidden_nodes conf) ns E -> no_current E I -> steady [length ns - 1] V ->
  (forall k b, nth_error ns k = Some b -> bd_type b <> 3 -> In (bd_id b) (hidden_nodes conf) -> mean_at v k <> 0%K) ->
  stay (hidden_nodes conf) false ns kept -> orderly (length ns - 1) (length kept) ->
  exists i1 v1 i2 v2 y P f h c, f_output s' = Some (Simulation i1 v1 i2 v2 y P f h) /\
    explained (nr v) (length kept) (length kept) v2 y i2 c /\ (silent noise -> noise_free conf -> i1 = i2 /\ v1 = v2).
Proof.
  intros conf o ts name ns ls s s' V I Y nv ni v i E kept T NI IV H3 HQ HR HL RUN TM KL RES FIL EE NC SV MV ST OR. rewrite T in RUN. destruct (template1_nice name ns ls T) as (q & N & Hq & Lq & _).
  specialize (Lq NI). rewrite <- HL in ST.
  apply (C98_saved_grounded pinv rnd root polar randint gauss noise seeded flow1 flow3 y_bus3 reduce3 seq_measurement seq_admittance conf o ts ns ls s s' H3 HQ HR (n_single _ _ _ N) RUN
    V I Y nv ni v i E kept TM KL RES FIL EE NC (n_res _ _ _ N) IV (nice_leads ns ls q E N Hq (elim_types _ _ _ EE)) MV ST [length ns - 1] HL).
  - rewrite <- Lq. apply only_substations. exact (n_only _ _ _ N).
  - rewrite <- Lq. apply (elim_before (hidden_nodes conf) ns q E EE (n_only _ _ _ N) Lq).
  - exact SV.
  - replace (length (kept_ascending (length ns) [length ns - 1])) with (length ns - 1); [exact OR|].
    assert (ND : NoDup [length ns - 1]) by (constructor; [intros []|constructor]). pose proof (before_count [length ns - 1] (length ns) ND) as B.
    unfold before in B. cbn [filter] in B. replace (length ns - 1 <? length ns) with true in B by (symmetry; apply Nat.ltb_lt; lia). cbn [length] in B. lia.
Qed.

(** ** C100: hidden nodes *)
(** a label that the network does not have: the program fails, whatever its options and files *)
Theorem C100_missing_node : forall conf o ts ns ls s s' x, three_phased o = false -> (forall b, In b ns -> both is_single b) ->
  In x (hidden_nodes conf) -> ~ In x (map bd_id ns) -> run conf o ts (Some (ns, ls)) s <> (s', Ok tt).
Proof. exact (p_absent pinv rnd root polar randint gauss noise seeded flow1 flow3 y_bus3 reduce3 seq_measurement seq_admittance). Qed.
Lemma hidden_55 : In 55 shipped_hidden_nodes.
Proof. apply (proj1 (in_eqb 55 shipped_hidden_nodes)). vm_compute. reflexivity. Qed.
(** with the shipped list of hidden nodes the only single-phase network that can be simulated is bolognani56 *)
Theorem C100_shipped_networks : forall conf o ts name s s', three_phased o = false -> hidden_nodes conf = shipped_hidden_nodes ->
  run conf o ts (template1 name) s = (s', Ok tt) -> name = "bolognani56"%string.
Proof.
  intros conf o ts name s s' H3 HH RUN. destruct (template1 name) as [[ns ls]|] eqn:T; [|unfold simulate in RUN; rewrite H3 in RUN; cbn in RUN; discriminate RUN].
  destruct (string_dec name "bolognani56") as [E|NE]; [exact E|exfalso]. destruct (template1_nice name ns ls T) as (q & N & _).
  apply (C100_missing_node conf o ts ns ls s s' 55 H3 (n_single _ _ _ N)) in RUN; [exact RUN|rewrite HH; exact hidden_55|].
  rewrite (n_labels _ _ _ N), in_seq. apply template1_cases in T. destruct T as [[E _]|[[_ E]|[[_ E]|[[_ E]|[_ E]]]]]; [contradiction|injection E as -> ->; cbn; lia..].
Qed.
(** and its data have the columns of these nodes *)
Definition shipped_columns : list nat := [2; 3; 5; 8; 9; 11; 14; 15; 16; 17; 18; 23; 25; 27; 31; 35; 36; 38; 39; 42; 43; 45; 46; 48; 49; 50; 51; 52; 54].
Theorem C100_shipped_columns : forall conf o ts s s', three_phased o = false -> sequence o = false -> recomputes o -> hidden_nodes conf = shipped_hidden_nodes ->
  run conf o ts (template1 "bolognani56") s = (s', Ok tt) ->
  exists nv ni v i y P f h, let kept := map pred (shipped_columns ++ if laplacian o then [56] else []) in
    f_filtered s' = Some (nv, ni, v, i) /\ f_output s' = Some (Simulation (columns ni kept) (columns nv kept) (columns i kept) (columns v kept) y P f h) /\ length P = length kept.
Proof.
  intros conf o ts s s' H3 HQ HR HH RUN. change (template1 "bolognani56") with (Some (bolognani56_bus (K := K), bolognani56_net)) in RUN.
  destruct (C84_columns_and_ratings pinv rnd root polar randint gauss noise seeded flow1 flow3 y_bus3 reduce3 seq_measurement seq_admittance conf o ts _ _ s s' H3 HQ HR (n_single _ _ _ bolognani56_nice) RUN)
    as (kept & nv & ni & v & i & y & P & f & FIL & _ & _ & _ & _ & OUT & ST & LP & _).
  exists nv, ni, v, i, y, P, f, (repeat 1%Z (length kept)). cbv zeta.
  assert (EK : kept = map pred (shipped_columns ++ if laplacian o then [56] else [])); [|subst kept; auto].
  rewrite (stay_unique _ _ _ _ _ ST (stay_ok (hidden_nodes conf) (laplacian o) _ _ bolognani56_loadless)), HH. destruct (laplacian o); vm_compute; reflexivity.
Qed.
End Theorems.

Print Assumptions C99_saved_laplacian.
Print Assumptions C99_saved_grounded.
Print Assumptions C100_missing_node.
Print Assumptions C100_shipped_networks.
Print Assumptions C100_shipped_columns.

Section ThreePhases.
Context (pinv1 pinv : mat C -> mat C) (rnd : R -> Z) (root : R -> R) (polar : R -> R -> C).
Context {St : Type} (randint : nat -> nat -> St -> list nat * St) (gauss : St -> R * St) (noise : @noise_fun R St R) (seeded : St).
Context (flow1 : net (K := R) -> mat R -> mat R -> res (mat R * mat R)).
Context (flow3 : net (K := R) -> mat R -> mat R -> list (mat R) -> res ((mat R * mat R) * (mat R * mat R) * (mat R * mat R))).
Context (ys : net (K := R) -> nat -> mat C).
Notation seqs n := (ys n 0, ys n 1, ys n 2).
Context (seq_measurement seq_admittance : mat C -> res (mat C)).
Notation run := (simulate pinv1 rnd root polar randint gauss noise seeded flow1 flow3 (fun n => make_y_bus3 (seqs n))
  (fun n v i h single => reduce_network3 pinv (seqs n) n v i h single) seq_measurement seq_admittance).

Theorem C100_missing_node_three_phases : forall conf o name ns ls s s' x, three_phased o = true -> template3 name = Some (ns, ls) ->
  In x (hidden_nodes conf) -> ~ In x (map bd_id ns) -> run conf o ieee123_types (template3 name) s <> (s', Ok tt).
Proof.
  intros conf o name ns ls s s' x H3 T Hx NX RUN. destruct (net3 ieee123_types ns ls (template3_tables name ns ls T)) as (n & EN & _ & EI & _). rewrite T in RUN.
  eapply (p_absent3 pinv1 pinv rnd root polar randint gauss noise seeded flow1 flow3 ys seq_measurement seq_admittance); try eassumption. rewrite EI. exact NX.
Qed.

(** ** C102: the phases of a three-phase network *)
(** if two phases have different numbers of nodes without load or hidden, the program fails unless it works on sequence components *)
Theorem C102_uneven_phases : forall conf o ts ns ls s s' ph ph' E E', three_phased o = true -> sequence o = false -> recomputes o -> tables3 ts ns ls -> only_substation ns (length ns - 1) ->
  shown (hidden_nodes conf) ns -> (forall n k, k < 3 -> shape (ys n k) (length (buses n)) (length (buses n))) -> (forall r A, shape A r r -> shape (pinv A) r r) ->
  ph < 3 -> ph' < 3 -> removed_on (hidden_nodes conf) ns ph E -> removed_on (hidden_nodes conf) ns ph' E' -> length E <> length E' ->
  run conf o ts (Some (ns, ls)) s <> (s', Ok tt).
Proof. exact (p_uneven_run pinv1 pinv rnd root polar randint gauss noise seeded flow1 flow3 ys seq_measurement seq_admittance). Qed.
(** so the shipped network of 56 buses cannot be simulated without hidden nodes nor with those of the shipped settings *)
Theorem C102_ieee123center : forall conf o s s', three_phased o = true -> sequence o = false -> recomputes o -> hidden_nodes conf = [] \/ hidden_nodes conf = shipped_hidden_nodes ->
  (forall n k, k < 3 -> shape (ys n k) (length (buses n)) (length (buses n))) -> (forall r A, shape A r r -> shape (pinv A) r r) ->
  run conf o ieee123_types (template3 "ieee123center") s <> (s', Ok tt).
Proof.
  intros conf o s s' H3 HQ HR HH HY HP. change (template3 "ieee123center") with (Some (ieee123center_bus (K := R), ieee123center_net)).
  eapply (C102_uneven_phases conf o ieee123_types ieee123center_bus ieee123center_net s s' 0 1
    (eliminated_positions (hidden_nodes conf) ieee123center_bus _) (eliminated_positions (hidden_nodes conf) ieee123center_bus _) H3 HQ HR ieee123center_tables ieee123center_substation);
    [destruct HH as [-> | ->]; apply shown_ok; vm_compute; reflexivity|exact HY|exact HP|lia|lia|apply removed_ok, ieee123center_idle0|apply removed_ok, ieee123center_idle1|].
  destruct HH as [-> | ->]; vm_compute; discriminate.
Qed.
Theorem C102_test_3phase : forall conf o s s', three_phased o = true -> sequence o = false -> recomputes o -> hidden_nodes conf = [] ->
  (forall n k, k < 3 -> shape (ys n k) (length (buses n)) (length (buses n))) -> (forall r A, shape A r r -> shape (pinv A) r r) ->
  run conf o ieee123_types (template3 "test_3phase") s <> (s', Ok tt).
Proof.
  intros conf o s s' H3 HQ HR HH HY HP. change (template3 "test_3phase") with (Some (test_3phase_bus (K := R), test_3phase_net)).
  eapply (C102_uneven_phases conf o ieee123_types test_3phase_bus test_3phase_net s s' 0 2
    (eliminated_positions (hidden_nodes conf) test_3phase_bus _) (eliminated_positions (hidden_nodes conf) test_3phase_bus _) H3 HQ HR test_3phase_tables test_3phase_substation);
    [rewrite HH; apply shown_ok; vm_compute; reflexivity|exact HY|exact HP|lia|lia|apply removed_ok, test_3phase_idle0|apply removed_ok, test_3phase_idle2|].
  rewrite HH; vm_compute; discriminate.
Qed.
(** with the shipped list of hidden nodes no shipped three-phase network can be simulated, unless on sequence components *)
Theorem C102_shipped_settings : forall conf o name s s', three_phased o = true -> sequence o = false -> recomputes o -> hidden_nodes conf = shipped_hidden_nodes ->
  (forall n k, k < 3 -> shape (ys n k) (length (buses n)) (length (buses n))) -> (forall r A, shape A r r -> shape (pinv A) r r) ->
  run conf o ieee123_types (template3 name) s <> (s', Ok tt).
Proof.
  intros conf o name s s' H3 HQ HR HH HY HP. destruct (template3 name) as [[ns ls]|] eqn:T; [|intro RUN; unfold simulate in RUN; rewrite H3 in RUN; cbn in RUN; discriminate RUN].
  rewrite <- T. destruct (template3_cases name _ T) as [[E1 E2]|[[E1 E2]|[E1 E2]]].
  - apply (C100_missing_node_three_phases conf o name ns ls s s' 55 H3 T); [rewrite HH; exact hidden_55|]. injection E2 as -> ->. cbn; lia.
  - apply (C100_missing_node_three_phases conf o name ns ls s s' 55 H3 T); [rewrite HH; exact hidden_55|]. injection E2 as -> ->. cbn; lia.
  - subst name. apply C102_ieee123center; auto.
Qed.
End ThreePhases.
Print Assumptions C100_missing_node_three_phases.
Print Assumptions C102_uneven_phases.
Print Assumptions C102_ieee123center.
Print Assumptions C102_test_3phase.
Print Assumptions C102_shipped_settings.

(** ** C101: networks that describe the same grid *)
(** bolognani33 is a part of bolognani56, bus 33 being bus 56 *)
Theorem C101_bolognani33 : forall K (O : Ops K) (F : Fld K) (O2 : OrdOps K) (OF : OrdFld K), subnetwork (K := K) (renamed bolognani_mapping33) bolognani33_bus bolognani33_net bolognani56_bus bolognani56_net.
Proof. intros K O F O2 OF. exact p_sub33. Qed.
(** ieee123center has the buses and lines of bolognani56: its loads add up to theirs, its lengths are theirs, in thousandths and times 0.3 *)
Theorem C101_ieee123center : forall K (O : Ops K) (F : Fld K) (O2 : OrdOps K) (OF : OrdFld K), Forall2 (adds_up (K := K)) bolognani56_bus ieee123center_bus /\
  Forall2 (scaled_line (K := K) (dec 3 10 / dec 1000 1)%K) bolognani56_net ieee123center_net.
Proof. intros K O F O2 OF. split; [exact p_adds_up|exact p_scaled]. Qed.
(** cigre_mv_feeder3 has the loads of cigre_mv_feeder1 on every phase, and its lines *)
Theorem C101_cigre_mv_feeder : forall K (O : Ops K) (F : Fld K) (O2 : OrdOps K) (OF : OrdFld K), Forall2 (each_phase (K := K)) cigre_mv_feeder1_bus cigre_mv_feeder3_bus /\
  Forall2 (scaled_line (K := K) 1%K) cigre_mv_feeder1_net cigre_mv_feeder3_net.
Proof. intros K O F O2 OF. split; [exact p_each|exact p_same_lines]. Qed.
(** bolognani21 is not a part of bolognani56, because of its last line *)
Theorem C101_bolognani21_refuted : exists f ns (ls : list (line_data (K := Qc))), template1 "bolognani21" = Some (ns, ls) /\ f = renamed bolognani_mapping21 /\
  ~ subnetwork f ns ls bolognani56_bus bolognani56_net /\ subnetwork f ns repaired21 bolognani56_bus bolognani56_net /\
  length ls = 20 /\ (forall k, k < 19 -> nth_error ls k = nth_error repaired21 k).
Proof.
  exists (renamed bolognani_mapping21), bolognani21_bus, bolognani21_net. split; [reflexivity|]. split; [reflexivity|]. split; [exact p_not_sub21|]. split; [exact p_sub21|]. split; [reflexivity|].
  intros k Hk. do 19 (destruct k as [|k]; [reflexivity|]). lia.
Qed.
Print Assumptions C101_bolognani33.
Print Assumptions C101_ieee123center.
Print Assumptions C101_cigre_mv_feeder.
Print Assumptions C101_bolognani21_refuted.

(** ** Examples and counterexamples *)
Example C99_networks_ex : exists n Y, NetData (K := Qc) (Some cigre_mv_feeder1_bus) (Some cigre_mv_feeder1_net) None = Ok n /\ make_y_bus n = Ok Y /\ grids n = [10] /\
  invertible 3 (block_of Y [0; 2; 8] [0; 2; 8]).
Proof.
  destruct (C99_networks Qc _ _ _ _ "cigre_mv_feeder1" _ _ eq_refl) as (n & Y & s & EN & EY & _ & _ & EG & [(b & Eb & Tb) _] & _). exists n, Y. split; [exact EN|]. split; [exact EY|]. split.
  - rewrite EG. apply (map_nth_error bd_type) in Eb. rewrite Tb in Eb. change (map bd_type cigre_mv_feeder1_bus) with [1; 1; 1; 1; 1; 1; 1; 1; 1; 3] in Eb.
    do 9 (destruct s as [|s]; [discriminate Eb|]). destruct s as [|s]; [reflexivity|destruct s; discriminate Eb].
  - apply (C99_can_be_eliminated Qc _ _ _ _ "cigre_mv_feeder1" _ _ n Y [0; 2; 8] eq_refl EN EY); [repeat constructor; cbn; lia|].
    intros k [<-|[<-|[<-|[]]]]; (eexists; split; [reflexivity|]); discriminate.
Qed.

(** voltages read from the loads file *)
Definition t_flow (n : net (K := Qc)) (p q : mat Qc) : res (mat Qc * mat Qc) := Ok (p, q).
Notation trun := (simulate w_pinv roundq root4 (fun m a => Cx m a) x_randint x_gauss still 0 t_flow x_flow3 x_y3 x_reduce3 (fun m => Ok m) (fun m => Ok m)).
Definition t_start := g_files [[4; 6; 6; 6; 1; 2; 3; 4; 5; 1]; [2; 4; 4; 4; 2; 2; 1; 3; 1; 1]; [3; 1; 1; 1; 2; 3; 3; 4; 4; 1]; [5; 2; 2; 2; 4; 2; 2; 1; 1; 1]]%Z
  [[1; 1; 1; 1; 0; 0; 0; 0; 0; 0]; [0; 2; 2; 2; 0; 0; 1; 0; 0; 0]; [0; 0; 0; 0; 1; 0; 0; 0; 0; 0]; [0; 0; 0; 0; 0; 1; 0; 0; 0; 0]]%Z.
(** everything the examples need to know about a run, evaluated once *)
Definition t_facts (r : data_files Qc * res unit) : bool := let s := fst r in okb (snd r) &&
  match f_loads s with Some (LoadsFile _ _ None [0; 1; 2; 3]%Z) => true | _ => false end &&
  match f_results s, f_filtered s with
  | Some (V, J, _), Some (_, _, v, _) => (nr v =? 4) && negb (keqb (mean_at v 2) k0) && forall_lt (nr J) (fun t => keqb (get J t 2) k0) && forall_lt (nr V) (fun t => keqb (get V t 9) (get V 0 9))
  | _, _ => false
  end.
Lemma t_facts_ok : forall s r, t_facts (s, r) = true -> r = Ok tt /\ timed s /\
  exists V I Y nv ni v i, f_results s = Some (V, I, Y) /\ f_filtered s = Some (nv, ni, v, i) /\ nr v = 4 /\ mean_at v 2 <> 0%K /\ no_current [2] I /\ steady [9] V.
Proof.
  intros s r H. unfold t_facts in H. cbn [fst snd] in H. apply andb_prop in H. destruct H as [H H3]. apply andb_prop in H. destruct H as [H1 H2].
  split; [destruct r as [[]|]; [reflexivity|discriminate H1]|]. split.
  - destruct (f_loads s) as [[lp lq [lm|] lt]|] eqn:EL; try discriminate H2.
    destruct (list_eq_dec Z.eq_dec lt [0; 1; 2; 3]%Z) as [->|N]; [apply g_timed; rewrite EL; reflexivity|exfalso; revert H2 N; clear].
    intros H N. destruct lt as [|[|a|a] lt]; try discriminate H. destruct lt as [|[|b|b] lt]; try discriminate H; destruct b as [b|b|]; try discriminate H.
    destruct lt as [|[|c|c] lt]; try discriminate H; destruct c as [c|c|]; try discriminate H; destruct c as [c|c|]; try discriminate H.
    destruct lt as [|[|d|d] lt]; try discriminate H; destruct d as [d|d|]; try discriminate H; destruct d as [d|d|]; try discriminate H.
    destruct lt; [apply N; reflexivity|discriminate H].
  - destruct (f_results s) as [[[V I] Y]|] eqn:ER; [|discriminate H3]. destruct (f_filtered s) as [[[[nv ni] v] i]|] eqn:EF; [|discriminate H3].
    exists V, I, Y, nv, ni, v, i. apply andb_prop in H3. destruct H3 as [H3 H7]. apply andb_prop in H3. destruct H3 as [H3 H6]. apply andb_prop in H3. destruct H3 as [H4 H5].
    split; [reflexivity|]. split; [reflexivity|]. split; [apply Nat.eqb_eq; exact H4|]. split; [apply keqb_neq; destruct (keqb (mean_at v 2) k0); [discriminate H5|reflexivity]|].
    split; [apply g_no_current; exact H6|]. intros x [<-|[]]. exists (get V 0 9). intros t Ht. apply keqb_eq. exact (forall_lt_spec _ _ H7 t Ht).
Qed.
Lemma t_ran : forall lap, exists s, trun (g_conf [3]) (g_opt lap) [] (template1 "cigre_mv_feeder1") t_start = (s, Ok tt) /\ timed s /\
  exists V I Y nv ni v i, f_results s = Some (V, I, Y) /\ f_filtered s = Some (nv, ni, v, i) /\ nr v = 4 /\ mean_at v 2 <> 0%K /\ no_current [2] I /\ steady [9] V.
Proof.
  intro lap. assert (T : t_facts (trun (g_conf [3]) (g_opt lap) [] (template1 "cigre_mv_feeder1") t_start) = true) by (destruct lap; vm_compute; reflexivity).
  destruct (trun (g_conf [3]) (g_opt lap) [] (template1 "cigre_mv_feeder1") t_start) as [s r]. apply t_facts_ok in T. destruct T as (-> & T). exists s. split; [reflexivity|exact T].
Qed.
Lemma t_hidden : forall k b, nth_error (cigre_mv_feeder1_bus (K := Qc)) k = Some b -> bd_type b <> 3 -> In (bd_id b) [3] -> k = 2.
Proof.
  intros k b Eb _ [I|[]]. apply (map_nth_error bd_id) in Eb. rewrite <- I in Eb. change (map bd_id cigre_mv_feeder1_bus) with (seq 1 10) in Eb.
  do 2 (destruct k as [|k]; [discriminate Eb|]). destruct k as [|k]; [reflexivity|]. do 7 (destruct k as [|k]; [discriminate Eb|]). destruct k; discriminate Eb.
Qed.
Lemma t_stay : forall lap, stay [3] lap (cigre_mv_feeder1_bus (K := Qc)) ([0; 1; 3; 4; 5; 6; 7; 8] ++ if lap then [9] else []).
Proof. intro lap. pose proof (stay_ok (K := Qc) [3] lap _ _ cigre_mv_feeder1_loadless) as S. destruct lap; exact S. Qed.
Lemma t_eliminated : eliminated [3] (cigre_mv_feeder1_bus (K := Qc)) [2].
Proof. exact (eliminated_ok (K := Qc) [3] _ _ cigre_mv_feeder1_loadless). Qed.
Lemma t_shown : shown [3] (cigre_mv_feeder1_bus (K := Qc)).
Proof. apply shown_ok. reflexivity. Qed.
Example C99_saved_laplacian_ex : exists s i1 v1 i2 v2 y P f h, trun (g_conf [3]) (g_opt true) [] (template1 "cigre_mv_feeder1") t_start = (s, Ok tt) /\
  f_output s = Some (Simulation i1 v1 i2 v2 y P f h) /\ explained 4 9 9 v2 y i2 (fun _ => k0) /\ zero_column_sums 9 9 y /\ i1 = i2 /\ v1 = v2.
Proof.
  destruct (t_ran true) as (s & RUN & TM & V & I & Y & nv & ni & v & i & RES & FIL & NV & MV & NC & SV).
  destruct (C99_saved_laplacian w_pinv roundq root4 (fun m a => Cx m a) x_randint x_gauss still 0 t_flow x_flow3 x_y3 x_reduce3 (fun m => Ok m) (fun m => Ok m)
    (g_conf [3]) (g_opt true) [] "cigre_mv_feeder1" _ _ _ s V I Y nv ni v i [2] [0; 1; 3; 4; 5; 6; 7; 8; 9] eq_refl w_inverts eq_refl eq_refl (g_recomputes true) eq_refl RUN TM keeps_still
    RES FIL t_shown t_eliminated NC) with (2 := t_stay true) as (i1 & v1 & i2 & v2 & y & P & f & h & EO & EX & ZS & NF).
  - intros k b Eb T HI. rewrite (t_hidden k b Eb T HI). exact MV.
  - right. left. cbn. lia.
  - exists s, i1, v1, i2, v2, y, P, f, h. split; [exact RUN|]. split; [exact EO|]. rewrite NV in EX. split; [exact EX|]. split; [exact ZS|]. exact (NF silent_still (g_noise_free [3])).
Qed.
Example C99_saved_grounded_ex : exists s i1 v1 i2 v2 y P f h c, trun (g_conf [3]) (g_opt false) [] (template1 "cigre_mv_feeder1") t_start = (s, Ok tt) /\
  f_output s = Some (Simulation i1 v1 i2 v2 y P f h) /\ explained 4 8 8 v2 y i2 c /\ i1 = i2 /\ v1 = v2.
Proof.
  destruct (t_ran false) as (s & RUN & TM & V & I & Y & nv & ni & v & i & RES & FIL & NV & MV & NC & SV).
  destruct (C99_saved_grounded w_pinv roundq root4 (fun m a => Cx m a) x_randint x_gauss still 0 t_flow x_flow3 x_y3 x_reduce3 (fun m => Ok m) (fun m => Ok m)
    (g_conf [3]) (g_opt false) [] "cigre_mv_feeder1" _ _ _ s V I Y nv ni v i [2] [0; 1; 3; 4; 5; 6; 7; 8] eq_refl ltac:(discriminate) w_inverts eq_refl eq_refl (g_recomputes false) eq_refl RUN TM keeps_still
    RES FIL t_eliminated NC SV) with (2 := t_stay false) as (i1 & v1 & i2 & v2 & y & P & f & h & c & EO & EX & NF).
  - intros k b Eb T HI. rewrite (t_hidden k b Eb T HI). exact MV.
  - right. left. cbn. lia.
  - exists s, i1, v1, i2, v2, y, P, f, h, c. split; [exact RUN|]. split; [exact EO|]. rewrite NV in EX. split; [exact EX|]. exact (NF silent_still (g_noise_free [3])).
Qed.

