(** C103: when the simulation program runs to its end. *)
From Coq Require Import String.
From Coq Require Import Bool Arith List Lia ZArith QArith Qcanon Sorted Permutation Reals.
From Verif Require Import BasePy ProofSet BaseFld BaseOrd BaseSum BaseMat BaseLin BaseNumpy BaseEx BaseReal BaseRound ModelPrior ModelNet ModelReduce ModelReduce3 ModelResample ModelLoads ModelMeasure ModelRun ModelScript ModelTemplates
  SpecLS SpecNet SpecKron SpecReduce SpecResample SpecLoads SpecMeasure SpecRun SpecScript SpecScriptData SpecPassive SpecTemplates SpecSucceed ProofScriptData ProofRerun2 ProofDec ProofTemplates ProofTemplatesRun ProofSucceed
  PropMeasure PropScript PropScriptData PropTemplates.
Import ListNotations.
Close Scope R_scope. Close Scope Qc_scope. Close Scope Q_scope. Close Scope string_scope. Open Scope list_scope. Open Scope nat_scope.

(** the loads of the shipped networks are not negative *)
Section Consumers.
Context {K : Type} {O : Ops K} {F : Fld K} {O2 : OrdOps K} {OF : OrdFld K}.
Definition row_consumer (b : bus_data (K := K)) : Prop := (0 <=! number (bd_p b))%K /\ (0 <=! number (bd_q b))%K.
Lemma consumer_bus : forall i t (p q kv : K), (0 <=! p)%K -> (0 <=! q)%K -> row_consumer (bus i t p q kv).
Proof. intros i t p q kv Hp Hq. split; assumption. Qed.
Ltac consume := repeat (apply Forall_cons; [apply consumer_bus; first [apply dec_nonneg | apply kle_refl]|]); apply Forall_nil.
Lemma template1_consumers : forall name (ns : list (bus_data (K := K))) ls, template1 name = Some (ns, ls) -> consumers ns.
Proof.
  intros name ns ls T b Hb _. assert (A : Forall row_consumer ns); [|rewrite Forall_forall in A; exact (A b Hb)]. clear b Hb.
  apply template1_cases in T. destruct T as [[_ E]|[[_ E]|[[_ E]|[[_ E]|[_ E]]]]]; injection E as -> ->;
    unfold bolognani56_bus, bolognani33_bus, bolognani21_bus, cigre_mv_feeder1_bus, ieee_33_bus; consume.
Qed.
Lemma template1_valid : forall name (ns : list (bus_data (K := K))) ls, template1 name = Some (ns, ls) -> valid_tables ns ls /\ exists q, only_substation ns q.
Proof.
  intros name ns ls T. destruct (template1_nice name ns ls T) as (q & N & _). split; [|exists q; exact (n_only _ _ _ N)].
  split; [exact (n_single _ _ _ N)|]. split; [exact (nice_NoDup _ _ _ N)|exact (n_ends _ _ _ N)].
Qed.
End Consumers.

Section Theorems.
Context {K : Type} {O : Ops K} {F : Fld K} {O2 : OrdOps K} {OF : OrdFld K}.
Notation CK := (cplx K).
Context (pinv : mat CK -> mat CK) (rnd : K -> Z) (root : K -> K) (polar : K -> K -> CK).
Context {St : Type} (randint : nat -> nat -> St -> list nat * St) (gauss : St -> K * St) (noise : @noise_fun K St K) (seeded : St).
Context (flow1 : net (K := K) -> mat K -> mat K -> res (mat K * mat K)).
Context (flow3 : net (K := K) -> mat K -> mat K -> list (mat K) -> res ((mat K * mat K) * (mat K * mat K) * (mat K * mat K))).
Context (y_bus3 : net (K := K) -> res (mat CK)).
Context (reduce3 : net (K := K) -> mat CK -> mat CK -> list nat -> bool -> res (list nat * mat CK)).
Context (seq_measurement seq_admittance : mat CK -> res (mat CK)).
Notation run := (simulate pinv rnd root polar randint gauss noise seeded flow1 flow3 y_bus3 reduce3 seq_measurement seq_admittance).

(** a network with one substation and loads on all other buses: nothing fails if the power flow does not *)
Theorem C103_runs_to_the_end : forall conf o ts ns ls s q times, three_phased o = false -> sequence o = false -> recomputes o -> valid_tables ns ls -> only_substation ns q ->
  (forall x, In x (hidden_nodes conf) -> In x (map bd_id ns)) -> rounds rnd -> fair randint -> never_fails noise -> keeps_length noise -> (forall r A, shape A r r -> shape (pinv A) r r) ->
  (forall n, NetData (Some ns) (Some ls) None = Ok n -> converges flow1 n) -> loads_given conf o ns s times ->
  0 < time_steps conf -> time_steps conf <= samples rnd (seconds times) (measurement_frequency conf) ->
  exists s', run conf o ts (Some (ns, ls)) s = (s', Ok tt).
Proof. exact (p_runs pinv rnd root polar randint gauss noise seeded flow1 flow3 y_bus3 reduce3 seq_measurement seq_admittance). Qed.
(** on the shipped networks it then runs to its end exactly if they have all nodes to be hidden *)
Theorem C103_shipped_networks : forall conf o ts name ns ls s times, template1 name = Some (ns, ls) -> three_phased o = false -> sequence o = false -> recomputes o ->
  rounds rnd -> fair randint -> never_fails noise -> keeps_length noise -> (forall r A, shape A r r -> shape (pinv A) r r) ->
  (forall n, NetData (Some ns) (Some ls) None = Ok n -> converges flow1 n) -> loads_given conf o ns s times ->
  0 < time_steps conf -> time_steps conf <= samples rnd (seconds times) (measurement_frequency conf) ->
  (exists s', run conf o ts (template1 name) s = (s', Ok tt)) <-> (forall x, In x (hidden_nodes conf) -> 1 <= x <= length ns).
Proof.
  intros conf o ts name ns ls s times T H3 HQ HR R FR NF KL HP FL LG T0 T1. destruct (template1_valid name ns ls T) as [V [q OS]]. destruct (template1_nice name ns ls T) as (q' & N & _). rewrite T.
  assert (IN : forall x, In x (map bd_id ns) <-> 1 <= x <= length ns) by (intro x; rewrite (n_labels _ _ _ N), in_seq; lia). split.
  - intros [s' RUN] x Hx. apply IN. destruct (in_dec Nat.eq_dec x (map bd_id ns)) as [A|A]; [exact A|exfalso].
    exact (C100_missing_node pinv rnd root polar randint gauss noise seeded flow1 flow3 y_bus3 reduce3 seq_measurement seq_admittance conf o ts ns ls s s' x H3 (proj1 V) Hx A RUN).
  - intro H. apply (C103_runs_to_the_end conf o ts ns ls s q times); auto. intros x Hx. apply IN, H, Hx.
Qed.
(** the shipped settings: one week of profiles, averages of every minute of samples at 50 Hz, the shipped list of hidden nodes *)
Theorem C103_shipped_settings : forall conf o ts s act react x, three_phased o = false -> sequence o = false -> complete o -> (gaussian_loads o <=! 0)%K -> profiles o = Some (act, react) ->
  selected_weeks conf = [0%Z] -> days conf = 7 -> time_steps conf = 24 * 60 * 7 -> measurement_frequency conf = knat 50 -> hidden_nodes conf = shipped_hidden_nodes ->
  (0 <! x)%K -> good_profile act [0%Z] 7 x -> good_profile react [0%Z] 7 x ->
  rounds rnd -> fair randint -> never_fails noise -> keeps_length noise -> (forall r A, shape A r r -> shape (pinv A) r r) -> (forall n, converges flow1 n) ->
  exists s', run conf o ts (template1 "bolognani56") s = (s', Ok tt).
Proof.
  intros conf o ts s act react x H3 HQ HC HG EP HW HD HT HF HH X0 GA GB R FR NF KL HP FL.
  apply (C103_shipped_networks conf o ts "bolognani56" bolognani56_bus bolognani56_net s (minutes (days conf)) eq_refl H3 HQ); auto.
  - destruct HC as [(A & B & C)|(A & B & C)]; [right|left]; auto.
  - eapply (by_profiles conf o bolognani56_bus s act react 7 x); auto.
    + destruct HC as [(A & B & C)|(A & B & C)]; auto.
    + rewrite HW. discriminate.
    + rewrite HW. exact HD.
    + lia.
    + lia.
    + rewrite HW. exact GA.
    + rewrite HW. exact GB.
    + exact (template1_consumers "bolognani56" _ _ eq_refl).
  - rewrite HT. lia.
  - rewrite HT, HF, HD, samples_minutes by (auto; lia). lia.
  - intros y Hy. rewrite HH in Hy. assert (A : forallb (fun y => (1 <=? y) && (y <=? 56)) shipped_hidden_nodes = true) by (vm_compute; reflexivity).
    rewrite forallb_forall in A. specialize (A y Hy). apply andb_prop in A. destruct A as [A B]. apply Nat.leb_le in A, B. change (length bolognani56_bus) with 56. lia.
Qed.
End Theorems.
Print Assumptions C103_runs_to_the_end.
Print Assumptions C103_shipped_networks.
Print Assumptions C103_shipped_settings.

(** ** Examples and counterexamples *)
(** a power flow with the nominal voltage everywhere, an inverse that keeps its argument *)
Definition flat (n : net (K := Qc)) (p q : mat Qc) : res (mat Qc * mat Qc) := Ok (mk (nr p) (length (buses n)) (fun _ _ => k1), mk (nr p) (length (buses n)) (fun _ _ => k0)).
Lemma flat_converges : forall n, converges flat n.
Proof. intros n p q E. eexists. eexists. split; [reflexivity|]. cbn [nr nc mk]. auto. Qed.
Lemma still_total : never_fails still.
Proof. intros v a b s. unfold still. eauto. Qed.
Definition e_randint (b k : nat) (s : nat) : list nat * nat := (repeat 0 k, S s).
Lemma e_fair : fair e_randint.
Proof. intros b n s Hb. split; [apply repeat_length|]. intros h Hh. apply repeat_spec in Hh. lia. Qed.
Notation frun := (simulate (fun A => A) roundq root4 (fun m a => Cx m a) e_randint x_gauss still 0 flat x_flow3 x_y3 x_reduce3 (fun m => Ok m) (fun m => Ok m)).
(** the settings of conf/simulation.py, without noise *)
Definition s_conf : settings Qc := Settings Qc shipped_hidden_nodes true (qq 84 100) [0%Z] 7 (24 * 60 * 7) (knat 50) (zq 4) (zq 0) (zq 0) (zq 0) (zq 0).
(** a week of a household which consumes 1 *)
Definition week : mat Qc := mk (1440 * 7) 1 (fun _ _ => k1).
Definition s_opt (lap : bool) : options Qc := ModelScript.Options Qc (Some (week, week)) (zq 0) false false false false false false lap.
Definition no_files : data_files Qc := DataFiles None None None None.
Lemma week_good : good_profile week [0%Z] 7 (k1 : Qc).
Proof.
  split; [unfold week; rewrite nc_mk; lia|]. split.
  - intros w [<-|[]]. split; [lia|]. unfold week. rewrite nr_mk. lia.
  - intros t h Ht Hh. unfold week in *. rewrite nr_mk in Ht. rewrite nc_mk in Hh. rewrite get_mk by assumption. vm_compute. reflexivity.
Qed.
Example C103_shipped_settings_ex : forall lap, exists s', frun s_conf (s_opt lap) [] (template1 "bolognani56") no_files = (s', Ok tt).
Proof.
  intro lap. apply (C103_shipped_settings (fun A => A) roundq root4 (fun m a => Cx m a) e_randint x_gauss still 0 flat x_flow3 x_y3 x_reduce3 (fun m => Ok m) (fun m => Ok m)
    s_conf (s_opt lap) [] no_files week week (k1 : Qc)); try reflexivity.
  - left. repeat split.
  - exact week_good.
  - exact week_good.
  - exact roundq_rounds.
  - exact e_fair.
  - exact still_total.
  - exact keeps_still.
  - intros r A HA. exact HA.
  - exact flat_converges.
Qed.
Example C100_shipped_columns_ex : exists s' nv ni v i y P f h, frun s_conf (s_opt false) [] (template1 "bolognani56") no_files = (s', Ok tt) /\ f_filtered s' = Some (nv, ni, v, i) /\
  f_output s' = Some (Simulation (columns ni (map pred shipped_columns)) (columns nv (map pred shipped_columns)) (columns i (map pred shipped_columns)) (columns v (map pred shipped_columns)) y P f h) /\ length P = 29.
Proof.
  destruct (C103_shipped_settings_ex false) as [s' RUN].
  destruct (C100_shipped_columns (fun A => A) roundq root4 (fun m a => Cx m a) e_randint x_gauss still 0 flat x_flow3 x_y3 x_reduce3 (fun m => Ok m) (fun m => Ok m)
    s_conf (s_opt false) [] no_files s') as (nv & ni & v & i & y & P & f & h & FIL & OUT & LP); try reflexivity; [right; repeat split|exact RUN|].
  change (ModelScript.laplacian (s_opt false)) with false in OUT, LP. cbv iota in OUT, LP. rewrite app_nil_r in OUT, LP.
  exists s', nv, ni, v, i, y, P, f, h. split; [exact RUN|]. split; [exact FIL|]. split; [exact OUT|]. rewrite LP. reflexivity.
Qed.
(** the data of the shipped settings are not those of the nodes called observed: node 1 is called observed and lost, node 2 is kept *)
Theorem C100_observed_nodes_refuted : exists s' nv ni v i kept y P f h, frun s_conf (s_opt false) [] (template1 "bolognani56") no_files = (s', Ok tt) /\ f_filtered s' = Some (nv, ni, v, i) /\
  f_output s' = Some (Simulation (columns ni (map pred kept)) (columns nv (map pred kept)) (columns i (map pred kept)) (columns v (map pred kept)) y P f h) /\
  In 1 observed_nodes /\ ~ In 1 kept /\ In 2 kept /\ ~ In 2 observed_nodes /\ length observed_nodes = 32 /\ NoDup observed_nodes /\ length kept = 29.
Proof.
  destruct C100_shipped_columns_ex as (s' & nv & ni & v & i & y & P & f & h & RUN & FIL & OUT & _). exists s', nv, ni, v, i, shipped_columns, y, P, f, h.
  split; [exact RUN|]. split; [exact FIL|]. split; [exact OUT|]. split; [cbn; tauto|]. split; [cbn; lia|]. split; [cbn; tauto|]. split; [cbn; lia|]. split; [reflexivity|]. split; [|reflexivity].
  cbn. repeat (constructor; [cbn; lia|]). constructor.
Qed.
Print Assumptions C100_observed_nodes_refuted.

(** loads of an earlier run, a label that exists and one that does not *)
Lemma t_given : forall h lap, loads_given (g_conf h) (g_opt lap) cigre_mv_feeder1_bus t_start [0; 1; 2; 3]%Z.
Proof.
  intros h lap. destruct (f_loads t_start) as [lf|] eqn:E; [|discriminate E]. assert (TM : timed t_start) by (apply g_timed; reflexivity).
  destruct (TM lf E) as (A & B & C). unfold t_start, g_files in E. cbn [f_loads] in E. injection E as <-.
  exact (in_file (g_conf h) (g_opt lap) cigre_mv_feeder1_bus t_start _ eq_refl eq_refl eq_refl A B C eq_refl eq_refl).
Qed.
Lemma t_iff : forall h lap, (exists s', frun (g_conf h) (g_opt lap) [] (template1 "cigre_mv_feeder1") t_start = (s', Ok tt)) <-> (forall x, In x h -> 1 <= x <= 10).
Proof.
  intros h lap. apply (C103_shipped_networks (fun A => A) roundq root4 (fun m a => Cx m a) e_randint x_gauss still 0 flat x_flow3 x_y3 x_reduce3 (fun m => Ok m) (fun m => Ok m)
    (g_conf h) (g_opt lap) [] "cigre_mv_feeder1" _ _ t_start [0; 1; 2; 3]%Z eq_refl eq_refl eq_refl (g_recomputes lap) roundq_rounds e_fair still_total keeps_still (fun r A HA => HA) (fun n _ => flat_converges n)
    (t_given h lap)); [cbn; lia|]. apply Nat.leb_le. vm_compute. reflexivity.
Qed.
Example C103_shipped_networks_ex : (exists s', frun (g_conf [3]) (g_opt true) [] (template1 "cigre_mv_feeder1") t_start = (s', Ok tt)) /\
  ~ (exists s', frun (g_conf [3; 55]) (g_opt true) [] (template1 "cigre_mv_feeder1") t_start = (s', Ok tt)).
Proof. split; [apply t_iff; cbn; lia|]. intro E. pose proof (proj1 (t_iff [3; 55] true) E 55) as L. cbn in L. lia. Qed.
(** loads drawn at random *)
Definition r_opt : options Qc := ModelScript.Options Qc None (qq 1 10) false false false false false true false.
Definition r_conf : settings Qc := Settings Qc [2; 7] true (qq 84 100) [] 1 24 (knat 1) (zq 4) (zq 0) (zq 0) (zq 0) (zq 0).
Example C103_runs_to_the_end_ex : exists s', frun r_conf r_opt [] (template1 "ieee_33") no_files = (s', Ok tt).
Proof.
  destruct (template1_valid (K := Qc) "ieee_33" _ _ eq_refl) as [V [q OS]].
  apply (C103_runs_to_the_end (fun A => A) roundq root4 (fun m a => Cx m a) e_randint x_gauss still 0 flat x_flow3 x_y3 x_reduce3 (fun m => Ok m) (fun m => Ok m)
    r_conf r_opt [] _ _ no_files q (minutes 1) eq_refl eq_refl) with (3 := OS); auto.
  - right. repeat split.
  - intros x [<-|[<-|[]]]; cbn; tauto.
  - exact roundq_rounds.
  - exact e_fair.
  - exact still_total.
  - exact keeps_still.
  - intros n _. exact (flat_converges n).
  - apply (at_random r_conf r_opt); [right; reflexivity|reflexivity|cbn; lia|exact (template1_consumers (K := Qc) "ieee_33" _ _ eq_refl)].
  - cbn; lia.
  - change (measurement_frequency r_conf) with (knat 1 : Qc). rewrite samples_minutes by (first [exact roundq_rounds | lia]). change (time_steps r_conf) with 24. lia.
Qed.
(** the shipped list of hidden nodes on a small network *)
Example C100_shipped_networks_ex : forall s', frun s_conf (s_opt true) [] (template1 "cigre_mv_feeder1") no_files <> (s', Ok tt).
Proof.
  intros s' RUN. apply (C100_shipped_networks (fun A => A) roundq root4 (fun m a => Cx m a) e_randint x_gauss still 0 flat x_flow3 x_y3 x_reduce3 (fun m => Ok m) (fun m => Ok m)
    s_conf (s_opt true) [] "cigre_mv_feeder1" no_files s' eq_refl eq_refl) in RUN. discriminate RUN.
Qed.

(** three phases over the reals: the nominal voltage everywhere, and no currents *)
Section ExThree.
Definition flat3 (n : net (K := R)) (p q : mat R) (a : list (mat R)) : res ((mat R * mat R) * (mat R * mat R) * (mat R * mat R)) :=
  let m := mk (nr p) (length (buses n)) (fun _ _ => k1) in let z := mk (nr p) (length (buses n)) (fun _ _ => k0) in Ok ((m, z), (m, z), (m, z)).
Definition zero_y (n : net (K := R)) (k : nat) : mat C := mzeros (length (buses n)) (length (buses n)).
Variables (rnd : R -> Z) (root : R -> R) (polar : R -> R -> C) (randint : nat -> nat -> nat -> list nat * nat) (gauss : nat -> R * nat) (noise : @noise_fun R nat R)
  (flow1 : net (K := R) -> mat R -> mat R -> res (mat R * mat R)).
Notation zrun := (simulate (fun A => A) rnd root polar randint gauss noise 0 flow1 flat3 (fun n => make_y_bus3 (zero_y n 0, zero_y n 1, zero_y n 2))
  (fun n v i h single => reduce_network3 (fun A => A) (zero_y n 0, zero_y n 1, zero_y n 2) n v i h single) (fun m => Ok m) (fun m => Ok m)).
Definition z_conf (h : list nat) : settings R := Settings R h true k0 [0%Z] 7 (24 * 60 * 7) (knat 50) (knat 4) k0 k0 k0 k0.
Definition z_opt : options R := ModelScript.Options R None k0 false true true true false false false.
Lemma zero_shape : forall n k, k < 3 -> shape (zero_y n k) (length (buses n)) (length (buses n)).
Proof. intros. apply shape_mk. Qed.
Lemma z_recomputes : recomputes z_opt.
Proof. left. split; reflexivity. Qed.
Example C102_ex : forall s s', zrun (z_conf []) z_opt ieee123_types (template3 "ieee123center") s <> (s', Ok tt) /\
  zrun (z_conf shipped_hidden_nodes) z_opt ieee123_types (template3 "ieee123center") s <> (s', Ok tt) /\ zrun (z_conf []) z_opt ieee123_types (template3 "test_3phase") s <> (s', Ok tt) /\
  zrun (z_conf [12]) z_opt ieee123_types (template3 "cigre_mv_feeder3") s <> (s', Ok tt).
Proof.
  intros s s'. split; [|split; [|split]].
  - apply C102_ieee123center; auto using zero_shape, z_recomputes.
  - apply C102_ieee123center; auto using zero_shape, z_recomputes.
  - apply C102_test_3phase; auto using zero_shape, z_recomputes.
  - apply (C100_missing_node_three_phases (fun A => A) (fun A => A) rnd root polar randint gauss noise 0 flow1 flat3 zero_y (fun m => Ok m) (fun m => Ok m) (z_conf [12]) z_opt "cigre_mv_feeder3" _ _ s s' 12 eq_refl eq_refl);
      [left; reflexivity|cbn; lia].
Qed.
End ExThree.

(** two networks that are the same up to the labels, and one whose line differs *)
Example C101_ex : same_line (K := Qc) (renamed bolognani_mapping33) (line 1 33 (qq 1 2) k1 k1 1) (line 1 56 (qq 1 2) k1 k1 1) /\
  ~ same_line (K := Qc) (renamed bolognani_mapping21) (line 20 21 (qq 1 2) k1 k1 1) (line 54 55 (qq 1 2) k1 k1 1) /\
  same_line (K := Qc) (renamed bolognani_mapping21) (line 19 20 (qq 1 2) k1 k1 1) (line 54 55 (qq 1 2) k1 k1 1).
Proof.
  split; [split; [left; split; reflexivity|repeat split]|]. split; [|split; [left; split; reflexivity|repeat split]].
  intros [[[A _]|[_ A]] _]; vm_compute in A; discriminate A.
Qed.
