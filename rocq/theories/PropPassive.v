(** C98: which nodes of a network whose lines have resistance can be eliminated. *)
From Coq Require Import String.
From Coq Require Import Bool Arith List Lia ZArith QArith Qcanon Sorted Permutation.
From Verif Require Import BasePy ProofSet BaseFld BaseOrd BaseSum BaseMat BaseLin BaseNumpy BaseEx BaseRound ModelPrior ModelNet ModelReduce ModelResample ModelLoads ModelMeasure ModelRun ModelScript
  SpecLS SpecNet SpecKron SpecReduce SpecResample SpecLoads SpecMeasure SpecRun SpecScript SpecScriptData SpecPassive ProofReduce ProofScriptData ProofScriptLap ProofPassive ProofPassiveRun
  PropKron PropNet PropMeasure PropRun PropScript PropScriptData.
Import ListNotations.
Close Scope Qc_scope. Close Scope Q_scope. Close Scope string_scope. Open Scope list_scope. Open Scope nat_scope.

(** ** networks *)
(** nodes from which lines lead to a node outside can be eliminated *)
Theorem C98_can_be_eliminated : forall K (O : Ops K) (F : Fld K) (O2 : OrdOps K) (OF : OrdFld K) (n : net (K := K)) Y E, consistent n -> make_y_bus n = Ok Y -> resistive n ->
  NoDup E -> (forall k, In k E -> leads_out (length (buses n)) (joined n) E k) -> invertible (length E) (block_of Y E E).
Proof. intros K O F O2 OF n Y E C HY RE. exact (p_block n C RE Y E HY). Qed.
(** an island without constant-impedance loads cannot *)
Theorem C98_islands : forall K (O : Ops K) (F : Fld K) (O2 : OrdOps K) (OF : OrdFld K) (n : net (K := K)) Y E k, consistent n -> make_y_bus n = Ok Y -> NoDup E -> (forall j, In j E -> j < length (buses n)) ->
  In k E -> ~ leads_out (length (buses n)) (joined n) E k ->
  (forall l j, In l (loads n) -> nth_error (ids n) j = Some (l_bus l) -> In j E -> ~ leads_out (length (buses n)) (joined n) E j -> l_z l = 0%K) ->
  ~ invertible (length E) (block_of Y E E).
Proof. intros K O F O2 OF n Y E k C HY. exact (p_island n C Y E k HY). Qed.
(** without constant-impedance loads: these and no others *)
Theorem C98_exactly : forall K (O : Ops K) (F : Fld K) (O2 : OrdOps K) (OF : OrdFld K) (n : net (K := K)) Y E, consistent n -> make_y_bus n = Ok Y -> resistive n -> unloaded n ->
  NoDup E -> (forall k, In k E -> k < length (buses n)) ->
  (invertible (length E) (block_of Y E E) <-> forall k, In k E -> leads_out (length (buses n)) (joined n) E k).
Proof. exact @p_exactly. Qed.
(** without currents there are no voltage differences *)
Theorem C98_equal_voltages : forall K (O : Ops K) (F : Fld K) (O2 : OrdOps K) (OF : OrdFld K) (n : net (K := K)) Y v, consistent n -> make_y_bus n = Ok Y -> resistive n ->
  length v = length (buses n) -> mvmul Y v = vzeros (length (buses n)) -> forall a b, joined n a b -> vget v a = vget v b.
Proof. intros K O F O2 OF n Y v C HY RE. exact (p_equal n C RE Y v HY). Qed.
Print Assumptions C98_can_be_eliminated.
Print Assumptions C98_islands.
Print Assumptions C98_exactly.
Print Assumptions C98_equal_voltages.

(** ** the simulation program *)
Section Theorems.
Context {K : Type} {O : Ops K} {F : Fld K} {O2 : OrdOps K} {OF : OrdFld K}.
Notation CK := (cplx K).
Context (pinv : mat CK -> mat CK) (rnd : K -> Z) (root : K -> K) (polar : K -> K -> CK).
Context {St : Type} (randint : nat -> nat -> St -> list nat * St) (gauss : St -> K * St) (noise : @noise_fun K St K) (seeded : St).
Context (flow1 : net (K := K) -> mat K -> mat K -> res (mat K * mat K)).
Context (flow3 : net (K := K) -> mat K -> mat K -> list (mat K) -> res ((mat K * mat K) * (mat K * mat K) * (mat K * mat K))).
Context (y_bus3 : net (K := K) -> res (mat CK)).
Context (reduce3 : net (K := K) -> mat CK -> mat CK -> list nat -> bool -> res (list nat * mat CK)).
Context (seq_measurement seq_admittance : mat CK -> res (mat CK)).
Notation run := (simulate pinv rnd root polar randint gauss noise seeded flow1 flow3 y_bus3 reduce3 seq_measurement seq_admittance).

(** if lines in service lead from all buses that are removed to others, the hypothesis of C85 and C86 on the matrix holds *)
Theorem C98_program : forall conf o ts ns ls s s' V I Y E, three_phased o = false -> sequence o = false -> recomputes o ->
  (forall b, In b ns -> both is_single b) -> run conf o ts (Some (ns, ls)) s = (s', Ok tt) -> f_results s' = Some (V, I, Y) ->
  resistive_tables ns ls -> inverts pinv -> NoDup E -> (forall k, In k E -> leads_out (length ns) (linked ns ls) E k) -> solvable pinv Y E.
Proof.
  intros conf o ts ns ls s s' V I Y E H3 HQ HR SN RUN RES RT IV ND LO.
  destruct (run_facts _ _ _ _ _ _ _ _ _ _ _ _ _ _ _ _ _ _ _ _ _ H3 HQ HR SN RUN) as (n & lf & V1 & Y1 & nv1 & ni1 & v1 & i1 & P & f & todel & y & last & tsq & fm & FA).
  rewrite (fa_files _ _ _ _ _ _ _ _ _ _ _ _ _ _ _ _ _ _ _ _ _ _ _ _ _ FA) in RES. cbn in RES. injection RES as _ _ <-.
  exact (p_solvable pinv ns ls n Y1 E SN (fa_net _ _ _ _ _ _ _ _ _ _ _ _ _ _ _ _ _ _ _ _ _ _ _ _ _ FA) (fa_y _ _ _ _ _ _ _ _ _ _ _ _ _ _ _ _ _ _ _ _ _ _ _ _ _ FA) RT IV ND LO).
Qed.
(** C85 and C86 for such tables: with the substation *)
Theorem C98_saved_laplacian : forall conf o ts ns ls s s', three_phased o = false -> sequence o = false -> recomputes o ->
  (forall b, In b ns -> both is_single b) -> run conf o ts (Some (ns, ls)) s = (s', Ok tt) ->
  forall V I Y nv ni v i E kept, timed s' -> keeps_length noise -> f_results s' = Some (V, I, Y) -> f_filtered s' = Some (nv, ni, v, i) ->
  eliminated (hidden_nodes conf) ns E -> no_current E I -> resistive_tables ns ls -> inverts pinv -> (forall k, In k E -> leads_out (length ns) (linked ns ls) E k) ->
  (forall k b, nth_error ns k = Some b -> bd_type b <> 3 -> In (bd_id b) (hidden_nodes conf) -> mean_at v k <> 0%K) ->
  stay (hidden_nodes conf) (laplacian o) ns kept ->
  laplacian o = true -> shown (hidden_nodes conf) ns -> orderly (length ns) (length kept) ->
  exists i1 v1 i2 v2 y P f h, f_output s' = Some (Simulation i1 v1 i2 v2 y P f h) /\
    explained (nr v) (length kept) (length kept) v2 y i2 (fun _ => 0%K) /\ (no_shunts ns -> zero_column_sums (length kept) (length kept) y) /\
    (silent noise -> noise_free conf -> i1 = i2 /\ v1 = v2).
Proof.
  exact (fun conf o ts ns ls s s' H3 HQ HR SN RUN V I Y nv ni v i E kept TM KL RES FIL EE NC RT IV LO => C85_laplacian pinv rnd root polar randint gauss noise seeded flow1 flow3 y_bus3 reduce3 seq_measurement seq_admittance conf o ts ns ls s s' H3 HQ HR SN RUN V I Y nv ni v i E kept TM KL RES FIL EE NC
    (C98_program conf o ts ns ls s s' V I Y E H3 HQ HR SN RUN RES RT IV (proj1 EE) LO)).
Qed.
(** without the substation *)
Theorem C98_saved_grounded : forall conf o ts ns ls s s', three_phased o = false -> sequence o = false -> recomputes o ->
  (forall b, In b ns -> both is_single b) -> run conf o ts (Some (ns, ls)) s = (s', Ok tt) ->
  forall V I Y nv ni v i E kept, timed s' -> keeps_length noise -> f_results s' = Some (V, I, Y) -> f_filtered s' = Some (nv, ni, v, i) ->
  eliminated (hidden_nodes conf) ns E -> no_current E I -> resistive_tables ns ls -> inverts pinv -> (forall k, In k E -> leads_out (length ns) (linked ns ls) E k) ->
  (forall k b, nth_error ns k = Some b -> bd_type b <> 3 -> In (bd_id b) (hidden_nodes conf) -> mean_at v k <> 0%K) ->
  stay (hidden_nodes conf) (laplacian o) ns kept ->
  forall G0, laplacian o = false -> substations ns G0 -> all_before E G0 -> steady G0 V ->
  orderly (length (kept_ascending (length ns) G0)) (length kept) ->
  exists i1 v1 i2 v2 y P f h c, f_output s' = Some (Simulation i1 v1 i2 v2 y P f h) /\
    explained (nr v) (length kept) (length kept) v2 y i2 c /\
    (silent noise -> noise_free conf -> i1 = i2 /\ v1 = v2).
Proof.
  exact (fun conf o ts ns ls s s' H3 HQ HR SN RUN V I Y nv ni v i E kept TM KL RES FIL EE NC RT IV LO => C85_grounded pinv rnd root polar randint gauss noise seeded flow1 flow3 y_bus3 reduce3 seq_measurement seq_admittance conf o ts ns ls s s' H3 HQ HR SN RUN V I Y nv ni v i E kept TM KL RES FIL EE NC
    (C98_program conf o ts ns ls s s' V I Y E H3 HQ HR SN RUN RES RT IV (proj1 EE) LO)).
Qed.
(** identification of the simulated data *)
Theorem C98_identified_laplacian : forall conf o ts ns ls s s', three_phased o = false -> sequence o = false -> recomputes o ->
  (forall b, In b ns -> both is_single b) -> run conf o ts (Some (ns, ls)) s = (s', Ok tt) ->
  forall V I Y nv ni v i E kept, timed s' -> keeps_length noise -> f_results s' = Some (V, I, Y) -> f_filtered s' = Some (nv, ni, v, i) ->
  eliminated (hidden_nodes conf) ns E -> no_current E I -> resistive_tables ns ls -> inverts pinv -> (forall k, In k E -> leads_out (length ns) (linked ns ls) E k) ->
  (forall k b, nth_error ns k = Some b -> bd_type b <> 3 -> In (bd_id b) (hidden_nodes conf) -> mean_at v k <> 0%K) ->
  stay (hidden_nodes conf) (laplacian o) ns kept ->
  forall svd spsolve cabs ksqrt true_cov naive_cov (iconf : config K) io (fs fs' : files K) i1 v1 i2 v2 y P f h,
  f_output s' = Some (Simulation i1 v1 i2 v2 y P f h) -> silent noise -> noise_free conf ->
  fs (simulation_path (ModelRun.network io)) = f_output s' ->
  identify pinv svd spsolve cabs ksqrt true_cov naive_cov iconf io fs = (fs', Ok tt) ->
  ModelRun.three_phased (phases io) = false -> standard io = true \/ bayesian io = false -> kept <> [] ->
  inj (fst (centred (ModelRun.laplacian io) v1 i1)) ->
  routines pinv svd (nr v) (length kept) (length kept) (fst (centred (ModelRun.laplacian io) v1 i1)) (snd (centred (ModelRun.laplacian io) v1 i1)) ->
  laplacian o = true -> shown (hidden_nodes conf) ns -> orderly (length ns) (length kept) -> no_shunts ns ->
  exists l, fs' (standard_path (ModelRun.network io)) = Some (Standard y y l).
Proof.
  exact (fun conf o ts ns ls s s' H3 HQ HR SN RUN V I Y nv ni v i E kept TM KL RES FIL EE NC RT IV LO => C86_laplacian pinv rnd root polar randint gauss noise seeded flow1 flow3 y_bus3 reduce3 seq_measurement seq_admittance conf o ts ns ls s s' H3 HQ HR SN RUN V I Y nv ni v i E kept TM KL RES FIL EE NC
    (C98_program conf o ts ns ls s s' V I Y E H3 HQ HR SN RUN RES RT IV (proj1 EE) LO)).
Qed.
Theorem C98_identified_grounded : forall conf o ts ns ls s s', three_phased o = false -> sequence o = false -> recomputes o ->
  (forall b, In b ns -> both is_single b) -> run conf o ts (Some (ns, ls)) s = (s', Ok tt) ->
  forall V I Y nv ni v i E kept, timed s' -> keeps_length noise -> f_results s' = Some (V, I, Y) -> f_filtered s' = Some (nv, ni, v, i) ->
  eliminated (hidden_nodes conf) ns E -> no_current E I -> resistive_tables ns ls -> inverts pinv -> (forall k, In k E -> leads_out (length ns) (linked ns ls) E k) ->
  (forall k b, nth_error ns k = Some b -> bd_type b <> 3 -> In (bd_id b) (hidden_nodes conf) -> mean_at v k <> 0%K) ->
  stay (hidden_nodes conf) (laplacian o) ns kept ->
  forall svd spsolve cabs ksqrt true_cov naive_cov (iconf : config K) io (fs fs' : files K) i1 v1 i2 v2 y P f h,
  f_output s' = Some (Simulation i1 v1 i2 v2 y P f h) -> silent noise -> noise_free conf ->
  fs (simulation_path (ModelRun.network io)) = f_output s' ->
  identify pinv svd spsolve cabs ksqrt true_cov naive_cov iconf io fs = (fs', Ok tt) ->
  ModelRun.three_phased (phases io) = false -> standard io = true \/ bayesian io = false -> ModelRun.laplacian io = laplacian o -> kept <> [] ->
  inj (fst (centred (ModelRun.laplacian io) v1 i1)) ->
  routines pinv svd (nr v) (length kept) (length kept) (fst (centred (ModelRun.laplacian io) v1 i1)) (snd (centred (ModelRun.laplacian io) v1 i1)) ->
  forall G0, laplacian o = false -> substations ns G0 -> all_before E G0 -> steady G0 V ->
  orderly (length (kept_ascending (length ns) G0)) (length kept) ->
  exists l, fs' (standard_path (ModelRun.network io)) = Some (Standard y y l).
Proof.
  exact (fun conf o ts ns ls s s' H3 HQ HR SN RUN V I Y nv ni v i E kept TM KL RES FIL EE NC RT IV LO => C86_grounded pinv rnd root polar randint gauss noise seeded flow1 flow3 y_bus3 reduce3 seq_measurement seq_admittance conf o ts ns ls s s' H3 HQ HR SN RUN V I Y nv ni v i E kept TM KL RES FIL EE NC
    (C98_program conf o ts ns ls s s' V I Y E H3 HQ HR SN RUN RES RT IV (proj1 EE) LO)).
Qed.
End Theorems.
Print Assumptions C98_program.
Print Assumptions C98_saved_laplacian.
Print Assumptions C98_saved_grounded.
Print Assumptions C98_identified_laplacian.
Print Assumptions C98_identified_grounded.

(** ** Examples *)
(** a substation, a load on a line, two more loads joined with each other only *)
Definition i_ns := [bd 1 3 9 9 20 0; bd 2 1 5 2 20 0; bd 3 1 1 1 20 0; bd 4 1 1 0 20 0].
Definition i_ls := [ldq 2 1 1 180 240 1 None; ldq 3 4 1 90 120 1 None; ldq 2 3 1 90 120 0 None].
Definition i_net : net (K := Qc) := match NetData (Some i_ns) (Some i_ls) None with Ok n => n | Err _ => pp_create_empty_network end.
Definition i_y := match make_y_bus i_net with Ok y => y | Err _ => mzeros 0 0 end.
Lemma i_built : NetData (Some i_ns) (Some i_ls) None = Ok i_net.
Proof.
  unfold i_net. destruct (NetData (Some i_ns) (Some i_ls) None) as [n|e] eqn:E; [reflexivity|].
  assert (X : match NetData (Some i_ns) (Some i_ls) None with Ok _ => true | Err _ => false end = true) by (vm_compute; reflexivity). rewrite E in X. discriminate X.
Qed.
Lemma i_matrix : make_y_bus i_net = Ok i_y.
Proof.
  unfold i_y. destruct (make_y_bus i_net) as [y|e] eqn:E; [reflexivity|].
  assert (X : match make_y_bus i_net with Ok _ => true | Err _ => false end = true) by (vm_compute; reflexivity). rewrite E in X. discriminate X.
Qed.
Lemma qlt : forall x : Qc, kltb k0 x = true -> klt k0 x.
Proof. intros x H. exact H. Qed.
Lemma i_resistive : resistive_tables i_ns i_ls.
Proof.
  split; [|split].
  - intros b Hb. destruct Hb as [<-|[<-|[<-|[<-|[]]]]]; apply keqb_neq; vm_compute; reflexivity.
  - intros l Hl A. destruct Hl as [<-|[<-|[<-|[]]]]; [| |discriminate A]; vm_compute; reflexivity.
  - intros b Hb T. destruct Hb as [<-|[<-|[<-|[<-|[]]]]]; [discriminate T|..]; (split; vm_compute; reflexivity).
Qed.
Lemma i_single : forall b, In b i_ns -> both is_single b.
Proof. apply g_single. reflexivity. Qed.
Lemma i_facts : consistent i_net /\ resistive i_net /\ length (buses i_net) = 4 /\ (forall a b, joined i_net a b <-> linked i_ns i_ls a b).
Proof. destruct (tables_net i_ns i_ls i_net i_single i_built) as (C & _ & L & R & J). split; [exact C|]. split; [exact (R i_resistive)|]. split; [exact L|exact J]. Qed.
Lemma i_linked : forall a b, linked i_ns i_ls a b -> (a < 2 /\ b < 2) \/ (1 < a < 4 /\ 1 < b < 4).
Proof.
  intros a b (l & Hl & A & J). destruct Hl as [<-|[<-|[<-|[]]]]; [left|right|discriminate A]; cbn [ldq ld_start ld_end] in J;
    destruct a as [|[|[|[|a]]]], b as [|[|[|[|b]]]]; cbn in J; try lia; exfalso; destruct J as [[J1 J2]|[J1 J2]]; try discriminate J1; try discriminate J2;
    (destruct a; discriminate J1) || (destruct b; discriminate J2).
Qed.
Lemma i_stuck : forall k, leads_out (length (buses i_net)) (joined i_net) [2; 3] k -> k < 2.
Proof.
  destruct i_facts as (_ & _ & L & J). intros k H. induction H as [k Hk N|a b Jab H IH].
  - rewrite L in Hk. destruct k as [|[|[|[|k]]]]; try lia; exfalso; apply N; cbn; auto.
  - apply J, i_linked in Jab. lia.
Qed.
Example C98_can_be_eliminated_ex : invertible 2 (block_of i_y [1; 3] [1; 3]).
Proof.
  destruct i_facts as (C & R & L & J). apply (C98_can_be_eliminated _ _ _ _ _ i_net i_y [1; 3] C i_matrix R); [repeat constructor; cbn; intuition discriminate|].
  rewrite L. intros k [<-|[<-|[]]].
  - apply (one_link _ _ _ 1 0); [|apply already_out; [lia|cbn; intuition discriminate]]. apply J. eexists. split; [left; reflexivity|]. split; [reflexivity|left; split; reflexivity].
  - apply (one_link _ _ _ 3 2); [|apply already_out; [lia|cbn; intuition discriminate]]. apply J. eexists. split; [right; left; reflexivity|]. split; [reflexivity|right; split; reflexivity].
Qed.
Example C98_islands_ex : ~ invertible 2 (block_of i_y [2; 3] [2; 3]).
Proof.
  destruct i_facts as (C & R & L & J). apply (C98_islands _ _ _ _ _ i_net i_y [2; 3] 3 C i_matrix); [repeat constructor; cbn; intuition discriminate| |right; left; reflexivity| |].
  - rewrite L. intros j [<-|[<-|[]]]; lia.
  - intro H. apply i_stuck in H. lia.
  - intros l j Hl _ _ _. assert (G : forallb (fun l => keqb (l_z l) k0) (loads i_net) = true) by (vm_compute; reflexivity). rewrite forallb_forall in G. apply keqb_eq. exact (G l Hl).
Qed.
Example C98_exactly_ex : ~ (forall k, In k [2; 3] -> leads_out (length (buses i_net)) (joined i_net) [2; 3] k) /\ unloaded i_net /\
  (invertible 2 (block_of i_y [2; 3] [2; 3]) <-> forall k, In k [2; 3] -> leads_out (length (buses i_net)) (joined i_net) [2; 3] k).
Proof.
  destruct i_facts as (C & R & L & J). split; [intro H; specialize (H 2 (or_introl eq_refl)); apply i_stuck in H; lia|].
  assert (U : unloaded i_net). { intros l Hl. assert (G : forallb (fun l => keqb (l_z l) k0) (loads i_net) = true) by (vm_compute; reflexivity). rewrite forallb_forall in G. apply keqb_eq. exact (G l Hl). }
  split; [exact U|]. apply (C98_exactly _ _ _ _ _ i_net i_y [2; 3] C i_matrix R U); [repeat constructor; cbn; intuition discriminate|]. rewrite L. intros j [<-|[<-|[]]]; lia.
Qed.
Example C98_equal_voltages_ex : mvmul i_y [cz 1 0; cz 1 0; cz 5 2; cz 5 2] = vzeros 4 /\ vget [cz 1 0; cz 1 0; cz 5 2; cz 5 2] 2 = vget [cz 1 0; cz 1 0; cz 5 2; cz 5 2] 3.
Proof.
  assert (Z : mvmul i_y [cz 1 0; cz 1 0; cz 5 2; cz 5 2] = vzeros 4) by (apply veqb_eq; vm_compute; reflexivity). split; [exact Z|].
  destruct i_facts as (C & R & L & J). apply (C98_equal_voltages _ _ _ _ _ i_net i_y _ C i_matrix R); [rewrite L; reflexivity|rewrite L; exact Z|].
  apply J. eexists. split; [right; left; reflexivity|]. split; [reflexivity|left; split; reflexivity].
Qed.
(** the runs of C85 and C86 with an inverse that is right for all invertible matrices *)
Definition w_pinv (m : mat (cplx Qc)) : mat (cplx Qc) := match kinverse m with Ok b => b | Err _ => q_pinv m end.
Lemma w_inverts : inverts w_pinv.
Proof. intros r M B SM SB E1 _. unfold w_pinv. rewrite (kinverse_complete M B r SM SB E1). reflexivity. Qed.
Notation wrun := (simulate w_pinv roundq root4 (fun m a => Cx m a) x_randint x_gauss still 0 (g_flow 2) x_flow3 x_y3 x_reduce3 (fun m => Ok m) (fun m => Ok m)).
Definition w_end := fst (wrun (g_conf []) (g_opt true) [] (Some (l_ns, l_ls)) l_start).
Lemma w_ran : wrun (g_conf []) (g_opt true) [] (Some (l_ns, l_ls)) l_start = (w_end, Ok tt).
Proof. apply x_ran. vm_compute. reflexivity. Qed.
Definition wg_end := fst (wrun (g_conf []) (g_opt false) [] (Some (g_ns, g_ls)) g_start).
Lemma wg_ran : wrun (g_conf []) (g_opt false) [] (Some (g_ns, g_ls)) g_start = (wg_end, Ok tt).
Proof. apply x_ran. vm_compute. reflexivity. Qed.
Lemma l_resistive : resistive_tables l_ns l_ls.
Proof.
  split; [|split].
  - intros b Hb. destruct Hb as [<-|[<-|[<-|[]]]]; apply keqb_neq; vm_compute; reflexivity.
  - intros l Hl A. destruct Hl as [<-|[<-|[]]]; vm_compute; reflexivity.
  - intros b Hb T. destruct Hb as [<-|[<-|[<-|[]]]]; [..|discriminate T]; (split; vm_compute; reflexivity).
Qed.
Lemma g_resistive : resistive_tables g_ns g_ls.
Proof.
  split; [|split].
  - intros b Hb. destruct Hb as [<-|[<-|[<-|[<-|[]]]]]; apply keqb_neq; vm_compute; reflexivity.
  - intros l Hl A. destruct Hl as [<-|[<-|[<-|[]]]]; vm_compute; reflexivity.
  - intros b Hb T. destruct Hb as [<-|[<-|[<-|[<-|[]]]]]; [..|discriminate T]; (split; vm_compute; reflexivity).
Qed.
Lemma l_leads : forall k, In k [1] -> leads_out 3 (linked l_ns l_ls) [1] k.
Proof.
  intros k [<-|[]]. apply (one_link _ _ _ 1 0); [|apply already_out; [lia|cbn; intuition discriminate]]. eexists. split; [left; reflexivity|]. split; [reflexivity|right; split; reflexivity].
Qed.
Lemma g_leads : forall k, In k [2] -> leads_out 4 (linked g_ns g_ls) [2] k.
Proof.
  intros k [<-|[]]. apply (one_link _ _ _ 2 0); [|apply already_out; [lia|cbn; intuition discriminate]]. eexists. split; [left; reflexivity|]. split; [reflexivity|right; split; reflexivity].
Qed.
Lemma w_results : f_results w_end = Some (fst (fst (res_of w_end)), snd (fst (res_of w_end)), snd (res_of w_end)).
Proof. apply res_ok. vm_compute. reflexivity. Qed.
Lemma w_filtered : f_filtered w_end = Some (fst (fst (fst (fil_of w_end))), snd (fst (fst (fil_of w_end))), snd (fst (fil_of w_end)), snd (fil_of w_end)).
Proof. apply fil_ok. vm_compute. reflexivity. Qed.
Lemma w_rows : nr (snd (fst (fil_of w_end))) = 4.
Proof. vm_compute. reflexivity. Qed.
Lemma w_timed : timed w_end.
Proof. apply g_timed. vm_compute. reflexivity. Qed.
Lemma w_clean : no_current [1] (snd (fst (res_of w_end))).
Proof. apply g_no_current. vm_compute. reflexivity. Qed.
Example C98_program_ex : solvable w_pinv (snd (res_of w_end)) [1].
Proof.
  exact (C98_program w_pinv roundq root4 (fun m a => Cx m a) x_randint x_gauss still 0 (g_flow 2) x_flow3 x_y3 x_reduce3 (fun m => Ok m) (fun m => Ok m)
    (g_conf []) (g_opt true) [] l_ns l_ls _ _ _ _ _ [1] eq_refl eq_refl (g_recomputes true) (g_single l_ns eq_refl) w_ran w_results l_resistive w_inverts (proj1 l_eliminated) l_leads).
Qed.
Example C98_saved_laplacian_ex : exists i1 v1 i2 v2 y P f h, f_output w_end = Some (Simulation i1 v1 i2 v2 y P f h) /\
  explained 4 2 2 v2 y i2 (fun _ => k0) /\ zero_column_sums 2 2 y /\ i1 = i2 /\ v1 = v2.
Proof.
  destruct (C98_saved_laplacian w_pinv roundq root4 (fun m a => Cx m a) x_randint x_gauss still 0 (g_flow 2) x_flow3 x_y3 x_reduce3 (fun m => Ok m) (fun m => Ok m)
    (g_conf []) (g_opt true) [] l_ns l_ls _ _ eq_refl eq_refl (g_recomputes true) (g_single l_ns eq_refl) w_ran
    _ _ _ _ _ _ _ [1] [0; 2] w_timed keeps_still w_results w_filtered l_eliminated w_clean l_resistive w_inverts l_leads
    (fun _ _ _ _ F => match F with end) l_stay eq_refl l_shown ltac:(left; cbn; lia)) as (i1 & v1 & i2 & v2 & y & P & f & h & EO & EX & ZS & NF).
  exists i1, v1, i2, v2, y, P, f, h. split; [exact EO|]. rewrite w_rows in EX. split; [exact EX|]. split; [exact (ZS l_no_shunts)|]. exact (NF silent_still (g_noise_free [])).
Qed.
Lemma wg_results : f_results wg_end = Some (fst (fst (res_of wg_end)), snd (fst (res_of wg_end)), snd (res_of wg_end)).
Proof. apply res_ok. vm_compute. reflexivity. Qed.
Lemma wg_filtered : f_filtered wg_end = Some (fst (fst (fst (fil_of wg_end))), snd (fst (fst (fil_of wg_end))), snd (fst (fil_of wg_end)), snd (fil_of wg_end)).
Proof. apply fil_ok. vm_compute. reflexivity. Qed.
Lemma wg_rows : nr (snd (fst (fil_of wg_end))) = 4.
Proof. vm_compute. reflexivity. Qed.
Lemma wg_timed : timed wg_end.
Proof. apply g_timed. vm_compute. reflexivity. Qed.
Lemma wg_clean : no_current [2] (snd (fst (res_of wg_end))).
Proof. apply g_no_current. vm_compute. reflexivity. Qed.
Lemma wg_steady : steady [3] (fst (fst (res_of wg_end))).
Proof.
  intros x [<-|[]]. exists (get (fst (fst (res_of wg_end))) 0 3). intros t Ht. apply keqb_eq.
  assert (G : forall_lt (nr (fst (fst (res_of wg_end)))) (fun t => keqb (get (fst (fst (res_of wg_end))) t 3) (get (fst (fst (res_of wg_end))) 0 3)) = true) by (vm_compute; reflexivity).
  exact (forall_lt_spec _ _ G t Ht).
Qed.
Example C98_saved_grounded_ex : exists i1 v1 i2 v2 y P f h c, f_output wg_end = Some (Simulation i1 v1 i2 v2 y P f h) /\ explained 4 2 2 v2 y i2 c /\ i1 = i2 /\ v1 = v2.
Proof.
  destruct (C98_saved_grounded w_pinv roundq root4 (fun m a => Cx m a) x_randint x_gauss still 0 (g_flow 2) x_flow3 x_y3 x_reduce3 (fun m => Ok m) (fun m => Ok m)
    (g_conf []) (g_opt false) [] g_ns g_ls _ _ eq_refl eq_refl (g_recomputes false) (g_single g_ns eq_refl) wg_ran
    _ _ _ _ _ _ _ [2] [0; 1] wg_timed keeps_still wg_results wg_filtered g_eliminated wg_clean g_resistive w_inverts g_leads
    (fun _ _ _ _ F => match F with end) g_stay [3] eq_refl g_substations g_before wg_steady ltac:(left; cbn; lia)) as (i1 & v1 & i2 & v2 & y & P & f & h & c & EO & EX & NF).
  exists i1, v1, i2, v2, y, P, f, h, c. split; [exact EO|]. rewrite wg_rows in EX. split; [exact EX|]. exact (NF silent_still (g_noise_free [])).
Qed.
Notation wident svd := (identify w_pinv svd ksolve norm1 (fun x => x) cov1 cov1 conf1).
Definition w_ident := fst (wident l_svd (i_opt true) (with_output w_end (mzeros 0 0))).
Lemma w_ident_ok : wident l_svd (i_opt true) (with_output w_end (mzeros 0 0)) = (w_ident, Ok tt).
Proof. apply x_ran. vm_compute. reflexivity. Qed.
Lemma w_routines : inj (fst (centred true (sim_v w_end) (sim_i w_end))) /\
  routines w_pinv l_svd (nr (snd (fst (fil_of w_end)))) 2 2 (fst (centred true (sim_v w_end) (sim_i w_end))) (snd (centred true (sim_v w_end) (sim_i w_end))).
Proof.
  rewrite w_rows. split; [apply (left_inverse 4 2 _ (w_pinv (fst (centred true (sim_v w_end) (sim_i w_end))))); vm_compute; reflexivity|].
  apply routinesb_ok. vm_compute. reflexivity.
Qed.
Example C98_identified_laplacian_ex : exists l, w_ident (standard_path "net") = Some (Standard (sim_y w_end) (sim_y w_end) l) /\ get (sim_y w_end) 0 0 = l_y.
Proof.
  destruct (sim_ok w_end ltac:(vm_compute; reflexivity)) as (i2 & v2 & P & f & h & EO).
  destruct (C98_identified_laplacian w_pinv roundq root4 (fun m a => Cx m a) x_randint x_gauss still 0 (g_flow 2) x_flow3 x_y3 x_reduce3 (fun m => Ok m) (fun m => Ok m)
    (g_conf []) (g_opt true) [] l_ns l_ls _ _ eq_refl eq_refl (g_recomputes true) (g_single l_ns eq_refl) w_ran
    _ _ _ _ _ _ _ [1] [0; 2] w_timed keeps_still w_results w_filtered l_eliminated w_clean l_resistive w_inverts l_leads
    (fun _ _ _ _ F => match F with end) l_stay l_svd ksolve norm1 (fun x => x) cov1 cov1 conf1 (i_opt true) _ w_ident _ _ _ _ _ _ _ _ EO silent_still (g_noise_free []) (output_there _ _) w_ident_ok
    eq_refl (or_introl eq_refl) ltac:(discriminate)
    (proj1 w_routines) (proj2 w_routines) eq_refl l_shown ltac:(left; cbn; lia) l_no_shunts) as (l & E).
  exists l. split; [exact E|]. apply keqb_eq. vm_compute. reflexivity.
Qed.
Definition wg_ident := fst (wident g_svd (i_opt false) (with_output wg_end (mzeros 0 0))).
Lemma wg_ident_ok : wident g_svd (i_opt false) (with_output wg_end (mzeros 0 0)) = (wg_ident, Ok tt).
Proof. apply x_ran. vm_compute. reflexivity. Qed.
Lemma wg_routines : inj (fst (centred false (sim_v wg_end) (sim_i wg_end))) /\
  routines w_pinv g_svd (nr (snd (fst (fil_of wg_end)))) 2 2 (fst (centred false (sim_v wg_end) (sim_i wg_end))) (snd (centred false (sim_v wg_end) (sim_i wg_end))).
Proof.
  rewrite wg_rows. split; [apply (left_inverse 4 2 _ (w_pinv (fst (centred false (sim_v wg_end) (sim_i wg_end))))); vm_compute; reflexivity|].
  apply routinesb_ok. vm_compute. reflexivity.
Qed.
Example C98_identified_grounded_ex : exists l, wg_ident (standard_path "net") = Some (Standard (sim_y wg_end) (sim_y wg_end) l) /\ get (sim_y wg_end) 0 0 = g_y.
Proof.
  destruct (sim_ok wg_end ltac:(vm_compute; reflexivity)) as (i2 & v2 & P & f & h & EO).
  destruct (C98_identified_grounded w_pinv roundq root4 (fun m a => Cx m a) x_randint x_gauss still 0 (g_flow 2) x_flow3 x_y3 x_reduce3 (fun m => Ok m) (fun m => Ok m)
    (g_conf []) (g_opt false) [] g_ns g_ls _ _ eq_refl eq_refl (g_recomputes false) (g_single g_ns eq_refl) wg_ran
    _ _ _ _ _ _ _ [2] [0; 1] wg_timed keeps_still wg_results wg_filtered g_eliminated wg_clean g_resistive w_inverts g_leads
    (fun _ _ _ _ F => match F with end) g_stay g_svd ksolve norm1 (fun x => x) cov1 cov1 conf1 (i_opt false) _ wg_ident _ _ _ _ _ _ _ _ EO silent_still (g_noise_free []) (output_there _ _) wg_ident_ok
    eq_refl (or_introl eq_refl) eq_refl ltac:(discriminate) (proj1 wg_routines) (proj2 wg_routines) [3] eq_refl g_substations g_before wg_steady ltac:(left; cbn; lia)) as (l & E).
  exists l. split; [exact E|]. apply keqb_eq. vm_compute. reflexivity.
Qed.
