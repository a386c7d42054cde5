(** C106: several simulations in one Python process. *)
From Coq Require Import String.
From Coq Require Import Bool Arith List Lia ZArith QArith Qcanon Sorted Permutation.
From Verif Require Import BasePy ProofSet BaseFld BaseOrd BaseSum BaseMat BaseLin BaseNumpy BaseEx BaseRound ModelPrior ModelNet ModelReduce ModelResample ModelLoads ModelMeasure ModelRun ModelScript ModelSession ModelTemplates
  SpecLS SpecNet SpecKron SpecReduce SpecResample SpecLoads SpecMeasure SpecRun SpecScript SpecScriptData SpecSession SpecTemplates SpecSucceed ProofReduce ProofScript ProofScriptData ProofTemplates ProofTemplatesRun ProofSession ProofSucceed PropKron PropNet PropMeasure PropRun PropScript PropScriptData PropTemplates PropSucceed.
Import ListNotations.
Close Scope R_scope. Close Scope Qc_scope. Close Scope Q_scope. Close Scope string_scope. Open Scope list_scope. Open Scope nat_scope.

Section Theorems.
Context {K : Type} {O : Ops K} {F : Fld K} {O2 : OrdOps K} {OF : OrdFld K}.
Notation CK := (cplx K).
Context (pinv : mat CK -> mat CK) (rnd : K -> Z) (root : K -> K) (polar : K -> K -> CK).
Context {St : Type} (randint : nat -> nat -> St -> list nat * St) (gauss : St -> K * St) (noise : @noise_fun K St K) (seeded : St).
Context (flow1 : net (K := K) -> mat K -> mat K -> res (mat K * mat K)).
Context (flow3 : net (K := K) -> mat K -> mat K -> list (mat K) -> res ((mat K * mat K) * (mat K * mat K) * (mat K * mat K))).
Context (y_bus3 : net (K := K) -> res (mat CK)).
Context (reduce3 : net (K := K) -> mat CK -> mat CK -> list nat -> bool -> res (list nat * mat CK)).
Context (seq_measurement seq_admittance : mat CK -> res (mat CK)).
Notation proc := (process pinv rnd root polar randint gauss noise seeded flow1 flow3 y_bus3 reduce3 seq_measurement seq_admittance).

(** calls that agree on the substations give the same files and results in one process and in separate processes *)
Theorem C106_same_results : forall conf ts d l, compatible l -> proc conf ts d l = separately (proc conf ts) d l.
Proof. exact (p_session pinv rnd root polar randint gauss noise seeded flow1 flow3 y_bus3 reduce3 seq_measurement seq_admittance). Qed.

(** a Laplacian requested after a grounded simulation of the same network: the saved matrix has the substations, the saved data have not *)
Theorem C106_later_laplacian : forall conf ts d c1 c2 ns ls d' r, grounded_call c1 -> c_template c1 = Some (ns, ls) -> c_template c2 = Some (ns, ls) ->
  three_phased (c_options c2) = false -> laplacian (c_options c2) = true -> sequence (c_options c2) = false -> recomputes (c_options c2) -> (forall b, In b ns -> both is_single b) ->
  proc conf ts d [c1; c2] = (d', [r; Ok tt]) ->
  exists i1 v1 i2 v2 y P f h, f_output (d' (c_name c2)) = Some (Simulation i1 v1 i2 v2 y P f h) /\
    nr y = nc v2 + length (substation_ids ns) /\ substation_ids ns <> [].
Proof. exact (p_later_laplacian pinv rnd root polar randint gauss noise seeded flow1 flow3 y_bus3 reduce3 seq_measurement seq_admittance). Qed.

(** another network after a grounded simulation: the buses with the labels of the first network's substations are removed from its data *)
Theorem C106_other_network : forall conf ts d c1 c2 ns1 ls1 ns2 ls2 d', grounded_call c1 -> c_template c1 = Some (ns1, ls1) -> c_template c2 = Some (ns2, ls2) ->
  three_phased (c_options c2) = false -> sequence (c_options c2) = false -> recomputes (c_options c2) -> (forall b, In b ns2 -> both is_single b) ->
  proc conf ts d [c1; c2] = (d', [Ok tt; Ok tt]) ->
  exists kept nv ni v i y P f h, f_filtered (d' (c_name c2)) = Some (nv, ni, v, i) /\
    f_output (d' (c_name c2)) = Some (Simulation (columns ni kept) (columns nv kept) (columns i kept) (columns v kept) y P f h) /\
    stay (hidden_nodes conf ++ substation_ids ns1) (laplacian (c_options c2)) ns2 kept.
Proof.
  intros conf ts d c1 c2 ns1 ls1 ns2 ls2 d' G E1 E2 H3 HQ HR HS H.
  destruct (first_call _ _ _ _ _ _ _ _ _ _ _ _ _ _ _ _ _ _ _ _ _ _ H) as (f1 & R1). rewrite E1 in R1. destruct (run_built _ _ _ _ _ _ _ _ _ _ _ _ _ _ _ _ _ _ _ _ _ (proj1 G) R1) as [n EN].
  destruct (second_call _ _ _ _ _ _ _ _ _ _ _ _ _ _ _ _ _ _ _ _ _ _ _ _ _ G E1 EN H) as (d1 & f & _ & R & ->). rewrite E2 in R.
  destruct (C84_columns_and_ratings _ _ _ _ _ _ _ _ _ _ _ _ _ _ _ _ _ _ _ _ _ H3 HQ HR HS R) as (kept & nv & ni & v & i & y & P & fp & FIL & _ & _ & _ & _ & OUT & ST & _).
  exists kept, nv, ni, v, i, y, P, fp, (repeat 1%Z (length kept)). auto.
Qed.
(** and it cannot be simulated if one of these labels is missing: the last output stays *)
Theorem C106_other_network_fails : forall conf ts d c1 c2 ns1 ls1 ns2 ls2 d' r x, grounded_call c1 -> c_template c1 = Some (ns1, ls1) -> c_template c2 = Some (ns2, ls2) ->
  three_phased (c_options c2) = false -> (forall b, In b ns2 -> both is_single b) -> In x (substation_ids ns1) -> ~ In x (map bd_id ns2) ->
  proc conf ts d [c1; c2] = (d', [Ok tt; r]) ->
  r <> Ok tt /\ exists d1, proc conf ts d [c1] = (d1, [Ok tt]) /\ f_output (d' (c_name c2)) = f_output (d1 (c_name c2)).
Proof.
  intros conf ts d c1 c2 ns1 ls1 ns2 ls2 d' r x G E1 E2 H3 HS HX HN H.
  destruct (first_call _ _ _ _ _ _ _ _ _ _ _ _ _ _ _ _ _ _ _ _ _ _ H) as (f1 & R1). rewrite E1 in R1. destruct (run_built _ _ _ _ _ _ _ _ _ _ _ _ _ _ _ _ _ _ _ _ _ (proj1 G) R1) as [n EN].
  destruct (second_call _ _ _ _ _ _ _ _ _ _ _ _ _ _ _ _ _ _ _ _ _ _ _ _ _ G E1 EN H) as (d1 & f & D1 & R & ->). rewrite E2 in R.
  assert (NR : r <> Ok tt).
  { intros ->. revert R. apply (C100_missing_node _ _ _ _ _ _ _ _ _ _ _ _ _ _ _ _ _ _ _ _ _ x H3 HS); [|exact HN]. cbn [hidden_nodes with_hidden]. apply in_app_iff. right. exact HX. }
  split; [exact NR|]. exists d1. split; [exact D1|]. destruct r as [[]|e]; [destruct NR; reflexivity|]. apply (p_failed _ _ _ _ _ _ _ _ _ _ _ _ _ _ _ _ _ _ _ _ _ R).
Qed.
(** of the shipped networks none but itself can be simulated after bolognani56 in the same process *)
Theorem C106_shipped_networks : forall conf ts d o1 c2 name d' r, three_phased o1 = false -> laplacian o1 = false -> three_phased (c_options c2) = false ->
  c_template c2 = template1 name -> proc conf ts d [Call "bolognani56" o1 (template1 "bolognani56"); c2] = (d', [Ok tt; r]) -> r = Ok tt -> name = "bolognani56"%string.
Proof.
  intros conf ts d o1 c2 name d' r H1 HL H3 ET H ->. destruct (string_dec name "bolognani56") as [E|NE]; [exact E|exfalso].
  destruct (template1 name) as [[ns2 ls2]|] eqn:T.
  - destruct (template1_nice name ns2 ls2 T) as (q & N & _).
    apply (C106_other_network_fails conf ts d (Call "bolognani56" o1 (template1 "bolognani56")) c2 bolognani56_bus bolognani56_net ns2 ls2 d' (Ok tt) 56) in H; auto.
    + destruct H as [H _]. apply H. reflexivity.
    + split; auto.
    + exact (n_single _ _ _ N).
    + left. reflexivity.
    + rewrite (n_labels _ _ _ N), in_seq. apply template1_cases in T. destruct T as [[E _]|[[_ E]|[[_ E]|[[_ E]|[_ E]]]]]; [contradiction|injection E as -> ->; cbn; lia..].
  - unfold process in H. cbn [session] in H. destruct (run_call _ _ _ _ _ _ _ _ _ _ _ _ _ _ _ _ _ _ _) as [d1 q1]. unfold run_call in H. rewrite ET in H.
    unfold simulate in H. rewrite H3 in H. cbn in H. injection H as _ _ H. discriminate H.
Qed.
End Theorems.
Print Assumptions C106_same_results.
Print Assumptions C106_later_laplacian.
Print Assumptions C106_other_network.
Print Assumptions C106_other_network_fails.
Print Assumptions C106_shipped_networks.

(** ** Examples and counterexamples *)
Notation gproc d := (process g_pinv roundq root4 (fun m a => Cx m a) x_randint x_gauss still 0 (g_flow d) x_flow3 x_y3 x_reduce3 (fun m => Ok m) (fun m => Ok m)).
Definition l_call (lap : bool) : call Qc := Call "l" (g_opt lap) (Some (l_ns, l_ls)).
Definition g_call (lap : bool) : call Qc := Call "g" (g_opt lap) (Some (g_ns, g_ls)).
Definition x_disk : disk Qc := fun m => if String.eqb m "l" then l_start else g_start.
(** rows of the saved matrix and columns of the saved data *)
Definition sizes (s : data_files Qc) : nat * nat := match f_output s with Some (Simulation _ _ _ w y _ _ _) => (nr y, nc w) | _ => (0, 0) end.
Definition results (r : disk Qc * list (res unit)) := (map okb (snd r), sizes (fst r "l"%string), sizes (fst r "g"%string)).
(** a Laplacian, then two grounded simulations: as in separate processes *)
Example C106_same_results_ex : gproc 2 (g_conf []) [] x_disk [l_call true; g_call false; g_call false] = separately (gproc 2 (g_conf []) []) x_disk [l_call true; g_call false; g_call false] /\
  results (gproc 2 (g_conf []) [] x_disk [l_call true; g_call false; g_call false]) = ([true; true; true], (2, 2), (2, 2)).
Proof.
  split; [|vm_compute; reflexivity]. apply C106_same_results. exists [l_call true], [g_call false; g_call false], [4]. split; [reflexivity|]. split.
  - intros c [<-|[]] [_ H]. discriminate H.
  - intros c Hc. assert (c = g_call false) as -> by (destruct Hc as [<-|[<-|[]]]; reflexivity). split; [split; reflexivity|].
    intros ns ls E. assert (E1 : Some g_ns = Some ns) by exact (f_equal (option_map fst) E). assert (E2 : g_ns = ns) by congruence. rewrite <- E2. reflexivity.
Qed.
(** the Laplacian after the grounded simulation of the same network *)
Lemma two_results : forall (b : disk Qc * list (res unit)) s, map okb (snd b) = [true; true] -> sizes (fst b "l"%string) = s ->
  exists d r, b = (d, [r; Ok tt]) /\ sizes (d "l"%string) = s.
Proof. intros [d [|r [|q [|? ?]]]] s H S; try discriminate H. cbn in H. destruct q as [[]|]; [exists d, r; auto|]. destruct r; discriminate H. Qed.
Example C106_later_laplacian_ex : exists d r i1 v1 i2 v2 y P f h, gproc 2 (g_conf []) [] x_disk [l_call false; l_call true] = (d, [r; Ok tt]) /\
  f_output (d "l"%string) = Some (Simulation i1 v1 i2 v2 y P f h) /\ nr y = 2 /\ nc v2 = 1.
Proof.
  assert (A : map okb (snd (gproc 2 (g_conf []) [] x_disk [l_call false; l_call true])) = [true; true]) by (vm_compute; reflexivity).
  assert (B : sizes (fst (gproc 2 (g_conf []) [] x_disk [l_call false; l_call true]) "l"%string) = (2, 1)) by (vm_compute; reflexivity).
  destruct (two_results _ _ A B) as (d & r & E & S). clear A B.
  destruct (C106_later_laplacian g_pinv roundq root4 (fun m a => Cx m a) x_randint x_gauss still 0 (g_flow 2) x_flow3 x_y3 x_reduce3 (fun m => Ok m) (fun m => Ok m)
    (g_conf []) [] x_disk (l_call false) (l_call true) l_ns l_ls d r (Logic.conj eq_refl eq_refl) eq_refl eq_refl eq_refl eq_refl eq_refl
    (g_recomputes true) (g_single l_ns eq_refl) E) as (i1 & v1 & i2 & v2 & y & P & f & h & EO & NR & _).
  change (c_name (l_call true)) with "l"%string in EO. exists d, r, i1, v1, i2, v2, y, P, f, h. split; [exact E|]. split; [exact EO|].
  unfold sizes in S. rewrite EO in S. split; [exact (f_equal fst S)|exact (f_equal snd S)].
Qed.
(** separate processes give a matrix and data of the same size *)
Theorem C106_separate_refuted : exists (conf : settings Qc) d l, gproc 2 conf [] d l <> separately (gproc 2 conf []) d l.
Proof.
  exists (g_conf []), x_disk, [l_call false; l_call true]. intro E. apply (f_equal results) in E.
  assert (A : snd (fst (results (gproc 2 (g_conf []) [] x_disk [l_call false; l_call true]))) = (2, 1)) by (vm_compute; reflexivity).
  assert (B : snd (fst (results (separately (gproc 2 (g_conf []) []) x_disk [l_call false; l_call true]))) = (2, 2)) by (vm_compute; reflexivity).
  rewrite E in A. rewrite A in B. discriminate B.
Qed.
Print Assumptions C106_separate_refuted.
(** the substation of the first network has the label 3, which is the idle bus of the second *)
Example C106_other_network_ex : exists d', gproc 2 (g_conf []) [] x_disk [l_call false; g_call false] = (d', [Ok tt; Ok tt]) /\ In 3 (substation_ids l_ns) /\ In 3 (map bd_id g_ns).
Proof.
  exists (fst (gproc 2 (g_conf []) [] x_disk [l_call false; g_call false])). split; [|split; [left; reflexivity|right; right; left; reflexivity]].
  assert (H : map okb (snd (gproc 2 (g_conf []) [] x_disk [l_call false; g_call false])) = [true; true]) by (vm_compute; reflexivity). revert H. generalize (gproc 2 (g_conf []) [] x_disk [l_call false; g_call false]).
  intros [d [|[[]|] [|[[]|] [|? ?]]]] H; try discriminate H. reflexivity.
Qed.
(** the substation of the second network has the label 4, which the first does not have *)
Example C106_other_network_fails_ex : exists d' e, gproc 2 (g_conf []) [] x_disk [g_call false; l_call false] = (d', [Ok tt; Err e]) /\ In 4 (substation_ids g_ns) /\ ~ In 4 (map bd_id l_ns).
Proof.
  exists (fst (gproc 2 (g_conf []) [] x_disk [g_call false; l_call false])), ValueError. split; [|split; [left; reflexivity|intros [E|[E|[E|[]]]]; discriminate E]].
  assert (H : snd (gproc 2 (g_conf []) [] x_disk [g_call false; l_call false]) = [Ok tt; Err ValueError]) by (vm_compute; reflexivity). revert H. generalize (gproc 2 (g_conf []) [] x_disk [g_call false; l_call false]).
  intros [d rs] H. cbn [snd] in H. rewrite H. reflexivity.
Qed.
(** two shipped networks, which separate processes simulate both *)
Notation fproc := (process (fun A => A) roundq root4 (fun m a => Cx m a) e_randint x_gauss still 0 flat x_flow3 x_y3 x_reduce3 (fun m => Ok m) (fun m => Ok m)).
Lemma r_runs : forall name ns ls s, template1 (K := Qc) name = Some (ns, ls) -> exists s', frun r_conf r_opt [] (template1 name) s = (s', Ok tt).
Proof.
  intros name ns ls s T. destruct (template1_valid (K := Qc) name ns ls T) as [V [q OS]].
  apply (C103_shipped_networks (fun A => A) roundq root4 (fun m a => Cx m a) e_randint x_gauss still 0 flat x_flow3 x_y3 x_reduce3 (fun m => Ok m) (fun m => Ok m)
    r_conf r_opt [] name ns ls s (minutes 1) T eq_refl eq_refl).
  - right. repeat split.
  - exact roundq_rounds.
  - exact e_fair.
  - exact still_total.
  - exact keeps_still.
  - intros r A HA. exact HA.
  - intros n _. exact (flat_converges n).
  - apply (at_random r_conf r_opt); [right; reflexivity|reflexivity|cbn; lia|exact (template1_consumers (K := Qc) name _ _ T)].
  - cbn; lia.
  - change (measurement_frequency r_conf) with (knat 1 : Qc). rewrite samples_minutes by (first [exact roundq_rounds | lia]). change (time_steps r_conf) with 24. lia.
  - assert (L : 10 <= length ns).
    { apply template1_cases in T. destruct T as [[_ E]|[[_ E]|[[_ E]|[[_ E]|[_ E]]]]]; injection E as -> ->; apply Nat.leb_le; vm_compute; reflexivity. }
    intros x [<-|[<-|[]]]; lia.
Qed.
Definition b_call : call Qc := Call "bolognani56" r_opt (template1 "bolognani56").
Definition cigre_call : call Qc := Call "cigre_mv_feeder1" r_opt (template1 "cigre_mv_feeder1").
Example C106_shipped_networks_ex : forall d, (exists d', separately (fproc r_conf []) d [b_call; cigre_call] = (d', [Ok tt; Ok tt])) /\
  exists d' r, fproc r_conf [] d [b_call; cigre_call] = (d', [Ok tt; r]) /\ r <> Ok tt.
Proof.
  intro d. destruct (r_runs "bolognani56" _ _ (d "bolognani56"%string) eq_refl) as [s1 R1]. apply one_process in R1. fold b_call in R1. split.
  - destruct (r_runs "cigre_mv_feeder1" _ _ (write d "bolognani56" s1 "cigre_mv_feeder1"%string) eq_refl) as [s2 R2]. apply one_process in R2. fold cigre_call in R2.
    eexists. exact (two_processes _ _ _ _ _ _ _ _ _ _ _ _ _ _ _ _ _ _ _ _ _ _ _ R1 R2).
  - destruct (both_calls _ _ _ _ _ _ _ _ _ _ _ _ _ _ _ _ _ _ cigre_call _ _ R1) as (d2 & q2 & H). exists d2, q2. split; [exact H|]. intro E.
    pose proof (C106_shipped_networks _ _ _ _ _ _ _ _ _ _ _ _ _ _ r_conf [] d r_opt cigre_call "cigre_mv_feeder1" d2 q2 eq_refl eq_refl eq_refl eq_refl H E) as N. discriminate N.
Qed.
