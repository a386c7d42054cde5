(** C84-C86: what the data saved by the simulation program describe. *)
From Coq Require Import String.
From Coq Require Import Bool Arith List Lia ZArith QArith Qcanon Sorted Permutation.
From Verif Require Import BasePy ProofSet BaseFld BaseOrd BaseSum BaseMat BaseLin BaseNumpy BaseEx BaseRound ModelPrior ModelNet ModelReduce ModelResample ModelLoads ModelMeasure ModelRun ModelScript
  SpecLS SpecNet SpecKron SpecReduce SpecResample SpecLoads SpecMeasure SpecRun SpecScript SpecScriptData ProofReduce ProofScriptData ProofScriptLap PropKron PropNet PropMeasure PropRun PropScript.
Import ListNotations.
Close Scope Qc_scope. Close Scope Q_scope. Close Scope string_scope. Open Scope list_scope. Open Scope nat_scope.

Section Theorems.
Context {K : Type} {O : Ops K} {F : Fld K} {O2 : OrdOps K} {OF : OrdFld K}.
Notation CK := (cplx K).
Context (pinv : mat CK -> mat CK) (rnd : K -> Z) (root : K -> K) (polar : K -> K -> CK).
Context {St : Type} (randint : nat -> nat -> St -> list nat * St) (gauss : St -> K * St) (noise : @noise_fun K St K) (seeded : St).
Context (flow1 : net (K := K) -> mat K -> mat K -> res (mat K * mat K)).
Context (flow3 : net (K := K) -> mat K -> mat K -> list (mat K) -> res ((mat K * mat K) * (mat K * mat K) * (mat K * mat K))).
Context (y_bus3 : net (K := K) -> res (mat CK)).
Context (reduce3 : net (K := K) -> mat CK -> mat CK -> list nat -> bool -> res (list nat * mat CK)).
Context (seq_measurement seq_admittance : mat CK -> res (mat CK)).
Notation run := (simulate pinv rnd root polar randint gauss noise seeded flow1 flow3 y_bus3 reduce3 seq_measurement seq_admittance).

(** ** C84: columns, ratings and labels *)
(** one phase: the saved columns are those of the buses that stay, in the order of the template; every column has the rating of its bus *)
Theorem C84_columns_and_ratings : forall conf o ts ns ls s s', three_phased o = false -> sequence o = false -> recomputes o ->
  (forall b, In b ns -> both is_single b) -> run conf o ts (Some (ns, ls)) s = (s', Ok tt) ->
  exists kept nv ni v i y P f, f_filtered s' = Some (nv, ni, v, i) /\
    nc nv = length ns /\ nc ni = length ns /\ nc v = length ns /\ nc i = length ns /\
    f_output s' = Some (Simulation (columns ni kept) (columns nv kept) (columns i kept) (columns v kept) y P f (repeat 1%Z (length kept))) /\
    stay (hidden_nodes conf) (laplacian o) ns kept /\ length P = length kept /\
    forall c, c < length kept -> rated (safety_factor conf) ns (nth c kept 0) (vget P c).
Proof. exact (p_alignment pinv rnd root polar randint gauss noise seeded flow1 flow3 y_bus3 reduce3 seq_measurement seq_admittance). Qed.
(** a template with a bus without load cannot be simulated *)
Theorem C84_every_bus_needs_a_load : forall conf o ts ns ls s s', three_phased o = false -> sequence o = false -> recomputes o ->
  (forall b, In b ns -> both is_single b) -> run conf o ts (Some (ns, ls)) s = (s', Ok tt) ->
  forall b, In b ns -> bd_type b = 1 \/ bd_type b = 3.
Proof. exact (p_loaded_buses pinv rnd root polar randint gauss noise seeded flow1 flow3 y_bus3 reduce3 seq_measurement seq_admittance). Qed.
(** three phases: column number [k] of the measurements has the label of phase [k mod 3] and the rating number [k], which is that of phase [k / N] of bus [k mod N] *)
Theorem C84_three_phases : forall conf o ts ns ls s s', three_phased o = true -> sequence o = false -> recomputes o ->
  (forall n y, y_bus3 n = Ok y -> shape y (3 * length (buses n)) (3 * length (buses n))) ->
  run conf o ts (Some (ns, ls)) s = (s', Ok tt) ->
  exists n kept nv ni v i y P f, NetData3P ts (Some ns) (Some ls) None = Ok n /\ f_filtered s' = Some (nv, ni, v, i) /\
  nc nv = 3 * length (buses n) /\ nc ni = 3 * length (buses n) /\ nc v = 3 * length (buses n) /\ nc i = 3 * length (buses n) /\
  f_output s' = Some (Simulation (columns ni kept) (columns nv kept) (columns i kept) (columns v kept) y (map (vget P) kept) f (map (fun k => 1 + Z.of_nat (k mod 3))%Z kept)) /\
  StronglySorted lt kept /\ (forall k, In k kept -> k < 3 * length (buses n)) /\ phase_ratings (safety_factor conf) n P.
Proof. exact (p_alignment3 pinv rnd root polar randint gauss noise seeded flow1 flow3 y_bus3 reduce3 seq_measurement seq_admittance). Qed.

(** ** C85: the saved matrix explains the saved data without noise *)
(** with the substation *)
Theorem C85_laplacian : forall conf o ts ns ls s s', three_phased o = false -> sequence o = false -> recomputes o ->
  (forall b, In b ns -> both is_single b) -> run conf o ts (Some (ns, ls)) s = (s', Ok tt) ->
  forall V I Y nv ni v i E kept, timed s' -> keeps_length noise -> f_results s' = Some (V, I, Y) -> f_filtered s' = Some (nv, ni, v, i) ->
  eliminated (hidden_nodes conf) ns E -> no_current E I -> solvable pinv Y E ->
  (forall k b, nth_error ns k = Some b -> bd_type b <> 3 -> In (bd_id b) (hidden_nodes conf) -> mean_at v k <> 0%K) ->
  stay (hidden_nodes conf) (laplacian o) ns kept ->
  laplacian o = true -> shown (hidden_nodes conf) ns -> orderly (length ns) (length kept) ->
  exists i1 v1 i2 v2 y P f h, f_output s' = Some (Simulation i1 v1 i2 v2 y P f h) /\
    explained (nr v) (length kept) (length kept) v2 y i2 (fun _ => 0%K) /\ (no_shunts ns -> zero_column_sums (length kept) (length kept) y) /\
    (silent noise -> noise_free conf -> i1 = i2 /\ v1 = v2).
Proof. exact (p_saved_laplacian pinv rnd root polar randint gauss noise seeded flow1 flow3 y_bus3 reduce3 seq_measurement seq_admittance). Qed.
(** without the substation, whose voltage does not change: up to a constant for each current *)
Theorem C85_grounded : forall conf o ts ns ls s s', three_phased o = false -> sequence o = false -> recomputes o ->
  (forall b, In b ns -> both is_single b) -> run conf o ts (Some (ns, ls)) s = (s', Ok tt) ->
  forall V I Y nv ni v i E kept, timed s' -> keeps_length noise -> f_results s' = Some (V, I, Y) -> f_filtered s' = Some (nv, ni, v, i) ->
  eliminated (hidden_nodes conf) ns E -> no_current E I -> solvable pinv Y E ->
  (forall k b, nth_error ns k = Some b -> bd_type b <> 3 -> In (bd_id b) (hidden_nodes conf) -> mean_at v k <> 0%K) ->
  stay (hidden_nodes conf) (laplacian o) ns kept ->
  forall G0, laplacian o = false -> substations ns G0 -> all_before E G0 -> steady G0 V ->
  orderly (length (kept_ascending (length ns) G0)) (length kept) ->
  exists i1 v1 i2 v2 y P f h c, f_output s' = Some (Simulation i1 v1 i2 v2 y P f h) /\
    explained (nr v) (length kept) (length kept) v2 y i2 c /\
    (silent noise -> noise_free conf -> i1 = i2 /\ v1 = v2).
Proof. exact (p_saved_grounded pinv rnd root polar randint gauss noise seeded flow1 flow3 y_bus3 reduce3 seq_measurement seq_admittance). Qed.

(** ** C86: simulation without noise followed by identification gives the saved matrix *)
Theorem C86_laplacian : forall conf o ts ns ls s s', three_phased o = false -> sequence o = false -> recomputes o ->
  (forall b, In b ns -> both is_single b) -> run conf o ts (Some (ns, ls)) s = (s', Ok tt) ->
  forall V I Y nv ni v i E kept, timed s' -> keeps_length noise -> f_results s' = Some (V, I, Y) -> f_filtered s' = Some (nv, ni, v, i) ->
  eliminated (hidden_nodes conf) ns E -> no_current E I -> solvable pinv Y E ->
  (forall k b, nth_error ns k = Some b -> bd_type b <> 3 -> In (bd_id b) (hidden_nodes conf) -> mean_at v k <> 0%K) ->
  stay (hidden_nodes conf) (laplacian o) ns kept ->
  forall svd spsolve cabs ksqrt true_cov naive_cov (iconf : config K) io (fs fs' : files K) i1 v1 i2 v2 y P f h,
  f_output s' = Some (Simulation i1 v1 i2 v2 y P f h) -> silent noise -> noise_free conf ->
  fs (simulation_path (ModelRun.network io)) = f_output s' ->
  identify pinv svd spsolve cabs ksqrt true_cov naive_cov iconf io fs = (fs', Ok tt) ->
  ModelRun.three_phased (phases io) = false -> standard io = true \/ bayesian io = false -> kept <> [] ->
  inj (fst (centred (ModelRun.laplacian io) v1 i1)) ->
  routines pinv svd (nr v) (length kept) (length kept) (fst (centred (ModelRun.laplacian io) v1 i1)) (snd (centred (ModelRun.laplacian io) v1 i1)) ->
  laplacian o = true -> shown (hidden_nodes conf) ns -> orderly (length ns) (length kept) -> no_shunts ns ->
  exists l, fs' (standard_path (ModelRun.network io)) = Some (Standard y y l).
Proof. exact (p_pipeline_laplacian pinv rnd root polar randint gauss noise seeded flow1 flow3 y_bus3 reduce3 seq_measurement seq_admittance). Qed.
Theorem C86_grounded : forall conf o ts ns ls s s', three_phased o = false -> sequence o = false -> recomputes o ->
  (forall b, In b ns -> both is_single b) -> run conf o ts (Some (ns, ls)) s = (s', Ok tt) ->
  forall V I Y nv ni v i E kept, timed s' -> keeps_length noise -> f_results s' = Some (V, I, Y) -> f_filtered s' = Some (nv, ni, v, i) ->
  eliminated (hidden_nodes conf) ns E -> no_current E I -> solvable pinv Y E ->
  (forall k b, nth_error ns k = Some b -> bd_type b <> 3 -> In (bd_id b) (hidden_nodes conf) -> mean_at v k <> 0%K) ->
  stay (hidden_nodes conf) (laplacian o) ns kept ->
  forall svd spsolve cabs ksqrt true_cov naive_cov (iconf : config K) io (fs fs' : files K) i1 v1 i2 v2 y P f h,
  f_output s' = Some (Simulation i1 v1 i2 v2 y P f h) -> silent noise -> noise_free conf ->
  fs (simulation_path (ModelRun.network io)) = f_output s' ->
  identify pinv svd spsolve cabs ksqrt true_cov naive_cov iconf io fs = (fs', Ok tt) ->
  ModelRun.three_phased (phases io) = false -> standard io = true \/ bayesian io = false -> ModelRun.laplacian io = laplacian o -> kept <> [] ->
  inj (fst (centred (ModelRun.laplacian io) v1 i1)) ->
  routines pinv svd (nr v) (length kept) (length kept) (fst (centred (ModelRun.laplacian io) v1 i1)) (snd (centred (ModelRun.laplacian io) v1 i1)) ->
  forall G0, laplacian o = false -> substations ns G0 -> all_before E G0 -> steady G0 V ->
  orderly (length (kept_ascending (length ns) G0)) (length kept) ->
  exists l, fs' (standard_path (ModelRun.network io)) = Some (Standard y y l).
Proof. exact (p_pipeline_grounded pinv rnd root polar randint gauss noise seeded flow1 flow3 y_bus3 reduce3 seq_measurement seq_admittance). Qed.
End Theorems.
Print Assumptions C84_columns_and_ratings.
Print Assumptions C84_every_bus_needs_a_load.
Print Assumptions C84_three_phases.
Print Assumptions C85_laplacian.
Print Assumptions C85_grounded.
Print Assumptions C86_laplacian.
Print Assumptions C86_grounded.

(** ** Examples and counterexamples *)
(** noise that adds the deviations; the voltages of the power flow are read from the loads file, except those of the last bus but one,
    which are the mean of the first and the last bus divided by [d] *)
Definition still (v : list (cplx Qc)) (a b : Qc) (s : nat) : res (list (cplx Qc) * nat) := Ok (map (fun z => (z + Cx a b)%K) v, s).
Definition g_pinv (m : mat (cplx Qc)) : mat (cplx Qc) := if (nr m =? 1) then inv_of m else q_pinv m.
Definition g_flow (d : Z) (n : net (K := Qc)) (p q : mat Qc) : res (mat Qc * mat Qc) :=
  let mid m := mk (nr m) (nc m) (fun t j => if (j =? nc m - 2) then ((get m t 0 + get m t (nc m - 1)) / zq d)%K else get m t j) in Ok (mid p, mid q).
Notation grun d := (simulate g_pinv roundq root4 (fun m a => Cx m a) x_randint x_gauss still 0 (g_flow d) x_flow3 x_y3 x_reduce3 (fun m => Ok m) (fun m => Ok m)).
Definition g_conf (hidden : list nat) : settings Qc := Settings Qc hidden true (qq 84 100) [] 1 4 (qq 4 3) (zq 4) (zq 0) (zq 0) (zq 0) (zq 0).
Definition g_opt (lap : bool) : options Qc := ModelScript.Options Qc None (zq 0) false true true false false false lap.
Definition g_files (p q : list (list Z)) := DataFiles (K := Qc) (Some (LoadsFile (rows (map (map zq) p)) (rows (map (map zq) q)) None [0; 1; 2; 3]%Z)) None None None.
(** without the substation: loads 1 and 2, an idle bus between load 1 and the substation *)
Definition g_ns := [bd 1 1 5 2 20 0; bd 2 1 1 1 20 0; bd 3 1 0 0 20 0; bd 4 3 9 9 20 0].
Definition g_ls := [ldq 1 3 1 90 120 1 None; ldq 4 3 1 90 120 1 None; ldq 2 4 1 180 240 1 None].
Definition g_start := g_files [[4; 6; 0; 1]; [2; 6; 0; 1]; [4; 4; 0; 1]; [2; 4; 0; 1]]%Z [[1; 0; 0; 0]; [1; 0; 0; 0]; [1; 0; 0; 0]; [1; 0; 0; 0]]%Z.
Definition g_end := fst (grun 2 (g_conf []) (g_opt false) [] (Some (g_ns, g_ls)) g_start).
(** with the substation: a load, an idle bus, the substation *)
Definition l_ns := [bd 1 1 5 2 20 0; bd 2 1 0 0 20 0; bd 3 3 9 9 20 0].
Definition l_ls := [ldq 1 2 1 180 240 1 None; ldq 2 3 1 180 240 1 None].
Definition l_start := g_files [[12; 0; 10]; [10; 0; 8]; [12; 0; 10]; [10; 0; 8]]%Z [[2; 0; 0]; [0; 0; -2]; [2; 0; 0]; [0; 0; -2]]%Z.
Definition l_end := fst (grun 2 (g_conf []) (g_opt true) [] (Some (l_ns, l_ls)) l_start).
Definition res_of (s : data_files Qc) := match f_results s with Some r => r | None => (mzeros 0 0, mzeros 0 0, mzeros 0 0) end.
Definition fil_of (s : data_files Qc) := match f_filtered s with Some r => r | None => (mzeros 0 0, mzeros 0 0, mzeros 0 0, mzeros 0 0) end.
(** exact singular value decompositions of the two sets of data *)
Definition g_y : cplx Qc := Cx (qq 4 5) (qq (-16) 15).
Definition g_svd (m : mat (cplx Qc)) : mat (cplx Qc) * list Qc * mat (cplx Qc) :=
  (mk 4 4 (fun i j => kdiv (cz (hget i (nth j [1; 2; 3; 0] 0)) 0) (cz 2 0)), [qq 10 3; qq 10 3; zq 0; zq 0],
   mmap (fun z => (z * Cx (qq 3 5) (zq 0))%K) (rows [[cz 1 0; cz 0 0; g_y; cz 0 0]; [cz 0 0; cz 1 0; cz 0 0; g_y];
     [conj g_y; cz 0 0; cz (-1) 0; cz 0 0]; [cz 0 0; conj g_y; cz 0 0; cz (-1) 0]])).
Definition l_y : cplx Qc := Cx (qq 2 5) (qq (-8) 15).
Definition l_svd (m : mat (cplx Qc)) : mat (cplx Qc) * list Qc * mat (cplx Qc) :=
  let b := (cz 1 1 * Cx (qq 3 10) (zq 0))%K in let a := (cz 1 1 / cz 2 0)%K in
  (mk 4 4 (fun i j => kdiv (cz (hget i j) 0) (cz 2 0)), [qq 20 3; zq 4; zq 0; zq 0],
   rows [[b; - b; b * (l_y + l_y); - (b * (l_y + l_y))]; [a; a; cz 0 0; cz 0 0]; [cz 0 0; cz 0 0; a; a];
     [- (b * conj (l_y + l_y)); b * conj (l_y + l_y); b; - b]]%K).
Definition with_output (s : data_files Qc) (y : mat (cplx Qc)) : files Qc := fun p =>
  if String.eqb p (simulation_path "net") then f_output s else if String.eqb p (bayesian_path "net") then Some (Bayesian y []) else None.
Notation irun svd := (identify g_pinv svd ksolve norm1 (fun x => x) cov1 cov1 conf1).
Definition i_opt (la : bool) := opt 0 true false false "1" false la false false false.
Lemma keeps_still : keeps_length still.
Proof. intros v a b s v' s' E. injection E as <- _. apply map_length. Qed.
Lemma silent_still : silent still.
Proof.
  intros v s w s' E. injection E as <- _. rewrite <- map_id. apply map_ext. intros [a b]. apply cplx_eq; cbn; ring.
Qed.
Lemma g_noise_free : forall h, noise_free (g_conf h).
Proof. intro h. repeat split. Qed.
Lemma g_recomputes : forall la, recomputes (g_opt la).
Proof. intro la. left. auto. Qed.
Lemma g_single : forall ns, forallb (fun b : bus_data (K := Qc) => match bd_p b, bd_q b with Single _, Single _ => true | _, _ => false end) ns = true ->
  forall b, In b ns -> both is_single b.
Proof.
  intros ns H b Hb. rewrite forallb_forall in H. specialize (H b Hb). unfold both, is_single. destruct (bd_p b), (bd_q b); try discriminate H; split; eexists; reflexivity.
Qed.
Lemma increasing4 : increasing (seconds [0; 1; 2; 3]%Z : list Qc).
Proof.
  intros a b Hab Hb. unfold seconds in Hb. rewrite map_length in Hb. cbn [length] in Hb.
  assert (G : forall_lt 4 (fun b => forall_lt b (fun a => kltb (vget (seconds [0; 1; 2; 3]%Z : list Qc) a) (vget (seconds [0; 1; 2; 3]%Z) b))) = true) by (vm_compute; reflexivity).
  exact (forall_lt_spec _ _ (forall_lt_spec _ _ G b Hb) a Hab).
Qed.
Lemma g_timed : forall s : data_files Qc, f_loads s = Some (LoadsFile (match f_loads s with Some l => lf_p l | None => mzeros 0 0 end) (match f_loads s with Some l => lf_q l | None => mzeros 0 0 end) None [0; 1; 2; 3]%Z) -> timed s.
Proof. intros s E lf E2. rewrite E in E2. injection E2 as <-. cbn [lf_t]. split; [exact increasing4|]. split; [cbn; lia|reflexivity]. Qed.
Lemma g_solvable : forall (L : mat (cplx Qc)) x, PropKron.penroseb 1 (block_of L [x] [x]) (g_pinv (block_of L [x] [x])) = true -> solvable g_pinv L [x].
Proof.
  intros L x H. apply PropKron.penroseb_ok in H. destruct H as (PE & SP & E1 & E2). split; [exists (g_pinv (block_of L [x] [x])); auto|].
  intros E' HP. apply Permutation_length_1_inv in HP. subst E'. exact PE.
Qed.
Lemma g_no_current : forall (I : mat (cplx Qc)) x, forall_lt (nr I) (fun t => keqb (get I t x) k0) = true -> no_current [x] I.
Proof. intros I x H t y Ht [<-|[]]. apply keqb_eq. exact (forall_lt_spec _ _ H t Ht). Qed.
Ltac node k E := destruct k as [|[|[|[|k]]]]; cbn [nth_error g_ns l_ns] in E; [..|exfalso; destruct k; discriminate E];
  try (exfalso; discriminate E); apply (f_equal (fun o => match o with Some b => b | None => bd 0 0 0 0 0 0 end)) in E; cbv beta iota in E; subst.
Ltac absurd_zero H := exfalso; revert H; apply keqb_neq; vm_compute; reflexivity.
Lemma l_ran : grun 2 (g_conf []) (g_opt true) [] (Some (l_ns, l_ls)) l_start = (l_end, Ok tt).
Proof. apply x_ran. vm_compute. reflexivity. Qed.
Lemma l_eliminated : eliminated [] l_ns [1].
Proof.
  split; [repeat constructor; intros []|]. intro k. split.
  - intros [<-|[]]. eexists. split; [reflexivity|]. split; [discriminate|]. right. split; reflexivity.
  - intros (b & E & T & [[]|[Z1 Z2]]). node k E; [absurd_zero Z1|left; reflexivity|]. exfalso. apply T. reflexivity.
Qed.
Lemma l_stay : stay [] true l_ns [0; 2].
Proof.
  split; [repeat constructor|]. intro k. split.
  - intros [<-|[<-|[]]]; (eexists; split; [reflexivity|]; split; [intros []|]; split; [reflexivity|]); intro T.
    + left. apply keqb_neq. vm_compute. reflexivity.
    + exfalso. apply T. reflexivity.
  - intros (b & E & _ & _ & L). node k E; [left; reflexivity| |right; left; reflexivity].
    exfalso. destruct (L ltac:(discriminate)) as [L1|L1]; apply L1; reflexivity.
Qed.
Lemma res_ok : forall s, (match f_results s with Some _ => true | _ => false end) = true -> f_results s = Some (fst (fst (res_of s)), snd (fst (res_of s)), snd (res_of s)).
Proof. intros s H. unfold res_of. destruct (f_results s) as [[[a b] c]|]; [reflexivity|discriminate H]. Qed.
Lemma fil_ok : forall s, (match f_filtered s with Some _ => true | _ => false end) = true ->
  f_filtered s = Some (fst (fst (fst (fil_of s))), snd (fst (fst (fil_of s))), snd (fst (fil_of s)), snd (fil_of s)).
Proof. intros s H. unfold fil_of. destruct (f_filtered s) as [[[[a b] c] d]|]; [reflexivity|discriminate H]. Qed.
Definition all_of (s : data_files Qc) := match f_output s with Some (Simulation i v j w y p f h) => (i, v, j, w, y, p, f, h) | _ => (mzeros 0 0, mzeros 0 0, mzeros 0 0, mzeros 0 0, mzeros 0 0, [], k0, []) end.
Lemma all_is : forall s i v j w y p f h, f_output s = Some (Simulation i v j w y p f h) -> all_of s = (i, v, j, w, y, p, f, h).
Proof. intros s i v j w y p f h H. unfold all_of. rewrite H. reflexivity. Qed.
Example C84_ex : exists kept P, stay [] true l_ns kept /\ kept = [0; 2] /\ P = [zq 116; zq 116] /\
  (forall c, c < length kept -> rated (zq 4) l_ns (nth c kept 0) (vget P c)) /\
  match f_output l_end with Some (Simulation i1 v1 i2 v2 y P' f h) => P' = P /\ h = [1; 1]%Z | _ => False end.
Proof.
  destruct (C84_columns_and_ratings _ _ _ _ _ _ _ _ _ _ _ _ _ _ (g_conf []) (g_opt true) [] l_ns l_ls _ _ eq_refl eq_refl (g_recomputes true) (g_single l_ns eq_refl) l_ran)
    as (kept & nv & ni & v & i & y & P & f & _ & _ & _ & _ & _ & EO & ST & LP & RP).
  assert (EK : kept = [0; 2]). { apply sorted_unique; [exact (proj1 ST)|exact (proj1 l_stay)|]. intro k. rewrite (proj2 ST k). symmetry. apply (proj2 l_stay). }
  assert (EP : veqb (snd (fst (fst (all_of l_end)))) [zq 116; zq 116] = true) by (vm_compute; reflexivity).
  rewrite (all_is _ _ _ _ _ _ _ _ _ EO) in EP. cbn [fst snd] in EP. apply veqb_eq in EP. subst kept.
  exists [0; 2], P. rewrite EO. split; [exact ST|]. split; [reflexivity|]. split; [exact EP|]. split; [exact RP|]. split; reflexivity.
Qed.
Lemma l_results : f_results l_end = Some (fst (fst (res_of l_end)), snd (fst (res_of l_end)), snd (res_of l_end)).
Proof. apply res_ok. vm_compute. reflexivity. Qed.
Lemma l_filtered : f_filtered l_end = Some (fst (fst (fst (fil_of l_end))), snd (fst (fst (fil_of l_end))), snd (fst (fil_of l_end)), snd (fil_of l_end)).
Proof. apply fil_ok. vm_compute. reflexivity. Qed.
Lemma l_rows : nr (snd (fst (fil_of l_end))) = 4.
Proof. vm_compute. reflexivity. Qed.
Lemma output_there : forall s y, with_output s y (simulation_path "net") = f_output s.
Proof. intros s y. unfold with_output. rewrite String.eqb_refl. reflexivity. Qed.
Lemma l_timed : timed l_end.
Proof. apply g_timed. vm_compute. reflexivity. Qed.
Lemma l_shown : shown [] l_ns.
Proof. intros b _ _ []. Qed.
Lemma l_no_shunts : no_shunts l_ns.
Proof. intros b Hb T. destruct Hb as [<-|[<-|[<-|[]]]]; [reflexivity|reflexivity|discriminate T]. Qed.
Definition sim_y (s : data_files Qc) := snd (fst (fst (fst (all_of s)))).
Definition sim_v (s : data_files Qc) := snd (fst (fst (fst (fst (fst (fst (all_of s))))))).
Definition sim_i (s : data_files Qc) := fst (fst (fst (fst (fst (fst (fst (all_of s))))))).
Lemma sim_ok : forall s, (match f_output s with Some (Simulation _ _ _ _ _ _ _ _) => true | _ => false end) = true ->
  exists i2 v2 P f h, f_output s = Some (Simulation (sim_i s) (sim_v s) i2 v2 (sim_y s) P f h).
Proof. intros s H. unfold sim_i, sim_v, sim_y, all_of. destruct (f_output s) as [[]|]; try discriminate H. do 5 eexists. reflexivity. Qed.
Lemma l_clean : no_current [1] (snd (fst (res_of l_end))) /\ solvable g_pinv (snd (res_of l_end)) [1].
Proof. split; [apply g_no_current|apply g_solvable]; vm_compute; reflexivity. Qed.
Lemma sim_y_is : forall s i v j w y p f h, f_output s = Some (Simulation i v j w y p f h) -> sim_y s = y.
Proof. intros s i v j w y p f h H. unfold sim_y. rewrite (all_is _ _ _ _ _ _ _ _ _ H). reflexivity. Qed.
Example C85_laplacian_ex : exists i1 v1 i2 v2 y P f h, f_output l_end = Some (Simulation i1 v1 i2 v2 y P f h) /\
  explained 4 2 2 v2 y i2 (fun _ => k0) /\ zero_column_sums 2 2 y /\ i1 = i2 /\ v1 = v2 /\ get y 0 0 = l_y.
Proof.
  destruct (C85_laplacian g_pinv roundq root4 (fun m a => Cx m a) x_randint x_gauss still 0 (g_flow 2) x_flow3 x_y3 x_reduce3 (fun m => Ok m) (fun m => Ok m)
    (g_conf []) (g_opt true) [] l_ns l_ls _ _ eq_refl eq_refl (g_recomputes true) (g_single l_ns eq_refl) l_ran
    _ _ _ _ _ _ _ [1] [0; 2] l_timed keeps_still l_results l_filtered l_eliminated (proj1 l_clean) (proj2 l_clean)
    (fun _ _ _ _ F => match F with end) l_stay eq_refl l_shown ltac:(left; cbn; lia)) as (i1 & v1 & i2 & v2 & y & P & f & h & EO & EX & ZS & NF).
  exists i1, v1, i2, v2, y, P, f, h. split; [exact EO|]. rewrite l_rows in EX. split; [exact EX|]. split; [exact (ZS l_no_shunts)|]. destruct (NF silent_still (g_noise_free [])) as [N1 N2].
  split; [exact N1|]. split; [exact N2|].
  assert (EY : keqb (get (sim_y l_end) 0 0) l_y = true) by (vm_compute; reflexivity). rewrite (sim_y_is _ _ _ _ _ _ _ _ _ EO) in EY. apply keqb_eq. exact EY.
Qed.
Definition l_ident := fst (irun l_svd (i_opt true) (with_output l_end (mzeros 0 0))).
Lemma l_ident_ok : irun l_svd (i_opt true) (with_output l_end (mzeros 0 0)) = (l_ident, Ok tt).
Proof. apply x_ran. vm_compute. reflexivity. Qed.
Lemma l_routines : inj (fst (centred true (sim_v l_end) (sim_i l_end))) /\
  routines g_pinv l_svd (nr (snd (fst (fil_of l_end)))) 2 2 (fst (centred true (sim_v l_end) (sim_i l_end))) (snd (centred true (sim_v l_end) (sim_i l_end))).
Proof.
  rewrite l_rows. split; [apply (left_inverse 4 2 _ (g_pinv (fst (centred true (sim_v l_end) (sim_i l_end))))); vm_compute; reflexivity|].
  apply routinesb_ok. vm_compute. reflexivity.
Qed.
Example C86_laplacian_ex : exists l, l_ident (standard_path "net") = Some (Standard (sim_y l_end) (sim_y l_end) l) /\ get (sim_y l_end) 0 0 = l_y.
Proof.
  destruct (sim_ok l_end ltac:(vm_compute; reflexivity)) as (i2 & v2 & P & f & h & EO).
  destruct (C86_laplacian g_pinv roundq root4 (fun m a => Cx m a) x_randint x_gauss still 0 (g_flow 2) x_flow3 x_y3 x_reduce3 (fun m => Ok m) (fun m => Ok m)
    (g_conf []) (g_opt true) [] l_ns l_ls _ _ eq_refl eq_refl (g_recomputes true) (g_single l_ns eq_refl) l_ran
    _ _ _ _ _ _ _ [1] [0; 2] l_timed keeps_still l_results l_filtered l_eliminated (proj1 l_clean) (proj2 l_clean)
    (fun _ _ _ _ F => match F with end) l_stay l_svd ksolve norm1 (fun x => x) cov1 cov1 conf1 (i_opt true) _ l_ident _ _ _ _ _ _ _ _ EO silent_still (g_noise_free []) (output_there _ _) l_ident_ok
    eq_refl (or_introl eq_refl) ltac:(discriminate)
    (proj1 l_routines) (proj2 l_routines) eq_refl l_shown ltac:(left; cbn; lia) l_no_shunts) as (l & E).
  exists l. split; [exact E|]. apply keqb_eq. vm_compute. reflexivity.
Qed.
Lemma g_ran : grun 2 (g_conf []) (g_opt false) [] (Some (g_ns, g_ls)) g_start = (g_end, Ok tt).
Proof. apply x_ran. vm_compute. reflexivity. Qed.
Lemma g_eliminated : eliminated [] g_ns [2].
Proof.
  split; [repeat constructor; intros []|]. intro k. split.
  - intros [<-|[]]. eexists. split; [reflexivity|]. split; [discriminate|]. right. split; reflexivity.
  - intros (b & E & T & [[]|[Z1 Z2]]). node k E; [absurd_zero Z1|absurd_zero Z1|left; reflexivity|]. exfalso. apply T. reflexivity.
Qed.
Lemma g_stay : stay [] false g_ns [0; 1].
Proof.
  split; [repeat constructor|]. intro k. split.
  - intros [<-|[<-|[]]]; (eexists; split; [reflexivity|]; split; [intros []|]; split; [discriminate|]); intro T;
      left; apply keqb_neq; vm_compute; reflexivity.
  - intros (b & E & _ & S & L). node k E; [left; reflexivity|right; left; reflexivity| |].
    + exfalso. destruct (L ltac:(discriminate)) as [L1|L1]; apply L1; reflexivity.
    + exfalso. discriminate (S eq_refl).
Qed.
Lemma g_substations : substations g_ns [3].
Proof.
  intro k. split.
  - intros [<-|[]]. eexists. split; reflexivity.
  - intros (b & E & T). node k E; [discriminate T|discriminate T|discriminate T|left; reflexivity].
Qed.
Lemma g_results : f_results g_end = Some (fst (fst (res_of g_end)), snd (fst (res_of g_end)), snd (res_of g_end)).
Proof. apply res_ok. vm_compute. reflexivity. Qed.
Lemma g_filtered : f_filtered g_end = Some (fst (fst (fst (fil_of g_end))), snd (fst (fst (fil_of g_end))), snd (fst (fil_of g_end)), snd (fil_of g_end)).
Proof. apply fil_ok. vm_compute. reflexivity. Qed.
Lemma g_rows : nr (snd (fst (fil_of g_end))) = 4.
Proof. vm_compute. reflexivity. Qed.
Lemma g_end_timed : timed g_end.
Proof. apply g_timed. vm_compute. reflexivity. Qed.
Lemma g_clean : no_current [2] (snd (fst (res_of g_end))) /\ solvable g_pinv (snd (res_of g_end)) [2].
Proof. split; [apply g_no_current|apply g_solvable]; vm_compute; reflexivity. Qed.
Lemma g_steady : steady [3] (fst (fst (res_of g_end))).
Proof.
  intros x [<-|[]]. exists (get (fst (fst (res_of g_end))) 0 3). intros t Ht. apply keqb_eq.
  assert (G : forall_lt (nr (fst (fst (res_of g_end)))) (fun t => keqb (get (fst (fst (res_of g_end))) t 3) (get (fst (fst (res_of g_end))) 0 3)) = true) by (vm_compute; reflexivity).
  exact (forall_lt_spec _ _ G t Ht).
Qed.
Lemma g_routines : inj (fst (centred false (sim_v g_end) (sim_i g_end))) /\
  routines g_pinv g_svd (nr (snd (fst (fil_of g_end)))) 2 2 (fst (centred false (sim_v g_end) (sim_i g_end))) (snd (centred false (sim_v g_end) (sim_i g_end))).
Proof.
  rewrite g_rows. split; [apply (left_inverse 4 2 _ (g_pinv (fst (centred false (sim_v g_end) (sim_i g_end))))); vm_compute; reflexivity|].
  apply routinesb_ok. vm_compute. reflexivity.
Qed.
Lemma g_before : all_before [2] [3].
Proof. intros x p [<-|[]] [<-|[]]. lia. Qed.
Example C85_grounded_ex : exists i1 v1 i2 v2 y P f h c, f_output g_end = Some (Simulation i1 v1 i2 v2 y P f h) /\
  explained 4 2 2 v2 y i2 c /\ i1 = i2 /\ v1 = v2 /\ get y 0 0 = g_y.
Proof.
  destruct (C85_grounded g_pinv roundq root4 (fun m a => Cx m a) x_randint x_gauss still 0 (g_flow 2) x_flow3 x_y3 x_reduce3 (fun m => Ok m) (fun m => Ok m)
    (g_conf []) (g_opt false) [] g_ns g_ls _ _ eq_refl eq_refl (g_recomputes false) (g_single g_ns eq_refl) g_ran
    _ _ _ _ _ _ _ [2] [0; 1] g_end_timed keeps_still g_results g_filtered g_eliminated (proj1 g_clean) (proj2 g_clean)
    (fun _ _ _ _ F => match F with end) g_stay [3] eq_refl g_substations g_before g_steady ltac:(left; cbn; lia)) as (i1 & v1 & i2 & v2 & y & P & f & h & c & EO & EX & NF).
  exists i1, v1, i2, v2, y, P, f, h, c. split; [exact EO|]. rewrite g_rows in EX. split; [exact EX|]. destruct (NF silent_still (g_noise_free [])) as [N1 N2].
  split; [exact N1|]. split; [exact N2|].
  assert (EY : keqb (get (sim_y g_end) 0 0) g_y = true) by (vm_compute; reflexivity). rewrite (sim_y_is _ _ _ _ _ _ _ _ _ EO) in EY. apply keqb_eq. exact EY.
Qed.
Definition g_ident := fst (irun g_svd (i_opt false) (with_output g_end (mzeros 0 0))).
Lemma g_ident_ok : irun g_svd (i_opt false) (with_output g_end (mzeros 0 0)) = (g_ident, Ok tt).
Proof. apply x_ran. vm_compute. reflexivity. Qed.
Example C86_grounded_ex : exists l, g_ident (standard_path "net") = Some (Standard (sim_y g_end) (sim_y g_end) l) /\ get (sim_y g_end) 0 0 = g_y.
Proof.
  destruct (sim_ok g_end ltac:(vm_compute; reflexivity)) as (i2 & v2 & P & f & h & EO).
  destruct (C86_grounded g_pinv roundq root4 (fun m a => Cx m a) x_randint x_gauss still 0 (g_flow 2) x_flow3 x_y3 x_reduce3 (fun m => Ok m) (fun m => Ok m)
    (g_conf []) (g_opt false) [] g_ns g_ls _ _ eq_refl eq_refl (g_recomputes false) (g_single g_ns eq_refl) g_ran
    _ _ _ _ _ _ _ [2] [0; 1] g_end_timed keeps_still g_results g_filtered g_eliminated (proj1 g_clean) (proj2 g_clean)
    (fun _ _ _ _ F => match F with end) g_stay g_svd ksolve norm1 (fun x => x) cov1 cov1 conf1 (i_opt false) _ g_ident _ _ _ _ _ _ _ _ EO silent_still (g_noise_free []) (output_there _ _) g_ident_ok
    eq_refl (or_introl eq_refl) eq_refl ltac:(discriminate) (proj1 g_routines) (proj2 g_routines) [3] eq_refl g_substations g_before g_steady ltac:(left; cbn; lia)) as (l & E).
  exists l. split; [exact E|]. apply keqb_eq. vm_compute. reflexivity.
Qed.

(** three phases: the ratings are ordered by phase and bus, the columns by bus and phase *)
Definition t_ns := [bd 1 1 5 2 10 0; bd 2 1 1 1 10 0; bd 3 3 9 9 10 0].
Definition t_files := DataFiles (K := Qc) (Some (LoadsFile (mk 3 3 (fun t j => zq (Z.of_nat (t + j)))) (mk 3 3 (fun t j => zq (Z.of_nat j))) (Some []) [0; 100; 86340]%Z)) None None None.
Definition t_end := fst (xrun (x_conf 4) (x_opt3 false true true) [] (Some (t_ns, [])) t_files).
Lemma t_ran : xrun (x_conf 4) (x_opt3 false true true) [] (Some (t_ns, [])) t_files = (t_end, Ok tt).
Proof. apply x_ran. vm_compute. reflexivity. Qed.
Lemma t_contract : forall n y, x_y3 n = Ok y -> shape y (3 * length (buses n)) (3 * length (buses n)).
Proof. intros n y E. injection E as <-. apply shape_meye. Qed.
Theorem C84_three_phase_ratings_refuted : exists conf o ts ns ls s s' i1 v1 i2 v2 y P f h i b ph,
  three_phased o = true /\ sequence o = false /\ recomputes o /\ xrun conf o ts (Some (ns, ls)) s = (s', Ok tt) /\
  f_output s' = Some (Simulation i1 v1 i2 v2 y P f h) /\ nc v2 = 3 * length ns /\ length P = 3 * length ns /\ length h = 3 * length ns /\
  (forall c, In c ns -> both is_single c) /\ nth_error ns i = Some b /\ bd_type b = 1 /\ ph < 3 /\
  nth (3 * i + ph) h 0%Z = (1 + Z.of_nat ph)%Z /\ vget P (3 * i + ph) <> (safety_factor conf * squared_power b)%K.
Proof.
  assert (A : match f_output t_end with Some (Simulation _ _ _ v2 _ P _ h) => (nc v2 =? 9) && (length P =? 9) && (length h =? 9) && (nth 1 h 0%Z =? 2)%Z && negb (keqb (vget P 1) (zq 116)) | _ => false end = true) by (vm_compute; reflexivity).
  exists (x_conf 4), (x_opt3 false true true), [], t_ns, [], t_files, t_end. pose proof t_ran as R. remember t_end as e. clear Heqe.
  destruct (f_output e) as [[i1 v1 i2 v2 y P f h| | | |]|] eqn:E; try discriminate A. rewrite !andb_true_iff in A. destruct A as [[[[A1 A2] A3] A4] A5].
  apply Nat.eqb_eq in A1, A2, A3. apply Z.eqb_eq in A4. apply negb_true_iff in A5.
  exists i1, v1, i2, v2, y, P, f, h, 0, (bd 1 1 5 2 10 0), 1. split; [reflexivity|]. split; [reflexivity|]. split; [left; auto|]. split; [exact R|]. split; [reflexivity|].
  split; [exact A1|]. split; [exact A2|]. split; [exact A3|]. split; [apply g_single; reflexivity|]. split; [reflexivity|]. split; [reflexivity|]. split; [lia|]. split; [exact A4|].
  assert (Q : keqb (vget P 1) (safety_factor (x_conf 4) * squared_power (bd 1 1 5 2 10 0))%K = false).
  { replace (safety_factor (x_conf 4) * squared_power (bd 1 1 5 2 10 0))%K with (zq 116) by (apply keqb_eq; vm_compute; reflexivity). exact A5. }
  apply keqb_neq. exact Q.
Qed.
Example C84_three_phases_ex : exists n kept P, NetData3P [] (Some t_ns) (Some []) None = Ok n /\ phase_ratings (zq 4) n P /\
  StronglySorted lt kept /\ (forall k, In k kept -> k < 9).
Proof.
  destruct (C84_three_phases _ _ _ _ _ _ _ _ _ _ _ _ _ _ (x_conf 4) (x_opt3 false true true) [] t_ns [] _ _ eq_refl eq_refl (or_introl (Logic.conj eq_refl eq_refl)) t_contract t_ran)
    as (n & kept & nv & ni & v & i & y & P & f & EN & _ & _ & _ & _ & _ & _ & SK & LK & PR).
  exists n, kept, P. split; [exact EN|]. split; [exact PR|]. split; [exact SK|].
  assert (L : match NetData3P [] (Some t_ns) (Some []) None with Ok n => length (buses n) =? 3 | _ => false end = true) by (vm_compute; reflexivity).
  rewrite EN in L. apply Nat.eqb_eq in L. rewrite L in LK. exact LK.
Qed.

(** a hidden load that is a constant impedance: it is replaced by a shunt of the wrong sign *)
Definition h_ns := [bd 1 1 5 2 20 0; bd 2 1 1 1 20 0; bd 3 3 9 9 20 0].
Definition h_end := fst (grun 4 (g_conf [2]) (g_opt true) [] (Some (h_ns, l_ls)) l_start).
Lemma h_ran : grun 4 (g_conf [2]) (g_opt true) [] (Some (h_ns, l_ls)) l_start = (h_end, Ok tt).
Proof. apply x_ran. vm_compute. reflexivity. Qed.
Lemma h_stay : stay [2] true h_ns [0; 2].
Proof.
  split; [repeat constructor|]. intro k. split.
  - intros [<-|[<-|[]]]; (eexists; split; [reflexivity|]; split; [intros [X|[]]; discriminate X|]; split; [reflexivity|]); intro T.
    + left. apply keqb_neq. vm_compute. reflexivity.
    + exfalso. apply T. reflexivity.
  - intros (b & E & H & _ & _). destruct k as [|[|[|k]]]; [left; reflexivity| |right; left; reflexivity|destruct k; discriminate E].
    exfalso. cbn [nth_error h_ns] in E. apply (f_equal (fun o => match o with Some b => bd_id b | None => 0 end)) in E. apply H. left. exact E.
Qed.
Lemma h_eliminated : eliminated [2] h_ns [1].
Proof.
  split; [repeat constructor; intros []|]. intro k. split.
  - intros [<-|[]]. eexists. split; [reflexivity|]. split; [discriminate|]. left. left. reflexivity.
  - intros (b & E & T & Q). destruct k as [|[|[|k]]]; [|left; reflexivity| |destruct k; discriminate E];
      cbn [nth_error h_ns] in E; apply (f_equal (fun o => match o with Some b => b | None => bd 0 0 0 0 0 0 end)) in E; cbv beta iota in E; subst b.
    + destruct Q as [[X|[]]|[Z1 _]]; [discriminate X|absurd_zero Z1].
    + exfalso. apply T. reflexivity.
Qed.
Theorem C85_hidden_impedance_refuted : exists flow conf o ts ns ls s s' V I Y i1 v1 i2 v2 y P f h E kept,
  simulate g_pinv roundq root4 (fun m a => Cx m a) x_randint x_gauss still 0 flow x_flow3 x_y3 x_reduce3 (fun m => Ok m) (fun m => Ok m) conf o ts (Some (ns, ls)) s = (s', Ok tt) /\
  three_phased o = false /\ sequence o = false /\ recomputes o /\ laplacian o = true /\ (forall b, In b ns -> both is_single b) /\ timed s' /\ noise_free conf /\ no_shunts ns /\
  eliminated (hidden_nodes conf) ns E /\ stay (hidden_nodes conf) true ns kept /\ shown (hidden_nodes conf) ns /\
  f_results s' = Some (V, I, Y) /\ solvable g_pinv Y E /\ (forall x, In x E -> exists a, forall t, t < nr I -> get I t x = (a * get V t x)%K) /\
  f_output s' = Some (Simulation i1 v1 i2 v2 y P f h) /\ nr y = nc v2 /\ mmul v2 y <> i2.
Proof.
  assert (A : match f_output h_end with Some (Simulation _ _ i2 v2 y _ _ _) => (nr y =? nc v2) && negb (keqb (get (mmul v2 y) 0 0) (get i2 0 0)) | _ => false end = true) by (vm_compute; reflexivity).
  assert (B : let a := (get (snd (fst (res_of h_end))) 0 1 / get (fst (fst (res_of h_end))) 0 1)%K in
    forall_lt (nr (snd (fst (res_of h_end)))) (fun t => keqb (get (snd (fst (res_of h_end))) t 1) (a * get (fst (fst (res_of h_end))) t 1)%K) = true) by (vm_compute; reflexivity).
  assert (C : PropKron.penroseb 1 (block_of (snd (res_of h_end)) [1] [1]) (g_pinv (block_of (snd (res_of h_end)) [1] [1])) = true) by (vm_compute; reflexivity).
  assert (R : f_results h_end = Some (fst (fst (res_of h_end)), snd (fst (res_of h_end)), snd (res_of h_end))) by (apply res_ok; vm_compute; reflexivity).
  assert (T : timed h_end) by (apply g_timed; vm_compute; reflexivity).
  exists (g_flow 4), (g_conf [2]), (g_opt true), [], h_ns, l_ls, l_start, h_end. pose proof h_ran as RUN.
  remember (res_of h_end) as r. remember h_end as e. clear Heqe Heqr.
  destruct (f_output e) as [[i1 v1 i2 v2 y P f h| | | |]|] eqn:E; try discriminate A. apply andb_true_iff in A. destruct A as [A1 A2]. apply Nat.eqb_eq in A1. apply negb_true_iff, keqb_neq in A2.
  exists (fst (fst r)), (snd (fst r)), (snd r), i1, v1, i2, v2, y, P, f, h, [1], [0; 2].
  split; [exact RUN|]. split; [reflexivity|]. split; [reflexivity|]. split; [apply g_recomputes|]. split; [reflexivity|]. split; [apply g_single; reflexivity|].
  split; [exact T|]. split; [apply g_noise_free|]. split.
  { intros b [<-|[<-|[<-|[]]]] X; [reflexivity|reflexivity|discriminate X]. }
  split; [exact h_eliminated|]. split; [exact h_stay|]. split.
  { intros b [<-|[<-|[<-|[]]]] X [Y|[]]; [discriminate X|discriminate X|discriminate Y]. }
  split; [exact R|]. split; [apply g_solvable; exact C|]. split.
  { intros x [<-|[]]. cbv zeta in B. eexists. intros t Ht. apply keqb_eq. exact (forall_lt_spec _ _ B t Ht). }
  split; [reflexivity|]. split; [exact A1|]. intro Q. apply A2. rewrite Q. reflexivity.
Qed.

(** the substation before an idle bus, matrix without the substation: the matrix has more nodes than the measurements *)
Definition f_ns := [bd 1 3 9 9 20 0; bd 2 1 0 0 20 0; bd 3 1 5 2 20 0].
Definition f_end := fst (grun 2 (g_conf []) (g_opt false) [] (Some (f_ns, l_ls)) l_start).
Lemma f_ran : grun 2 (g_conf []) (g_opt false) [] (Some (f_ns, l_ls)) l_start = (f_end, Ok tt).
Proof. apply x_ran. vm_compute. reflexivity. Qed.
Theorem C85_substation_first_refuted : exists conf o ts ns ls s s' i1 v1 i2 v2 y P f h V I Y E,
  grun 2 conf o ts (Some (ns, ls)) s = (s', Ok tt) /\
  three_phased o = false /\ sequence o = false /\ recomputes o /\ laplacian o = false /\ (forall b, In b ns -> both is_single b) /\ timed s' /\ noise_free conf /\ hidden_nodes conf = [] /\
  f_results s' = Some (V, I, Y) /\ eliminated [] ns E /\ no_current E I /\ solvable g_pinv Y E /\
  f_output s' = Some (Simulation i1 v1 i2 v2 y P f h) /\ nr y <> nc v2.
Proof.
  assert (A : match f_output f_end with Some (Simulation _ _ i2 v2 y _ _ _) => negb (nr y =? nc v2) | _ => false end = true) by (vm_compute; reflexivity).
  assert (B : forall_lt (nr (snd (fst (res_of f_end)))) (fun t => keqb (get (snd (fst (res_of f_end))) t 1) k0) = true) by (vm_compute; reflexivity).
  assert (C : PropKron.penroseb 1 (block_of (snd (res_of f_end)) [1] [1]) (g_pinv (block_of (snd (res_of f_end)) [1] [1])) = true) by (vm_compute; reflexivity).
  assert (R : f_results f_end = Some (fst (fst (res_of f_end)), snd (fst (res_of f_end)), snd (res_of f_end))) by (apply res_ok; vm_compute; reflexivity).
  assert (T : timed f_end) by (apply g_timed; vm_compute; reflexivity).
  exists (g_conf []), (g_opt false), [], f_ns, l_ls, l_start, f_end. pose proof f_ran as RUN.
  remember (res_of f_end) as r. remember f_end as e. clear Heqe Heqr.
  destruct (f_output e) as [[i1 v1 i2 v2 y P f h| | | |]|] eqn:E; try discriminate A. apply negb_true_iff, Nat.eqb_neq in A.
  exists i1, v1, i2, v2, y, P, f, h, (fst (fst r)), (snd (fst r)), (snd r), [1].
  split; [exact RUN|]. split; [reflexivity|]. split; [reflexivity|]. split; [apply g_recomputes|]. split; [reflexivity|]. split; [apply g_single; reflexivity|].
  split; [exact T|]. split; [apply g_noise_free|]. split; [reflexivity|]. split; [exact R|]. split.
  { split; [repeat constructor; intros []|]. intro k. split.
    - intros [<-|[]]. eexists. split; [reflexivity|]. split; [discriminate|]. right. split; reflexivity.
    - intros (b & X & Y & [[]|[Z1 _]]). destruct k as [|[|[|k]]]; [| left; reflexivity| |destruct k; discriminate X];
        cbn [nth_error f_ns] in X; apply (f_equal (fun o => match o with Some b => b | None => bd 0 0 0 0 0 0 end)) in X; cbv beta iota in X; subst b;
        [exfalso; apply Y; reflexivity|absurd_zero Z1]. }
  split; [apply g_no_current; exact B|]. split; [apply g_solvable; exact C|]. split; [reflexivity|exact A].
Qed.
Print Assumptions C84_three_phase_ratings_refuted.
Print Assumptions C85_hidden_impedance_refuted.
Print Assumptions C85_substation_first_refuted.
(** a bus without load *)
Example C84_without_load_ex : snd (grun 2 (g_conf []) (g_opt true) [] (Some ([bd 1 1 5 2 20 0; bd 2 0 0 0 20 0; bd 3 3 9 9 20 0], l_ls)) l_start) = Err IndexError.
Proof. vm_compute. reflexivity. Qed.
