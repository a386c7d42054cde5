(** C82 and C83: repeated runs of the simulation program. *)
From Coq Require Import String.
From Coq Require Import Bool Arith List Lia ZArith QArith Qcanon.
From Verif Require Import BasePy BaseFld BaseOrd BaseSum BaseMat BaseLin BaseNumpy BaseEx BaseRound ModelNet ModelResample ModelLoads ModelMeasure ModelRun ModelScript
  SpecResample SpecLoads SpecMeasure SpecScript ProofScript ProofRerun2 PropKron PropNet PropMeasure.
Import ListNotations.
Close Scope Qc_scope. Close Scope Q_scope. Close Scope string_scope. Open Scope list_scope. Open Scope nat_scope.

Section Theorems.
Context {K : Type} {O : Ops K} {F : Fld K} {O2 : OrdOps K} {OF : OrdFld K}.
Notation CK := (cplx K).
Context (pinv : mat CK -> mat CK) (rnd : K -> Z) (root : K -> K) (polar : K -> K -> CK).
Context {St : Type} (randint : nat -> nat -> St -> list nat * St) (gauss : St -> K * St) (noise : @noise_fun K St K) (seeded : St).
Context (flow1 : net (K := K) -> mat K -> mat K -> res (mat K * mat K)).
Context (flow3 : net (K := K) -> mat K -> mat K -> list (mat K) -> res ((mat K * mat K) * (mat K * mat K) * (mat K * mat K))).
Context (y_bus3 : net (K := K) -> res (mat CK)).
Context (reduce3 : net (K := K) -> mat CK -> mat CK -> list nat -> bool -> res (list nat * mat CK)).
Context (seq_measurement seq_admittance : mat CK -> res (mat CK)).
Notation run := (simulate pinv rnd root polar randint gauss noise seeded flow1 flow3 y_bus3 reduce3 seq_measurement seq_admittance).

(** ** C82: runs can be repeated *)
(** a complete run does not depend on the files found *)
Theorem C82_complete_run : forall conf o ts template s s', complete o -> run conf o ts template s = (s', Ok tt) ->
  forall s2, run conf o ts template s2 = (s', Ok tt).
Proof. exact (p_complete pinv rnd root polar randint gauss noise seeded flow1 flow3 y_bus3 reduce3 seq_measurement seq_admittance). Qed.
(** afterwards, recomputing the noise and any earlier part changes nothing *)
Theorem C82_repeated_with_noise : forall conf o ts template s0 s1 p s d, complete o -> run conf o ts template s0 = (s1, Ok tt) ->
  d = true \/ (p = false /\ s = false) -> run conf (with_flags o p s d) ts template s1 = (s1, Ok tt).
Proof. exact (p_repeat pinv rnd root polar randint gauss noise seeded flow1 flow3 y_bus3 reduce3 seq_measurement seq_admittance). Qed.
(** without -d the ratings are those for the factor 4, and three phases with equivalent noise get another averaging factor *)
Theorem C82_repeated_without_noise : forall conf o ts template s0 s1 p s, complete o -> run conf o ts template s0 = (s1, Ok tt) -> p = true \/ s = true ->
  exists i v j w y h P P' f, let g := samples rnd (seconds (time_stamps (days conf))) (measurement_frequency conf) / time_steps conf in
    f_output s1 = Some (Simulation i v j w y P (knat f) h) /\ f = (if three_phased o && equivalent_noise o then 1 else g) /\ rescaled (safety_factor conf) P P' /\
    run conf (with_flags o p s false) ts template s1 =
      (DataFiles (f_loads s1) (f_results s1) (f_filtered s1) (Some (Simulation i v j w y P' (knat g) h)), Ok tt).
Proof. exact (p_repeat_stored pinv rnd root polar randint gauss noise seeded flow1 flow3 y_bus3 reduce3 seq_measurement seq_admittance). Qed.
Theorem C82_repeated_same : forall conf o ts template s0 s1 p s, complete o -> run conf o ts template s0 = (s1, Ok tt) -> p = true \/ s = true ->
  safety_factor conf = knat 4 -> three_phased o && equivalent_noise o = false -> run conf (with_flags o p s false) ts template s1 = (s1, Ok tt).
Proof. exact (p_repeat_same pinv rnd root polar randint gauss noise seeded flow1 flow3 y_bus3 reduce3 seq_measurement seq_admittance). Qed.

(** ** C83: data that are up to date *)
(** [up_to_date]: recomputing simulation and noise from the loads file changes no file *)
Notation up_to_date conf o ts template s := (run conf (with_flags o false true true) ts template s = (s, Ok tt)).
Theorem C83_up_to_date : forall conf o ts template s s', complete o \/ (network_sim_only o = true /\ noise_only o = true) ->
  run conf o ts template s = (s', Ok tt) -> up_to_date conf o ts template s'.
Proof.
  intros conf o ts template s s' H. apply (p_current pinv rnd root polar randint gauss noise seeded flow1 flow3 y_bus3 reduce3 seq_measurement seq_admittance);
    destruct H as [H|[H1 H2]]; try apply (complete_redo o H); unfold rs, rd, redo; rewrite ?H1, ?H2; reflexivity.
Qed.
Theorem C83_noise_after_up_to_date : forall conf0 o0 conf o ts template s s', up_to_date conf0 o0 ts template s -> three_phased o = three_phased o0 ->
  run conf (with_flags o false false true) ts template s = (s', Ok tt) -> up_to_date conf o ts template s'.
Proof. exact (p_current_noise pinv rnd root polar randint gauss noise seeded flow1 flow3 y_bus3 reduce3 seq_measurement seq_admittance). Qed.
Theorem C83_noise_repeated : forall conf o ts template s, up_to_date conf o ts template s -> run conf (with_flags o false false true) ts template s = (s, Ok tt).
Proof. exact (p_current_again pinv rnd root polar randint gauss noise seeded flow1 flow3 y_bus3 reduce3 seq_measurement seq_admittance). Qed.
(** with -p or -s but without -d the saved measurements are the old ones, whatever the new loads and settings *)
Theorem C83_stale : forall conf1 o1 conf2 o2 ts template s0 s1 s2, run conf1 o1 ts template s0 = (s1, Ok tt) ->
  three_phased o2 = three_phased o1 -> sequence o2 = sequence o1 -> laplacian o2 = laplacian o1 -> hidden_nodes conf2 = hidden_nodes conf1 ->
  noise_only o2 = false -> loads_only o2 = true \/ network_sim_only o2 = true ->
  run conf2 o2 ts template s1 = (s2, Ok tt) -> f_filtered s2 = f_filtered s1 /\ same_measurements (f_output s1) (f_output s2).
Proof. exact (p_stale pinv rnd root polar randint gauss noise seeded flow1 flow3 y_bus3 reduce3 seq_measurement seq_admittance). Qed.
Theorem C83_untouched_files : forall conf o ts template s s', run conf o ts template s = (s', Ok tt) ->
  loads_only o = true \/ network_sim_only o = true \/ noise_only o = true ->
  (loads_only o = false -> f_loads s' = f_loads s) /\ (network_sim_only o = false -> f_results s' = f_results s) /\ (noise_only o = false -> f_filtered s' = f_filtered s).
Proof. exact (p_untouched pinv rnd root polar randint gauss noise seeded flow1 flow3 y_bus3 reduce3 seq_measurement seq_admittance). Qed.
(** a failed run leaves the output *)
Theorem C83_failed_run : forall conf o ts template s s' e, run conf o ts template s = (s', Err e) -> f_output s' = f_output s.
Proof. exact (p_failed pinv rnd root polar randint gauss noise seeded flow1 flow3 y_bus3 reduce3 seq_measurement seq_admittance). Qed.
End Theorems.
Print Assumptions C82_complete_run.
Print Assumptions C82_repeated_with_noise.
Print Assumptions C82_repeated_without_noise.
Print Assumptions C82_repeated_same.
Print Assumptions C83_up_to_date.
Print Assumptions C83_noise_after_up_to_date.
Print Assumptions C83_noise_repeated.
Print Assumptions C83_stale.
Print Assumptions C83_untouched_files.
Print Assumptions C83_failed_run.

(** ** Concrete runs: one day of normally distributed loads, a substation and two loads *)
Definition x_randint (b k : nat) (s : nat) : list nat * nat := (repeat 0 k, S s).
Definition x_gauss (s : nat) : Qc * nat := (zq (Z.of_nat (s mod 3) - 1), S s).
(** a "power flow": the magnitude grows with the active power, the angle with the reactive one *)
Definition x_flow (n : net (K := Qc)) (p q : mat Qc) : res (mat Qc * mat Qc) :=
  Ok (mk (nr p) (nc p) (fun t j => kadd k1 (kmul (qq 1 100) (get p t j))), mk (nr q) (nc q) (fun t j => kmul (qq 1 100) (get q t j))).
Definition x_flow3 (n : net (K := Qc)) (p q : mat Qc) (a : list (mat Qc)) : res ((mat Qc * mat Qc) * (mat Qc * mat Qc) * (mat Qc * mat Qc)) :=
  let r := (mk (nr p) (length (buses n)) (fun t j => kadd k1 (kmul (qq 1 100) (get p t j))), mk (nr q) (length (buses n)) (fun t j => zq (Z.of_nat j))) in Ok (r, r, r).
Definition x_y3 (n : net (K := Qc)) : res (mat (cplx Qc)) := Ok (meye (3 * length (buses n))).
Definition x_reduce3 (n : net (K := Qc)) (v i : mat (cplx Qc)) (hidden : list nat) (b : bool) : res (list nat * mat (cplx Qc)) := y <- x_y3 n ;; Ok ([], y).
Notation xrun := (simulate inv_of roundq root4 (fun m a => Cx m a) x_randint x_gauss adds 0 x_flow x_flow3 x_y3 x_reduce3 (fun m => Ok m) (fun m => Ok m)).
Definition x_ns := [bd 1 3 9 9 10 0; bd 2 1 5 2 10 0; bd 3 1 1 1 10 0].
Definition x_ls := [ldq 3 1 2 6 8 1 None; ldq 1 2 1 4 5 1 None].
Definition x_conf (factor : Z) : settings Qc := Settings Qc [] true (qq 84 100) [] 1 2 (qq 1 21585) (zq factor) (zq 1) (zq 1) (zq 1) (zq 1).
Definition x_opt (g : Qc) (p s d : bool) : options Qc := Options Qc None g p s d false false false true.
Definition no_files := DataFiles (K := Qc) None None None None.
Definition x_net : option (list (bus_data (K := Qc)) * list (line_data (K := Qc))) := Some (x_ns, x_ls).
(** the files after a complete run *)
Definition x_first (factor : Z) := fst (xrun (x_conf factor) (x_opt (qq 1 2) false false false) [] x_net no_files).
Lemma x_ran : forall A (r : A * res unit), okb (snd r) = true -> r = (fst r, Ok tt).
Proof. intros A [a [[]|e]] H; [reflexivity|discriminate]. Qed.
Lemma x_first_ok : forall factor, factor = 4%Z \/ factor = 2%Z -> xrun (x_conf factor) (x_opt (qq 1 2) false false false) [] x_net no_files = (x_first factor, Ok tt).
Proof. intros factor [->| ->]; apply x_ran; vm_compute; reflexivity. Qed.
Lemma x_complete : forall g, complete (x_opt g false false false).
Proof. intro g. left. auto. Qed.
Example C82_ex : exists i v j w y h, f_output (x_first 4) = Some (Simulation i v j w y [zq 124; zq 116; zq 8] (zq 2) h) /\
  xrun (x_conf 4) (x_opt (qq 1 2) true false true) [] x_net (x_first 4) = (x_first 4, Ok tt) /\
  xrun (x_conf 4) (x_opt (qq 1 2) true true false) [] x_net (x_first 4) = (x_first 4, Ok tt).
Proof.
  pose proof (x_first_ok 4 (or_introl eq_refl)) as H.
  assert (E : match f_output (x_first 4) with Some (Simulation _ _ _ _ _ p f _) => (veqb p [zq 124; zq 116; zq 8] && keqb f (zq 2))%bool | _ => false end = true) by (vm_compute; reflexivity).
  destruct (f_output (x_first 4)) as [[i v j w y p f h| | | |]|]; try discriminate E. apply andb_true_iff in E. destruct E as [E1 E2]. apply veqb_eq in E1. apply keqb_eq in E2. subst.
  exists i, v, j, w, y, h. split; [reflexivity|].
  split; [apply (C82_repeated_with_noise _ _ _ _ _ _ _ _ _ _ _ _ _ _ (x_conf 4) (x_opt (qq 1 2) false false false) [] x_net _ _ true false true (x_complete _) H); left; reflexivity|].
  apply (C82_repeated_same _ _ _ _ _ _ _ _ _ _ _ _ _ _ (x_conf 4) (x_opt (qq 1 2) false false false) [] x_net _ _ true true (x_complete _) H); [left; reflexivity| |reflexivity].
  apply keqb_eq. vm_compute. reflexivity.
Qed.
(** with another safety factor, simulating again changes the ratings *)
Theorem C82_safety_factor_refuted : exists conf o ts template s0 s1 s2, complete o /\ xrun conf o ts template s0 = (s1, Ok tt) /\
  xrun conf (with_flags o false true false) ts template s1 = (s2, Ok tt) /\ f_output s2 <> f_output s1.
Proof.
  pose proof (x_first_ok 2 (or_intror eq_refl)) as H.
  destruct (C82_repeated_without_noise _ _ _ _ _ _ _ _ _ _ _ _ _ _ _ _ _ _ _ _ false true (x_complete _) H (or_intror eq_refl)) as (i & v & j & w & y & h & P & P' & f & E & _ & [_ R] & E2).
  eexists (x_conf 2), (x_opt (qq 1 2) false false false), [], x_net, no_files, (x_first 2), _. split; [exact (x_complete _)|]. split; [exact H|]. split; [exact E2|]. cbn [f_output].
  assert (T : match f_output (x_first 2) with Some (Simulation _ _ _ _ _ p f _) => veqb p [zq 62; zq 58; zq 4] | _ => false end = true) by (vm_compute; reflexivity).
  rewrite E in *. apply veqb_eq in T. subst P. intro D.
  apply (f_equal (fun c => match c with Some (Simulation _ _ _ _ _ p _ _) => p | _ => [] end)) in D. cbv beta iota in D. subst P'. specialize (R 0 ltac:(cbn; lia)). revert R. apply keqb_neq. vm_compute. reflexivity.
Qed.
(** three phases with equivalent noise: the averaging factor is 1 at first, then the number of samples per time step *)
Definition x_ns3 := [bd 1 3 0 0 10 0; bd 2 1 5 2 10 0].
Definition x_opt3 (p s d : bool) : options Qc := Options Qc None (zq 0) p s d true false true false.
Definition x_files3 := DataFiles (K := Qc) (Some (LoadsFile (mk 3 2 (fun t j => zq (Z.of_nat (t + j)))) (mk 3 2 (fun t j => zq (Z.of_nat j))) (Some []) [0; 100; 86340]%Z)) None None None.
Example C82_three_phases_ex : forall d, exists i v j w y h P,
  let s := fst (xrun (x_conf 4) (x_opt3 false true true) [] (Some (x_ns3, [])) x_files3) in
  snd (xrun (x_conf 4) (x_opt3 false true true) [] (Some (x_ns3, [])) x_files3) = Ok tt /\
  xrun (x_conf 4) (x_opt3 false true d) [] (Some (x_ns3, [])) s = (DataFiles (f_loads s) (f_results s) (f_filtered s) (Some (Simulation i v j w y P (knat (if d then 1 else 2)) h)), Ok tt).
Proof. intro d. destruct d; vm_compute; repeat eexists. Qed.

(** new loads and a new simulation, but the old measurements *)
Definition x_second := fst (xrun (x_conf 4) (x_opt (qq 1 4) true true false) [] x_net (x_first 4)).
Lemma x_second_ok : xrun (x_conf 4) (x_opt (qq 1 4) true true false) [] x_net (x_first 4) = (x_second, Ok tt).
Proof. apply x_ran. vm_compute. reflexivity. Qed.
Definition x_third := fst (xrun (x_conf 4) (x_opt (qq 1 4) false true true) [] x_net x_second).
Lemma x_third_ok : xrun (x_conf 4) (x_opt (qq 1 4) false true true) [] x_net x_second = (x_third, Ok tt).
Proof. apply x_ran. vm_compute. reflexivity. Qed.
Definition clean_voltages (s : data_files Qc) : mat (cplx Qc) := match f_output s with Some (Simulation _ _ _ w _ _ _ _) => w | _ => mk 0 0 (fun _ _ => k0) end.
Lemma same_clean : forall a b, same_measurements (f_output a) (f_output b) -> clean_voltages a = clean_voltages b.
Proof. intros a b (i & v & j & w & y & h & p & f & p' & f' & E1 & E2). unfold clean_voltages. rewrite E1, E2. reflexivity. Qed.
Definition loads_seen (s : data_files Qc) : mat Qc := match f_loads s with Some l => lf_p l | None => mk 0 0 (fun _ _ => k0) end.
Definition results_seen (s : data_files Qc) : mat (cplx Qc) := match f_results s with Some (v, _, _) => v | None => mk 0 0 (fun _ _ => k0) end.
Theorem C83_new_loads_refuted : exists conf1 o1 conf2 o2 ts template s0 s1 s2 s3,
  xrun conf1 o1 ts template s0 = (s1, Ok tt) /\ xrun conf2 o2 ts template s1 = (s2, Ok tt) /\ loads_only o2 = true /\ network_sim_only o2 = true /\
  f_loads s2 <> f_loads s1 /\ f_results s2 <> f_results s1 /\ same_measurements (f_output s1) (f_output s2) /\
  xrun conf2 (with_flags o2 false true true) ts template s2 = (s3, Ok tt) /\ ~ same_measurements (f_output s2) (f_output s3).
Proof.
  exists (x_conf 4), (x_opt (qq 1 2) false false false), (x_conf 4), (x_opt (qq 1 4) true true false), [], x_net, no_files, (x_first 4), x_second, x_third.
  split; [exact (x_first_ok 4 (or_introl eq_refl))|]. split; [exact x_second_ok|]. split; [reflexivity|]. split; [reflexivity|].
  assert (D1 : get (loads_seen x_second) 0 2 <> get (loads_seen (x_first 4)) 0 2) by (apply keqb_neq; vm_compute; reflexivity).
  assert (D2 : get (results_seen x_second) 0 2 <> get (results_seen (x_first 4)) 0 2) by (apply keqb_neq; vm_compute; reflexivity).
  assert (D3 : get (clean_voltages x_second) 0 2 <> get (clean_voltages x_third) 0 2) by (apply keqb_neq; vm_compute; reflexivity).
  split; [intro E; apply D1; unfold loads_seen; rewrite E; reflexivity|]. split; [intro E; apply D2; unfold results_seen; rewrite E; reflexivity|].
  split. { eapply C83_stale; [exact (x_first_ok 4 (or_introl eq_refl))|..]; [| | | | | |exact x_second_ok]; auto. }
  split; [exact x_third_ok|]. intro E. apply D3. rewrite (same_clean _ _ E). reflexivity.
Qed.
Example C83_ex : xrun (x_conf 4) (x_opt (qq 1 4) false true true) [] x_net x_third = (x_third, Ok tt) /\
  xrun (x_conf 4) (x_opt (qq 1 4) false false true) [] x_net x_third = (x_third, Ok tt).
Proof.
  assert (U : xrun (x_conf 4) (x_opt (qq 1 4) false true true) [] x_net x_third = (x_third, Ok tt)).
  { refine (C83_up_to_date _ _ _ _ _ _ _ _ _ _ _ _ _ _ (x_conf 4) (x_opt (qq 1 4) false true true) [] x_net _ _ _ x_third_ok). right. auto. }
  split; [exact U|]. exact (C83_noise_repeated _ _ _ _ _ _ _ _ _ _ _ _ _ _ (x_conf 4) (x_opt (qq 1 4) false true true) [] x_net _ U).
Qed.
(** a template that does not exist: the output stays *)
Example C83_failed_ex : xrun (x_conf 4) (x_opt (qq 1 2) false false false) [] None (x_first 4) = (x_first 4, Err AttributeError).
Proof. reflexivity. Qed.
Print Assumptions C82_safety_factor_refuted.
Print Assumptions C83_new_loads_refuted.
