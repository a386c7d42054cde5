(** Property C117: the time series and its directory. *)
From Coq Require Import String.
From Coq Require Import Bool Arith ZArith Lia List Qcanon.
From Verif Require Import BasePy BaseFld BaseOrd BaseSum BaseMat BaseEx ModelNet ModelScript ModelSimRun SpecSimRun ProofSimRun.
Import ListNotations.
Close Scope Qc_scope. Close Scope Q_scope. Close Scope string_scope. Open Scope list_scope. Open Scope nat_scope.

(** one phase: the sample [t] is the power flow with the row [t] of the loads, whatever older results of the same kind the directory holds *)
Theorem C117_samples :
  forall (K : Type) (O : Ops K) (flow : net (K := K) -> res (columns (K := K))) n p q dir (d : drive (K := K)) r,
  nc p = length (loads n) -> nc q = length (loads n) -> nr q = nr p -> own_files logged1 (d dir) ->
  (forall t m, t < nr p -> sample p q t n m -> flow m = Ok (r t)) -> steady logged1 (nr p) r ->
  exists d' out, sim_run flow n p q dir d = (d', Ok out) /\ holds logged1 (nr p) r out /\ forall x, x <> dir -> d' x = d x.
Proof.
  intros K O flow n p q dir d r Hp Hq Hr HO HF HS. destruct (controls1 n p q ltac:(split; [exact Hp|split; [exact Hq|exact Hr]])) as [E HC].
  unfold sim_run, run_sources. rewrite E. cbn [bind].
  rewrite (series_is flow [(LoadP, p); (LoadQ, q)] (frame1 n) (fun t m => sample p q t n m) HC r n); [|split; [eexists; eexists; apply loaded_self|reflexivity]|exact HF].
  change (steps [(LoadP, p); (LoadQ, q)]) with (nr p). cbv zeta. destruct (holds1 r (nr p) HS) as (out & E1 & H1). eexists. exists out. split; [|split; [exact H1|]].
  - f_equal. unfold write_dir. rewrite String.eqb_refl, put_own; [exact E1|rewrite names_results; exact nodup1|rewrite names_results; exact HO].
  - intros x Hx. unfold write_dir. apply String.eqb_neq in Hx. rewrite Hx. reflexivity.
Qed.
Print Assumptions C117_samples.

(** three phases: also the unbalanced loads, the tables in the order of the variables; tables after the sixth are not used *)
Theorem C117_samples3 :
  forall (K : Type) (O : Ops K) (flow : net (K := K) -> res (columns (K := K))) n p q a dir (d : drive (K := K)) r,
  nc p = length (loads n) -> nc q = length (loads n) -> nr q = nr p -> 6 <= length a -> (forall i, i < 6 -> nr (nth i a p) = nr p /\ nc (nth i a p) = length (asyms n)) ->
  own_files logged3 (d dir) -> (forall t m, t < nr p -> sample3 p q a t n m -> flow m = Ok (r t)) -> steady logged3 (nr p) r ->
  exists d' out, sim_run3 flow n p q (Some a) dir d = (d', Ok out) /\ holds logged3 (nr p) r out /\ forall x, x <> dir -> d' x = d x.
Proof.
  intros K O flow n p q a dir d r Hp Hq Hr H6 HA HO HF HS. destruct (controls3 n p q a ltac:(split; [exact Hp|split; [exact Hq|exact Hr]]) (Logic.conj H6 HA)) as (srcs & E & ES & HC).
  unfold sim_run3, run_sources. rewrite E. cbn [bind]. rewrite <- ES in *.
  rewrite (series_is flow srcs (frame3 n) (fun t m => sample3 p q a t n m) HC r n); [|do 4 eexists; split; [apply loaded_self|apply unbalanced_self]|exact HF].
  cbv zeta. destruct (holds3 r (steps srcs) HS) as (out & E1 & H1). eexists. exists out. split; [|split; [exact H1|]].
  - f_equal. unfold write_dir. rewrite String.eqb_refl, put_own; [exact E1|rewrite names_results; exact nodup3|rewrite names_results; exact HO].
  - intros x Hx. unfold write_dir. apply String.eqb_neq in Hx. rewrite Hx. reflexivity.
Qed.
Print Assumptions C117_samples3.

(** the voltages saved by the simulation program (run.py:104-138) are those of the power flows *)
Theorem C117_voltages :
  forall (K : Type) (O : Ops K) polar flow3 y_bus3 (flow : net (K := K) -> res (columns (K := K))) n lf dir (d : drive (K := K)) r v i y,
  nc (lf_p lf) = length (loads n) -> nc (lf_q lf) = length (loads n) -> nr (lf_q lf) = nr (lf_p lf) -> own_files logged1 (d dir) ->
  (forall t m, t < nr (lf_p lf) -> sample (lf_p lf) (lf_q lf) t n m -> flow m = Ok (r t)) -> steady logged1 (nr (lf_p lf)) r ->
  new_results polar (flow1_of flow dir d) flow3 y_bus3 false n lf = Ok (v, i, y) ->
  nr v = nr (lf_p lf) /\ forall t j, t < nr (lf_p lf) -> j < nc v -> get v t j = polar (nth j (r t "res_bus" "vm_pu")%string 0%K) (nth j (r t "res_bus" "va_degree")%string 0%K).
Proof.
  intros K O polar flow3 y_bus3 flow n lf dir d r v i y Hp Hq Hr HO HF HS H. destruct (C117_samples K O flow n _ _ dir d r Hp Hq Hr HO HF HS) as (d' & out & E & HH & _).
  destruct (HH "res_bus" "vm_pu")%string as (m & Em & Nm & Rm); [cbn; auto|]. destruct (HH "res_bus" "va_degree")%string as (a & Ea & Na & Ra); [cbn; auto|].
  unfold new_results in H. apply bind_ok in H. destruct H as (y' & _ & H). apply bind_ok in H. destruct H as ([v' i'] & H & HE). apply bind_ok in H. destruct H as ([m' a'] & H1 & H2).
  unfold flow1_of in H1. rewrite E in H1. cbn [snd bind] in H1. rewrite Em, Ea in H1. assert (m' = m /\ a' = a) as [-> ->] by (split; congruence).
  unfold get_current_and_voltage in H2. apply bind_ok in H2. destruct H2 as (v2 & H2 & H3). apply bind_ok in H3. destruct H3 as (y2 & _ & H3). apply bind_ok in H3. destruct H3 as (i2 & _ & H3). assert (v2 = v) as -> by congruence.
  unfold voltages in H2. destruct (_ && _) eqn:EB; [|discriminate]. apply andb_true_iff in EB. destruct EB as [_ EC]. apply Nat.eqb_eq in EC. assert (EV : v = mk (nr m) (nc m) (fun t j => polar (get m t j) (get a t j))) by congruence. subst v.
  split; [exact Nm|]. intros t j Ht Hj. cbn [nc mk] in Hj. rewrite get_mk by (try exact Hj; rewrite Nm; exact Ht). rewrite <- (Rm t Ht), <- (Ra t Ht).
  rewrite (nth_error_nth _ _ 0%K (ne_row m t j Hj)), (nth_error_nth _ _ 0%K (ne_row a t j ltac:(lia))). reflexivity.
Qed.
Print Assumptions C117_voltages.

(** the same with three phases; the phases of a node stand beside each other *)
Theorem C117_voltages3 :
  forall (K : Type) (O : Ops K) polar flow1 y_bus3 (flow : net (K := K) -> res (columns (K := K))) n lf a dir (d : drive (K := K)) r v i y,
  lf_a lf = Some a -> nc (lf_p lf) = length (loads n) -> nc (lf_q lf) = length (loads n) -> nr (lf_q lf) = nr (lf_p lf) ->
  6 <= length a -> (forall i, i < 6 -> nr (nth i a (lf_p lf)) = nr (lf_p lf) /\ nc (nth i a (lf_p lf)) = length (asyms n)) -> own_files logged3 (d dir) ->
  (forall t m, t < nr (lf_p lf) -> sample3 (lf_p lf) (lf_q lf) a t n m -> flow m = Ok (r t)) -> steady logged3 (nr (lf_p lf)) r ->
  new_results polar flow1 (flow3_of flow dir d) y_bus3 true n lf = Ok (v, i, y) ->
  nr v = nr (lf_p lf) /\ forall t j h, t < nr (lf_p lf) -> h < 3 -> 3 * j + h < nc v ->
    get v t (3 * j + h) = polar (nth j (r t "res_bus_3ph"%string (vm_column h)) 0%K) (nth j (r t "res_bus_3ph"%string (va_column h)) 0%K).
Proof.
  intros K O polar flow1 y_bus3 flow n lf a dir d r v i y EA Hp Hq Hr H6 HA HO HF HS H. destruct (C117_samples3 K O flow n _ _ a dir d r Hp Hq Hr H6 HA HO HF HS) as (d' & out & E & HH & _).
  destruct (HH "res_bus_3ph" "vm_a_pu")%string as (ma & Ema & Nma & Rma); [cbn; auto 20|]. destruct (HH "res_bus_3ph" "va_a_degree")%string as (aa & Eaa & Naa & Raa); [cbn; auto 20|].
  destruct (HH "res_bus_3ph" "vm_b_pu")%string as (mb & Emb & Nmb & Rmb); [cbn; auto 20|]. destruct (HH "res_bus_3ph" "va_b_degree")%string as (ab & Eab & Nab & Rab); [cbn; auto 20|].
  destruct (HH "res_bus_3ph" "vm_c_pu")%string as (mc & Emc & Nmc & Rmc); [cbn; auto 20|]. destruct (HH "res_bus_3ph" "va_c_degree")%string as (ac & Eac & Nac & Rac); [cbn; auto 20|].
  unfold new_results in H. apply bind_ok in H. destruct H as (y' & _ & H). apply bind_ok in H. destruct H as ([v' i'] & H & HE). rewrite EA in H. apply bind_ok in H. destruct H as (rr & H1 & H2).
  unfold flow3_of in H1. rewrite E in H1. cbn [snd bind] in H1. rewrite Ema, Eaa, Emb, Eab, Emc, Eac in H1. cbn [bind] in H1. assert (rr = ((ma, aa), (mb, ab), (mc, ac))) as -> by congruence.
  unfold get_current_and_voltage3 in H2. cbn [fst snd] in H2. apply bind_ok in H2. destruct H2 as (va & Ha & H2). apply bind_ok in H2. destruct H2 as (vb & Hb & H2). apply bind_ok in H2. destruct H2 as (vc & Hc & H2).
  apply bind_ok in H2. destruct H2 as (v2 & H2 & H3). apply bind_ok in H3. destruct H3 as (y2 & _ & H3). apply bind_ok in H3. destruct H3 as (i2 & _ & H3). assert (v2 = v) as -> by congruence.
  assert (V : forall m b w, voltages polar m b = Ok w -> nc m = nc b /\ w = mk (nr m) (nc m) (fun t j => polar (get m t j) (get b t j))).
  { intros m b w Hw. unfold voltages in Hw. destruct (_ && _) eqn:EB; [|discriminate]. apply andb_true_iff in EB. destruct EB as [_ EC]. apply Nat.eqb_eq in EC. split; [exact EC|congruence]. }
  apply V in Ha, Hb, Hc. destruct Ha as [Ca Ha], Hb as [Cb Hb], Hc as [Cc Hc]. unfold interleave in H2. destruct (_ && _) eqn:EB in H2; [|discriminate]. rewrite !andb_true_iff, !Nat.eqb_eq in EB. destruct EB as (((_ & B1) & _) & B2). rewrite Ha, Hb, Hc in *. cbn [nr nc mk] in *.
  set (F := fun t j : nat => _) in H2. assert (EV : v = mk (nr ma) (nc ma * 3) F) by congruence. split; [rewrite EV; exact Nma|].
  intros t j h Ht Hh Hj. rewrite EV in Hj |- *. cbn [nc mk] in Hj. rewrite get_mk by (try exact Hj; rewrite Nma; exact Ht). assert (Hj' : j < nc ma) by lia. unfold F.
  assert (D1 : (3 * j + h) mod 3 = h) by (rewrite Nat.add_comm, Nat.mul_comm, Nat.mod_add by lia; apply Nat.mod_small; exact Hh).
  assert (D2 : (3 * j + h) / 3 = j) by (rewrite Nat.add_comm, Nat.mul_comm, Nat.div_add by lia; rewrite Nat.div_small by exact Hh; reflexivity). rewrite D1, D2.
  destruct h as [|[|[|h]]]; try lia; cbn [vm_column va_column nth]; rewrite get_mk by lia.
  - rewrite <- (Rma t Ht), <- (Raa t Ht), (nth_error_nth _ _ 0%K (ne_row ma t j Hj')), (nth_error_nth _ _ 0%K (ne_row aa t j ltac:(lia))). reflexivity.
  - rewrite <- (Rmb t Ht), <- (Rab t Ht), (nth_error_nth _ _ 0%K (ne_row mb t j ltac:(lia))), (nth_error_nth _ _ 0%K (ne_row ab t j ltac:(lia))). reflexivity.
  - rewrite <- (Rmc t Ht), <- (Rac t Ht), (nth_error_nth _ _ 0%K (ne_row mc t j ltac:(lia))), (nth_error_nth _ _ 0%K (ne_row ac t j ltac:(lia))). reflexivity.
Qed.
Print Assumptions C117_voltages3.

(** a table that does not have one column for each load, or a power flow that does not converge: the exception, and no file is changed *)
Theorem C117_failures :
  forall (K : Type) (O : Ops K) (flow : net (K := K) -> res (columns (K := K))) n p q dir (d : drive (K := K)),
  (nc p <> length (loads n) \/ nc q <> length (loads n) -> sim_run flow n p q dir d = (d, Err ValueError) /\ forall a, sim_run3 flow n p q a dir d = (d, Err ValueError)) /\
  (nc p = length (loads n) -> nc q = length (loads n) -> nr q = nr p -> forall t0 r e, t0 < nr p ->
   (forall t m, t < t0 -> sample p q t n m -> flow m = Ok (r t)) -> (forall m, sample p q t0 n m -> flow m = Err e) -> sim_run flow n p q dir d = (d, Err e)).
Proof.
  intros K O flow n p q dir d. split.
  - intro H. assert (E : sources1 n p q = Err ValueError).
    { unfold sources1, add_source. cbn [size_of]. destruct (nc p =? length (loads n)) eqn:E1; [|reflexivity]. cbn [bind]. destruct (nc q =? length (loads n)) eqn:E2; [|reflexivity]. apply Nat.eqb_eq in E1, E2. exfalso. destruct H; contradiction. }
    split; [unfold sim_run, run_sources; rewrite E; reflexivity|]. intro a. unfold sim_run3, run_sources, sources3. rewrite E. reflexivity.
  - intros Hp Hq Hr t0 r e Ht HF HE. destruct (controls1 n p q ltac:(split; [exact Hp|split; [exact Hq|exact Hr]])) as [E HC]. unfold sim_run, run_sources. rewrite E. cbn [bind].
    rewrite (series_fails flow [(LoadP, p); (LoadQ, q)] (frame1 n) (fun t m => sample p q t n m) HC r t0 e n Ht); [reflexivity|split; [eexists; eexists; apply loaded_self|reflexivity]|exact HF|exact HE].
Qed.
Print Assumptions C117_failures.

(** the same with three phases; fewer than six tables of unbalanced loads raise IndexError *)
Theorem C117_failures3 :
  forall (K : Type) (O : Ops K) (flow : net (K := K) -> res (columns (K := K))) n p q a dir (d : drive (K := K)),
  nc p = length (loads n) -> nc q = length (loads n) ->
  (length a < 6 -> (forall i m, nth_error a i = Some m -> nc m = length (asyms n)) -> sim_run3 flow n p q (Some a) dir d = (d, Err IndexError)) /\
  (6 <= length a -> (exists i m, i < 6 /\ nth_error a i = Some m /\ nc m <> length (asyms n)) -> sim_run3 flow n p q (Some a) dir d = (d, Err ValueError)) /\
  (nr q = nr p -> 6 <= length a -> (forall i, i < 6 -> nr (nth i a p) = nr p /\ nc (nth i a p) = length (asyms n)) -> forall t0 r e, t0 < nr p ->
   (forall t m, t < t0 -> sample3 p q a t n m -> flow m = Ok (r t)) -> (forall m, sample3 p q a t0 n m -> flow m = Err e) -> sim_run3 flow n p q (Some a) dir d = (d, Err e)).
Proof.
  intros K O flow n p q a dir d Hp Hq.
  assert (E : sources1 n p q = Ok [(LoadP, p); (LoadQ, q)]) by (unfold sources1, add_source; cbn [size_of]; rewrite Hp, Nat.eqb_refl; cbn [bind]; rewrite Hq, Nat.eqb_refl; reflexivity).
  split; [|split].
  - intros HL HC. unfold sim_run3, run_sources, sources3. rewrite E. cbn [bind]. change (range (length variables)) with [0; 1; 2; 3; 4; 5]. unfold add_source.
    assert (HC' : forall i m, nth_error a i = Some m -> (nc m =? length (asyms n)) = true) by (intros i m Hm; apply Nat.eqb_eq; apply (HC i m Hm)).
    destruct a as [|a0 [|a1 [|a2 [|a3 [|a4 [|a5 rest]]]]]]; try (cbn in HL; lia); cbn [for_each nth_error nth variables size_of];
      repeat match goal with |- context [(nc ?m =? length (asyms n))] => first [rewrite (HC' 0 m eq_refl)|rewrite (HC' 1 m eq_refl)|rewrite (HC' 2 m eq_refl)|rewrite (HC' 3 m eq_refl)|rewrite (HC' 4 m eq_refl)]; cbn [bind] end; reflexivity.
  - intros HL (i & m & Hi & Hm & HN). unfold sim_run3, run_sources, sources3. rewrite E. cbn [bind]. change (range (length variables)) with [0; 1; 2; 3; 4; 5]. unfold add_source.
    destruct a as [|a0 [|a1 [|a2 [|a3 [|a4 [|a5 rest]]]]]]; try (cbn in HL; lia). cbn [for_each nth_error nth variables size_of].
    destruct (nc a0 =? length (asyms n)) eqn:E0; [|reflexivity]. destruct (nc a1 =? length (asyms n)) eqn:E1; [|reflexivity]. destruct (nc a2 =? length (asyms n)) eqn:E2; [|reflexivity].
    destruct (nc a3 =? length (asyms n)) eqn:E3; [|reflexivity]. destruct (nc a4 =? length (asyms n)) eqn:E4; [|reflexivity]. destruct (nc a5 =? length (asyms n)) eqn:E5; [|reflexivity].
    exfalso. apply HN. apply Nat.eqb_eq. destruct i as [|[|[|[|[|[|i]]]]]]; try lia; cbn [nth_error] in Hm; congruence.
  - intros Hr H6 HA t0 r e Ht HF HE. destruct (controls3 n p q a ltac:(split; [exact Hp|split; [exact Hq|exact Hr]]) (Logic.conj H6 HA)) as (srcs & E3 & ES & HC). unfold sim_run3, run_sources. rewrite E3. cbn [bind]. rewrite <- ES in *.
    rewrite (series_fails flow srcs (frame3 n) (fun t m => sample3 p q a t n m) HC r t0 e n Ht); [reflexivity|do 4 eexists; split; [apply loaded_self|apply unbalanced_self]|exact HF|exact HE].
Qed.
Print Assumptions C117_failures3.

(** a file of another kind in the directory: the run does not return *)
Theorem C117_other_file :
  forall (K : Type) (O : Ops K) (flow : net (K := K) -> res (columns (K := K))) n p q a dir (d : drive (K := K)) f,
  In f (d dir) ->
  (~ In (snd (fst f)) fields1 -> forall out, snd (sim_run flow n p q dir d) <> Ok out) /\
  (~ In (snd (fst f)) fields3 -> forall out, snd (sim_run3 flow n p q a dir d) <> Ok out).
Proof.
  intros K O flow n p q a dir d f Hf.
  assert (G : forall logged fields l, (forall g, In g logged -> In (snd g) fields) -> NoDup logged -> ~ In (snd (fst f)) fields -> from_dir fields (fold_left put_file (results_of logged l) (d dir)) = Err TypeError).
  { intros logged fields l HL ND HN. rewrite put_all by (rewrite names_results; exact ND). unfold from_dir. match goal with |- (if ?b then _ else _) = _ => assert (EB : b = false) end; [|rewrite EB; reflexivity].
    apply andb_false_iff. left. apply not_true_is_false. intro HA. rewrite forallb_forall in HA. specialize (HA (snd (fst f), snd f)).
    assert (HI : In (snd (fst f), snd f) (map (fun g : file => (snd (fst g), snd g)) (filter (fun g => forallb (fun f0 => negb (same_name f0 g)) (results_of logged l)) (d dir) ++ results_of logged l))).
    { apply (in_map (fun g : file => (snd (fst g), snd g)) _ f). apply in_or_app. left. apply filter_In. split; [exact Hf|]. apply forallb_forall. intros g Hg. apply negb_true_iff. destruct (same_name g f) eqn:E; [|reflexivity].
      apply same_name_iff in E. exfalso. apply HN. rewrite <- E. apply HL. rewrite <- (names_results logged l). apply in_map. exact Hg. }
    specialize (HA HI). apply existsb_exists in HA. destruct HA as (x & Hx & E). apply String.eqb_eq in E. cbn [fst] in E. apply HN. rewrite E. exact Hx. }
  split; intros HN out H.
  - unfold sim_run, run_sources in H. destruct (bind _ _) as [l|e]; [|discriminate]. cbn [snd] in H. unfold write_dir in H. rewrite String.eqb_refl, (G logged1 fields1 l) in H; [discriminate| |exact nodup1|exact HN].
    intros g Hg. unfold logged1, fields1 in *. cbn [In] in *. repeat match goal with H : _ \/ _ |- _ => destruct H as [H|H] end; try contradiction; subst g; cbn; auto 10.
  - unfold sim_run3, run_sources in H. destruct (bind _ _) as [l|e]; [|discriminate]. cbn [snd] in H. unfold write_dir in H. rewrite String.eqb_refl, (G logged3 fields3 l) in H; [discriminate| |exact nodup3|exact HN].
    intros g Hg. unfold logged3, fields3 in *. cbn [In map] in *. repeat match goal with H : _ \/ _ |- _ => destruct H as [H|H] end; try contradiction; subst g; cbn; auto 20.
Qed.
Print Assumptions C117_other_file.

(** programs that started in different seconds can run at the same time: each one reads what it has written *)
Theorem C117_parallel :
  forall (K : Type) (O : Ops K) (ps : list (program (K := K))) (d : drive (K := K)) l,
  NoDup (map pr_dir ps) -> (forall p, In p ps -> NoDup (map fst (pr_files p)) /\ own_files (map fst (pr_files p)) (d (pr_dir p))) -> in_order l ->
  forall k out, In (k, out) (snd (schedule ps d l)) -> exists p, nth_error ps k = Some p /\ out = from_dir (pr_fields p) (pr_files p).
Proof.
  intros K O ps d l ND HO. 
  assert (G : in_order l -> (forall k p, nth_error ps k = Some p -> (In (Writes k) l -> fst (schedule ps d l) (pr_dir p) = pr_files p) /\ (~ In (Writes k) l -> fst (schedule ps d l) (pr_dir p) = d (pr_dir p))) /\
    forall k out, In (k, out) (snd (schedule ps d l)) -> exists p, nth_error ps k = Some p /\ out = from_dir (pr_fields p) (pr_files p)); [|intro HL; apply G; exact HL].
  assert (DD : forall k k' p p', nth_error ps k = Some p -> nth_error ps k' = Some p' -> pr_dir p = pr_dir p' -> k = k').
  { intros k k' p p' E E' ED. apply (proj1 (NoDup_nth_error (map pr_dir ps)) ND); [rewrite map_length; apply nth_error_Some; congruence|]. rewrite !nth_error_map, E, E'. cbn. congruence. }
  induction l as [|a l IH] using rev_ind; intro HL.
  { split; [|intros k out []]. intros k p _. split; [intros []|reflexivity]. }
  assert (HL' : in_order l) by (intros l1 k l2 E; apply (HL l1 k (l2 ++ [a])); rewrite E, <- app_assoc; reflexivity).
  destruct (IH HL') as [I1 I2]. unfold schedule in *. rewrite fold_left_app. cbn [fold_left]. set (st := fold_left (act ps) l (d, [])) in *. clearbody st. destruct a as [h|h]; cbn [act].
  - destruct (nth_error ps h) as [p0|] eqn:E0.
    + cbn [fst snd]. split; [|exact I2]. intros k p E. unfold write_dir. destruct (pr_dir p =? pr_dir p0)%string eqn:ED.
      * apply String.eqb_eq in ED. assert (k = h) by (apply (DD k h p p0 E E0 ED)). subst h. assert (p0 = p) by congruence. subst p0. split; [intros _|intro N; exfalso; apply N; apply in_or_app; right; left; reflexivity].
        destruct (HO p (nth_error_In _ _ E)) as [N1 N2]. apply put_own; [exact N1|]. destruct (I1 k p E) as [A B]. destruct (in_dec (fun x y : action => ltac:(decide equality; apply Nat.eq_dec) : {x = y} + {x <> y}) (Writes k) l) as [W|W].
        -- rewrite (A W). intros f Hf. apply in_map. exact Hf.
        -- rewrite (B W). exact N2.
      * destruct (I1 k p E) as [A B]. assert (HK : h <> k) by (intros ->; apply String.eqb_neq in ED; apply ED; congruence). split.
        -- intro W. apply A. apply in_app_or in W. destruct W as [W|[W|[]]]; [exact W|congruence].
        -- intro W. apply B. intro W'. apply W. apply in_or_app. left. exact W'.
    + split; [|exact I2]. intros k p E. destruct (I1 k p E) as [A B]. split.
      * intro W. apply A. apply in_app_or in W. destruct W as [W|[W|[]]]; [exact W|congruence].
      * intro W. apply B. intro W'. apply W. apply in_or_app. left. exact W'.
  - assert (I1' : forall k p, nth_error ps k = Some p -> (In (Writes k) (l ++ [Reads h]) -> fst st (pr_dir p) = pr_files p) /\ (~ In (Writes k) (l ++ [Reads h]) -> fst st (pr_dir p) = d (pr_dir p))).
    { intros k p E. destruct (I1 k p E) as [A B]. split.
      * intro W. apply A. apply in_app_or in W. destruct W as [W|[W|[]]]; [exact W|congruence].
      * intro W. apply B. intro W'. apply W. apply in_or_app. left. exact W'. }
    destruct (nth_error ps h) as [p0|] eqn:E0; [|split; [exact I1'|exact I2]]. cbn [fst snd]. split; [exact I1'|]. intros k out Hk. apply in_app_or in Hk. destruct Hk as [Hk|[Hk|[]]]; [apply I2; exact Hk|].
    assert (k = h /\ out = from_dir (pr_fields p0) (fst st (pr_dir p0))) as [-> ->] by (split; congruence). exists p0. split; [exact E0|]. f_equal. apply (I1 h p0 E0). apply (HL l h []). reflexivity.
Qed.
Print Assumptions C117_parallel.

(** *** a network of three nodes with two loads; the values of the power flow are simple functions of the loads *)
Definition s_cols (P Q : list Qc) : columns (K := Qc) := fun tb v =>
  if (tb =? "res_line")%string then [zq 50] else if (v =? "vm_pu")%string then map (fun x => 1 - x)%K P else if (v =? "va_degree")%string then map (fun x => - x)%K Q else P ++ Q.
Definition s_flow (m : net (K := Qc)) : res (columns (K := Qc)) := Ok (s_cols (map l_p (loads m)) (map l_q (loads m))).
Definition s_net : net (K := Qc) :=
  Net [Bus 1 "1"%string (zq 20); Bus 2 "2"%string (zq 20); Bus 3 "3"%string (zq 20)] [Load 2 2 (zq 7) (zq 3) (zq 0) (zq 0); Load 3 3 (zq 8) (zq 4) (zq 0) (zq 0)]
    [Asym 3 3 (fun _ => zq 1) (fun _ => zq 2)] [1] [] (zq 1) [].
Definition s_mat (l : list (list Z)) : mat Qc := mk (length l) (length (nth 0 l [])) (fun t j => zq (nth j (nth t l []) 0%Z)).
Definition s_p : mat Qc := s_mat [[1; 2]; [3; 5]; [4; 6]]%Z.
Definition s_q : mat Qc := s_mat [[2; 2]; [1; 7]; [0; 9]]%Z.
Definition s_a : list (mat Qc) := map (fun z => s_mat [[z]; [2 * z]; [3 * z]]%Z) [1; 2; 3; 4; 5; 6]%Z.
Definition empty : drive (K := Qc) := fun _ => [].
Lemma s_sample : forall n p q t m, loads n = loads s_net -> loaded n m (get p t) (get q t) -> nc p = 2 -> nc q = 2 -> s_flow m = Ok (s_cols (table_row p t) (table_row q t)).
Proof.
  intros n p q t m EN (_ & HL & HN) Hp Hq. rewrite EN in *. pose proof (HN 0 _ eq_refl) as H0. pose proof (HN 1 _ eq_refl) as H1. unfold s_flow, table_row. rewrite Hp, Hq. destruct (loads m) as [|x [|y [|z l]]]; try discriminate HL. cbn [nth_error] in H0, H1.
  assert (EX : forall a b : load_row (K := Qc), Some a = Some b -> a = b) by (intros; congruence). apply EX in H0, H1. subst x y. reflexivity.
Qed.
Definition s_r (t : nat) : columns (K := Qc) := s_cols (table_row s_p t) (table_row s_q t).
Lemma s_steady : forall logged, steady logged 3 s_r.
Proof. intros logged tb v t _ _. unfold s_r, s_cols. destruct (tb =? "res_line")%string; [reflexivity|]. destruct (v =? "vm_pu")%string; [rewrite !map_length, !length_row; reflexivity|]. destruct (v =? "va_degree")%string; [rewrite !map_length, !length_row; reflexivity|]. rewrite !app_length, !length_row. reflexivity. Qed.
Definition s_old : drive (K := Qc) := fun x => if (x =? "sim_2")%string then [("res_bus", "vm_pu", s_q)]%string else [].
Definition vm_row (t : nat) (r : res (results (K := Qc))) : list Qc := match r with Ok r => match field r "vm_pu"%string with Some m => table_row m t | None => [] end | Err _ => [] end.
Definition leqb (a b : list Qc) : bool := (length a =? length b) && forallb (fun '(x, y) => keqb x y) (combine a b).
Example C117_samples_ex : exists d' out, sim_run s_flow s_net s_p s_q "sim_2"%string s_old = (d', Ok out) /\ holds logged1 3 s_r out /\ (forall x, x <> "sim_2"%string -> d' x = s_old x) /\
  leqb (vm_row 1 (snd (sim_run s_flow s_net s_p s_q "sim_2"%string s_old))) [zq (-2); zq (-4)] = true.
Proof.
  destruct (C117_samples Qc _ s_flow s_net s_p s_q "sim_2"%string s_old s_r eq_refl eq_refl eq_refl) as (d' & out & E & H & HD).
  - intros f [<-|[]]. cbn. auto.
  - intros t m _ (HL & _). eapply s_sample; [|exact HL|reflexivity|reflexivity]; reflexivity.
  - apply s_steady.
  - exists d', out. split; [exact E|]. split; [exact H|]. split; [exact HD|vm_compute; reflexivity].
Qed.
Example C117_samples3_ex : exists d' out, sim_run3 s_flow s_net s_p s_q (Some s_a) "sim_2"%string empty = (d', Ok out) /\ holds logged3 3 s_r out.
Proof.
  destruct (C117_samples3 Qc _ s_flow s_net s_p s_q s_a "sim_2"%string empty s_r eq_refl eq_refl eq_refl) as (d' & out & E & H & _).
  - cbn. lia.
  - intros [|[|[|[|[|[|i]]]]]] Hi; try lia; split; reflexivity.
  - intros f [].
  - intros t m _ (HL & _). eapply s_sample; [|exact HL|reflexivity|reflexivity]; reflexivity.
  - apply s_steady.
  - exists d', out. split; [exact E|exact H].
Qed.
(** a power flow that sees the unbalanced loads: each phase gets its own table *)
Definition s_flow3 (m : net (K := Qc)) : res (columns (K := Qc)) := Ok (fun _ _ => flat_map (fun a => [a_p a 0; a_p a 1; a_p a 2; a_q a 0; a_q a 1; a_q a 2]) (asyms m)).
Example C117_phases_ex : match snd (sim_run3 s_flow3 s_net s_p s_q (Some s_a) "sim_2"%string empty) with
  | Ok r => match field r "vm_a_pu"%string with Some m => leqb (table_row m 1) (map zq [2; 4; 6; 8; 10; 12]%Z) | None => false end | Err _ => false end = true.
Proof. vm_compute. reflexivity. Qed.
Definition s_file : loads_file Qc := LoadsFile s_p s_q None [].
Definition s_net2 : net (K := Qc) := Net [Bus 1 "1"%string (zq 1); Bus 2 "2"%string (zq 1)] (loads s_net) [] [1] [Line 1 1 2 (zq 1) (zq 1) (zq 1)] (zq 1) [].
Example C117_voltages_ex : exists v i y, new_results (fun m a => Cx m a) (flow1_of s_flow "sim_2"%string s_old) (fun _ _ _ _ => Err ValueError) (fun _ => Err ValueError) false s_net2 s_file = Ok (v, i, y) /\
  (nr v = 3 /\ forall t j, t < 3 -> j < nc v -> get v t j = Cx (nth j (s_r t "res_bus" "vm_pu")%string 0%K) (nth j (s_r t "res_bus" "va_degree")%string 0%K)) /\ nc v = 2.
Proof.
  assert (B : match new_results (fun m a => Cx m a) (flow1_of s_flow "sim_2"%string s_old) (fun _ _ _ _ => Err ValueError) (fun _ => Err ValueError) false s_net2 s_file with Ok (v, _, _) => nc v =? 2 | Err _ => false end = true) by (vm_compute; reflexivity).
  destruct (new_results _ _ _ _ _ _ _) as [[[v i] y]|e] eqn:E; [|discriminate]. exists v, i, y. split; [reflexivity|]. split; [|apply Nat.eqb_eq; exact B].
  apply (C117_voltages Qc _ (fun m a => Cx m a) (fun _ _ _ _ => Err ValueError) (fun _ => Err ValueError) s_flow s_net2 s_file "sim_2"%string s_old s_r v i y eq_refl eq_refl eq_refl).
  - intros f [<-|[]]. cbn. auto.
  - intros t m _ (HL & _). eapply s_sample; [|exact HL|reflexivity|reflexivity]; reflexivity.
  - apply s_steady.
  - exact E.
Qed.
(** the second power flow does not converge; a table with a column too many *)
Definition s_stop (m : net (K := Qc)) : res (columns (K := Qc)) := if existsb (fun l => keqb (l_p l) (zq 5)) (loads m) then Err UserWarning else s_flow m.
Example C117_failures_ex : snd (sim_run s_stop s_net s_p s_q "sim_2"%string s_old) = Err UserWarning /\ snd (sim_run s_flow s_net s_p (hd s_p s_a) "sim_2"%string s_old) = Err ValueError.
Proof.
  split.
  2: { refine (f_equal snd (proj1 (proj1 (C117_failures Qc _ s_flow s_net s_p (hd s_p s_a) "sim_2"%string s_old) _))). right. discriminate. }
  refine (f_equal snd (proj2 (C117_failures Qc _ s_stop s_net s_p s_q "sim_2"%string s_old) eq_refl eq_refl eq_refl 1 s_r UserWarning _ _ _)); [cbn; lia| |].
  - intros t m Ht (HL & _). assert (t = 0) as -> by lia. pose proof (s_sample s_net s_p s_q 0 m eq_refl HL eq_refl eq_refl) as E. unfold s_stop. rewrite E. destruct HL as (_ & HL & HN). pose proof (HN 0 _ eq_refl) as H0. pose proof (HN 1 _ eq_refl) as H1.
    destruct (loads m) as [|x [|y [|z l]]]; try discriminate HL. cbn [nth_error] in H0, H1. assert (EX : forall a b : load_row (K := Qc), Some a = Some b -> a = b) by (intros; congruence). apply EX in H0, H1. subst x y.
    replace (existsb _ _) with false; [reflexivity|]. symmetry. vm_compute. reflexivity.
  - intros m (HL & _). unfold s_stop. destruct HL as (_ & HL & HN). pose proof (HN 1 _ eq_refl) as H1.
    assert (EX : forall a b : load_row (K := Qc), Some a = Some b -> a = b) by (intros; congruence). replace (existsb _ _) with true; [reflexivity|]. symmetry. apply existsb_exists. eexists. split; [apply (nth_error_In _ 1); exact H1|]. vm_compute. reflexivity.
Qed.

(** a simulation with one phase and one with three phases that start in the same second: the second one fails; it works in another second *)
Theorem C117_mixed_refuted :
  exists (flow : net (K := Qc) -> res columns) n p q a d1 out, sim_run flow n p q "sim_1"%string empty = (d1, Ok out) /\
    snd (sim_run3 flow n p q (Some a) "sim_1"%string d1) = Err TypeError /\ exists out', snd (sim_run3 flow n p q (Some a) "sim_2"%string d1) = Ok out'.
Proof.
  exists s_flow, s_net, s_p, s_q, s_a.
  assert (B : match sim_run s_flow s_net s_p s_q "sim_1"%string empty with (d1, Ok _) => match snd (sim_run3 s_flow s_net s_p s_q (Some s_a) "sim_1"%string d1), snd (sim_run3 s_flow s_net s_p s_q (Some s_a) "sim_2"%string d1) with Err TypeError, Ok _ => true | _, _ => false end | _ => false end = true) by (vm_compute; reflexivity).
  destruct (sim_run s_flow s_net s_p s_q "sim_1"%string empty) as [d1 [out|e]]; [|discriminate]. exists d1, out. split; [reflexivity|].
  destruct (snd (sim_run3 s_flow s_net s_p s_q (Some s_a) "sim_1"%string d1)) as [o1|[]]; try discriminate. split; [reflexivity|].
  destruct (snd (sim_run3 s_flow s_net s_p s_q (Some s_a) "sim_2"%string d1)) as [o2|e]; [|discriminate]. exists o2. reflexivity.
Qed.
Print Assumptions C117_mixed_refuted.

Definition s_files (p : mat Qc) : list (file (K := Qc)) := results_of logged1 [s_cols (table_row p 0) (table_row s_q 0)].
Definition s_two : list (program (K := Qc)) := [Program "sim_1"%string fields1 (s_files s_p); Program "sim_1"%string fields1 (s_files s_q)].
Definition s_apart : list (program (K := Qc)) := [Program "sim_1"%string fields1 (s_files s_p); Program "sim_2"%string fields1 (s_files s_q)].
Definition s_sched : list action := [Writes 0; Writes 1; Reads 0; Reads 1].
Lemma s_in_order : in_order s_sched.
Proof.
  intros l1 k l2 E. destruct l1 as [|a [|b [|c [|e l1]]]]; cbn in E; inversion E; subst; cbn; auto. destruct l1; discriminate.
Qed.
Example C117_parallel_ex : forall k out, In (k, out) (snd (schedule s_apart empty s_sched)) -> exists p, nth_error s_apart k = Some p /\ out = from_dir (pr_fields p) (pr_files p).
Proof.
  apply (C117_parallel Qc _ s_apart empty s_sched).
  - cbn. repeat constructor; cbn; intuition congruence.
  - intros p [<-|[<-|[]]]; cbn [pr_files pr_dir]; (split; [change (NoDup (names (results_of logged1 [s_cols (table_row s_p 0) (table_row s_q 0)]))); rewrite names_results; exact nodup1|intros f []]).
  - exact s_in_order.
Qed.
(** two programs with one phase that started in the same second: the first one reads the voltages of the other one *)
Theorem C117_same_second_refuted :
  exists (ps : list (program (K := Qc))) p1 p2 l out, ps = [p1; p2] /\ pr_dir p1 = pr_dir p2 /\ in_order l /\ In (0, out) (snd (schedule ps empty l)) /\
    out = from_dir (pr_fields p2) (pr_files p2) /\ out <> from_dir (pr_fields p1) (pr_files p1) /\ is_ok out.
Proof.
  exists s_two, (Program "sim_1"%string fields1 (s_files s_p)), (Program "sim_1"%string fields1 (s_files s_q)), s_sched, (from_dir fields1 (s_files s_q)).
  split; [reflexivity|]. split; [reflexivity|]. split; [exact s_in_order|]. split; [|split; [reflexivity|split; [|eexists; reflexivity]]].
  - left. unfold s_two. cbn [fold_left schedule act s_sched nth_error fst snd app pr_dir pr_files pr_fields]. f_equal.
  - intro E. apply (f_equal (fun r => leqb (vm_row 0 r) (vm_row 0 (from_dir fields1 (s_files s_q))))) in E. vm_compute in E. discriminate.
Qed.
Print Assumptions C117_same_second_refuted.
Example C117_other_file_ex : forall out, snd (sim_run3 s_flow s_net s_p s_q (Some s_a) "sim_2"%string s_old) <> Ok out.
Proof.
  apply (proj2 (C117_other_file Qc _ s_flow s_net s_p s_q (Some s_a) "sim_2"%string s_old ("res_bus", "vm_pu", s_q)%string (or_introl eq_refl))). cbn. intuition congruence.
Qed.
Definition s_net3 : net (K := Qc) := Net (buses s_net2) (loads s_net) (asyms s_net) [1] [] (zq 1) [].
Definition s_file3 : loads_file Qc := LoadsFile s_p s_q (Some s_a) [].
Definition s_flow6 (m : net (K := Qc)) : res (columns (K := Qc)) := Ok (fun tb v => if (v =? "vm_b_pu")%string then map l_q (loads m) else if (v =? "va_c_degree")%string then map (fun x => - x)%K (map l_p (loads m)) else map l_p (loads m)).
Definition s_r6 (t : nat) : columns (K := Qc) := fun tb v => if (v =? "vm_b_pu")%string then table_row s_q t else if (v =? "va_c_degree")%string then map (fun x => - x)%K (table_row s_p t) else table_row s_p t.
Definition s_y6 : mat (cplx Qc) := mk 6 6 (fun a b => Cx (zq (Z.of_nat (a + b))) (zq 0)).
Lemma s_sample6 : forall n t m, loads n = loads s_net -> loaded n m (get s_p t) (get s_q t) -> s_flow6 m = Ok (s_r6 t).
Proof.
  intros n t m EN (_ & HL & HN). rewrite EN in *. pose proof (HN 0 _ eq_refl) as H0. pose proof (HN 1 _ eq_refl) as H1. unfold s_flow6, s_r6. destruct (loads m) as [|x [|y [|z l]]]; try discriminate HL. cbn [nth_error] in H0, H1.
  assert (EX : forall a b : load_row (K := Qc), Some a = Some b -> a = b) by (intros; congruence). apply EX in H0, H1. subst x y. reflexivity.
Qed.
Example C117_voltages3_ex : exists v i y, new_results (fun m a => Cx m a) (fun _ _ _ => Err ValueError) (flow3_of s_flow6 "sim_2"%string empty) (fun _ => Ok s_y6) true s_net3 s_file3 = Ok (v, i, y) /\
  (nr v = 3 /\ forall t j h, t < 3 -> h < 3 -> 3 * j + h < nc v -> get v t (3 * j + h) = Cx (nth j (s_r6 t "res_bus_3ph"%string (vm_column h)) 0%K) (nth j (s_r6 t "res_bus_3ph"%string (va_column h)) 0%K)) /\ nc v = 6.
Proof.
  assert (B : match new_results (fun m a => Cx m a) (fun _ _ _ => Err ValueError) (flow3_of s_flow6 "sim_2"%string empty) (fun _ => Ok s_y6) true s_net3 s_file3 with Ok (v, _, _) => nc v =? 6 | Err _ => false end = true) by (vm_compute; reflexivity).
  destruct (new_results _ _ _ _ _ _ _) as [[[v i] y]|e] eqn:E; [|discriminate]. exists v, i, y. split; [reflexivity|]. split; [|apply Nat.eqb_eq; exact B].
  apply (C117_voltages3 Qc _ (fun m a => Cx m a) (fun _ _ _ => Err ValueError) (fun _ => Ok s_y6) s_flow6 s_net3 s_file3 s_a "sim_2"%string empty s_r6 v i y eq_refl eq_refl eq_refl eq_refl).
  - cbn. lia.
  - intros [|[|[|[|[|[|k]]]]]] Hi; try lia; split; reflexivity.
  - intros f [].
  - intros t m _ (HL & _). eapply s_sample6; [|exact HL]. reflexivity.
  - intros tb w t _ _. unfold s_r6. destruct (w =? "vm_b_pu")%string; [rewrite !length_row; reflexivity|]. destruct (w =? "va_c_degree")%string; rewrite ?map_length, !length_row; reflexivity.
  - exact E.
Qed.
Example C117_failures3_ex : snd (sim_run3 s_flow s_net s_p s_q (Some (firstn 4 s_a)) "sim_2"%string s_old) = Err IndexError /\ snd (sim_run3 s_flow s_net s_p s_q (Some (s_p :: s_a)) "sim_2"%string s_old) = Err ValueError.
Proof.
  split.
  - refine (f_equal snd (proj1 (C117_failures3 Qc _ s_flow s_net s_p s_q (firstn 4 s_a) "sim_2"%string s_old eq_refl eq_refl) _ _)); [cbn; lia|].
    intros [|[|[|[|i]]]] m Hm; cbn [firstn s_a map nth_error] in Hm; try (assert (EX : forall a b : mat Qc, Some a = Some b -> b = a) by (intros; congruence); apply EX in Hm; subst m; reflexivity). destruct i; discriminate.
  - refine (f_equal snd (proj1 (proj2 (C117_failures3 Qc _ s_flow s_net s_p s_q (s_p :: s_a) "sim_2"%string s_old eq_refl eq_refl)) _ _)); [cbn; lia|]. exists 0, s_p. split; [lia|]. split; [reflexivity|discriminate].
Qed.
