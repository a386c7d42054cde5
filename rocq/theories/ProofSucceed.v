(** The simulation program runs to its end on a network with one substation. *)
From Coq Require Import String.
From Coq Require Import Bool Arith List ZArith Lia Ring Field.
From Verif Require Import BasePy BaseFld BaseOrd BaseSum BaseMat BaseLin BaseNumpy ModelErrorMetrics ModelSet ModelKron ModelNet ModelReduce
  ModelResample ModelLoads ModelMeasure ModelRun ModelScript SpecLS SpecNet SpecKron SpecReduce SpecResample SpecLoads SpecMeasure SpecScript SpecScriptData SpecPassive SpecTemplates SpecSucceed
  ProofSet ProofKron ProofNet ProofNetBuild ProofReduce ProofResample ProofLoads ProofLoadsSmall ProofMeasure ProofMeasure3 ProofMeasureMain ProofMeasureApi ProofMeasureRows ProofLoadsMain ProofLoadsFloat ProofScript ProofScriptData ProofRerun2 ProofPassive.
Import ListNotations.
Close Scope string_scope.
Local Open Scope K_scope.

Section Succeed.
Context {K : Type} {O : Ops K} {F : Fld K} {O2 : OrdOps K} {OF : OrdFld K}.
Add Field Kfld : (@k_field K O F).
Notation CK := (cplx K).
Context (pinv : mat CK -> mat CK).

Lemma delete_cols_total : forall (A : Type) (OA : Ops A) (m : mat A) idx, (forall i, In i idx -> (i < nc m)%nat) -> exists r, delete_cols m idx = Ok r.
Proof.
  intros A OA m idx H. unfold delete_cols. assert (E : forallb (fun i => i <? nc m)%nat idx = true) by (apply forallb_forall; intros i Hi; apply Nat.ltb_lt; auto).
  rewrite E. eauto.
Qed.
Lemma delete_list_total : forall (A : Type) (v : list A) d idx, (forall i, In i idx -> (i < length v)%nat) -> exists r, delete_list v d idx = Ok r.
Proof.
  intros A v d idx H. unfold delete_list. assert (E : forallb (fun i => i <? length v)%nat idx = true) by (apply forallb_forall; intros i Hi; apply Nat.ltb_lt; auto).
  rewrite E. eauto.
Qed.
Lemma make_shunts_total : forall size (V I : mat CK) h, (forall i, In i h -> (i < nc V)%nat /\ (i < nc I)%nat /\ (i < size)%nat) ->
  exists v, make_shunts size V I h = Ok v /\ length v = size.
Proof.
  intros size V I h H. unfold make_shunts.
  replace (forallb (fun i => i <? nc I)%nat h) with true by (symmetry; apply forallb_forall; intros i Hi; apply Nat.ltb_lt; apply H; auto).
  replace (forallb (fun i => i <? nc V)%nat h) with true by (symmetry; apply forallb_forall; intros i Hi; apply Nat.ltb_lt; apply H; auto).
  replace (forallb (fun i => i <? size)%nat h) with true by (symmetry; apply forallb_forall; intros i Hi; apply Nat.ltb_lt; apply H; auto).
  cbn. eexists. split; [reflexivity|apply length_mkv].
Qed.
Lemma staying_one : forall N g, (g < N)%nat -> length (staying N [g]) = (N - 1)%nat.
Proof.
  intros N g Hg. assert (ND : NoDup [g]) by (constructor; [intros []|constructor]). pose proof (before_count [g] N ND) as B. unfold before in B. cbn [filter] in B.
  replace (g <? N)%nat with true in B by (symmetry; apply Nat.ltb_lt; exact Hg). cbn [length] in B. change (length (staying N [g]) = (N - 1)%nat).
  assert (E : length (staying N [g]) = length (kept_ascending N [g])); [reflexivity|lia].
Qed.
Lemma shift_one : forall N g x, (x < N)%nat -> x <> g -> (g < N)%nat -> (shift1 [g] x < N - 1)%nat.
Proof. intros N g x Hx Hn Hg. unfold shift1. cbn [fold_left]. destruct (Nat.ltb_spec g x); lia. Qed.

Lemma reduce_succeeds : forall (n : net (K := K)) (V I : mat CK) hidden laplacian g Y, consistent n -> make_y_bus n = Ok Y -> shape Y (length (buses n)) (length (buses n)) ->
  (forall r A, shape A r r -> shape (pinv A) r r) -> grids n = [g] -> (forall i, In i hidden -> In i (ids n)) -> nc V = length (buses n) -> nc I = length (buses n) ->
  exists todel y, reduce_network pinv n V I hidden laplacian = Ok (todel, y) /\ forall x, In x todel -> (x < length (buses n))%nat.
Proof.
  intros n V I hidden laplacian g Y C EY SY HP EG HH HV HI. assert (NI : NoDup (ids n)) by apply C.
  destruct (positions_all n hidden NI HH) as [H LH].
  destruct (positions_all n (grids n) NI) as [G LG]; [apply C|].
  destruct (reduce_start pinv n V I hidden H G C LH LG) as (Pa & IP & PG & RS). rewrite (RS laplacian Y EY). clear RS. set (N := length (buses n)) in *.
  assert (EGG : exists p, G = [p] /\ (p < N)%nat).
  { pose proof LG as LG'. rewrite EG in LG'. inversion LG' as [|? p ? ps Ep Q]; subst. inversion Q; subst. exists p. split; [reflexivity|]. apply (located_lt n (grids n) [p] p LG). left; auto. }
  destruct EGG as (p & -> & Hp). cbv zeta. set (Hs := filter (fun i => negb (mem i [p])) H).
  assert (BH : forall x, In x Hs -> (x < N)%nat /\ x <> p).
  { intros x Hx. unfold Hs in Hx. apply filter_In in Hx. destruct Hx as [Hx M]. split; [apply (located_lt n hidden H x LH Hx)|]. intros ->. apply negb_true_iff, mem_not_In in M. apply M. left; auto. }
  assert (BP : forall x, In x Pa -> (x < N)%nat /\ x <> p) by (intros x Hx; apply PG in Hx; split; [apply Hx|intros ->; apply Hx; left; auto]).
  assert (TD : forall x, In x (union_list H Pa) -> (x < N)%nat) by (intros x Hx; apply union_list_In in Hx; destruct Hx as [Hx|Hx]; [apply (located_lt n hidden H x LH Hx)|apply BP; exact Hx]).
  assert (FIN : forall (Y' : mat CK) m h pa, shape Y' m m -> (m <= N)%nat -> (forall x, In x h -> (x < m)%nat) -> (forall x, In x pa -> (x < m)%nat) ->
    exists y, bind (make_shunts (nr Y') V I h) (fun shunts => bind (kron_reduction pinv (union_difference h pa [p]) (madd Y' (diagonal shunts))) (fun y_red => Ok (union_list H Pa, y_red))) = Ok (union_list H Pa, y)).
  { intros Y' m h pa SY' Hm Bh Bp. assert (RY : nr Y' = m) by apply SY'.
    destruct (make_shunts_total (nr Y') V I h) as (v & Ev & Lv); [intros i Hi; specialize (Bh i Hi); lia|]. rewrite Ev. cbn [bind].
    rewrite (kron_ok pinv _ m).
    - cbn [bind]. eauto.
    - unfold madd. destruct SY' as (_ & -> & ->). apply shape_mk.
    - intros i Hi. apply union_difference_ok in Hi. destruct Hi as [[Hi|Hi] _]; auto.
    - apply HP. apply block_shape. }
  destruct laplacian; cbn [bind].
  - destruct (FIN Y N Hs Pa SY (Nat.le_refl _)) as [y E]; [intros x Hx; apply BH; exact Hx|intros x Hx; apply BP; exact Hx|]. rewrite E. eauto.
  - destruct SY as (W & RY & CY). unfold delete_cols. rewrite CY. cbn [forallb]. replace (p <? N)%nat with true by (symmetry; apply Nat.ltb_lt; exact Hp). cbn [andb bind].
    unfold delete_rows. rewrite nr_mk, RY. cbn [forallb]. replace (p <? N)%nat with true by (symmetry; apply Nat.ltb_lt; exact Hp). cbn [andb bind].
    rewrite nc_mk, (staying_one N p Hp). rewrite !shift_map.
    match goal with |- exists _ _, bind (make_shunts (nr ?m) _ _ _) _ = _ /\ _ => destruct (FIN m (N - 1)%nat (map (shift1 [p]) Hs) (map (shift1 [p]) Pa)) as [y E] end.
    + apply shape_mk.
    + lia.
    + intros x Hx. apply in_map_iff in Hx. destruct Hx as (z & <- & Hz). apply BH in Hz. apply shift_one; tauto.
    + intros x Hx. apply in_map_iff in Hx. destruct Hx as (z & <- & Hz). apply BP in Hz. apply shift_one; tauto.
    + rewrite E. eauto.
Qed.

Context (rnd : K -> Z) (root : K -> K) (polar : K -> K -> CK).
Context {St : Type} (randint : nat -> nat -> St -> list nat * St) (gauss : St -> K * St) (noise : @noise_fun K St K) (seeded : St).
Context (flow1 : net (K := K) -> mat K -> mat K -> res (mat K * mat K)).
Context (flow3 : net (K := K) -> mat K -> mat K -> list (mat K) -> res ((mat K * mat K) * (mat K * mat K) * (mat K * mat K))).
Context (y_bus3 : net (K := K) -> res (mat CK)).
Context (reduce3 : net (K := K) -> mat CK -> mat CK -> list nat -> bool -> res (list nat * mat CK)).
Context (seq_measurement seq_admittance : mat CK -> res (mat CK)).
Notation run := (simulate pinv rnd root polar randint gauss noise seeded flow1 flow3 y_bus3 reduce3 seq_measurement seq_admittance).
Notation ok := (run_ok pinv rnd root polar randint gauss noise seeded flow1 flow3 y_bus3 reduce3 seq_measurement seq_admittance).

Lemma hidden_ids : forall (conf : settings K) (o : options K) (ns : list (bus_data (K := K))) i, three_phased o = false -> (forall x, In x (hidden_nodes conf) -> In x (map bd_id ns)) ->
  In i (hidden_list conf o ns) -> In i (map bd_id ns).
Proof.
  intros conf o ns i H3 HH Hi. unfold hidden_list in Hi. rewrite H3 in Hi. unfold with_substations in Hi. destruct (ModelScript.laplacian o); [auto|].
  apply in_app_or in Hi. destruct Hi as [Hi|Hi]; [auto|]. apply in_map_iff in Hi. destruct Hi as (b & <- & Hb). apply filter_In in Hb. apply in_map. tauto.
Qed.
Lemma only_grids : forall (ns : list (bus_data (K := K))) q, only_substation ns q -> exists b, map bd_id (filter (fun b => bd_type b =? 3)%nat ns) = [bd_id b] /\ nth_error ns q = Some b.
Proof.
  intros ns q [(c & Hc & Tc) H]. exists c. split; [|exact Hc]. revert q Hc H. induction ns as [|b ns IH]; intros q Hc H; [destruct q; discriminate|].
  destruct q as [|q].
  - injection Hc as ->. cbn [filter]. rewrite Tc. cbn [Nat.eqb map]. f_equal.
    assert (E : filter (fun b => bd_type b =? 3)%nat ns = []); [|rewrite E; reflexivity].
    assert (A : forall k b, nth_error ns k = Some b -> bd_type b = 1%nat) by (intros k b E; apply (H (S k) b E); lia). clear - A.
    induction ns as [|b ns IH]; [reflexivity|]. cbn [filter]. rewrite (A 0%nat b eq_refl). cbn. apply IH. intros k; exact (A (S k)).
  - cbn [filter]. rewrite (H 0%nat b eq_refl) by lia. cbn [Nat.eqb]. apply (IH q Hc). intros k x E Nk. apply (H (S k) x E). lia.
Qed.
Lemma only_has_load : forall (ns : list (bus_data (K := K))) q, only_substation ns q -> filter has_load ns = ns.
Proof.
  intros ns q [(c & Hc & Tc) H]. assert (A : forall b, In b ns -> has_load b = true).
  { intros b Hb. apply In_nth_error in Hb. destruct Hb as [k Hk]. unfold has_load. destruct (Nat.eq_dec k q) as [->|N]; [rewrite Hc in Hk; injection Hk as <-; rewrite Tc; reflexivity|]. rewrite (H k b Hk N). reflexivity. }
  clear - A. induction ns as [|b ns IH]; [reflexivity|]. cbn [filter]. rewrite A by (left; auto). f_equal. apply IH. intros; apply A; right; auto.
Qed.

(** the loads are there *)
Definition loads_ready (conf : settings K) (o : options K) (ns : list (bus_data (K := K))) n (s : data_files K) lp lf : Prop :=
  choose_loads conf o (rl o) (constant_nodes conf o ns) = Ok lp /\
  match lp with Some q => new_loads rnd randint gauss seeded conf false n q = Ok lf | None => f_loads s = Some lf end.

Theorem succeeds : forall conf o ts ns ls s q, three_phased o = false -> sequence o = false -> recomputes o -> valid_tables ns ls -> only_substation ns q ->
  (forall x, In x (hidden_nodes conf) -> In x (map bd_id ns)) -> rounds rnd -> never_fails noise -> keeps_length noise -> (forall r A, shape A r r -> shape (pinv A) r r) ->
  (forall n, NetData (Some ns) (Some ls) None = Ok n -> converges flow1 n) ->
  (forall n, NetData (Some ns) (Some ls) None = Ok n -> exists lp lf, loads_ready conf o ns n s lp lf /\
    increasing (seconds (lf_t lf) : list K) /\ (2 <= length (lf_t lf))%nat /\ nth 0 (lf_t lf) 0%Z = 0%Z /\ nr (lf_p lf) = length (lf_t lf) /\ nr (lf_q lf) = length (lf_t lf) /\
    (time_steps conf <= samples rnd (seconds (lf_t lf)) (measurement_frequency conf))%nat) ->
  (0 < time_steps conf)%nat ->
  exists s', run conf o ts (Some (ns, ls)) s = (s', Ok tt).
Proof.
  intros conf o ts ns ls s q H3 HQ HR (HS & ND & GL) OS HH HRN NF KL HP FL LD HT. destruct (recomputes_redo _ HR) as [Rs Rd].
  destruct (p_build ns ls HS ND GL) as (n & EN & C & B & L & A & G & _).
  assert (EB : ids n = map bd_id ns).
  { unfold ids. transitivity (map fst (map (fun b => (b_id b, b_kv b)) (buses n))); [rewrite map_map; reflexivity|]. rewrite B, map_map. reflexivity. }
  assert (LB : length (buses n) = length ns) by (rewrite <- (map_length (fun b => (b_id b, b_kv b)) (buses n)), B; apply map_length).
  rewrite (only_has_load ns q OS) in L. assert (LL : length (loads n) = length (buses n)) by (rewrite LB, <- (map_length seen_load), L; apply map_length).
  destruct (only_grids ns q OS) as (b & EG & _). rewrite EG in G.
  destruct (y_matrix_shape n) as (Y & EY & SY); [rewrite G; discriminate|].
  destruct (LD n EN) as (lp & lf & (EC & EL) & TI & TL & T0 & RP & RQ & SM).
  destruct (FL n EN (lf_p lf) (lf_q lf) ltac:(congruence)) as (m & a & EF & R1 & R2 & C1 & C2).
  set (V := mk (nr m) (nc m) (fun t j => polar (get m t j) (get a t j))).
  assert (RES : new_results polar flow1 flow3 y_bus3 false n lf = Ok (V, mmul V Y, Y)).
  { unfold new_results. rewrite EY. cbn [bind]. rewrite EF. cbn [bind]. unfold get_current_and_voltage, voltages. rewrite R1, R2, C1, C2, !Nat.eqb_refl. cbn [andb bind]. rewrite EY. cbn [bind].
    unfold currents. rewrite nc_mk. destruct SY as (_ & -> & _). rewrite Nat.eqb_refl. cbn [bind]. subst V. rewrite R1, C1. reflexivity. }
  assert (U : usable (seconds (lf_t lf)) V (mmul V Y) (length (loads n))).
  { split; [exact TI|]. unfold seconds. rewrite map_length. split; [exact TL|]. split; [|split; [cbn [nr V mk]; congruence|split; [cbn [nr V mk mmul]; congruence|]]].
    - change (vget (seconds (lf_t lf)) 0 = (0 : K)). rewrite vget_seconds by lia. rewrite T0. reflexivity.
    - cbn [nc V mk mmul]. destruct SY as (_ & _ & CY). split; congruence. }
  destruct (p_succeeds rnd root noise seeded n V (mmul V Y) (seconds (lf_t lf)) (measurement_frequency conf) (time_steps conf)
    (NoiseParams (s_voltage_magnitude_sd conf) (s_current_magnitude_sd conf) (s_voltage_phase_sd conf) (s_current_phase_sd conf) (equivalent_noise o) (safety_factor conf)) (f_filtered s) HRN NF U HT SM)
    as ([[[[[[nv ni] v] i] P] f] sv] & EM).
  destruct (p_rows rnd root noise seeded n V (mmul V Y) _ _ _ _ _ _ _ _ _ _ _ _ HRN U KL EM) as (rows & (_ & _ & D1) & (_ & _ & D2) & (_ & _ & D3) & (_ & _ & D4) & _).
  assert (LP : length P = length (loads n)). { apply run_inv in EM. destruct EM as (-> & _). apply p_ratings. }
  assert (EM' : measurements rnd root noise seeded conf o (rd o) n V (mmul V Y) (lf_t lf) (f_filtered s) = Ok ((((nv, ni, v, i), P), f), sv)) by (unfold measurements; rewrite H3, Rd; exact EM).
  destruct (meas_saved rnd root noise seeded conf o _ n V (mmul V Y) _ _ _ _ _ _ EM') as (-> & _).
  destruct (reduce_succeeds n v i (hidden_list conf o ns) (ModelScript.laplacian o) (bd_id b) Y C EY SY HP G) as (todel & y & ER & BT).
  { intros x Hx. rewrite EB. eapply hidden_ids; eauto. }
  { congruence. } { congruence. }
  destruct (delete_cols_total _ _ nv todel) as [a1 E1]; [intros x Hx; rewrite D1, LL; auto|]. destruct (delete_cols_total _ _ ni todel) as [a2 E2]; [intros x Hx; rewrite D2, LL; auto|].
  destruct (delete_cols_total _ _ v todel) as [a3 E3]; [intros x Hx; rewrite D3, LL; auto|]. destruct (delete_cols_total _ _ i todel) as [a4 E4]; [intros x Hx; rewrite D4, LL; auto|].
  destruct (delete_list_total _ P 0 todel) as [a5 E5]; [intros x Hx; rewrite LP, LL; auto|].
  destruct (delete_list_total _ (concat (repeat [1%Z] (length (buses n)))) 0%Z todel) as [a6 E6].
  { intros x Hx. replace (length (concat (repeat [1%Z] (length (buses n))))) with (length (buses n)); [auto|]. generalize (length (buses n)) as k. induction k; cbn; [reflexivity|f_equal; exact IHk]. }
  eexists. apply ok. exists n, ns, lp, lf, (V, mmul V Y, Y), (nv, ni, v, i), P, f, todel, y. eexists. split; [|reflexivity].
  unfold computed. rewrite H3, Rs. cbn [fst snd]. split; [unfold network, make_net; rewrite H3, EN; reflexivity|]. split; [exact EC|]. split; [|split; [exact RES|split; [exact EM'|split]]].
  - destruct lp; [exact EL|]. split; [exact EL|discriminate].
  - unfold ModelScript.reduced. rewrite H3. exact ER.
  - unfold remaining_data. rewrite E1. cbn [bind]. rewrite E2. cbn [bind]. rewrite E3. cbn [bind]. rewrite E4. cbn [bind]. rewrite E5. cbn [bind]. rewrite H3, E6. cbn [bind]. rewrite HQ. reflexivity.
Qed.

Lemma minutes_stamps : forall d, minutes d = time_stamps d.
Proof. intro d. unfold minutes, time_stamps, range. replace (d * 24 * 60)%nat with (1440 * d)%nat by lia. apply map_ext. intro. lia. Qed.
Lemma some_minutes : forall d, (0 < d)%nat -> increasing (seconds (time_stamps d) : list K) /\ (2 <= length (time_stamps d))%nat /\ nth 0 (time_stamps d) 0%Z = 0%Z.
Proof.
  intros d Hd. destruct (times_usable (K := K) d Hd) as (A & B & _). split; [exact A|]. split; [unfold seconds in B; rewrite map_length in B; exact B|]. rewrite nth_times by lia. reflexivity.
Qed.
Lemma no_negative : forall (ns : list (bus_data (K := K))) q n, only_substation ns q -> map seen_load (loads n) = map wanted_load ns -> consumers ns ->
  forall l, In l (loads n) -> 0 <=! l_p l /\ 0 <=! l_q l.
Proof.
  intros ns q n [_ H] E N l Hl. apply (in_map seen_load) in Hl. rewrite E in Hl. apply in_map_iff in Hl. destruct Hl as (b & Eb & Hb). unfold wanted_load, seen_load in Eb.
  destruct (Nat.eqb_spec (bd_type b) 1) as [T|T]; injection Eb as _ <- <-; [apply N; assumption|split; apply kle_refl].
Qed.
Lemma sd_nonneg : forall r sd : K, 0 <=! r -> 0 <! sd -> kltb (r * sd) 0 = false.
Proof.
  intros r sd Hr Hs. destruct (kltb (r * sd) 0) eqn:E; [|reflexivity]. exfalso. apply (proj1 (klt_spec _ _)) in E. apply E. apply kle_mul; [exact Hr|apply klt_le; exact Hs].
Qed.
Lemma normal_total : forall sd N refs (s : St), 0 <! sd -> (forall r, In r refs -> 0 <=! r) -> exists m s', normal_load gauss sd N refs s = Ok (m, s').
Proof.
  intros sd N refs s Hs Hr. unfold normal_load. replace (existsb (fun r => kltb (r * sd) 0) refs) with false.
  - destruct (normals gauss (N * length refs) s). eauto.
  - symmetry. apply not_true_is_false. intro E. apply existsb_exists in E. destruct E as (r & Ir & E). rewrite sd_nonneg in E; auto. discriminate.
Qed.
Lemma gaussian_succeed : forall a n sd d const saved (s : St), 0 <! sd -> (forall l, In l (loads n) -> 0 <=! l_p l /\ 0 <=! l_q l) ->
  exists P Q times saved' s', generate_loads rnd randint gauss a seeded n (Some (FromStd sd d const)) saved s = Ok ((P, Q, times), saved', s').
Proof.
  intros a n sd d const saved s Hs Hl. unfold generate_loads, generate_gaussian_load.
  destruct (normal_total sd (length (time_stamps d)) (map fst (refs_of n)) seeded Hs) as (p & s1 & E1).
  { intros r Hr. apply in_map_iff in Hr. destruct Hr as (x & <- & Hx). unfold refs_of in Hx. apply in_map_iff in Hx. destruct Hx as (l & <- & Il). apply (Hl l Il). }
  rewrite E1. cbn [bind]. destruct (normal_total sd (length (time_stamps d)) (map snd (refs_of n)) s1 Hs) as (p2 & s2 & E2).
  { intros r Hr. apply in_map_iff in Hr. destruct Hr as (x & <- & Hx). unfold refs_of in Hx. apply in_map_iff in Hx. destruct Hx as (l & <- & Il). apply (Hl l Il). }
  rewrite E2. cbn [bind]. repeat eexists.
Qed.

Theorem p_runs : forall conf o ts ns ls s q times, three_phased o = false -> sequence o = false -> recomputes o -> valid_tables ns ls -> only_substation ns q ->
  (forall x, In x (hidden_nodes conf) -> In x (map bd_id ns)) -> rounds rnd -> fair randint -> never_fails noise -> keeps_length noise -> (forall r A, shape A r r -> shape (pinv A) r r) ->
  (forall n, NetData (Some ns) (Some ls) None = Ok n -> converges flow1 n) -> loads_given conf o ns s times ->
  (0 < time_steps conf)%nat -> (time_steps conf <= samples rnd (seconds times) (measurement_frequency conf))%nat ->
  exists s', run conf o ts (Some (ns, ls)) s = (s', Ok tt).
Proof.
  intros conf o ts ns ls s q times H3 HQ HR HV OS HH HRN HF NF KL HP FL LG HT HS. apply (succeeds conf o ts ns ls s q); auto.
  intros n EN. destruct HV as (V1 & V2 & V3). destruct (p_build ns ls V1 V2 V3) as (n' & EN' & C & B & L & _). rewrite EN in EN'. injection EN' as <-. rewrite (only_has_load ns q OS) in L.
  assert (RL : loads_only o = true \/ noise_only o = false -> rl o = true).
  { unfold rl, redo. destruct HR as [[A A2]|(A & A2 & A3)]; intros [E|E]; rewrite ?E, ?A, ?A2, ?A3; try reflexivity. congruence. }
  destruct LG as [lf L1 L2 L3 L4 L5 L6 L7 L8|act react c x R0 G0 P0 W0 D0 C0 C1 X0 (A1 & A2 & A3) (B1 & B2 & B3) N0|R0 G0 D0 N0].
  - exists None, lf. split; [|auto 10]. split; [|exact L3]. replace (rl o) with false; [apply keep_loads|]. unfold rl, redo. rewrite L1, L2. rewrite andb_comm. reflexivity.
  - pose proof (no_negative ns q n OS L N0) as LN. rewrite minutes_stamps in HS.
    assert (W : (0 < length (selected_weeks conf))%nat) by (destruct (selected_weeks conf); [congruence|cbn; lia]).
    assert (HL : lines_per_week (days conf) (length (selected_weeks conf)) = Ok (Z.of_nat (1440 * c))) by (rewrite (lines_exact (days conf) (length (selected_weeks conf)) c W D0 C1); f_equal; lia).
    destruct (profiles_succeed rnd randint gauss (load_constantness conf) seeded n act react (selected_weeks conf) (days conf) (constant_nodes conf o ns) None seeded (1440 * c) x HRN HL W0 ltac:(lia) A1 B1 X0 A2 B2 A3 B3 LN) as (P & Q & tm & sv & st & EL).
    destruct (profile_rows rnd randint gauss (load_constantness conf) seeded n act react (selected_weeks conf) (days conf) (constant_nodes conf o ns) None seeded P Q tm sv st (1440 * c)%nat HRN HF HL A2 B2 EL)
      as ((_ & RP & _) & (_ & RQ & _) & ET & _). destruct (some_minutes (days conf)) as (T1 & T2 & T3); [nia|].
    exists (Some (FromProfiles act react (selected_weeks conf) (days conf) (constant_nodes conf o ns))), (LoadsFile P Q None tm). cbn [lf_p lf_q lf_t]. rewrite ET.
    split; [split|split; [exact T1|split; [exact T2|split; [exact T3|split; [rewrite length_times; nia|split; [rewrite length_times; nia|exact HS]]]]]].
    + unfold choose_loads. rewrite (RL R0). replace (kltb 0 (gaussian_loads o)) with false; [rewrite P0; reflexivity|]. symmetry. apply not_true_is_false. intro E. apply (proj1 (klt_spec _ _)) in E. apply E, G0.
    + unfold new_loads. rewrite EL. cbn [bind]. rewrite ET. reflexivity.
  - pose proof (no_negative ns q n OS L N0) as LN. rewrite minutes_stamps in HS.
    destruct (gaussian_succeed (load_constantness conf) n (gaussian_loads o) (days conf) (constant_nodes conf o ns) None seeded G0 LN) as (P & Q & tm & sv & st & EL).
    destruct (gaussian_rows rnd randint gauss _ _ _ _ _ _ _ _ _ _ _ _ _ EL) as ((_ & RP & _) & (_ & RQ & _) & ET & _). destruct (some_minutes (days conf) D0) as (T1 & T2 & T3).
    exists (Some (FromStd (gaussian_loads o) (days conf) (constant_nodes conf o ns))), (LoadsFile P Q None tm). cbn [lf_p lf_q lf_t]. rewrite ET.
    split; [split|split; [exact T1|split; [exact T2|split; [exact T3|split; [rewrite length_times; nia|split; [rewrite length_times; nia|exact HS]]]]]].
    + unfold choose_loads. rewrite (RL R0). replace (kltb 0 (gaussian_loads o)) with true by (symmetry; exact G0). reflexivity.
    + unfold new_loads. rewrite EL. cbn [bind]. rewrite ET. reflexivity.
Qed.
End Succeed.

Section Minutes.
Context {K : Type} {O : Ops K} {F : Fld K} {O2 : OrdOps K} {OF : OrdFld K}.
Add Field Kfld2 : (@k_field K O F).
Lemma round_knat : forall (rnd : K -> Z) k, rounds rnd -> Z.to_nat (rnd (knat k)) = k.
Proof.
  intros rnd k R. pose proof (R (knat k)) as N. assert (P : (0 <= rnd (knat k : K))%Z) by (apply (nearest_nonneg (knat k) _ N); apply knat_nonneg).
  rewrite <- (Z2Nat.id _ P) in N. set (z := Z.to_nat (rnd (knat k))) in *. apply nearest_nat in N. destruct N as [A B].
  assert (Q : forall a b, (a < b)%nat -> ~ knat 2 * (knat b - knat a : K) <=! 1).
  { intros a b L H. apply (proj1 (klt_spec (1 : K) (knat 2 * (knat b - knat a)))); [|exact H].
    replace (knat b - knat a : K) with (knat (b - a) : K).
    - replace (knat 2 * knat (b - a) : K) with (knat (2 * (b - a)) : K) by (rewrite knat_mul; reflexivity).
      replace (1 : K) with (knat 1 : K) by (cbn [knat]; ring). apply knat_lt. lia.
    - replace b with (b - a + a)%nat at 2 by lia. rewrite knat_add. ring. }
  destruct (Nat.lt_trichotomy k z) as [L|[E|L]]; [destruct (Q k z L B)|symmetry; exact E|destruct (Q z k L A)].
Qed.
Lemma samples_minutes : forall (rnd : K -> Z) d f, rounds rnd -> (0 < d)%nat -> samples rnd (seconds (minutes d)) (knat f) = (60 * (1440 * d - 1) * f)%nat.
Proof.
  intros rnd d f R Hd. unfold samples. rewrite minutes_stamps. unfold seconds at 2. rewrite map_length, length_times.
  rewrite vget_seconds by (rewrite length_times; lia). rewrite nth_times by lia. rewrite of_Z_knat by lia. rewrite <- knat_mul, round_knat by exact R. f_equal. lia.
Qed.
End Minutes.
