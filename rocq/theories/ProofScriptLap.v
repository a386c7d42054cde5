(** Proofs about the data saved by simulate_network.py: networks without shunts, measurements without noise. *)
From Coq Require Import String.
From Coq Require Import Bool Arith List ZArith Lia Ring Field Permutation Sorted.
From Verif Require Import BasePy BaseFld BaseOrd BaseSum BaseMat BaseLin BaseNumpy ModelErrorMetrics ModelPrior ModelSet ModelKron ModelNet ModelReduce
  ModelResample ModelLoads ModelMeasure ModelRun ModelScript SpecMatrix SpecLS SpecKron SpecNet SpecReduce SpecResample SpecLoads SpecMeasure SpecRun SpecScript SpecScriptData
  ProofNet ProofNetBuild ProofNetY ProofSet ProofKron ProofReduce
  ProofResample ProofLoads ProofLoadsSmall ProofLoadsMain ProofMeasure ProofMeasure3 ProofMeasureMain ProofMeasureApi ProofRunIO ProofRunThm ProofIdentify ProofIdentifyExact ProofScript ProofRerun2 ProofScriptData.
Import ListNotations.
Close Scope string_scope.
Local Open Scope K_scope.

Section Lap.
Context {K : Type} {O : Ops K} {F : Fld K} {O2 : OrdOps K} {OF : OrdFld K}.
Add Field Kfld : (@k_field K O F).
Notation CK := (cplx K).
Add Field Cfld : (@k_field CK _ _).
(** loads without constant-impedance part *)
Definition unshunted (n : net (K := K)) : Prop := forall l, In l (loads n) -> l_z l = 0.
Lemma create_bus_z : forall n i t p q kv z c n', create_bus n i t p q kv z c = Ok n' -> (t = 1%nat -> z = 0) -> unshunted n -> unshunted n'.
Proof.
  intros n i t p q kv z c n' H Hz U. unfold create_bus in H. apply bind_ok in H. destruct H as (n1 & H1 & H).
  assert (L1 : loads n1 = loads n). { unfold pp_create_bus in H1. destruct (has_bus n i); [discriminate|]. injection H1 as <-. reflexivity. }
  assert (AL : forall m b p q z c j m', pp_create_load m b p q z c j = Ok m' -> z = 0 -> unshunted m -> unshunted m').
  { intros m b p' q' z' c' j m' HL Ez Um. unfold pp_create_load in HL. destruct (negb _); [discriminate|]. destruct (existsb _ _); [discriminate|]. injection HL as <-.
    intros l Hl. cbn in Hl. apply in_app_iff in Hl. destruct Hl as [Hl|[<-|[]]]; [apply Um; exact Hl|exact Ez]. }
  assert (U1 : unshunted n1) by (intros l Hl; rewrite L1 in Hl; apply U; exact Hl).
  destruct (Nat.eqb_spec t TYPE_LOAD) as [T|T]; [apply (AL _ _ _ _ _ _ _ _ H); auto|].
  destruct (t =? TYPE_PCC)%nat; [|injection H as <-; exact U1].
  apply bind_ok in H. destruct H as (n2 & H2 & H). pose proof (AL _ _ _ _ _ _ _ _ H2 eq_refl U1) as U2. unfold pp_create_ext_grid in H. destruct (negb _); [discriminate|]. injection H as <-. exact U2.
Qed.
Lemma create_buses_z : forall ns n n', create_buses n ns = Ok n' -> (forall b, In b ns -> bd_type b = 1%nat -> bd_z b = 0) -> unshunted n -> unshunted n'.
Proof.
  induction ns as [|b ns IH]; intros n n' H Hz U; cbn in H; [injection H as <-; exact U|]. apply bind_ok in H. destruct H as (n1 & H1 & H).
  apply bind_ok in H1. destruct H1 as (p & _ & H1). apply bind_ok in H1. destruct H1 as (q & _ & H1).
  apply (IH n1 n'); [exact H|intros; apply Hz; cbn; auto|]. apply (create_bus_z _ _ _ _ _ _ _ _ _ H1); [apply Hz; cbn; auto|exact U].
Qed.
Lemma line_sum : forall (n : net (K := K)) l m b, consistent n -> In l (lines n) -> m = length (buses n) -> sumn m (fun a => line_entry n l a b) = 0.
Proof.
  intros n l m b C Hl ->. destruct C as (NI & _ & _ & LI & _). destruct (LI l Hl) as [FI TI].
  apply In_nth_error in FI, TI. destruct FI as [f Hf], TI as [t Ht]. unfold ids in Hf, Ht. rewrite nth_error_map in Hf, Ht.
  destruct (nth_error (buses n) f) as [bf|] eqn:Ef; [|discriminate]. destruct (nth_error (buses n) t) as [bt|] eqn:Et; [|discriminate]. injection Hf as Hf. injection Ht as Ht.
  assert (Lf : (f < length (buses n))%nat) by (apply nth_error_Some; congruence). assert (Lt : (t < length (buses n))%nat) by (apply nth_error_Some; congruence).
  unfold line_entry. rewrite <- Hf, <- Ht. set (y := line_admittance n l).
  set (ff := (f =? b)%nat). set (tt' := (t =? b)%nat).
  transitivity (sumn (length (buses n)) (fun a => (if (a =? f)%nat then (if ff then y else 0) - (if tt' then y else 0) else 0) + (if (a =? t)%nat then (if tt' then y else 0) - (if ff then y else 0) else 0))).
  - apply sumn_ext. intros a Ha. rewrite !(at_position_nth n f bf) by auto. rewrite !(at_position_nth n t bt) by auto. fold ff tt'. rewrite (Nat.eqb_sym f a), (Nat.eqb_sym t a).
    destruct (a =? f)%nat, (a =? t)%nat, ff, tt'; cbn [andb]; ring.
  - rewrite sumn_add. rewrite (sumn_single _ f), (sumn_single _ t) by (auto; intros a Ha Hn; rewrite (proj2 (Nat.eqb_neq _ _)) by auto; reflexivity). rewrite !Nat.eqb_refl. ring.
Qed.
Lemma net_laplacian : forall ns ls (n : net (K := K)) Y, (forall b, In b ns -> both is_single b) -> (forall b, In b ns -> bd_type b = 1%nat -> bd_z b = 0) ->
  NetData (Some ns) (Some ls) None = Ok n -> make_y_bus n = Ok Y -> zero_column_sums (length ns) (length ns) Y.
Proof.
  intros ns ls n Y HS HZ HN HY. destruct (p_build_only ns ls n HS HN) as [ND GL]. destruct (p_build ns ls HS ND GL) as (n' & HN' & C & B & _).
  rewrite HN in HN'. injection HN' as <-.
  assert (LB : length (buses n) = length ns) by (rewrite <- (map_length (fun b => (b_id b, b_kv b)) (buses n)), B; apply map_length).
  assert (U : unshunted n).
  { unfold NetData in HN. apply bind_ok in HN. destruct HN as (n1 & H1 & HN). assert (U1 : unshunted n1) by (apply (create_buses_z _ _ _ H1 HZ); intros l []).
    rewrite create_lines_step in HN. apply bind_ok in HN. destruct HN as ([m r] & H2 & HN). injection HN as <-. apply bind_ok in H2. destruct H2 as (m' & H2 & E). injection E as <- _.
    destruct (p_build_only ns ls m' HS) as [_ GL']. { unfold NetData. rewrite H1. cbn [bind]. rewrite create_lines_step, H2. reflexivity. }
    destruct (buses_run ns pp_create_empty_network) as (n1' & E1 & C1 & B1 & _); auto; [apply (cons_empty [])|]. rewrite H1 in E1. injection E1 as <-.
    assert (Ei : ids n1 = map bd_id ns).
    { unfold ids. transitivity (map fst (map (fun b => (b_id b, b_kv b)) (buses n1))); [rewrite map_map; reflexivity|]. rewrite B1. cbn. rewrite map_map. reflexivity. }
    destruct (lines_run ls n1 C1) as (n2 & E2 & _ & (_ & L2 & _) & _). { intros l I A. unfold good_line. rewrite Ei. auto. }
    rewrite H2 in E2. injection E2 as <-. intros l Hl. rewrite L2 in Hl. apply U1. exact Hl. }
  unfold make_y_bus in HY. destruct (grids n) as [|g0 gs]; [discriminate|]. injection HY as <-. rewrite <- LB. intros j Hj. unfold y_matrix.
  transitivity (sumn (length (buses n)) (fun a => lsum (map (fun l => line_entry n l a j) (lines n)) + 0)).
  - apply sumn_ext. intros a Ha. rewrite get_mk by auto. f_equal. destruct (a =? j)%nat; [|reflexivity].
    assert (X : forall ll, (forall l, In l ll -> l_z l = 0) -> lsum (map (fun l => if at_position n (l_bus l) a then load_admittance n l else 0) ll) = (0 : CK)).
    { induction ll as [|l ll IH]; intro H; [reflexivity|]. cbn [map lsum]. rewrite IH by (intros; apply H; cbn; auto).
      assert (E : load_admittance n l = 0). { unfold load_admittance. rewrite (H l) by (cbn; auto). rewrite !kdiv_def. apply cplx_eq; cbn; ring. }
      rewrite E. destruct (at_position n (l_bus l) a); ring. }
    apply X. exact U.
  - rewrite sumn_add. rewrite (sumn_zero _ (fun _ => 0)) by reflexivity.
    assert (X : forall ll, (forall l, In l ll -> In l (lines n)) -> sumn (length (buses n)) (fun a => lsum (map (fun l => line_entry n l a j) ll)) = 0).
    { induction ll as [|l ll IH]; intro H; [apply sumn_zero; reflexivity|]. cbn [map lsum]. rewrite sumn_add, IH by (intros; apply H; cbn; auto).
      rewrite line_sum; [ring|exact C|apply H; cbn; auto|reflexivity]. }
    rewrite X by auto. ring.
Qed.
End Lap.

Section Silent.
Context {K : Type} {O : Ops K} {F : Fld K} {O2 : OrdOps K} {OF : OrdFld K}.
Add Field Kfld2 : (@k_field K O F).
Notation CK := (cplx K).
Context (pinv : mat CK -> mat CK) (rnd : K -> Z) (root : K -> K) (polar : K -> K -> CK).
Context {St : Type} (randint : nat -> nat -> St -> list nat * St) (gauss : St -> K * St) (noise : @noise_fun K St K) (seeded : St).
Context (flow1 : net (K := K) -> mat K -> mat K -> res (mat K * mat K)).
Context (flow3 : net (K := K) -> mat K -> mat K -> list (mat K) -> res ((mat K * mat K) * (mat K * mat K) * (mat K * mat K))).
Context (y_bus3 : net (K := K) -> res (mat CK)).
Context (reduce3 : net (K := K) -> mat CK -> mat CK -> list nat -> bool -> res (list nat * mat CK)).
Context (seq_measurement seq_admittance : mat CK -> res (mat CK)).
Notation run := (ModelScript.simulate pinv rnd root polar randint gauss noise seeded flow1 flow3 y_bus3 reduce3 seq_measurement seq_admittance).

(** averages of undisturbed samples *)
Lemma undisturbed : forall (M : mat CK) old new f out (sm sp : nat -> K) (st st' : nat -> St), silent noise -> (0 < f)%nat -> shape out (length new / f) (nc M) ->
  (forall c, (c < nc M)%nat -> sm c = 0 /\ sp c = 0) ->
  (forall c, (c < nc M)%nat -> disturbed noise M old new f c (sm c) (sp c) (st c) (st' c) out) -> averages M old new f out.
Proof.
  intros M old new f out sm sp st st' HS Hf SH Z H. split; [exact SH|]. intros t c Ht Hc. destruct (H c Hc) as (x & w & (LX & HX) & HN & HW).
  destruct (Z c Hc) as [Z1 Z2]. rewrite Z1, Z2 in HN. apply HS in HN. subst w. destruct (HW t Ht) as [W1 W2].
  exists (fun k => re (vget x (t * f + k))), (fun k => im (vget x (t * f + k))). split; [|split; [exact W1|exact W2]].
  intros k Hk. pose proof (row_fits (length new) f t Hf Ht) as R. apply HX. lia.
Qed.
Section Facts.
Variables (conf : settings K) (o : options K) (ns : list (bus_data (K := K))) (ls : list (line_data (K := K))) (s' : data_files K) (n : net (K := K)) (lf : loads_file K)
  (V Y nv ni v i : mat CK) (P : list K) (f : nat) (todel : list nat) (y : mat CK) (last : K) (tsq : list K) (fm : nat).
Hypothesis FA : facts pinv rnd root noise seeded conf o ns ls s' n lf V Y nv ni v i P f todel y last tsq fm.
Hypothesis SN : forall b, In b ns -> both is_single b.
Hypothesis TM : timed s'.
Hypothesis KL : keeps_length noise.
Hypothesis SI : silent noise.
Hypothesis NF : noise_free conf.
Lemma p_noise_free : nv = v /\ ni = i.
Proof.
  pose proof FA as FA'. destruct FA'. destruct NF as (N1 & N2 & N3 & N4).
  destruct (facts_times _ _ _ _ _ _ _ _ _ _ _ _ _ _ _ _ _ _ _ _ _ _ _ _ _ FA TM) as (TI & T2 & T0).
  destruct (facts_averages _ _ _ _ _ _ _ _ _ _ _ _ _ _ _ _ _ _ _ _ _ _ _ _ _ FA TM KL) as (new & scale & Hf & HW & AV & AI & HM).
  cbn [measured] in HM. destruct HM as (S1 & S2 & _ & _ & st & _ & HD).
  assert (CI : nc (mmul V Y) = nc V) by (destruct fa_sy as (_ & _ & Q); change (nc (mmul V Y)) with (nc Y); congruence).
  split.
  - apply (p_averages_unique V (seconds (lf_t lf)) new fm); auto.
    apply (undisturbed V _ new fm nv (fun _ => s_voltage_magnitude_sd conf / scale) (fun _ => s_voltage_phase_sd conf / scale) st (fun c => st (S c)) SI Hf S1).
    + intros. rewrite N1, N3, !kdiv_def. split; ring.
    + intros c Hc. apply (HD c Hc).
  - apply (p_averages_unique (mmul V Y) (seconds (lf_t lf)) new fm); auto.
    apply (undisturbed (mmul V Y) _ new fm ni (fun c => s_current_magnitude_sd conf / scale * vget P c) (fun _ => s_current_phase_sd conf / scale)
      (fun c => st (nc V + c)%nat) (fun c => st (S (nc V + c))) SI Hf); [rewrite CI; exact S2| |].
    + intros. rewrite N2, N4, !kdiv_def. split; ring.
    + intros c Hc. rewrite CI in Hc. apply (HD c Hc).
Qed.
End Facts.
End Silent.

Section Thm.
Context {K : Type} {O : Ops K} {F : Fld K} {O2 : OrdOps K} {OF : OrdFld K}.
Notation CK := (cplx K).
Add Field Cfld3 : (@k_field CK _ _).
Context (pinv : mat CK -> mat CK) (rnd : K -> Z) (root : K -> K) (polar : K -> K -> CK).
Context {St : Type} (randint : nat -> nat -> St -> list nat * St) (gauss : St -> K * St) (noise : @noise_fun K St K) (seeded : St).
Context (flow1 : net (K := K) -> mat K -> mat K -> res (mat K * mat K)).
Context (flow3 : net (K := K) -> mat K -> mat K -> list (mat K) -> res ((mat K * mat K) * (mat K * mat K) * (mat K * mat K))).
Context (y_bus3 : net (K := K) -> res (mat CK)).
Context (reduce3 : net (K := K) -> mat CK -> mat CK -> list nat -> bool -> res (list nat * mat CK)).
Context (seq_measurement seq_admittance : mat CK -> res (mat CK)).
Notation run := (ModelScript.simulate pinv rnd root polar randint gauss noise seeded flow1 flow3 y_bus3 reduce3 seq_measurement seq_admittance).
Variables (conf : settings K) (o : options K) (ts : list (string * (K * K))) (ns : list (bus_data (K := K))) (ls : list (line_data (K := K))) (s s' : data_files K).
Hypothesis H3 : three_phased o = false.
Hypothesis HQ : sequence o = false.
Hypothesis HR : recomputes o.
Hypothesis SN : forall b, In b ns -> both is_single b.
Hypothesis RUN : run conf o ts (Some (ns, ls)) s = (s', Ok tt).
Lemma stay_unique : forall hidden lap (bs : list (bus_data (K := K))) k1 k2, stay hidden lap bs k1 -> stay hidden lap bs k2 -> k1 = k2.
Proof. intros hidden lap bs k1 k2 [S1 M1] [S2 M2]. apply sorted_unique; auto. intro x. rewrite M1, M2. tauto. Qed.
Theorem p_alignment : exists kept nv ni v i y P f, f_filtered s' = Some (nv, ni, v, i) /\
  nc nv = length ns /\ nc ni = length ns /\ nc v = length ns /\ nc i = length ns /\
  f_output s' = Some (Simulation (columns ni kept) (columns nv kept) (columns i kept) (columns v kept) y P f (repeat 1%Z (length kept))) /\
  stay (hidden_nodes conf) (ModelScript.laplacian o) ns kept /\ length P = length kept /\
  forall c, (c < length kept)%nat -> rated (safety_factor conf) ns (nth c kept 0%nat) (vget P c).
Proof.
  destruct (run_facts _ _ _ _ _ _ _ _ _ _ _ _ _ _ _ _ _ _ _ _ _ H3 HQ HR SN RUN) as (n & lf & V & Y & nv & ni & v & i & P & f & todel & y & last & tsq & fm & FA).
  pose proof (p_stay pinv rnd root polar randint gauss noise seeded flow1 flow3 y_bus3 reduce3 seq_measurement seq_admittance _ _ _ _ _ _ _ _ _ _ _ _ _ _ _ _ _ _ _ _ FA SN) as ST.
  pose proof (p_rated _ _ _ _ _ _ _ _ _ _ _ _ _ _ _ _ _ _ _ _ _ _ _ _ _ FA) as RT.
  pose proof FA as FA'. destruct FA'. destruct fa_cols as (C1 & C2 & C3 & C4 & _).
  exists (kept_ascending (length ns) todel), nv, ni, v, i, y, (map (vget P) (kept_ascending (length ns) todel)), (knat f).
  rewrite fa_files. cbn [f_filtered f_output]. do 7 (split; [auto|]). split; [apply map_length|].
  intros c Hc. unfold vget at 1. rewrite (nth_indep _ 0 (vget P 0%nat)) by (rewrite map_length; exact Hc). rewrite (map_nth (vget P)). apply RT.
  apply (kept_In (length ns) todel), nth_In. exact Hc.
Qed.
Theorem p_loaded_buses : forall b, In b ns -> bd_type b = 1%nat \/ bd_type b = 3%nat.
Proof.
  destruct (run_facts _ _ _ _ _ _ _ _ _ _ _ _ _ _ _ _ _ _ _ _ _ H3 HQ HR SN RUN) as (n & lf & V & Y & nv & ni & v & i & P & f & todel & y & last & tsq & fm & FA).
  intros b Hb. pose proof (fa_loaded _ _ _ _ _ _ _ _ _ _ _ _ _ _ _ _ _ _ _ _ _ _ _ _ _ FA b Hb) as L. unfold has_load in L. apply orb_true_iff in L. rewrite !Nat.eqb_eq in L. exact L.
Qed.
Variables (V I Y nv ni v i : mat CK) (E kept : list nat).
Hypothesis TM : timed s'.
Hypothesis KL : keeps_length noise.
Hypothesis RES : f_results s' = Some (V, I, Y).
Hypothesis FIL : f_filtered s' = Some (nv, ni, v, i).
Hypothesis EE : eliminated (hidden_nodes conf) ns E.
Hypothesis NC : no_current E I.
Hypothesis SO : solvable pinv Y E.
Hypothesis MN : forall k b, nth_error ns k = Some b -> bd_type b <> 3%nat -> In (bd_id b) (hidden_nodes conf) -> mean_at v k <> 0.
Hypothesis KE : stay (hidden_nodes conf) (ModelScript.laplacian o) ns kept.
Lemma thm_facts : exists n lf P f todel y last tsq fm, I = mmul V Y /\ kept = kept_ascending (length ns) todel /\
  facts pinv rnd root noise seeded conf o ns ls s' n lf V Y nv ni v i P f todel y last tsq fm.
Proof.
  destruct (run_facts _ _ _ _ _ _ _ _ _ _ _ _ _ _ _ _ _ _ _ _ _ H3 HQ HR SN RUN) as (n & lf & V1 & Y1 & nv1 & ni1 & v1 & i1 & P & f & todel & y & last & tsq & fm & FA).
  pose proof (fa_files _ _ _ _ _ _ _ _ _ _ _ _ _ _ _ _ _ _ _ _ _ _ _ _ _ FA) as EF. pose proof RES as R1. pose proof FIL as R2. rewrite EF in R1, R2. cbn in R1, R2.
  injection R1 as -> <- ->. injection R2 as -> -> -> ->. exists n, lf, P, f, todel, y, last, tsq, fm. split; [reflexivity|]. split; [|exact FA].
  apply (stay_unique _ _ _ _ _ KE). apply (p_stay pinv rnd root polar randint gauss noise seeded flow1 flow3 y_bus3 reduce3 seq_measurement seq_admittance _ _ _ _ _ _ _ _ _ _ _ _ _ _ _ _ _ _ _ _ FA SN).
Qed.
Theorem p_saved_laplacian : ModelScript.laplacian o = true -> shown (hidden_nodes conf) ns -> orderly (length ns) (length kept) ->
  exists i1 v1 i2 v2 y P f h, f_output s' = Some (Simulation i1 v1 i2 v2 y P f h) /\
    explained (nr v) (length kept) (length kept) v2 y i2 (fun _ => 0) /\ (no_shunts ns -> zero_column_sums (length kept) (length kept) y) /\
    (silent noise -> noise_free conf -> i1 = i2 /\ v1 = v2).
Proof.
  intros LA SW OR. destruct thm_facts as (n & lf & P & f & todel & y & last & tsq & fm & EI & EK & FA). rewrite EI in NC. rewrite EK in OR.
  pose proof (p_laplacian_obeys _ _ _ _ _ _ _ _ _ _ _ _ _ _ _ _ _ _ _ _ _ _ _ _ _ FA TM KL _ EE NC SO MN LA SW OR) as OB.
  pose proof (laplacian_shape _ _ _ _ _ _ _ _ _ _ _ _ _ _ _ _ _ _ _ _ _ _ _ _ _ FA TM KL _ EE NC SO MN LA SW) as SY.
  pose proof (p_laplacian_sums _ _ _ _ _ _ _ _ _ _ _ _ _ _ _ _ _ _ _ _ _ _ _ _ _ FA TM KL _ EE NC SO MN LA SW OR) as ZS.
  pose proof (fa_files _ _ _ _ _ _ _ _ _ _ _ _ _ _ _ _ _ _ _ _ _ _ _ _ _ FA) as EF. rewrite <- EK in *.
  rewrite EF. cbn [f_output]. do 8 eexists. split; [reflexivity|].
  pose proof (facts_rows _ _ _ _ _ _ _ _ _ _ _ _ _ _ _ _ _ _ _ _ _ _ _ _ _ FA TM KL) as RW.
  split; [|split].
  - split; [apply shape_mk|]. split; [exact SY|]. split; [rewrite RW; apply shape_mk|]. intros t j Ht Hj. rewrite <- OB.
    destruct SY as (_ & _ & Q). rewrite get_mmul by (cbn; lia). cbn [nc columns mk]. ring.
  - intro NS. apply ZS. apply (net_laplacian ns ls n Y SN NS); [apply (fa_net _ _ _ _ _ _ _ _ _ _ _ _ _ _ _ _ _ _ _ _ _ _ _ _ _ FA)|apply (fa_y _ _ _ _ _ _ _ _ _ _ _ _ _ _ _ _ _ _ _ _ _ _ _ _ _ FA)].
  - intros SI NF. destruct (p_noise_free _ _ _ _ _ _ _ _ _ _ _ _ _ _ _ _ _ _ _ _ _ _ _ _ _ FA TM KL SI NF) as [-> ->]. auto.
Qed.
Theorem p_saved_grounded : forall G0, ModelScript.laplacian o = false -> substations ns G0 -> all_before E G0 -> steady G0 V ->
  orderly (length (kept_ascending (length ns) G0)) (length kept) ->
  exists i1 v1 i2 v2 y P f h c, f_output s' = Some (Simulation i1 v1 i2 v2 y P f h) /\
    explained (nr v) (length kept) (length kept) v2 y i2 c /\
    (silent noise -> noise_free conf -> i1 = i2 /\ v1 = v2).
Proof.
  intros G0 LA SG AB SV OR. destruct thm_facts as (n & lf & P & f & todel & y & last & tsq & fm & EI & EK & FA). rewrite EI in NC. rewrite EK in OR.
  destruct (p_grounded_obeys pinv rnd root polar randint gauss noise seeded flow1 flow3 y_bus3 reduce3 seq_measurement seq_admittance _ _ _ _ _ _ _ _ _ _ _ _ _ _ _ _ _ _ _ _ FA SN TM KL _ EE NC SO MN _ LA SG AB SV OR) as (c & OB).
  pose proof (fa_files _ _ _ _ _ _ _ _ _ _ _ _ _ _ _ _ _ _ _ _ _ _ _ _ _ FA) as EF. rewrite <- EK in *.
  rewrite EF. cbn [f_output]. do 9 eexists. split; [reflexivity|]. split; [exact OB|].
  intros SI NF. destruct (p_noise_free _ _ _ _ _ _ _ _ _ _ _ _ _ _ _ _ _ _ _ _ _ _ _ _ _ FA TM KL SI NF) as [-> ->]. auto.
Qed.
(** ** simulation without noise followed by identification *)
Section Pipeline.
Variables (svd : mat CK -> mat CK * list K * mat CK) (spsolve : mat K -> list K -> res (list K)) (cabs : CK -> K) (ksqrt : K -> K).
Variables (true_cov naive_cov : mat CK -> arg K -> K -> bool -> res (mat K)) (iconf : config K) (io : ModelRun.options) (fs fs' : files K).
Variables (i1 v1 i2 v2 y : mat CK) (P : list K) (f : K) (h : list Z).
Hypothesis OUT : f_output s' = Some (Simulation i1 v1 i2 v2 y P f h).
Hypothesis SI : silent noise.
Hypothesis NF : noise_free conf.
Hypothesis FS : fs (simulation_path (ModelRun.network io)) = f_output s'.
Hypothesis ID : identify pinv svd spsolve cabs ksqrt true_cov naive_cov iconf io fs = (fs', Ok tt).
Hypothesis TP : ModelRun.three_phased (phases io) = false.
Hypothesis RD : ModelRun.standard io = true \/ ModelRun.bayesian io = false.
Hypothesis LL : ModelRun.laplacian io = ModelScript.laplacian o.
Hypothesis NE : kept <> [].
Hypothesis IJ : inj (fst (centred (ModelRun.laplacian io) v1 i1)).
Hypothesis RT : routines pinv svd (nr v) (length kept) (length kept) (fst (centred (ModelRun.laplacian io) v1 i1)) (snd (centred (ModelRun.laplacian io) v1 i1)).
Lemma labels_one : exists m, h = repeat 1%Z m.
Proof.
  destruct p_alignment as (kk & a & b & d & e & z & Q & g & _ & _ & _ & _ & _ & OU & _). rewrite OUT in OU. injection OU. intros E1 _ _ _ _ _ _ _. exists (length kk). exact E1.
Qed.
Theorem p_pipeline_laplacian : ModelScript.laplacian o = true -> shown (hidden_nodes conf) ns -> orderly (length ns) (length kept) -> no_shunts ns ->
  exists l, fs' (standard_path (ModelRun.network io)) = Some (Standard y y l).
Proof.
  intros LA SW OR NS. destruct (p_saved_laplacian LA SW OR) as (a1 & b1 & a2 & b2 & z & Q & g & hh & OU & EX & ZS & NN).
  destruct (NN SI NF) as [-> ->]. rewrite OUT in OU. injection OU as Q1 Q2 Q3 Q4 Q5 Q6 Q7 Q8. subst a2 b2 z Q g hh. destruct labels_one as (m & EH). rewrite OUT, EH in FS.
  destruct (p_identify_exact _ _ _ _ _ _ _ _ _ _ _ _ (length kept) _ _ _ _ _ _ _ _ _ FS ID TP RD EX) as (l & R & _); auto.
  - destruct kept; [congruence|cbn; lia].
  - exists l. exact R.
Qed.
Theorem p_pipeline_grounded : forall G0, ModelScript.laplacian o = false -> substations ns G0 -> all_before E G0 -> steady G0 V ->
  orderly (length (kept_ascending (length ns) G0)) (length kept) ->
  exists l, fs' (standard_path (ModelRun.network io)) = Some (Standard y y l).
Proof.
  intros G0 LA SG AB SV OR. destruct (p_saved_grounded G0 LA SG AB SV OR) as (a1 & b1 & a2 & b2 & z & Q & g & hh & c & OU & EX & NN).
  destruct (NN SI NF) as [-> ->]. rewrite OUT in OU. injection OU as Q1 Q2 Q3 Q4 Q5 Q6 Q7 Q8. subst a2 b2 z Q g hh. destruct labels_one as (m & EH). rewrite OUT, EH in FS.
  destruct (p_identify_exact _ _ _ _ _ _ _ _ _ _ _ _ (length kept) _ _ _ _ _ _ _ _ _ FS ID TP RD EX) as (l & R & _); auto.
  - rewrite LL, LA. discriminate.
  - destruct kept; [congruence|cbn; lia].
  - exists l. exact R.
Qed.
End Pipeline.
End Thm.

Section Three.
Context {K : Type} {O : Ops K} {F : Fld K} {O2 : OrdOps K} {OF : OrdFld K}.
Notation CK := (cplx K).
Add Field Kfld4 : (@k_field K O F).
Context (pinv : mat CK -> mat CK) (rnd : K -> Z) (root : K -> K) (polar : K -> K -> CK).
Context {St : Type} (randint : nat -> nat -> St -> list nat * St) (gauss : St -> K * St) (noise : @noise_fun K St K) (seeded : St).
Context (flow1 : net (K := K) -> mat K -> mat K -> res (mat K * mat K)).
Context (flow3 : net (K := K) -> mat K -> mat K -> list (mat K) -> res ((mat K * mat K) * (mat K * mat K) * (mat K * mat K))).
Context (y_bus3 : net (K := K) -> res (mat CK)).
Context (reduce3 : net (K := K) -> mat CK -> mat CK -> list nat -> bool -> res (list nat * mat CK)).
Context (seq_measurement seq_admittance : mat CK -> res (mat CK)).
Notation run := (ModelScript.simulate pinv rnd root polar randint gauss noise seeded flow1 flow3 y_bus3 reduce3 seq_measurement seq_admittance).
Lemma nth_labels : forall N k, (k < 3 * N)%nat -> nth k (concat (repeat [1; 2; 3]%Z N)) 0%Z = (1 + Z.of_nat (k mod 3))%Z.
Proof.
  induction N as [|N IH]; intros k Hk; [lia|]. cbn [repeat concat]. destruct (Nat.lt_ge_cases k 3) as [L|G].
  - rewrite app_nth1 by exact L. rewrite Nat.mod_small by exact L. destruct k as [|[|[|k]]]; [reflexivity..|lia].
  - rewrite app_nth2 by exact G. cbn [length]. rewrite IH by lia. f_equal. f_equal. replace k with ((k - 3) + 1 * 3)%nat at 2 by lia. rewrite Nat.mod_add by lia. reflexivity.
Qed.
Lemma length_labels : forall N, length (concat (repeat [1; 2; 3]%Z N)) = (3 * N)%nat.
Proof. induction N as [|N IH]; [reflexivity|]. cbn [repeat concat]. rewrite app_length, IH. cbn. lia. Qed.
Theorem p_alignment3 : forall conf o ts ns ls s s', three_phased o = true -> sequence o = false -> recomputes o ->
  (forall n y, y_bus3 n = Ok y -> shape y (3 * length (buses n)) (3 * length (buses n))) ->
  run conf o ts (Some (ns, ls)) s = (s', Ok tt) ->
  exists n kept nv ni v i y P f, NetData3P ts (Some ns) (Some ls) None = Ok n /\ f_filtered s' = Some (nv, ni, v, i) /\
  nc nv = (3 * length (buses n))%nat /\ nc ni = (3 * length (buses n))%nat /\ nc v = (3 * length (buses n))%nat /\ nc i = (3 * length (buses n))%nat /\
  f_output s' = Some (Simulation (columns ni kept) (columns nv kept) (columns i kept) (columns v kept) y (map (vget P) kept) f (map (fun k => 1 + Z.of_nat (k mod 3))%Z kept)) /\
  StronglySorted lt kept /\ (forall k, In k kept -> (k < 3 * length (buses n))%nat) /\ phase_ratings (safety_factor conf) n P.
Proof.
  intros conf o ts ns ls s s' H3 HQ HR HY H. destruct (recomputes_redo _ HR) as [Rs Rd]. apply (run_ok pinv rnd root polar randint gauss noise seeded flow1 flow3 y_bus3 reduce3 seq_measurement seq_admittance) in H.
  destruct H as (n & ns' & lp & lf & [[V I] Y] & [[[nv ni] v] i] & P & f & todel & y & out & (EN & EC & L & R & M & ER & EO) & ->).
  unfold network in EN. rewrite H3 in EN. unfold make_net3 in EN. apply bind_ok in EN. destruct EN as (n0 & EN & E0). injection E0 as -> <-.
  rewrite Rs, H3 in R. unfold new_results in R. apply bind_ok in R. destruct R as (Y' & EY & R). apply bind_ok in R. destruct R as ([V' I'] & RV & R). injection R as -> -> ->.
  apply bind_ok in RV. destruct RV as ([[pa pb] pc] & _ & RV). unfold get_current_and_voltage3 in RV.
  apply bind_ok in RV. destruct RV as (va & _ & RV). apply bind_ok in RV. destruct RV as (vb & _ & RV). apply bind_ok in RV. destruct RV as (vc & _ & RV).
  apply bind_ok in RV. destruct RV as (V0 & _ & RV). rewrite EY in RV. cbn [bind] in RV. apply bind_ok in RV. destruct RV as (I0 & EI & RV). injection RV as -> ->.
  unfold currents in EI. destruct (Nat.eqb_spec (nc V) (nr Y)) as [CV|]; [|discriminate]. injection EI as <-. cbn [fst snd] in *.
  destruct (HY n Y EY) as (_ & RY & CY). rewrite RY in CV.
  unfold measurements in M. rewrite H3, Rd in M. cbn [noise_settings] in M. apply run3_inv in M. cbn [pmu_safety_factor] in M.
  destruct M as ((base & mr & HB & HRT & EP) & last & tsq & g & HSa & _ & HM).
  assert (CI : nc (mmul V Y) = nc V) by (change (nc (mmul V Y)) with (nc Y); congruence).
  destruct (measure_columns rnd root noise seeded _ _ _ _ _ _ _ _ _ _ _ _ _ _ _ HM CI) as (C1 & C2 & C3 & C4 & _).
  destruct (p_ratings_3ph _ _ _ _ HB HRT) as (LP & _ & sq & SQ1 & SQ2). rewrite <- EP in *.
  unfold remaining_data in EO. rewrite HQ, H3 in EO.
  apply bind_ok in EO. destruct EO as (a1 & D1 & EO). apply bind_ok in EO. destruct EO as (a2 & D2 & EO). apply bind_ok in EO. destruct EO as (a3 & D3 & EO).
  apply bind_ok in EO. destruct EO as (a4 & D4 & EO). apply bind_ok in EO. destruct EO as (a5 & D5 & EO). apply bind_ok in EO. destruct EO as (a6 & D6 & EO). injection EO as <-.
  apply delete_cols_kept in D1, D2, D3, D4. apply delete_list_kept in D5, D6. rewrite C1, CV in D1. rewrite C2, CV in D2. rewrite C3, CV in D3. rewrite C4, CV in D4.
  rewrite LP in D5. rewrite length_labels in D6. set (kept := kept_ascending (3 * length (buses n)) todel) in *.
  assert (KB : forall k, In k kept -> (k < 3 * length (buses n))%nat) by (intros k Hk; apply kept_In in Hk; tauto).
  exists n, kept, nv, ni, v, i, y, P, (knat f). subst a1 a2 a3 a4 a5 a6. cbn [f_filtered f_output].
  split; [exact EN|]. split; [reflexivity|]. split; [congruence|]. split; [congruence|]. split; [congruence|]. split; [congruence|]. split; [|split; [apply kept_sorted|split; [exact KB|]]].
  - f_equal. f_equal. apply map_ext_in. intros k Hk. apply nth_labels. apply KB. exact Hk.
  - split; [exact LP|]. exists sq. split; [exact SQ1|]. intros ph k Hp Hk. destruct (SQ2 ph k Hp Hk) as [A B].
    assert (E : phase_factor [safety_factor conf * 1; safety_factor conf * 1; safety_factor conf * 1] ph = safety_factor conf).
    { unfold phase_factor. cbn [length Nat.eqb]. destruct ph as [|[|[|ph]]]; [cbn; ring..|lia]. }
    rewrite E in A, B. auto.
Qed.
End Three.
