(** Tables with resistive lines: what the simulation program can eliminate. *)
From Coq Require Import String.
From Coq Require Import Bool Arith List ZArith Lia Ring Field Permutation Sorted.
From Verif Require Import BasePy BaseFld BaseOrd BaseSum BaseMat BaseLin ModelNet ModelResample ModelMeasure ModelRun ModelScript SpecMatrix SpecLS SpecKron SpecNet SpecReduce SpecResample SpecMeasure SpecScript SpecScriptData
  SpecPassive ProofNet ProofNetBuild ProofNetY ProofScriptData ProofScriptLap ProofPassive.
Import ListNotations.
Close Scope string_scope.
Local Open Scope K_scope.

Section Tables.
Context {K : Type} {O : Ops K} {F : Fld K} {O2 : OrdOps K} {OF : OrdFld K}.
Add Field KRfld : (@k_field K O F).
Notation CK := (cplx K).
(** where loads come from *)
Definition load_from (ns : list (bus_data (K := K))) (l : load_row (K := K)) : Prop :=
  (exists b, In b ns /\ bd_type b = 1%nat /\ l_z l = bd_z b /\ l_p l = number (bd_p b)) \/ (l_z l = 0 /\ l_p l = 0).
Definition loads_from (ns : list (bus_data (K := K))) (n : net (K := K)) : Prop := forall l, In l (loads n) -> load_from ns l.
Lemma create_bus_from : forall ns n b p q n', In b ns -> bd_p b = Single p -> create_bus n (bd_id b) (bd_type b) p q (bd_kv b) (bd_z b) (bd_i b) = Ok n' ->
  loads_from ns n -> loads_from ns n' /\ sn n' = sn n.
Proof.
  intros ns n b p q n' Hb Hp H U. unfold create_bus in H. apply bind_ok in H. destruct H as (n1 & H1 & H).
  assert (L1 : loads n1 = loads n /\ sn n1 = sn n). { unfold pp_create_bus in H1. destruct (has_bus n (bd_id b)); [discriminate|]. injection H1 as <-. auto. }
  destruct L1 as [L1 S1].
  assert (AL : forall (m : net (K := K)) b p q z c j m', pp_create_load m b p q z c j = Ok m' -> (exists l : load_row (K := K), loads m' = loads m ++ [l] /\ l_z l = z /\ l_p l = p) /\ sn m' = sn m).
  { intros m b' p' q' z' c' j m' HL. unfold pp_create_load in HL. destruct (negb _); [discriminate|]. destruct (existsb _ _); [discriminate|]. injection HL as <-.
    split; [|reflexivity]. eexists. split; [reflexivity|]. split; reflexivity. }
  assert (U1 : loads_from ns n1) by (intros l Hl; rewrite L1 in Hl; apply U; exact Hl).
  destruct (Nat.eqb_spec (bd_type b) TYPE_LOAD) as [T|T].
  - destruct (AL _ _ _ _ _ _ _ _ H) as ((l0 & L2 & Z2 & P2) & S2). split; [|congruence]. intros l Hl. rewrite L2 in Hl. apply in_app_iff in Hl. destruct Hl as [Hl|[<-|[]]]; [apply U1; exact Hl|].
    left. exists b. rewrite Hp. auto.
  - destruct (bd_type b =? TYPE_PCC)%nat; [|injection H as <-; split; [exact U1|exact S1]].
    apply bind_ok in H. destruct H as (n2 & H2 & H). destruct (AL _ _ _ _ _ _ _ _ H2) as ((l0 & L2 & Z2 & P2) & S2). unfold pp_create_ext_grid in H. destruct (negb _); [discriminate|]. injection H as <-. cbn [loads sn with_grids].
    split; [|congruence]. intros l Hl. cbn [loads with_grids] in Hl. rewrite L2 in Hl. apply in_app_iff in Hl. destruct Hl as [Hl|[<-|[]]]; [apply U1; exact Hl|]. right. auto.
Qed.
Lemma create_buses_from : forall all ns n n', incl ns all -> create_buses n ns = Ok n' -> (forall b, In b ns -> both is_single b) -> loads_from all n -> loads_from all n' /\ sn n' = sn n.
Proof.
  intros all. induction ns as [|b ns IH]; intros n n' HI H HS U; cbn in H; [injection H as <-; auto|]. apply bind_ok in H. destruct H as (n1 & H1 & H).
  apply bind_ok in H1. destruct H1 as (p & Hp & H1). apply bind_ok in H1. destruct H1 as (q & _ & H1).
  destruct (HS b (or_introl eq_refl)) as [[x Ex] _]. rewrite Ex in Hp. cbn in Hp. injection Hp as <-.
  destruct (create_bus_from all n b x q n1 (HI b (or_introl eq_refl)) Ex H1 U) as [U1 S1].
  destruct (IH n1 n') as [U2 S2]; [intros y Hy; apply HI; right; exact Hy|exact H|intros; apply HS; right; auto|exact U1|]. split; [exact U2|congruence].
Qed.
Lemma net_from : forall ns ls (n : net (K := K)), (forall b, In b ns -> both is_single b) -> NetData (Some ns) (Some ls) None = Ok n -> loads_from ns n /\ sn n = 1.
Proof.
  intros ns ls n HS HN. destruct (p_build_only ns ls n HS HN) as [ND GL].
  unfold NetData in HN. apply bind_ok in HN. destruct HN as (n1 & H1 & HN).
  assert (U1 : loads_from ns n1 /\ sn n1 = 1). { apply (create_buses_from ns _ _ _ (incl_refl ns) H1 HS). intros l []. } destruct U1 as [U1 S1].
  rewrite create_lines_step in HN. apply bind_ok in HN. destruct HN as ([m r] & H2 & HN). injection HN as <-. apply bind_ok in H2. destruct H2 as (m' & H2 & E). injection E as <- _.
  destruct (buses_run ns pp_create_empty_network) as (n1' & E1 & C1 & B1 & _); auto; [apply (cons_empty [])|]. rewrite H1 in E1. injection E1 as <-.
  assert (Ei : ids n1 = map bd_id ns).
  { unfold ids. transitivity (map fst (map (fun b => (b_id b, b_kv b)) (buses n1))); [rewrite map_map; reflexivity|]. rewrite B1. cbn. rewrite map_map. reflexivity. }
  destruct (lines_run ls n1 C1) as (n2 & E2 & _ & SA & _). { intros l I A. unfold good_line. rewrite Ei. auto. }
  rewrite H2 in E2. injection E2 as <-. destruct SA as (_ & L2 & SA). split; [intros l Hl; rewrite L2 in Hl; apply U1; exact Hl|].
  decompose [and] SA. congruence.
Qed.
Lemma ends_min_max : forall a b : nat, (Nat.min a b = a /\ Nat.max a b = b) \/ (Nat.min a b = b /\ Nat.max a b = a).
Proof. intros a b. destruct (Nat.le_ge_cases a b) as [H|H]; [left|right]; lia. Qed.
(** what the tables say about the network *)
Theorem tables_net : forall ns ls (n : net (K := K)), (forall b, In b ns -> both is_single b) -> NetData (Some ns) (Some ls) None = Ok n ->
  consistent n /\ ids n = map bd_id ns /\ length (buses n) = length ns /\ (resistive_tables ns ls -> resistive n) /\ (forall a b, joined n a b <-> linked ns ls a b).
Proof.
  intros ns ls n HS HN. destruct (p_build_only ns ls n HS HN) as [ND GL]. destruct (p_build ns ls HS ND GL) as (n' & HN' & C & B & _ & _ & _ & LS).
  rewrite HN in HN'. injection HN' as <-. destruct (net_from ns ls n HS HN) as [LF SN].
  assert (EI : ids n = map bd_id ns).
  { unfold ids. transitivity (map fst (map (fun b => (b_id b, b_kv b)) (buses n))); [rewrite map_map; reflexivity|]. rewrite B. rewrite map_map. reflexivity. }
  split; [exact C|]. split; [exact EI|]. split; [rewrite <- (map_length bd_id ns), <- EI; unfold ids; symmetry; apply map_length|]. split.
  - intros (KV & LR & LO). split; [rewrite SN; apply klt_01|]. split; [|split].
    + intros b Hb. apply (in_map (fun b => (b_id b, b_kv b))) in Hb. rewrite B in Hb. apply in_map_iff in Hb. destruct Hb as (c & E & Hc). injection E as _ <-. apply KV, Hc.
    + intros l Hl. apply (in_map seen_line) in Hl. rewrite LS in Hl. apply in_map_iff in Hl. destruct Hl as (c & E & Hc). apply filter_In in Hc. injection E as _ _ _ E _. rewrite <- E. apply LR; apply Hc.
    + intros l Hl. destruct (LF l Hl) as [(b & Hb & T & -> & ->)|[-> ->]]; [apply (LO b Hb T)|split; apply kle_refl].
  - intros a b. split.
    + intros (l & Hl & J). apply (in_map seen_line) in Hl. rewrite LS in Hl. apply in_map_iff in Hl. destruct Hl as (c & E & Hc). apply filter_In in Hc. injection E as E1 E2 _ _ _.
      exists c. split; [apply Hc|]. split; [apply Hc|]. rewrite <- EI. rewrite <- E1, <- E2 in J. destruct (ends_min_max (ld_start c) (ld_end c)) as [[M1 M2]|[M1 M2]]; rewrite M1, M2 in J; tauto.
    + intros (c & Hc & A & J). assert (Hl : In (wanted_line c) (map seen_line (lines n))) by (rewrite LS; apply in_map, filter_In; auto).
      apply in_map_iff in Hl. destruct Hl as (l & E & Hl). injection E as E1 E2 _ _ _. exists l. split; [exact Hl|]. rewrite EI, E1, E2. destruct (ends_min_max (ld_start c) (ld_end c)) as [[M1 M2]|[M1 M2]]; rewrite M1, M2; tauto.
Qed.
Lemma leads_mono : forall m (J J' : nat -> nat -> Prop) E E' k, (forall a b, J a b -> J' a b) -> (forall x, In x E' -> In x E) -> leads_out m J E k -> leads_out m J' E' k.
Proof. intros m J J' E E' k HJ HE H. induction H as [k Hk N|a b L H IH]; [apply already_out; [exact Hk|intro X; apply N, HE, X]|]. apply (one_link _ _ _ a b); [apply HJ, L|exact IH]. Qed.
Lemma ctr_meye : forall r, ctr (meye r : mat CK) = meye r.
Proof.
  intro r. apply (shape_ext (0 : CK) _ _ r r); [apply shape_mk|apply shape_mk|]. intros i j Hi Hj. change (get (ctr (meye r)) i j = get (meye r : mat CK) i j). unfold ctr. cbn [nr nc meye mk]. rewrite get_mk by assumption.
  unfold meye. rewrite !get_mk by assumption. rewrite (Nat.eqb_sym j i). destruct (i =? j)%nat; [apply conj_1|apply conj_0].
Qed.
Theorem p_solvable : forall (pinv : mat CK -> mat CK) ns ls (n : net (K := K)) Y E, (forall b, In b ns -> both is_single b) -> NetData (Some ns) (Some ls) None = Ok n -> make_y_bus n = Ok Y ->
  resistive_tables ns ls -> inverts pinv -> NoDup E -> (forall k, In k E -> leads_out (length ns) (linked ns ls) E k) -> solvable pinv Y E.
Proof.
  intros pinv ns ls n Y E HS HN HY RT IV ND LO. destruct (tables_net ns ls n HS HN) as (C & EI & LB & RN & JL).
  assert (IB : forall E', Permutation E E' -> invertible (length E') (block_of Y E' E')).
  { intros E' PE. apply (p_block n C (RN RT) Y E' HY); [apply (Permutation_NoDup PE ND)|]. intros k Hk. rewrite LB.
    apply (leads_mono _ (linked ns ls) _ E); [intros a b; apply JL|intros x Hx; apply (Permutation_in x (Permutation_sym PE) Hx)|apply LO, (Permutation_in k (Permutation_sym PE) Hk)]. }
  split.
  - destruct (IB E (Permutation_refl E)) as (B & SB & B1 & B2). exists B. auto.
  - intros E' PE. destruct (IB E' PE) as (B & SB & B1 & B2). assert (SM : shape (block_of Y E' E') (length E') (length E')) by apply shape_mk.
    rewrite (IV _ _ B SM SB B1 B2). unfold penrose. rewrite B1, B2, !ctr_meye. pose proof SM as (_ & R1 & _). pose proof SB as (_ & R2 & _).
    split; [exact SM|]. split; [exact SB|]. split; [apply mmul_1_l'; apply SM|]. split; [apply mmul_1_l'; apply SB|]. auto.
Qed.
End Tables.
