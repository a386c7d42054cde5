(** Proofs about building networks and about passive nodes. *)
From Coq Require Import Bool Arith List ZArith String Lia Ring Field Permutation.
From Verif Require Import BasePy BaseFld BaseSum BaseMat ModelNet SpecNet ProofNet.
Import ListNotations.
Local Open Scope K_scope.
Local Open Scope list_scope.

Section Build.
Context {K : Type} {O : Ops K}.
Notation net := (@net K).
Implicit Type n : net.

Definition same_but_lines n n' := buses n' = buses n /\ loads n' = loads n /\ asyms n' = asyms n /\ grids n' = grids n /\ sn n' = sn n /\ types n' = types n.

Lemma pp_create_bus_new : forall n kv nm i, ~ In i (ids n) -> pp_create_bus n kv nm i = Ok (with_buses n (buses n ++ [Bus i nm kv])).
Proof. intros n kv nm i H. unfold pp_create_bus. destruct (has_bus n i) eqn:E; auto. apply has_bus_In in E. tauto. Qed.
Lemma load_label_free : forall n i, consistent n -> ~ In i (map l_bus (loads n)) -> existsb (fun l => l_id l =? i)%nat (loads n) = false.
Proof.
  intros n i C H. destruct (existsb _ _) eqn:E; auto. apply existsb_exists in E as (l & I & E). apply Nat.eqb_eq in E.
  destruct C as (_ & _ & _ & _ & _ & C6 & _). destruct (C6 l I) as [E1 _]. exfalso. apply H, in_map_iff. exists l. split; congruence.
Qed.
Lemma asym_label_free : forall n i, consistent n -> ~ In i (map a_bus (asyms n)) -> existsb (fun l => a_id l =? i)%nat (asyms n) = false.
Proof.
  intros n i C H. destruct (existsb _ _) eqn:E; auto. apply existsb_exists in E as (l & I & E). apply Nat.eqb_eq in E.
  destruct C as (_ & _ & _ & _ & _ & _ & _ & C8 & _). destruct (C8 l I) as [E1 _]. exfalso. apply H, in_map_iff. exists l. split; congruence.
Qed.
Lemma has_bus_snoc : forall n i nm kv, has_bus (with_buses n (buses n ++ [Bus i nm kv])) i = true.
Proof. intros. apply has_bus_In. unfold ids. cbn. rewrite map_app. apply in_or_app. right. cbn. auto. Qed.
Lemma loads_on_buses : forall n i, consistent n -> ~ In i (ids n) -> ~ In i (map l_bus (loads n)) /\ ~ In i (map a_bus (asyms n)).
Proof.
  intros n i (_ & _ & _ & _ & _ & C6 & _ & C8 & _) H. split; intro I; apply in_map_iff in I as (l & E & I).
  - destruct (C6 l I). congruence.
  - destruct (C8 l I). congruence.
Qed.

Lemma create_bus_new : forall n i t p q kv z c, consistent n -> ~ In i (ids n) ->
  exists n', create_bus n i t p q kv z c = Ok n' /\ consistent n' /\ buses n' = buses n ++ [Bus i (str i) kv] /\
  lines n' = lines n /\ asyms n' = asyms n /\ sn n' = sn n /\ types n' = types n /\
  map seen_load (loads n') = map seen_load (loads n) ++ (if ((t =? 1) || (t =? 3))%nat then [if (t =? 1)%nat then (i, p, q) else (i, 0, 0)] else []) /\
  grids n' = grids n ++ (if (t =? 3)%nat then [i] else []).
Proof.
  intros n i t p q kv z c C H. unfold create_bus. rewrite pp_create_bus_new by auto. cbn [bind].
  destruct (loads_on_buses n i C H) as [HL _].
  set (n1 := with_buses n (buses n ++ [Bus i (str i) kv])).
  assert (C1 : consistent n1). { destruct (cons_bus n kv i n1 C) as (C1 & _); auto. apply pp_create_bus_new; auto. }
  assert (HB : has_bus n1 i = true) by apply has_bus_snoc.
  assert (HF : existsb (fun l => l_id l =? i)%nat (loads n1) = false) by (apply load_label_free; auto).
  unfold TYPE_LOAD, TYPE_PCC.
  destruct (Nat.eqb_spec t 1) as [->|N1].
  - unfold pp_create_load. rewrite HB, HF. cbn [negb]. eexists. split; [reflexivity|].
    split; [eapply cons_load with (n := n1) (i := i); [auto|unfold pp_create_load; rewrite HB, HF; reflexivity]|].
    cbn. rewrite map_app. cbn. rewrite app_nil_r. repeat split.
  - destruct (Nat.eqb_spec t 3) as [->|N3].
    + unfold pp_create_load at 1. rewrite HB, HF. cbn [negb bind].
      set (n2 := with_loads n1 (loads n1 ++ [Load i i 0 0 0 0])).
      assert (C2 : consistent n2). { eapply cons_load with (n := n1) (i := i); [auto|unfold pp_create_load; rewrite HB, HF; reflexivity]. }
      assert (HB2 : has_bus n2 i = true) by exact HB.
      unfold pp_create_ext_grid. rewrite HB2. cbn [negb]. eexists. split; [reflexivity|].
      split; [eapply cons_grid with (n := n2) (i := i); [auto|unfold pp_create_ext_grid; rewrite HB2; reflexivity]|].
      cbn. rewrite map_app. cbn. repeat split.
    + eexists. split; [reflexivity|]. split; [exact C1|]. cbn. rewrite !app_nil_r. repeat split.
Qed.
Lemma seen_bus_app : forall n i kv, map (fun b => (b_id b, b_kv b)) (buses n ++ [Bus i (str i) kv]) = map (fun b => (b_id b, b_kv b)) (buses n) ++ [(i, kv)].
Proof. intros. rewrite map_app. reflexivity. Qed.

Lemma buses_run : forall (ns : list (@bus_data K)) n, consistent n -> NoDup (ids n ++ map bd_id ns) -> (forall b, In b ns -> both is_single b) ->
  exists n', create_buses n ns = Ok n' /\ consistent n' /\
  map (fun b => (b_id b, b_kv b)) (buses n') = map (fun b => (b_id b, b_kv b)) (buses n) ++ map bus_of ns /\
  lines n' = lines n /\ asyms n' = asyms n /\ sn n' = sn n /\ types n' = types n /\
  map seen_load (loads n') = map seen_load (loads n) ++ map wanted_load (filter has_load ns) /\
  grids n' = grids n ++ map bd_id (filter (fun b => bd_type b =? 3)%nat ns).
Proof.
  induction ns as [|b ns IH]; intros n C N S'.
  - exists n. cbn. rewrite !app_nil_r. split; [reflexivity|]. split; [exact C|]. repeat split.
  - assert (Nb : ~ In (bd_id b) (ids n)).
    { intro I. cbn in N. apply NoDup_remove_2 in N. apply N, in_or_app. auto. }
    destruct (S' b (or_introl eq_refl)) as [[p Hp] [q Hq]].
    destruct (create_bus_new n (bd_id b) (bd_type b) p q (bd_kv b) (bd_z b) (bd_i b) C Nb)
      as (n1 & E1 & C1 & B1 & L1 & A1 & S1 & T1 & LD1 & G1).
    destruct (IH n1) as (n2 & E2 & C2 & B2 & L2 & A2 & S2 & T2 & LD2 & G2); auto.
    { unfold ids. rewrite B1, map_app. cbn. rewrite <- app_assoc. exact N. }
    { intros; apply S'; right; auto. }
    exists n2. split.
    { unfold create_buses. cbn. rewrite Hp, Hq. cbn. rewrite E1. exact E2. }
    split; [exact C2|]. split; [rewrite B2, B1, seen_bus_app, <- app_assoc; reflexivity|].
    split; [congruence|]. split; [congruence|]. split; [congruence|]. split; [congruence|]. split.
    + rewrite LD2, LD1, <- app_assoc. f_equal. cbn [filter].
      replace (has_load b) with ((bd_type b =? 1) || (bd_type b =? 3))%nat by reflexivity.
      destruct (bd_type b =? 1)%nat eqn:Ea; cbn [orb].
      * cbn [map app]. f_equal. unfold wanted_load. rewrite Ea, Hp, Hq. reflexivity.
      * destruct (bd_type b =? 3)%nat eqn:Eb; cbn [map app]; [|reflexivity]. f_equal. unfold wanted_load. rewrite Ea. reflexivity.
    + rewrite G2, G1, <- app_assoc. f_equal. cbn [filter]. destruct (bd_type b =? 3)%nat; reflexivity.
Qed.

Lemma create_bus_old : forall n i t p q kv z c, In i (ids n) -> create_bus n i t p q kv z c = Err UserWarning.
Proof. intros n i t p q kv z c H. unfold create_bus, pp_create_bus. apply has_bus_In in H. rewrite H. reflexivity. Qed.
Lemma create_bus3_old : forall n i t p q kv z c, In i (ids n) -> create_bus3 n i t p q kv z c = Err UserWarning.
Proof. intros n i t p q kv z c H. unfold create_bus3, pp_create_bus. apply has_bus_In in H. rewrite H. reflexivity. Qed.
Lemma NoDup_app_bad : forall (a b : list nat), NoDup a -> ~ NoDup (a ++ b) -> exists b1 x b2, b = b1 ++ x :: b2 /\ NoDup (a ++ b1) /\ In x (a ++ b1).
Proof.
  intros a b. revert a. induction b as [|x b IH]; intros a Ha Hn; [rewrite app_nil_r in Hn; tauto|].
  destruct (in_dec Nat.eq_dec x a) as [I|I].
  - exists [], x, b. rewrite app_nil_r. auto.
  - destruct (IH (a ++ [x])) as (b1 & y & b2 & E & N & I2).
    + apply NoDup_snoc; auto.
    + rewrite <- app_assoc. exact Hn.
    + exists (x :: b1), y, b2. rewrite E. rewrite <- app_assoc in N, I2. auto.
Qed.
Lemma map_split : forall A B (f : A -> B) l b1 x b2, map f l = b1 ++ x :: b2 -> exists l1 y l2, l = l1 ++ y :: l2 /\ map f l1 = b1 /\ f y = x.
Proof.
  intros A B f l. induction l as [|a l IH]; intros [|c b1] x b2 E; cbn in E; try discriminate.
  - injection E as E1 E2. exists [], a, l. auto.
  - injection E as E1 E2. destruct (IH _ _ _ E2) as (l1 & y & l2 & H1 & H2 & H3). exists (a :: l1), y, l2. subst. auto.
Qed.
Lemma buses_dup : forall (ns : list (@bus_data K)) n, consistent n -> ~ NoDup (ids n ++ map bd_id ns) -> (forall b, In b ns -> both is_single b) ->
  create_buses n ns = Err UserWarning.
Proof.
  intros ns n C H S'. destruct (NoDup_app_bad (ids n) (map bd_id ns)) as (b1 & x & b2 & E & N & I); auto; [apply C|].
  destruct (map_split _ _ _ _ _ _ _ E) as (l1 & y & l2 & El & E1 & E2).
  destruct (buses_run l1 n) as (n1 & R & C1 & B1 & _); auto.
  { rewrite E1. auto. } { intros b Ib. apply S'. rewrite El. apply in_or_app. auto. }
  unfold create_buses in *. rewrite El, for_each_app, R. cbn [bind for_each].
  destruct (S' y) as [[p Hp] [q Hq]]. { rewrite El. apply in_or_app. right. left. auto. }
  rewrite Hp, Hq. cbn [bind single]. rewrite create_bus_old; [reflexivity|].
  assert (Ei : ids n1 = ids n ++ b1).
  { unfold ids. rewrite <- E1. transitivity (map fst (map (fun b => (b_id b, b_kv b)) (buses n1))); [rewrite map_map; reflexivity|].
    rewrite B1, map_app, !map_map. reflexivity. }
  rewrite Ei, E2. exact I.
Qed.

(** ** lines *)
Context {F : Fld K}.
Add Field Kfld : (@k_field K O F).

Definition line_step n (l : @line_data K) : res net :=
  let l := oriented l in
  if (0 <? ld_status l)%Z then
    fb <- pp_get_element_index n (PStr (str (ld_start l))) ;;
    tb <- pp_get_element_index n (PStr (str (ld_end l))) ;;
    rk <- pydiv (ld_r l) (ld_length l) ;; xk <- pydiv (ld_x l) (ld_length l) ;;
    pp_create_line_from_parameters n fb tb (ld_length l) rk xk
  else Ok n.
Lemma oriented_fields : forall l : @line_data K, ld_start (oriented l) = Nat.min (ld_start l) (ld_end l) /\ ld_end (oriented l) = Nat.max (ld_start l) (ld_end l) /\
  ld_length (oriented l) = ld_length l /\ ld_r (oriented l) = ld_r l /\ ld_x (oriented l) = ld_x l /\ ld_status (oriented l) = ld_status l /\ ld_type (oriented l) = ld_type l.
Proof.
  intro l. unfold oriented. destruct (Nat.ltb_spec (ld_end l) (ld_start l)); cbn; repeat split; auto; lia.
Qed.
Definition good_line (known : list nat) (l : @line_data K) : Prop := In (ld_start l) known /\ In (ld_end l) known /\ ld_length l <> 0.
Lemma min_max_in : forall (l : list nat) a b, In a l -> In b l -> In (Nat.min a b) l /\ In (Nat.max a b) l.
Proof. intros l a b Ha Hb. destruct (Nat.le_ge_cases a b) as [E|E]; [rewrite Nat.min_l, Nat.max_r|rewrite Nat.min_r, Nat.max_l]; auto. Qed.
Lemma line_step_ok : forall n l, consistent n -> active l = true -> good_line (ids n) l ->
  exists n', line_step n l = Ok n' /\ consistent n' /\ same_but_lines n n' /\ map seen_line (lines n') = map seen_line (lines n) ++ [wanted_line l].
Proof.
  intros n l C A (G1 & G2 & G3). unfold line_step, active in *. destruct (oriented_fields l) as (E1 & E2 & E3 & E4 & E5 & E6 & E7).
  cbv zeta. rewrite E6, A, E1, E2, E3, E4, E5.
  destruct (min_max_in _ _ _ G1 G2) as [I1 I2].
  rewrite !element_index by apply C. rewrite (proj2 (has_bus_In n _) I1), (proj2 (has_bus_In n _) I2). cbn [bind].
  unfold pydiv. destruct (keqb (ld_length l) 0) eqn:EL; [apply keqb_eq in EL; tauto|]. cbn [bind].
  destruct (pp_create_line_from_parameters n (Nat.min (ld_start l) (ld_end l)) (Nat.max (ld_start l) (ld_end l)) (ld_length l) (ld_r l / ld_length l) (ld_x l / ld_length l)) as [n'|e] eqn:E.
  - exists n'. destruct (cons_line _ _ _ _ _ _ _ C E) as (C' & B & L & As & G & Sn & T & _ & _ & k & EL'). split; [auto|]. split; [auto|].
    split; [repeat split; auto|]. rewrite EL', map_app. f_equal. cbn. unfold seen_line, wanted_line. cbn.
    f_equal. f_equal; [f_equal|]; field; auto.
  - unfold pp_create_line_from_parameters in E. rewrite (proj2 (has_bus_In n _) I1), (proj2 (has_bus_In n _) I2) in E. discriminate.
Qed.
Lemma line_step_inactive : forall n l, active l = false -> line_step n l = Ok n.
Proof. intros n l A. unfold line_step, active in *. destruct (oriented_fields l) as (E1 & E2 & E3 & E4 & E5 & E6 & E7). cbv zeta. rewrite E6, A. reflexivity. Qed.
Lemma line_step_good : forall n l n', consistent n -> active l = true -> line_step n l = Ok n' -> good_line (ids n) l.
Proof.
  intros n l n' C A H. unfold line_step, active in *. destruct (oriented_fields l) as (E1 & E2 & E3 & E4 & E5 & E6 & E7).
  cbv zeta in H. rewrite E6, A, E1, E2, E3 in H.
  rewrite !element_index in H by apply C.
  destruct (has_bus n (Nat.min (ld_start l) (ld_end l))) eqn:I1; [|discriminate]. cbn [bind] in H.
  destruct (has_bus n (Nat.max (ld_start l) (ld_end l))) eqn:I2; [|discriminate]. cbn [bind] in H.
  apply has_bus_In in I1, I2. unfold pydiv in H. destruct (keqb (ld_length l) 0) eqn:EL; [discriminate|].
  assert (In (ld_start l) (ids n) /\ In (ld_end l) (ids n)) as [J1 J2].
  { destruct (Nat.le_ge_cases (ld_start l) (ld_end l)) as [E|E]; [rewrite Nat.min_l in I1 by auto; rewrite Nat.max_r in I2 by auto|rewrite Nat.min_r in I1 by auto; rewrite Nat.max_l in I2 by auto]; auto. }
  split; [auto|]. split; [auto|]. intro E. apply keqb_eq in E. congruence.
Qed.
Lemma same_ids : forall n n', same_but_lines n n' -> ids n' = ids n.
Proof. intros n n' (B & _). unfold ids. rewrite B. reflexivity. Qed.
Lemma lines_run : forall ls n, consistent n -> (forall l, In l ls -> active l = true -> good_line (ids n) l) ->
  exists n', for_each ls n line_step = Ok n' /\ consistent n' /\ same_but_lines n n' /\
  map seen_line (lines n') = map seen_line (lines n) ++ map wanted_line (filter active ls).
Proof.
  induction ls as [|l ls IH]; intros n C G.
  - exists n. cbn. rewrite app_nil_r. split; [reflexivity|]. split; [exact C|]. repeat split.
  - cbn [for_each filter]. destruct (active l) eqn:A.
    + destruct (line_step_ok n l C A) as (n1 & E & C1 & S1 & L1); [apply G; cbn; auto|]. rewrite E. cbn [bind].
      destruct (IH n1 C1) as (n2 & E2 & C2 & S2 & L2). { intros l' I A'. rewrite (same_ids _ _ S1). apply G; cbn; auto. }
      exists n2. split; [auto|]. split; [auto|]. split; [|rewrite L2, L1, <- app_assoc; reflexivity].
      destruct S1 as (? & ? & ? & ? & ? & ?), S2 as (? & ? & ? & ? & ? & ?). repeat split; congruence.
    + rewrite (line_step_inactive n l A). cbn [bind]. apply IH; auto. intros; apply G; cbn; auto.
Qed.
Lemma lines_good : forall ls n n', consistent n -> for_each ls n line_step = Ok n' -> forall l, In l ls -> active l = true -> good_line (ids n) l.
Proof.
  induction ls as [|a ls IH]; intros n n' C H l I A; [destruct I|]. cbn [for_each] in H. apply bind_ok in H as (n1 & H1 & H2).
  destruct (active a) eqn:Aa.
  - assert (G := line_step_good n a n1 C Aa H1). destruct I as [<-|I]; [auto|].
    destruct (line_step_ok n a C Aa G) as (n1' & E1 & C1 & S1 & _). rewrite H1 in E1. injection E1 as <-.
    rewrite <- (same_ids _ _ S1). eapply IH; eauto.
  - rewrite (line_step_inactive n a Aa) in H1. injection H1 as <-. destruct I as [<-|I]; [congruence|]. eapply IH; eauto.
Qed.
Lemma create_lines_step : forall n ls, create_lines n ls = (m <- for_each ls n line_step ;; Ok (m, map oriented ls)).
Proof. reflexivity. Qed.

(** acceptance and result of the constructor *)
Lemma p_build : forall ns ls, (forall b, In b ns -> both is_single b) -> NoDup (map bd_id ns) ->
  (forall l, In l ls -> active l = true -> In (ld_start l) (map bd_id ns) /\ In (ld_end l) (map bd_id ns) /\ ld_length l <> 0) ->
  exists n, NetData (Some ns) (Some ls) None = Ok n /\ consistent n /\
  map (fun b => (b_id b, b_kv b)) (buses n) = map bus_of ns /\
  map seen_load (loads n) = map wanted_load (filter has_load ns) /\ asyms n = [] /\
  grids n = map bd_id (filter (fun b => bd_type b =? 3)%nat ns) /\
  map seen_line (lines n) = map wanted_line (filter active ls).
Proof.
  intros ns ls S' N G. unfold NetData.
  destruct (buses_run ns pp_create_empty_network) as (n1 & E1 & C1 & B1 & L1 & A1 & _ & _ & LD1 & G1); auto; [apply (cons_empty [])|].
  rewrite E1. cbn [bind]. rewrite create_lines_step.
  assert (Ei : ids n1 = map bd_id ns).
  { unfold ids. transitivity (map fst (map (fun b => (b_id b, b_kv b)) (buses n1))); [rewrite map_map; reflexivity|]. rewrite B1. cbn. rewrite map_map. reflexivity. }
  destruct (lines_run ls n1 C1) as (n2 & E2 & C2 & (B2 & L2 & A2 & G2 & _) & LL). { intros l I A. unfold good_line. rewrite Ei. auto. }
  rewrite E2. cbn [bind fst]. exists n2. split; [reflexivity|]. split; [auto|]. rewrite B2, L2, A2, G2, LL, L1.
  repeat split; auto.
Qed.
Lemma p_build_only : forall ns ls n, (forall b, In b ns -> both is_single b) -> NetData (Some ns) (Some ls) None = Ok n ->
  NoDup (map bd_id ns) /\
  (forall l, In l ls -> active l = true -> In (ld_start l) (map bd_id ns) /\ In (ld_end l) (map bd_id ns) /\ ld_length l <> 0).
Proof.
  intros ns ls n S' H. unfold NetData in H. apply bind_ok in H as (n1 & H1 & H). rewrite create_lines_step in H.
  apply bind_ok in H as ([m ls'] & H & _). apply bind_ok in H as (m' & H & _).
  assert (N : NoDup (map bd_id ns)).
  { destruct (ListDec.NoDup_dec Nat.eq_dec (map bd_id ns)) as [N|N]; auto.
    rewrite (buses_dup ns pp_create_empty_network (cons_empty [])) in H1; auto. discriminate. }
  split; auto. destruct (buses_run ns pp_create_empty_network) as (n1' & E1 & C1 & B1 & _); auto; [apply (cons_empty [])|].
  rewrite H1 in E1. injection E1 as <-. intros l I A.
  assert (Ei : ids n1 = map bd_id ns).
  { unfold ids. transitivity (map fst (map (fun b => (b_id b, b_kv b)) (buses n1))); [rewrite map_map; reflexivity|]. rewrite B1. cbn. rewrite map_map. reflexivity. }
  rewrite <- Ei. eapply lines_good; eauto.
Qed.
Lemma p_records : forall n ls n' ls', create_lines n ls = Ok (n', ls') ->
  map (fun l => (ld_start l, ld_end l)) ls' = map (fun l => (Nat.min (ld_start l) (ld_end l), Nat.max (ld_start l) (ld_end l))) ls.
Proof.
  intros n ls n' ls' H. rewrite create_lines_step in H. apply bind_ok in H as (m & _ & H). injection H as _ <-.
  rewrite map_map. apply map_ext. intro l. destruct (oriented_fields l) as (E1 & E2 & _). congruence.
Qed.
Lemma p_no_lines : forall ns other, exists e, NetData ns None other = Err e.
Proof. intros ns other. unfold NetData. destruct (create_buses _ _); cbn; eauto. Qed.
Lemma p_no_lines_type : forall ns, (forall b, In b ns -> both is_single b) -> NoDup (map bd_id ns) -> NetData (Some ns) None None = Err TypeError.
Proof.
  intros ns S' N. unfold NetData. destruct (buses_run ns pp_create_empty_network) as (n1 & E1 & _); auto; [apply (cons_empty [])|]. rewrite E1. reflexivity.
Qed.
Lemma p_create_line : forall n f t r x len, create_line n f t r x len = Err UserWarning.
Proof.
  intros. unfold create_line. destruct (if (t <? f)%nat then (t, f) else (f, t)) as [f' t'].
  unfold pp_get_element_index. replace (filter _ (buses n)) with (@nil (@bus_row K)); [reflexivity|].
  induction (buses n) as [|b l IH]; cbn; auto.
Qed.

(** ** removal *)
Lemma p_remove_line : forall n l, (forall i, In i l -> In i (map n_id (lines n))) ->
  exists n', remove_line n (Many l) = Ok n' /\ same_but_lines n n' /\ (forall r, In r (lines n') <-> In r (lines n) /\ ~ In (n_id r) l).
Proof.
  intros n l H. unfold remove_line, pp_drop_lines.
  replace (forallb _ l) with true.
  - eexists. split; [reflexivity|]. split; [repeat split|]. intro r. cbn. rewrite filter_In, negb_true_iff, isin_not. tauto.
  - symmetry. apply forallb_forall. intros i I. apply existsb_exists. apply H, in_map_iff in I as (r & E & I). exists r. split; auto. apply Nat.eqb_eq; auto.
Qed.
Lemma p_remove_buses : forall n l, (forall i, In i l -> In i (ids n)) ->
  exists n', remove_buses n l = Ok n' /\
  (forall b, In b (buses n') <-> In b (buses n) /\ ~ In (b_id b) l) /\
  (forall x, In x (loads n') <-> In x (loads n) /\ ~ In (l_bus x) l) /\
  (forall x, In x (asyms n') <-> In x (asyms n) /\ ~ In (a_bus x) l) /\
  (forall g, In g (grids n') <-> In g (grids n) /\ ~ In g l) /\
  (forall x, In x (lines n') <-> In x (lines n) /\ ~ In (n_from x) l /\ ~ In (n_to x) l).
Proof.
  intros n l H. unfold remove_buses, pp_drop_buses.
  replace (forallb _ l) with true.
  - eexists. split; [reflexivity|]. cbn. repeat split; intros; rewrite ?filter_In, ?negb_true_iff, ?orb_false_iff, ?isin_not in *; tauto.
  - symmetry. apply forallb_forall. intros i I. apply has_bus_In; auto.
Qed.

(** ** passive nodes *)
Lemma find_load : forall n i, consistent n -> existsb (fun l => l_id l =? i)%nat (loads n) = true ->
  exists l, find (fun l => l_bus l =? i)%nat (loads n) = Some l /\ In l (loads n) /\ l_bus l = i.
Proof.
  intros n i (_ & _ & _ & _ & _ & C6 & _) H. apply existsb_exists in H as (l & I & E). apply Nat.eqb_eq in E.
  destruct (find (fun l => l_bus l =? i)%nat (loads n)) as [l'|] eqn:F'.
  - exists l'. apply find_some in F' as [F1 F2]. apply Nat.eqb_eq in F2. auto.
  - exfalso. apply find_none with (x := l) in F'; auto. apply Nat.eqb_neq in F'. destruct (C6 l I). congruence.
Qed.
Lemma find_asym : forall n i, consistent n -> existsb (fun l => a_id l =? i)%nat (asyms n) = true ->
  exists l, find (fun l => a_bus l =? i)%nat (asyms n) = Some l /\ In l (asyms n) /\ a_bus l = i.
Proof.
  intros n i (_ & _ & _ & _ & _ & _ & _ & C8 & _) H. apply existsb_exists in H as (l & I & E). apply Nat.eqb_eq in E.
  destruct (find (fun l => a_bus l =? i)%nat (asyms n)) as [l'|] eqn:F'.
  - exists l'. apply find_some in F' as [F1 F2]. apply Nat.eqb_eq in F2. auto.
  - exfalso. apply find_none with (x := l) in F'; auto. apply Nat.eqb_neq in F'. destruct (C8 l I). congruence.
Qed.
Lemma uniq_map : forall A (f : A -> nat) l x y, NoDup (map f l) -> In x l -> In y l -> f x = f y -> x = y.
Proof.
  intros A f l. induction l as [|a l IH]; cbn; intros x y N Hx Hy E; [tauto|]. inversion N as [|u v N1 N2]. subst.
  destruct Hx as [Hx|Hx], Hy as [Hy|Hy]; subst; auto; exfalso; apply N1; [rewrite E|rewrite <- E]; now apply in_map.
Qed.
Lemma passive_phases_ok : forall n i, consistent n -> exists p, passive_phases n i = Ok p /\ forall ph, p ph = true <-> idle n ph i.
Proof.
  intros n i C. unfold passive_phases. destruct (isin i (grids n)) eqn:G.
  - exists (fun _ => false). split; auto. intro ph. split; [discriminate|]. intros (H & _). apply isin_In in G. tauto.
  - apply isin_not in G.
    assert (P1 : exists p, (if existsb (fun l => l_id l =? i)%nat (loads n)
                then match find (fun l => l_bus l =? i)%nat (loads n) with
                     | Some l => Ok (fun _ : nat => keqb (l_p l) 0 && keqb (l_q l) 0)
                     | None => Err IndexError
                     end
                else Ok (fun _ : nat => true))%bool = Ok p /\
              forall ph, p ph = true <-> forall l, In l (loads n) -> l_bus l = i -> l_p l = 0 /\ l_q l = 0).
    { destruct (existsb (fun l => l_id l =? i)%nat (loads n)) eqn:E.
      - destruct (find_load n i C E) as (l & F' & I & El). rewrite F'. eexists. split; [reflexivity|]. intro ph. cbn beta.
        rewrite andb_true_iff, !keqb_eq. split; [|intro H; apply H; auto].
        intros H l' I' E'. assert (l' = l) by (apply (uniq_map _ l_bus (loads n)); auto; [apply C|congruence]). subst. auto.
      - eexists. split; [reflexivity|]. intro ph. cbn beta. split; auto. intros _ l I El. exfalso.
        destruct C as (_ & _ & _ & _ & _ & C6 & _). destruct (C6 l I) as [E1 _].
        assert (X : existsb (fun l => l_id l =? i)%nat (loads n) = true) by (apply existsb_exists; exists l; split; auto; apply Nat.eqb_eq; congruence). congruence. }
    destruct P1 as (p & E & Hp). rewrite E. cbn [bind].
    destruct (existsb (fun l => a_id l =? i)%nat (asyms n)) eqn:E2.
    + destruct (find_asym n i C E2) as (l & F' & I & El). rewrite F'. eexists. split; [reflexivity|]. intro ph. cbn.
      destruct (keqb (a_p l ph) 0 && keqb (a_q l ph) 0)%bool eqn:E3.
      * apply andb_true_iff in E3 as [E3 E4]. apply keqb_eq in E3, E4. rewrite Hp. unfold idle. split; [|tauto]. intro H. split; [auto|]. split; [auto|].
        intros l' I' E'. assert (l' = l) by (apply (uniq_map _ a_bus (asyms n)); auto; [apply C|congruence]). subst. auto.
      * split; [discriminate|]. intros (_ & _ & H). destruct (H l I El) as [H1 H2]. apply keqb_eq in H1, H2. rewrite H1, H2 in E3. discriminate.
    + exists p. split; auto. intro ph. rewrite Hp. unfold idle. split; [|tauto]. intro H. split; [auto|]. split; [auto|].
      intros l I El. exfalso. destruct C as (_ & _ & _ & _ & _ & _ & _ & C8 & _). destruct (C8 l I) as [E1 _].
      assert (X : existsb (fun l => a_id l =? i)%nat (asyms n) = true) by (apply existsb_exists; exists l; split; auto; apply Nat.eqb_eq; congruence). congruence.
Qed.
Lemma p_passive : forall n, consistent n -> exists f, give_passive_nodes n = Ok f /\
  forall ph, (forall i, In i (f ph) <-> In i (ids n) /\ idle n ph i) /\ exists g, f ph = filter g (ids n).
Proof.
  intros n C. unfold give_passive_nodes.
  assert (H : forall (l : list (@bus_row K)) acc, exists f, for_each l acc (fun acc b =>
    passive <- passive_phases n (b_id b) ;;
    Ok (fun ph => if passive ph then (acc ph ++ [b_id b])%list else acc ph)) = Ok f /\
    forall ph, exists g, (forall i, g i = true <-> idle n ph i) /\ f ph = acc ph ++ filter g (map b_id l)).
  { assert (D : forall ph, exists g, forall i, g i = true <-> idle n ph i).
    { intro ph. exists (fun i => match passive_phases n i with Ok p => p ph | Err _ => false end). intro i.
      destruct (passive_phases_ok n i C) as (p & E & H). rewrite E. apply H. }
    induction l as [|b l IH]; intro acc.
    - exists acc. split; [reflexivity|]. intro ph. destruct (D ph) as [g Hg]. exists g. split; auto. cbn. rewrite app_nil_r. auto.
    - cbn [for_each]. destruct (passive_phases_ok n (b_id b) C) as (p & E & H). rewrite E. cbn [bind].
      destruct (IH (fun ph => if p ph then acc ph ++ [b_id b] else acc ph)) as (f & E2 & H2). exists f. split; [exact E2|].
      intro ph. destruct (H2 ph) as (g & Hg & Ef). exists g. split; auto. rewrite Ef. cbn [map filter].
      assert (Eg : g (b_id b) = p ph). { specialize (Hg (b_id b)). specialize (H ph). destruct (g (b_id b)), (p ph); auto; intuition discriminate. }
      rewrite Eg. destruct (p ph); [rewrite <- app_assoc|]; reflexivity. }
  destruct (H (buses n) (fun _ => [])) as (f & E & Hf). exists f. split; [exact E|]. intro ph.
  destruct (Hf ph) as (g & Hg & Ef). cbn in Ef. split; [|exists g; exact Ef].
  intro i. rewrite Ef, filter_In, Hg. reflexivity.
Qed.
End Build.
