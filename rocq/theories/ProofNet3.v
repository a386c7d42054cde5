(** Proofs about building three-phase networks. *)
From Coq Require Import Bool Arith List ZArith String Lia.
From Verif Require Import BasePy BaseFld BaseSum BaseMat ModelNet SpecNet ProofNet ProofNetBuild.
Import ListNotations.
Local Open Scope K_scope.
Local Open Scope list_scope.

Section Build3.
Context {K : Type} {O : Ops K}.
Notation net := (@net K).
Implicit Type n : net.

Lemma create_bus3_new : forall n b, consistent n -> ~ In (bd_id b) (ids n) -> accepted3 b ->
  exists n', create_bus3 n (bd_id b) (bd_type b) (bd_p b) (bd_q b) (bd_kv b) (bd_z b) (bd_i b) = Ok n' /\ consistent n' /\
  buses n' = buses n ++ [Bus (bd_id b) (str (bd_id b)) (bd_kv b)] /\
  lines n' = lines n /\ sn n' = sn n /\ types n' = types n /\
  map seen_load (loads n') = map seen_load (loads n) ++ map wanted_load (filter has_load3 [b]) /\
  map seen_asym (asyms n') = map seen_asym (asyms n) ++ map wanted_asym (filter is_asym [b]) /\
  grids n' = grids n ++ map bd_id (filter (fun b => bd_type b =? 3)%nat [b]).
Proof.
  intros n b C H (A1 & A3). unfold create_bus3. rewrite pp_create_bus_new by auto. cbn [bind].
  destruct (loads_on_buses n _ C H) as [HL HA].
  set (n1 := with_buses n (buses n ++ [Bus (bd_id b) (str (bd_id b)) (bd_kv b)])).
  assert (C1 : consistent n1). { destruct (cons_bus n (bd_kv b) (bd_id b) n1 C) as (C1 & _); auto. apply pp_create_bus_new; auto. }
  assert (HB : has_bus n1 (bd_id b) = true) by apply has_bus_snoc.
  assert (HF : existsb (fun l => l_id l =? bd_id b)%nat (loads n1) = false) by (apply load_label_free; auto).
  assert (HFa : existsb (fun l => a_id l =? bd_id b)%nat (asyms n1) = false) by (apply asym_label_free; auto).
  unfold TYPE_LOAD, TYPE_PCC. cbn [filter]. unfold has_load3, is_asym, wanted_load.
  destruct (Nat.eqb_spec (bd_type b) 1) as [E1|N1].
  - rewrite E1 in *. destruct (A1 eq_refl) as [[[p Hp] [q Hq]]|[(pa & pb & pc & Hp) (qa & qb & qc & Hq)]]; rewrite Hp, Hq.
    + unfold pp_create_load. rewrite HB, HF. cbn [negb]. eexists. split; [reflexivity|].
      split; [eapply cons_load with (n := n1) (i := bd_id b); [auto|unfold pp_create_load; rewrite HB, HF; reflexivity]|].
      cbn. rewrite map_app. cbn. rewrite E1, Hp, Hq. cbn. rewrite !app_nil_r. repeat split.
    + unfold pp_create_asymmetric_load. rewrite HB, HFa. cbn [negb]. eexists. split; [reflexivity|].
      split; [eapply cons_asym with (n := n1) (i := bd_id b); [auto|unfold pp_create_asymmetric_load; rewrite HB, HFa; reflexivity]|].
      cbn. rewrite map_app. cbn. unfold wanted_asym. rewrite Hp, Hq. cbn. rewrite !app_nil_r. repeat split.
  - assert (Ea : (match bd_p b with Single _ => false | Phases _ _ _ => false end) = false) by (destruct (bd_p b); auto). rewrite Ea.
    destruct (Nat.eqb_spec (bd_type b) 3) as [E3|N3].
    + destruct (A3 E3) as [p Hp]. rewrite Hp. unfold pp_create_load at 1. rewrite HB, HF. cbn [negb bind].
      set (n2 := with_loads n1 (loads n1 ++ [Load (bd_id b) (bd_id b) 0 0 0 0])).
      assert (C2 : consistent n2). { eapply cons_load with (n := n1) (i := bd_id b); [auto|unfold pp_create_load; rewrite HB, HF; reflexivity]. }
      assert (HB2 : has_bus n2 (bd_id b) = true) by exact HB.
      unfold pp_create_ext_grid. rewrite HB2. cbn [negb]. eexists. split; [reflexivity|].
      split; [eapply cons_grid with (n := n2) (i := bd_id b); [auto|unfold pp_create_ext_grid; rewrite HB2; reflexivity]|].
      cbn. rewrite map_app. rewrite E3. cbn. rewrite !app_nil_r. repeat split.
    + eexists. split; [reflexivity|]. split; [exact C1|]. cbn. rewrite !app_nil_r. repeat split.
Qed.
Lemma filter_cons_app : forall A (f : A -> bool) x l, filter f (x :: l) = filter f [x] ++ filter f l.
Proof. intros A f x l. cbn. destruct (f x); reflexivity. Qed.
Lemma buses3_run : forall (ns : list (@bus_data K)) n, consistent n -> NoDup (ids n ++ map bd_id ns) -> (forall b, In b ns -> accepted3 b) ->
  exists n', create_buses3 n ns = Ok n' /\ consistent n' /\
  map (fun b => (b_id b, b_kv b)) (buses n') = map (fun b => (b_id b, b_kv b)) (buses n) ++ map bus_of ns /\
  lines n' = lines n /\ sn n' = sn n /\ types n' = types n /\
  map seen_load (loads n') = map seen_load (loads n) ++ map wanted_load (filter has_load3 ns) /\
  map seen_asym (asyms n') = map seen_asym (asyms n) ++ map wanted_asym (filter is_asym ns) /\
  grids n' = grids n ++ map bd_id (filter (fun b => bd_type b =? 3)%nat ns).
Proof.
  induction ns as [|b ns IH]; intros n C N S'.
  - exists n. cbn. rewrite !app_nil_r. split; [reflexivity|]. split; [exact C|]. repeat split.
  - assert (Nb : ~ In (bd_id b) (ids n)). { intro I. cbn in N. apply NoDup_remove_2 in N. apply N, in_or_app. auto. }
    destruct (create_bus3_new n b C Nb (S' b (or_introl eq_refl))) as (n1 & E1 & C1 & B1 & L1 & S1 & T1 & LD1 & AD1 & G1).
    destruct (IH n1) as (n2 & E2 & C2 & B2 & L2 & S2 & T2 & LD2 & AD2 & G2); auto.
    { unfold ids. rewrite B1, map_app. cbn. rewrite <- app_assoc. exact N. }
    { intros; apply S'; right; auto. }
    exists n2. split. { unfold create_buses3 in *. cbn [for_each]. rewrite E1. exact E2. }
    split; [exact C2|]. split; [rewrite B2, B1, seen_bus_app, <- app_assoc; reflexivity|].
    split; [congruence|]. split; [congruence|]. split; [congruence|].
    rewrite (filter_cons_app _ has_load3), (filter_cons_app _ is_asym), (filter_cons_app _ (fun b => bd_type b =? 3)%nat), !map_app.
    rewrite LD2, LD1, AD2, AD1, G2, G1, <- !app_assoc. repeat split.
Qed.

Definition good3 (known : list nat) (ts : list (string * (K * K))) (l : @line_data K) : Prop :=
  In (ld_start l) known /\ In (ld_end l) known /\ exists s e, ld_type l = Some s /\ find (fun e => String.eqb (fst e) s) ts = Some e.
Lemma create_line3_ok : forall n (l : @line_data K), consistent n -> good3 (ids n) (types n) l ->
  exists n' e, create_line3 n (ld_start l) (ld_end l) (ld_length l) (ld_type l) = Ok n' /\ consistent n' /\ same_but_lines n n' /\
  (exists s, ld_type l = Some s /\ find (fun e => String.eqb (fst e) s) (types n) = Some e) /\
  map seen_line3 (lines n') = map seen_line3 (lines n) ++ [(Nat.min (ld_start l) (ld_end l), Nat.max (ld_start l) (ld_end l), ld_length l, Some (snd e))].
Proof.
  intros n l C (G1 & G2 & s & e & Es & Ee). unfold create_line3.
  replace (if (ld_end l <? ld_start l)%nat then (ld_end l, ld_start l) else (ld_start l, ld_end l)) with (Nat.min (ld_start l) (ld_end l), Nat.max (ld_start l) (ld_end l))
    by (destruct (Nat.ltb_spec (ld_end l) (ld_start l)); f_equal; lia).
  destruct (min_max_in _ _ _ G1 G2) as [I1 I2].
  rewrite !element_index by apply C. rewrite (proj2 (has_bus_In n _) I1), (proj2 (has_bus_In n _) I2). cbn [bind].
  unfold pp_create_line. rewrite (proj2 (has_bus_In n _) I1), (proj2 (has_bus_In n _) I2), Es, Ee. cbn [andb negb].
  destruct (pp_create_line_from_parameters n (Nat.min (ld_start l) (ld_end l)) (Nat.max (ld_start l) (ld_end l)) (ld_length l) (fst (snd e)) (snd (snd e))) as [n'|x] eqn:E.
  - exists n', e. destruct (cons_line _ _ _ _ _ _ _ C E) as (C' & B & L & As & G & Sn & T & _ & _ & k & EL'). split; [auto|]. split; [auto|].
    split; [repeat split; auto|]. split; [eauto|]. rewrite EL', map_app. f_equal. cbn. unfold seen_line3. cbn. destruct (snd e). reflexivity.
  - unfold pp_create_line_from_parameters in E. rewrite (proj2 (has_bus_In n _) I1), (proj2 (has_bus_In n _) I2) in E. discriminate.
Qed.
Lemma lines3_run : forall ts ls n, consistent n -> types n = rev ts -> (forall l, In l ls -> active l = true -> good3 (ids n) (types n) l) ->
  exists n', create_lines3 n ls = Ok n' /\ consistent n' /\ same_but_lines n n' /\
  map seen_line3 (lines n') = map seen_line3 (lines n) ++ map (wanted_line3 ts) (filter active ls).
Proof.
  intros ts. induction ls as [|l ls IH]; intros n C T G.
  - exists n. cbn. rewrite app_nil_r. split; [reflexivity|]. split; [exact C|]. repeat split.
  - unfold create_lines3 in *. cbn [for_each filter]. change (0 <? ld_status l)%Z with (active l). destruct (active l) eqn:A.
    + destruct (create_line3_ok n l C) as (n1 & e & E & C1 & S1 & (s & Es & Ee) & L1); [apply G; cbn; auto|]. rewrite E. cbn [bind].
      assert (T1 : types n1 = types n) by apply S1.
      destruct (IH n1 C1) as (n2 & E2 & C2 & S2 & L2). { congruence. } { intros l' I A'. rewrite (same_ids _ _ S1), T1. apply G; cbn; auto. }
      exists n2. split; [auto|]. split; [auto|]. split.
      * destruct S1 as (? & ? & ? & ? & ? & ?), S2 as (? & ? & ? & ? & ? & ?). repeat split; congruence.
      * assert (EW : wanted_line3 ts l = (Nat.min (ld_start l) (ld_end l), Nat.max (ld_start l) (ld_end l), ld_length l, Some (snd e)))
          by (unfold wanted_line3, type_of; rewrite Es, <- T, Ee; reflexivity).
        rewrite L2, L1, <- app_assoc. cbn [map app]. rewrite EW. reflexivity.
    + cbn [bind]. apply IH; auto. intros; apply G; cbn; auto.
Qed.
Lemma p_build3 : forall ts ns ls, (forall b, In b ns -> accepted3 b) -> NoDup (map bd_id ns) ->
  (forall l, In l ls -> active l = true -> In (ld_start l) (map bd_id ns) /\ In (ld_end l) (map bd_id ns) /\
     exists s p, ld_type l = Some s /\ type_of ts s = Some p) ->
  exists n, NetData3P ts (Some ns) (Some ls) None = Ok n /\ consistent n /\
  map (fun b => (b_id b, b_kv b)) (buses n) = map bus_of ns /\
  map seen_load (loads n) = map wanted_load (filter has_load3 ns) /\
  map seen_asym (asyms n) = map wanted_asym (filter is_asym ns) /\
  grids n = map bd_id (filter (fun b => bd_type b =? 3)%nat ns) /\
  map seen_line3 (lines n) = map (wanted_line3 ts) (filter active ls).
Proof.
  intros ts ns ls S' N G. unfold NetData3P. set (n0 := with_types _ _).
  destruct (buses3_run ns n0) as (n1 & E1 & C1 & B1 & L1 & _ & T1 & LD1 & AD1 & G1); auto; [apply (cons_empty)|].
  rewrite E1. cbn [bind].
  assert (Ei : ids n1 = map bd_id ns).
  { unfold ids. transitivity (map fst (map (fun b => (b_id b, b_kv b)) (buses n1))); [rewrite map_map; reflexivity|]. rewrite B1. cbn. rewrite map_map. reflexivity. }
  assert (Et : types n1 = rev ts) by (rewrite T1; cbn; apply app_nil_r).
  destruct (lines3_run ts ls n1 C1 Et) as (n2 & E2 & C2 & (B2 & L2 & A2 & G2 & _) & LL).
  { intros l I A. destruct (G l I A) as (I1 & I2 & s & p & Es & Ep). unfold good3. rewrite Ei, Et. split; [auto|]. split; [auto|].
    unfold type_of in Ep. destruct (find (fun e => String.eqb (fst e) s) (rev ts)) as [e|] eqn:Ef; [|discriminate]. eauto. }
  rewrite E2. exists n2. split; [reflexivity|]. split; [auto|]. rewrite B2, L2, A2, G2, LL, L1.
  repeat split; auto.
Qed.
Lemma p_build3_none : forall ts ns, (forall b, In b ns -> accepted3 b) -> NoDup (map bd_id ns) ->
  NetData3P ts (Some ns) None None = NetData3P ts (Some ns) (Some []) None /\ exists n, NetData3P ts (Some ns) None None = Ok n /\ lines n = [].
Proof.
  intros ts ns A N. split; [reflexivity|]. destruct (p_build3 ts ns [] A N) as (n & E & _ & _ & _ & _ & _ & L); [intros l []|].
  exists n. split; [exact E|]. destruct (lines n); auto. discriminate.
Qed.
End Build3.
