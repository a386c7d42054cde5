(** Proofs about networks. *)
From Coq Require Import Bool Arith List ZArith String Lia Ring Field Permutation Decimal DecimalString DecimalNat DecimalFacts.
From Verif Require Import BasePy BaseFld BaseSum BaseMat ModelNet SpecNet.
Import ListNotations.
Local Open Scope K_scope.
Local Open Scope list_scope.

Lemma to_uint_nonnil : forall i, Nat.to_uint i <> Nil.
Proof. intros i H. assert (E : Nat.to_uint i = unorm (Nat.to_uint i)) by (rewrite <- Unsigned.to_of, Unsigned.of_to; reflexivity). apply (unorm_nonnil (Nat.to_uint i)). congruence. Qed.
Lemma str_inj : forall i j, str i = str j -> i = j.
Proof.
  intros i j H. unfold str in H. apply Unsigned.to_uint_inj.
  assert (E : Some (Nat.to_uint i) = Some (Nat.to_uint j)) by (rewrite <- !NilZero.usu by apply to_uint_nonnil; rewrite H; reflexivity).
  injection E as E. exact E.
Qed.
Lemma isin_In : forall i l, isin i l = true <-> In i l.
Proof. intros i l. unfold isin. rewrite existsb_exists. split; [intros (x & H & E); apply Nat.eqb_eq in E; subst; auto|intro; exists i; split; auto; apply Nat.eqb_refl]. Qed.
Lemma isin_not : forall i l, isin i l = false <-> ~ In i l.
Proof. intros. rewrite <- isin_In. destruct (isin i l); split; intro; congruence. Qed.
Lemma NoDup_filter_map : forall A B (f : A -> B) (p : A -> bool) l, NoDup (map f l) -> NoDup (map f (filter p l)).
Proof.
  induction l as [|a l IH]; cbn; auto. intro H. inversion H as [|x y H1 H2]. subst.
  destruct (p a); cbn; auto. constructor; auto. intro I. apply H1. apply in_map_iff in I as (z & E & I). apply filter_In in I as [I _].
  rewrite <- E. apply in_map; auto.
Qed.
Lemma NoDup_snoc : forall A (l : list A) x, NoDup l -> ~ In x l -> NoDup (l ++ [x]).
Proof.
  induction l as [|a l IH]; cbn; intros x H N; [constructor; auto|].
  inversion H as [|y z H1 H2]. subst. constructor.
  - rewrite in_app_iff. intros [I|[E|[]]]; [auto|apply N; auto].
  - apply IH; auto.
Qed.
Lemma free_index_gt : forall l i, In i l -> (i < free_index l)%nat.
Proof.
  induction l as [|a l IH]; intros i H; [destruct H|]. change (free_index (a :: l)) with (Nat.max (S a) (free_index l)).
  destruct H as [E|H]; [subst; lia|]. specialize (IH _ H). lia.
Qed.
Lemma free_index_new : forall l, ~ In (free_index l) l.
Proof. intros l H. apply free_index_gt in H. lia. Qed.

Section Proofs.
Context {K : Type} {O : Ops K}.
Notation net := (@net K).
Implicit Type n : net.

Lemma has_bus_In : forall n i, has_bus n i = true <-> In i (ids n).
Proof.
  intros n i. unfold has_bus, ids. rewrite existsb_exists, in_map_iff. split; intros (b & A & B); exists b.
  - apply Nat.eqb_eq in B. auto.
  - rewrite A, Nat.eqb_refl. auto.
Qed.
Lemma find_id : forall (l : list (@bus_row K)) b, NoDup (map b_id l) -> In b l -> find (fun x => b_id x =? b_id b)%nat l = Some b.
Proof.
  induction l as [|a l IH]; cbn; intros b H I; [destruct I|]. destruct I as [I|I]; [subst; now rewrite Nat.eqb_refl|].
  inversion H as [|y z H1 H2]. subst. destruct (Nat.eqb_spec (b_id a) (b_id b)) as [E|E]; [|auto].
  exfalso. apply H1. rewrite E. now apply in_map.
Qed.
Lemma element_index : forall n i, NoDup (ids n) -> (forall b, In b (buses n) -> b_name b = str (b_id b)) ->
  pp_get_element_index n (PStr (str i)) = if has_bus n i then Ok i else Err UserWarning.
Proof.
  intros n i N Hn. unfold pp_get_element_index, ids, has_bus in *. revert N Hn. generalize (buses n) as l.
  assert (Z : forall l, (forall b, In b l -> b_name b = str (b_id b)) -> ~ In i (map b_id l) ->
            filter (fun b : @bus_row K => String.eqb (b_name b) (str i)) l = []).
  { induction l as [|a l IH]; cbn; intros Hn I; auto. rewrite (Hn a) by auto.
    destruct (String.eqb_spec (str (b_id a)) (str i)) as [E|E]; [apply str_inj in E; tauto|]. apply IH; auto. }
  induction l as [|a l IH]; cbn; intros N Hn; auto. inversion N as [|y z H1 H2]. subst.
  rewrite (Hn a) by auto. destruct (String.eqb_spec (str (b_id a)) (str i)) as [E|E].
  - apply str_inj in E. subst. rewrite Nat.eqb_refl. cbn. rewrite Z; auto.
  - destruct (Nat.eqb_spec (b_id a) i) as [E'|E']; [congruence|]. cbn. apply IH; auto.
Qed.

(** ** consistency of all histories *)
Lemma cons_bus : forall n kv i n', consistent n -> pp_create_bus n kv (str i) i = Ok n' ->
  consistent n' /\ ids n' = ids n ++ [i] /\ loads n' = loads n /\ asyms n' = asyms n /\ grids n' = grids n /\ lines n' = lines n /\ ~ In i (ids n).
Proof.
  intros n kv i n' (C1 & C2 & C3 & C4 & C5 & C6 & C7 & C8 & C9) H. unfold pp_create_bus in H.
  destruct (has_bus n i) eqn:E; [discriminate|]. injection H as <-.
  assert (Ni : ~ In i (ids n)) by (intro I; apply has_bus_In in I; congruence).
  assert (Ei : ids (with_buses n (buses n ++ [Bus i (str i) kv])) = ids n ++ [i]) by (unfold ids; cbn; rewrite map_app; reflexivity).
  split; [|repeat split; auto].
  unfold consistent. rewrite Ei. cbn.
  assert (M : forall x, In x (ids n) -> In x (ids n ++ [i])) by (intros; apply in_or_app; auto).
  split; [apply NoDup_snoc; auto|]. split; [intros b I; apply in_app_or in I as [I|[I|[]]]; [auto|subst; reflexivity]|].
  split; [auto|]. split; [intros l I; destruct (C4 l I); auto|].
  split; [auto|]. split; [intros l I; destruct (C6 l I); auto|].
  split; [auto|]. split; [intros l I; destruct (C8 l I); auto|]. auto.
Qed.
Lemma cons_load : forall n i p q z c n', consistent n -> pp_create_load n i p q z c i = Ok n' ->
  consistent n' /\ buses n' = buses n /\ loads n' = loads n ++ [Load i i p q z c] /\ asyms n' = asyms n /\ grids n' = grids n /\ lines n' = lines n.
Proof.
  intros n i p q z c n' (C1 & C2 & C3 & C4 & C5 & C6 & C7 & C8 & C9) H. unfold pp_create_load in H.
  destruct (has_bus n i) eqn:E; [|discriminate]. cbn in H.
  destruct (existsb (fun l => l_id l =? i)%nat (loads n)) eqn:E2; [discriminate|]. injection H as <-.
  split; [|cbn; auto]. unfold consistent, ids. cbn.
  repeat (split; [now auto|]). split.
  - rewrite map_app. apply NoDup_snoc; auto. intro I. apply in_map_iff in I as (l & E3 & I). cbn in E3.
    assert (X : existsb (fun l => l_id l =? i)%nat (loads n) = true) by (apply existsb_exists; exists l; split; auto; apply Nat.eqb_eq; destruct (C6 l I); congruence).
    congruence.
  - split; [|auto]. intros l I. apply in_app_or in I as [I|[I|[]]]; [auto|subst; cbn; split; auto; now apply has_bus_In].
Qed.
Lemma cons_asym : forall n i p q n', consistent n -> pp_create_asymmetric_load n i p q i = Ok n' ->
  consistent n' /\ buses n' = buses n /\ loads n' = loads n /\ asyms n' = asyms n ++ [Asym i i p q] /\ grids n' = grids n /\ lines n' = lines n.
Proof.
  intros n i p q n' (C1 & C2 & C3 & C4 & C5 & C6 & C7 & C8 & C9) H. unfold pp_create_asymmetric_load in H.
  destruct (has_bus n i) eqn:E; [|discriminate]. cbn in H.
  destruct (existsb (fun l => a_id l =? i)%nat (asyms n)) eqn:E2; [discriminate|]. injection H as <-.
  split; [|cbn; auto]. unfold consistent, ids. cbn.
  repeat (split; [now auto|]). split.
  - rewrite map_app. apply NoDup_snoc; auto. intro I. apply in_map_iff in I as (l & E3 & I). cbn in E3.
    assert (X : existsb (fun l => a_id l =? i)%nat (asyms n) = true) by (apply existsb_exists; exists l; split; auto; apply Nat.eqb_eq; destruct (C8 l I); congruence).
    congruence.
  - split; [|auto]. intros l I. apply in_app_or in I as [I|[I|[]]]; [auto|subst; cbn; split; auto; now apply has_bus_In].
Qed.
Lemma cons_grid : forall n i n', consistent n -> pp_create_ext_grid n i = Ok n' ->
  consistent n' /\ buses n' = buses n /\ loads n' = loads n /\ asyms n' = asyms n /\ grids n' = grids n ++ [i] /\ lines n' = lines n.
Proof.
  intros n i n' (C1 & C2 & C3 & C4 & C5 & C6 & C7 & C8 & C9) H. unfold pp_create_ext_grid in H.
  destruct (has_bus n i) eqn:E; [|discriminate]. cbn in H. injection H as <-.
  split; [|cbn; auto]. unfold consistent, ids. cbn.
  repeat (split; [now auto|]). intros g I. apply in_app_or in I as [I|[I|[]]]; [auto|subst; now apply has_bus_In].
Qed.
Lemma cons_line : forall n f t len r x n', consistent n -> pp_create_line_from_parameters n f t len r x = Ok n' ->
  consistent n' /\ buses n' = buses n /\ loads n' = loads n /\ asyms n' = asyms n /\ grids n' = grids n /\
  sn n' = sn n /\ types n' = types n /\
  In f (ids n) /\ In t (ids n) /\ exists k, lines n' = lines n ++ [Line k f t len r x].
Proof.
  intros n f t len r x n' (C1 & C2 & C3 & C4 & C5 & C6 & C7 & C8 & C9) H. unfold pp_create_line_from_parameters in H.
  destruct (has_bus n f && has_bus n t)%bool eqn:E; [|discriminate]. cbn in H. injection H as <-.
  apply andb_true_iff in E as [E1 E2]. apply has_bus_In in E1, E2.
  split; [|cbn; repeat (split; [now auto|]); eauto]. unfold consistent, ids in *. cbn.
  repeat (split; [now auto|]). split.
  - rewrite map_app. apply NoDup_snoc; auto. apply free_index_new.
  - split; [|auto]. intros l I. apply in_app_or in I as [I|[I|[]]]; [auto|subst; cbn; auto].
Qed.
Lemma cons_drop_buses : forall n l n', consistent n -> pp_drop_buses n l = Ok n' -> consistent n'.
Proof.
  intros n l n' (C1 & C2 & C3 & C4 & C5 & C6 & C7 & C8 & C9) H. unfold pp_drop_buses in H.
  destruct (forallb (has_bus n) l); [|discriminate]. injection H as <-. unfold consistent, ids in *. cbn.
  assert (M : forall i, In i (map b_id (buses n)) -> isin i l = false -> In i (map b_id (filter (fun b => negb (isin (b_id b) l)) (buses n)))).
  { intros i I E. apply in_map_iff in I as (b & Eb & I). apply in_map_iff. exists b. split; auto. apply filter_In. split; auto. rewrite Eb, E. auto. }
  split; [apply NoDup_filter_map; auto|]. split; [intros b I; apply filter_In in I as [I _]; auto|].
  split; [apply NoDup_filter_map; auto|]. split; [intros x I; apply filter_In in I as [I E]; apply negb_true_iff, orb_false_iff in E as [Ea Eb]; destruct (C4 x I); auto|].
  split; [apply NoDup_filter_map; auto|]. split; [intros x I; apply filter_In in I as [I E]; apply negb_true_iff in E; destruct (C6 x I); auto|].
  split; [apply NoDup_filter_map; auto|]. split; [intros x I; apply filter_In in I as [I E]; apply negb_true_iff in E; destruct (C8 x I); auto|].
  intros x I; apply filter_In in I as [I E]; apply negb_true_iff in E; auto.
Qed.
Lemma cons_drop_lines : forall n l n', consistent n -> pp_drop_lines n l = Ok n' -> consistent n'.
Proof.
  intros n [i|l] n' (C1 & C2 & C3 & C4 & C5 & C6 & C7 & C8 & C9) H; [discriminate|]. unfold pp_drop_lines in H.
  destruct (forallb _ l); [|discriminate]. injection H as <-. unfold consistent, ids in *. cbn.
  split; [auto|]. split; [auto|]. split; [apply NoDup_filter_map; auto|]. split; [intros x I; apply filter_In in I as [I E]; auto|]. auto.
Qed.
Lemma for_each_inv : forall A St (P : St -> Prop) (body : St -> A -> res St) l s s',
  (forall s x s', P s -> body s x = Ok s' -> P s') -> P s -> for_each l s body = Ok s' -> P s'.
Proof.
  intros A St P body l. induction l as [|a l IH]; cbn; intros s s' Hb Hs H; [injection H as <-; auto|].
  apply bind_ok in H as (s1 & H1 & H2). eauto.
Qed.
Lemma cons_create_bus : forall n i t p q kv z c n', consistent n -> create_bus n i t p q kv z c = Ok n' -> consistent n'.
Proof.
  intros n i t p q kv z c n' C H. unfold create_bus in H. apply bind_ok in H as (n1 & H1 & H2).
  destruct (cons_bus _ _ _ _ C H1) as (C1 & _).
  destruct (t =? TYPE_LOAD)%nat; [destruct (cons_load _ _ _ _ _ _ _ C1 H2); auto|].
  destruct (t =? TYPE_PCC)%nat; [|injection H2 as <-; auto].
  apply bind_ok in H2 as (n2 & H2 & H3). destruct (cons_load _ _ _ _ _ _ _ C1 H2) as (C2 & _).
  destruct (cons_grid _ _ _ C2 H3); auto.
Qed.
Lemma cons_create_bus3 : forall n i t p q kv z c n', consistent n -> create_bus3 n i t p q kv z c = Ok n' -> consistent n'.
Proof.
  intros n i t p q kv z c n' C H. unfold create_bus3 in H. apply bind_ok in H as (n1 & H1 & H2).
  destruct (cons_bus _ _ _ _ C H1) as (C1 & _).
  destruct (t =? TYPE_LOAD)%nat.
  { destruct p, q; try discriminate; [destruct (cons_load _ _ _ _ _ _ _ C1 H2)|destruct (cons_asym _ _ _ _ _ C1 H2)]; auto. }
  destruct (t =? TYPE_PCC)%nat; [|injection H2 as <-; auto].
  destruct p; [|discriminate].
  apply bind_ok in H2 as (n2 & H2 & H3). destruct (cons_load _ _ _ _ _ _ _ C1 H2) as (C2 & _).
  destruct (cons_grid _ _ _ C2 H3); auto.
Qed.
Lemma cons_create_line3 : forall n f t len ty n', consistent n -> create_line3 n f t len ty = Ok n' -> consistent n'.
Proof.
  intros n f t len ty n' C H. unfold create_line3 in H. destruct (if (t <? f)%nat then (t, f) else (f, t)) as [f' t'].
  apply bind_ok in H as (fb & H1 & H). apply bind_ok in H as (tb & H2 & H). unfold pp_create_line in H.
  destruct (negb (has_bus n fb && has_bus n tb)); [discriminate|]. destruct ty as [s|]; [|discriminate].
  destruct (find _ _); [|discriminate]. destruct (cons_line _ _ _ _ _ _ _ C H); auto.
Qed.
Lemma cons_exec : forall n o n', consistent n -> exec n o = Ok n' -> consistent n'.
Proof.
  intros n o n' C H. destruct o; cbn [exec] in H.
  - revert H. unfold create_buses. apply for_each_inv with (P := consistent); auto. intros s b s' Hs H.
    apply bind_ok in H as (p & _ & H). apply bind_ok in H as (q & _ & H). eapply cons_create_bus; eauto.
  - apply bind_ok in H as ([m ls'] & H & E). cbn in E. injection E as <-. unfold create_lines in H.
    apply bind_ok in H as (m' & H & E). injection E as <- _. revert H.
    apply for_each_inv with (P := consistent); auto. intros s l s' Hs H. destruct (0 <? ld_status (oriented l))%Z; [|injection H as <-; auto].
    apply bind_ok in H as (fb & _ & H). apply bind_ok in H as (tb & _ & H). apply bind_ok in H as (rk & _ & H). apply bind_ok in H as (xk & _ & H).
    destruct (cons_line _ _ _ _ _ _ _ Hs H); auto.
  - unfold create_line in H. destruct (if (t <? f)%nat then (t, f) else (f, t)) as [f' t'].
    apply bind_ok in H as (fb & _ & H). apply bind_ok in H as (tb & _ & H). apply bind_ok in H as (rk & _ & H). apply bind_ok in H as (xk & _ & H).
    destruct (cons_line _ _ _ _ _ _ _ C H); auto.
  - revert H. unfold create_lines_from_ybus. apply for_each_inv with (P := consistent); auto. intros s i s' Hs. apply for_each_inv with (P := consistent); auto.
    clear Hs s s'. intros s j s' Hs H. destruct (keqb (get y i j) 0); [injection H as <-; auto|].
    apply bind_ok in H as (vi & _ & H). apply bind_ok in H as (bi & _ & H). apply bind_ok in H as (fb & _ & H).
    apply bind_ok in H as (bj & _ & H). apply bind_ok in H as (tb & _ & H). destruct (cons_line _ _ _ _ _ _ _ Hs H); auto.
  - revert H. unfold create_buses3. apply for_each_inv with (P := consistent); auto. intros s b s' Hs H. eapply cons_create_bus3; eauto.
  - revert H. unfold create_lines3. apply for_each_inv with (P := consistent); auto. intros s b s' Hs H.
    destruct (0 <? ld_status b)%Z; [|injection H as <-; auto]. eapply cons_create_line3; eauto.
  - eapply cons_create_line3; eauto.
  - eapply cons_drop_buses; eauto.
  - eapply cons_drop_buses; eauto.
  - eapply cons_drop_lines; eauto.
  - eapply cons_drop_buses; eauto.
Qed.
Lemma cons_empty : forall ts, consistent (with_types pp_create_empty_network ts : net).
Proof. intro ts. unfold consistent, ids. cbn. pose proof (NoDup_nil nat). repeat (split; [solve [auto|intros ? []]|]). intros ? []. Qed.
Lemma p_history : forall ts ops n, history (with_types pp_create_empty_network ts) ops = Ok n -> consistent n.
Proof. intros ts ops n H. revert H. apply for_each_inv with (P := consistent); [intros; eapply cons_exec; eauto|apply cons_empty]. Qed.
End Proofs.
