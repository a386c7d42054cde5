(** Proofs about the ratings of three-phase measurements. *)
From Coq Require Import Bool Arith List ZArith Lia Ring Field.
From Verif Require Import BasePy BaseFld BaseOrd BaseSum BaseMat BaseLin BaseNumpy ModelNet ModelResample ModelLoads ModelMeasure
  SpecResample SpecLoads SpecMeasure ProofResample ProofLoads ProofLoadsSmall ProofMeasure.
Import ListNotations.
Local Open Scope K_scope.

Section Ratings3.
Context {K : Type} {O : Ops K} {F : Fld K} {O2 : OrdOps K}.
Add Field Kfld : (@k_field K O F).

Lemma fold_last : forall A (f : A -> K) (bus : A -> nat) b (l : list A) d,
  let r := fold_left (fun x a => if (bus a =? b)%nat then f a else x) l d in
  (exists a, last_such (fun a => bus a = b) l a /\ r = f a) \/ (forall a, In a l -> bus a <> b) /\ r = d.
Proof.
  intros A f bus b l d. induction l as [|a l IH] using rev_ind; [right; split; [intros a []|reflexivity]|].
  cbv zeta in *. rewrite fold_left_app. cbn [fold_left]. destruct (Nat.eqb_spec (bus a) b).
  - left. exists a. split; [|reflexivity]. exists l, []. split; [reflexivity|]. split; [auto|intros y []].
  - destruct IH as [(a' & (l1 & l2 & -> & Hb & Hn) & E)|[Hn E]].
    + left. exists a'. split; [|exact E]. exists l1, (l2 ++ [a]). rewrite <- app_assoc. split; [reflexivity|]. split; [auto|].
      intros y Hy. apply in_app_iff in Hy. destruct Hy as [Hy|[<-|[]]]; auto.
    + right. split; [|exact E]. intros y Hy. apply in_app_iff in Hy. destruct Hy as [Hy|[<-|[]]]; auto.
Qed.

Lemma total_loads_counted : forall (n : net (K := K)) ph i b, (ph < 3)%nat -> nth_error (map b_id (buses n)) i = Some b ->
  exists p q, counted n b ph p q /\ get (total_loads n) ph i = p * p + q * q.
Proof.
  intros n ph i b Hph E. assert (Hi : (i < length (buses n))%nat).
  { rewrite <- (map_length b_id). apply nth_error_Some. congruence. }
  unfold total_loads. rewrite get_mk by auto. cbv zeta. rewrite (nth_error_nth _ _ _ E).
  set (sym := fold_left _ (loads n) 0).
  destruct (fold_last _ (fun a => a_p a ph * a_p a ph + a_q a ph * a_q a ph) a_bus b (asyms n) sym) as [(a & Ha & ->)|[Hn ->]].
  - exists (a_p a ph), (a_q a ph). split; [|reflexivity]. left. exists a. auto.
  - unfold sym. destruct (fold_last _ (fun l => l_p l * l_p l + l_q l * l_q l) l_bus b (loads n) 0) as [(l & Hl & ->)|[Hm ->]].
    + exists (l_p l), (l_q l). split; [|reflexivity]. right. split; [exact Hn|]. left. exists l. auto.
    + exists 0, 0. split; [|ring]. right. split; [exact Hn|]. right. auto.
Qed.

(** the load counted last is determined *)
Lemma last_such_unique : forall A (P : A -> Prop) l x y, last_such P l x -> last_such P l y -> x = y.
Proof.
  intros A P l. induction l as [|a l IH]; intros x y (l1 & l2 & E & Hx & Nx) (m1 & m2 & E' & Hy & Ny).
  - destruct l1; discriminate.
  - destruct l1 as [|a1 l1], m1 as [|b1 m1]; cbn [app] in E, E'; injection E as -> ->; injection E' as E1 E2.
    + exact E1.
    + exfalso. apply (Nx y); [rewrite E2; apply in_elt|auto].
    + exfalso. subst. apply (Ny x); [apply in_elt|auto].
    + apply IH; [exists l1, l2; auto|exists m1, m2; auto].
Qed.
Lemma last_such_in : forall A (P : A -> Prop) l x, last_such P l x -> In x l /\ P x.
Proof. intros A P l x (l1 & l2 & -> & H & _). split; [apply in_elt|auto]. Qed.
Theorem p_counted_unique : forall (n : net (K := K)) b ph p q p' q', counted n b ph p q -> counted n b ph p' q' -> p = p' /\ q = q'.
Proof.
  intros n b ph p q p' q' [(a & Ha & -> & ->)|[Hn H]] [(a' & Ha' & -> & ->)|[Hn' H']].
  - rewrite (last_such_unique _ _ _ _ _ Ha Ha'). auto.
  - exfalso. destruct (last_such_in _ _ _ _ Ha). eapply Hn'; eauto.
  - exfalso. destruct (last_such_in _ _ _ _ Ha'). eapply Hn; eauto.
  - destruct H as [(l & Hl & -> & ->)|(N & -> & ->)], H' as [(l' & Hl' & -> & ->)|(N' & -> & ->)]; auto.
    + rewrite (last_such_unique _ _ _ _ _ Hl Hl'). auto.
    + exfalso. destruct (last_such_in _ _ _ _ Hl). eapply N'; eauto.
    + exfalso. destruct (last_such_in _ _ _ _ Hl'). eapply N; eauto.
Qed.

Lemma flagged_lt : forall (n : net (K := K)) i, flagged n i = true -> (i < length (loads n))%nat.
Proof. intros n i H. unfold flagged in H. apply nth_error_Some. destruct (nth_error (loads n) i); [discriminate|discriminate H]. Qed.

Lemma grid_ratings_3ph_eq : forall (n : net (K := K)) m r, wf m -> grid_ratings_3ph n m = Ok r ->
  r = mk (nr m) (nc m) (fun ph j => replaced (nc m) (flagged n) (get m ph) (length (loads n)) j) /\
  forall i, flagged n i = true -> (i < nc m)%nat.
Proof.
  intros n m r Hwf H. assert (G : r = mk (nr m) (nc m) (fun ph j => replaced (nc m) (flagged n) (get m ph) (length (loads n)) j) /\
    forall i, (i < length (loads n))%nat -> flagged n i = true -> (i < nc m)%nat).
  { unfold grid_ratings_3ph in H. revert r H. generalize (length (loads n)) as L. induction L; intros r H.
    - cbn in H. injection H as <-. split; [|intros i Hi; lia]. apply gmat_eta. auto.
    - rewrite range_S, fold_left_app in H. cbn [fold_left] in H.
      destruct (nth_error (loads n) L) as [l|] eqn:E.
      + assert (Ef : flagged n L = isin (l_bus l) (grids n)) by (unfold flagged; rewrite E; reflexivity).
        destruct (isin (l_bus l) (grids n)) eqn:Ei.
        * apply bind_ok in H. destruct H as (m1 & H1 & H2). destruct (IHL _ H1) as [-> Hb].
          rewrite nc_mk, nr_mk in H2. destruct (Nat.ltb_spec L (nc m)); [|discriminate]. injection H2 as <-. split.
          -- apply mk_ext. intros ph j Hp Hj. rewrite replaced_S. unfold replace. rewrite Ef.
             destruct (j =? L)%nat; [apply sumn_ext; intros k Hk|]; rewrite get_mk by auto; reflexivity.
          -- intros i Hi Hfi. destruct (Nat.eq_dec i L); [subst; auto|apply Hb; auto; lia].
        * destruct (IHL _ H) as [-> Hb]. split.
          -- apply mk_ext. intros ph j Hp Hj. rewrite replaced_S. unfold replace. rewrite Ef. reflexivity.
          -- intros i Hi Hfi. destruct (Nat.eq_dec i L); [subst; congruence|apply Hb; auto; lia].
      + assert (Ef : flagged n L = false) by (unfold flagged; rewrite E; reflexivity).
        destruct (IHL _ H) as [-> Hb]. split.
        * apply mk_ext. intros ph j Hp Hj. rewrite replaced_S. unfold replace. rewrite Ef. reflexivity.
        * intros i Hi Hfi. destruct (Nat.eq_dec i L); [subst; congruence|apply Hb; auto; lia]. }
  destruct G as [G1 G2]. split; [exact G1|]. intros i Hi. apply G2; auto. apply flagged_lt. auto.
Qed.

Lemma grid_ratings_3ph_ok : forall (n : net (K := K)) m, (forall i, flagged n i = true -> (i < nc m)%nat) -> exists r, grid_ratings_3ph n m = Ok r.
Proof.
  intros n m H. enough (G : exists r, grid_ratings_3ph n m = Ok r /\ nc r = nc m) by (destruct G as (r & G & _); eauto).
  unfold grid_ratings_3ph. generalize (length (loads n)) as L. induction L.
  - exists m. split; reflexivity.
  - rewrite range_S, fold_left_app. destruct IHL as (r & E & Er). rewrite E. cbn [fold_left].
    specialize (H L). unfold flagged in H. destruct (nth_error (loads n) L) as [l|]; [|eauto].
    destruct (isin (l_bus l) (grids n)); [|eauto]. cbn [bind]. rewrite Er.
    destruct (Nat.ltb_spec L (nc m)); [|specialize (H eq_refl); lia]. eexists. split; [reflexivity|apply nc_mk].
Qed.

Lemma base_ratings_3ph_eq : forall factor (n : net (K := K)) m, base_ratings_3ph factor n = Ok m ->
  m = mk 3 (length (buses n)) (fun ph i => phase_factor factor ph * get (total_loads n) ph i).
Proof.
  intros factor n m H. unfold base_ratings_3ph in H. cbv zeta in H. unfold phase_factor.
  destruct (Nat.eqb_spec (length factor) 3) as [->|]; [injection H as <-; reflexivity|].
  destruct (Nat.eqb_spec (length factor) 1); [injection H as <-; reflexivity|discriminate].
Qed.

(** entry [k] of the ratings belongs to phase [k / n] of bus [k mod n] *)
Theorem p_ratings_3ph : forall factor (n : net (K := K)) base m, base_ratings_3ph factor n = Ok base -> grid_ratings_3ph n base = Ok m ->
  let N := length (buses n) in let r := flat m in
  length r = (3 * N)%nat /\ (forall i, at_substation n i -> (i < N)%nat) /\
  exists sq : nat -> nat -> K,
    (forall ph i b, (ph < 3)%nat -> nth_error (map b_id (buses n)) i = Some b -> exists p q, counted n b ph p q /\ sq ph i = p * p + q * q) /\
    forall ph i, (ph < 3)%nat -> (i < N)%nat ->
      (~ at_substation n i -> vget r (ph * N + i) = phase_factor factor ph * sq ph i) /\
      (at_substation n i -> vget r (ph * N + i) =
         sumn i (fun j => vget r (ph * N + j)) + sumn (N - i) (fun j => phase_factor factor ph * sq ph (i + j)%nat)).
Proof.
  intros factor n base m Hb Hm N r. apply base_ratings_3ph_eq in Hb.
  destruct (grid_ratings_3ph_eq n base m) as [Em Hlt]; [subst; apply wf_mk|exact Hm|].
  rewrite Hb in Em, Hlt. rewrite nr_mk, nc_mk in Em. rewrite nc_mk in Hlt. fold N in Em, Hlt.
  assert (Lr : length r = (3 * N)%nat) by (unfold r, flat; rewrite length_mkv, Em, nr_mk, nc_mk; reflexivity).
  split; [exact Lr|]. split; [intros i Hi; apply Hlt; apply flagged_spec; auto|].
  exists (get (total_loads n)). split; [intros; apply total_loads_counted; auto|].
  assert (V : forall ph i, (ph < 3)%nat -> (i < N)%nat -> vget r (ph * N + i) =
    replaced N (flagged n) (fun j => get base ph j) (length (loads n)) i).
  { intros ph i Hp Hi. unfold r, flat. rewrite Em, nr_mk, nc_mk. rewrite vget_mkv by nia.
    rewrite (Nat.add_comm (ph * N)), Nat.div_add, Nat.div_small, Nat.mod_add, Nat.mod_small, get_mk by lia. rewrite Hb. reflexivity. }
  intros ph i Hp Hi. rewrite V by auto.
  assert (B : forall j, (j < N)%nat -> get base ph j = phase_factor factor ph * get (total_loads n) ph j).
  { intros j Hj. rewrite Hb, get_mk by auto. reflexivity. }
  destruct (flagged n i) eqn:Ef.
  - assert (A := proj1 (flagged_spec n i) Ef). split; [intro; contradiction|intros _].
    rewrite replaced_value by (auto using flagged_lt). rewrite Ef. f_equal; apply sumn_ext; intros j Hj.
    + rewrite V by lia. reflexivity.
    + apply B. lia.
  - assert (A : ~ at_substation n i) by (intro A; apply flagged_spec in A; congruence). split; [intros _|intro; contradiction].
    destruct (le_lt_dec (length (loads n)) i) as [Hl|Hl]; [rewrite replaced_later by auto; auto|].
    rewrite replaced_value by auto. rewrite Ef. auto.
Qed.

(** interleaved columns and ratings agree for one bus only *)
Theorem p_layout : forall N, (forall b ph, (b < N)%nat -> (ph < 3)%nat -> ((3 * b + ph) / N = ph /\ (3 * b + ph) mod N = b)%nat) <-> (N <= 1)%nat.
Proof.
  intro N. split.
  - intro H. destruct (le_lt_dec N 1); [auto|]. destruct (H 1%nat 0%nat) as [A B]; [lia|lia|].
    pose proof (Nat.div_mod (3 * 1 + 0) N). lia.
  - intros HN b ph Hb Hp. assert (N = 1)%nat by lia. subst. assert (b = 0)%nat by lia. subst.
    cbn [Nat.mul Nat.add]. rewrite Nat.div_1_r, Nat.mod_1_r. auto.
Qed.
End Ratings3.
