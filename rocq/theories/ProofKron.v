(** Kron reduction: external behaviour, symmetry, row sums, row order. *)
From Coq Require Import Arith List Lia Permutation Bool Ring Field.
From Verif Require Import BasePy BaseFld BaseSum BaseMat BaseLin ModelErrorMetrics ModelSet ModelKron SpecKron ProofSet.
Import ListNotations.
Local Open Scope K_scope.

Section ProofKron.
Context {K : Type} {O : Ops K} {F : Fld K}.
Add Field Kfld : (@k_field K O F).

Lemma lsum_perm : forall l l' : list K, Permutation l l' -> lsum l = lsum l'.
Proof. induction 1; simpl; [reflexivity|rewrite IHPermutation; ring|ring|congruence]. Qed.
Lemma lsum_map_nth : forall (f : nat -> K) l, lsum (map f l) = sumn (length l) (fun j => f (nth j l 0%nat)).
Proof.
  intros f l. rewrite lsum_nth, map_length. apply sumn_ext. intros i Hi.
  rewrite (nth_indep _ 0 (f 0%nat)) by (rewrite map_length; auto). apply map_nth.
Qed.

Lemma NoDup_app_disjoint : forall (a b : list nat), NoDup a -> NoDup b -> (forall x, In x a -> ~ In x b) -> NoDup (a ++ b).
Proof.
  induction a as [|x a IH]; intros b Na Nb H; simpl; auto.
  inversion Na as [|? ? N1 N2]; subst. constructor.
  - intros I. apply in_app_or in I. destruct I as [I|I]; [auto|]. apply (H x); [left; auto|auto].
  - apply IH; auto. intros y Hy. apply H. right; auto.
Qed.
Lemma NoDup_app_l : forall a b : list nat, NoDup (a ++ b) -> NoDup a.
Proof.
  induction a as [|x a IH]; intros b H; [constructor|]. simpl in H. inversion H as [|? ? H1 H2]; subst.
  constructor; [|apply (IH b); auto]. intros I. apply H1. apply in_or_app; auto.
Qed.
Lemma NoDup_app_r : forall a b : list nat, NoDup (a ++ b) -> NoDup b.
Proof. induction a as [|x a IH]; intros b H; auto. simpl in H. inversion H; subst. auto. Qed.
Lemma NoDup_app_dis : forall a b : list nat, NoDup (a ++ b) -> forall x, In x a -> ~ In x b.
Proof.
  induction a as [|y a IH]; intros b H x Hx Hb; [destruct Hx|]. simpl in H. inversion H as [|? ? H1 H2]; subst.
  destruct Hx as [<-|Hx]; [apply H1; apply in_or_app; auto|]. apply (IH b H2 x); auto.
Qed.
Lemma remaining_split : forall n idx, NoDup idx -> (forall i, In i idx -> (i < n)%nat) ->
  Permutation (remaining n idx ++ idx) (range n).
Proof.
  intros n idx N H. apply NoDup_Permutation.
  - apply NoDup_app_disjoint; auto; [apply remaining_NoDup|]. intros x Hx. apply remaining_In in Hx. tauto.
  - apply seq_NoDup.
  - intros x. rewrite in_app_iff, remaining_In, in_range. split.
    + intros [[A _]|A]; auto.
    + intros A. destruct (in_dec Nat.eq_dec x idx); auto.
Qed.
Lemma sum_split : forall n kept idx (f : nat -> K), Permutation (kept ++ idx) (range n) ->
  sumn n f = sumn (length kept) (fun j => f (nth j kept 0%nat)) + sumn (length idx) (fun j => f (nth j idx 0%nat)).
Proof.
  intros n kept idx f H. rewrite <- lsum_map_range.
  rewrite <- (lsum_perm _ _ (Permutation_map f H)).
  rewrite map_app, lsum_app, !lsum_map_nth. reflexivity.
Qed.

(** position of a node in a list *)
Fixpoint pos_from (i : nat) (l : list nat) (k : nat) : nat :=
  match l with [] => k | x :: q => if (x =? i)%nat then k else pos_from i q (S k) end.
Definition pos (i : nat) (l : list nat) : nat := pos_from i l 0.
Lemma pos_from_nth : forall (l : list nat) k o, NoDup l -> (k < length l)%nat -> pos_from (nth k l 0%nat) l o = (o + k)%nat.
Proof.
  induction l as [|x q IH]; intros k o Nd Hk'; simpl in Hk'; [lia|].
  inversion Nd as [|? ? Nx Nq]; subst. destruct k as [|k].
  - simpl. rewrite Nat.eqb_refl. lia.
  - simpl. destruct (Nat.eqb_spec x (nth k q 0%nat)) as [Ex|Ex].
    + exfalso. apply Nx. rewrite Ex. apply nth_In. lia.
    + rewrite (IH k (S o)); auto; lia.
Qed.
Lemma pos_nth : forall l k, NoDup l -> (k < length l)%nat -> pos (nth k l 0%nat) l = k.
Proof. intros. unfold pos. rewrite pos_from_nth; auto. Qed.
Lemma pos_In : forall l i, NoDup l -> In i l -> (pos i l < length l)%nat /\ nth (pos i l) l 0%nat = i.
Proof.
  intros l i N H. destruct (In_nth l i 0%nat H) as (k & Hk & E). rewrite <- E. rewrite pos_nth by auto. auto.
Qed.

Lemma block_shape : forall (Y : mat K) ri ci, shape (block_of Y ri ci) (length ri) (length ci).
Proof. intros. apply shape_mk. Qed.

Lemma forallb_lt : forall n l, (forall i, In i l -> (i < n)%nat) -> forallb (fun i => (i <? n)%nat) l = true.
Proof. intros. apply forallb_forall. intros x Hx. apply Nat.ltb_lt. auto. Qed.
Lemma take2_ok : forall (Y : mat K) ri ci, (forall i, In i ri -> (i < nr Y)%nat) -> (forall i, In i ci -> (i < nc Y)%nat) ->
  take2 Y ri ci = Ok (block_of Y ri ci).
Proof.
  intros Y ri ci Hr Hc. unfold take2, take_rows. rewrite forallb_lt by auto. cbn [bind].
  unfold take_cols. rewrite nr_mk, nc_mk. rewrite forallb_lt by auto. f_equal.
  apply mk_ext. intros i j Hi Hj. rewrite get_mk; auto. apply Hc. apply nth_In; auto.
Qed.
Lemma take2_err_rows : forall (Y : mat K) ri ci i, In i ri -> (nr Y <= i)%nat -> take2 Y ri ci = Err IndexError.
Proof.
  intros Y ri ci i Hi H. unfold take2, take_rows.
  destruct (forallb (fun i => (i <? nr Y)%nat) ri) eqn:E; [|reflexivity].
  rewrite forallb_forall in E. specialize (E i Hi). apply Nat.ltb_lt in E. lia.
Qed.
Lemma take2_err_cols : forall (Y : mat K) ri ci i, (forall i, In i ri -> (i < nr Y)%nat) -> In i ci -> (nc Y <= i)%nat -> take2 Y ri ci = Err IndexError.
Proof.
  intros Y ri ci i Hr Hi H. unfold take2, take_rows. rewrite forallb_lt by auto. cbn [bind].
  unfold take_cols. rewrite nr_mk, nc_mk.
  destruct (forallb (fun i => (i <? nc Y)%nat) ci) eqn:E; [|reflexivity].
  rewrite forallb_forall in E. specialize (E i Hi). apply Nat.ltb_lt in E. lia.
Qed.

(** the reduced matrix, for a given inverse of the eliminated block *)
Definition reduced (Y P : mat K) (kept idx : list nat) : mat K :=
  msubt (block_of Y kept kept) (mmul (mmul (block_of Y kept idx) P) (block_of Y idx kept)).

Lemma kron_ok : forall pinv (Y : mat K) n idx, shape Y n n -> (forall i, In i idx -> (i < n)%nat) ->
  shape (pinv (block_of Y idx idx)) (length idx) (length idx) ->
  kron_reduction pinv idx Y = Ok (reduced Y (pinv (block_of Y idx idx)) (remaining n idx) idx).
Proof.
  intros pinv Y n idx (_ & HR & HC) H (_ & PR & PC). unfold kron_reduction. rewrite HR.
  assert (Hk : forall i, In i (remaining n idx) -> (i < n)%nat) by (intros i Hi; apply remaining_In in Hi; tauto).
  rewrite !take2_ok by (rewrite ?HR, ?HC; auto). cbn [bind].
  unfold matmul. change (nc (block_of Y (remaining n idx) idx)) with (length idx). rewrite PR, Nat.eqb_refl. cbn [bind].
  replace (nc (mmul (block_of Y (remaining n idx) idx) (pinv (block_of Y idx idx)))) with (length idx) by (symmetry; exact PC).
  change (nr (block_of Y idx (remaining n idx))) with (length idx).
  rewrite Nat.eqb_refl. reflexivity.
Qed.
Lemma kron_err : forall pinv (Y : mat K) n idx i, shape Y n n -> In i idx -> (n <= i)%nat ->
  kron_reduction pinv idx Y = Err IndexError.
Proof.
  intros pinv Y n idx i (_ & HR & HC) Hi H. unfold kron_reduction. rewrite HR.
  assert (Hk : forall i, In i (remaining n idx) -> (i < n)%nat) by (intros j Hj; apply remaining_In in Hj; tauto).
  rewrite take2_ok by (rewrite ?HR, ?HC; auto). cbn [bind].
  rewrite (take2_err_cols Y _ _ i); auto; [rewrite HR; auto|lia].
Qed.

(** an invertible block has no repeated index *)
Lemma invertible_nodup : forall (Y B : mat K) idx, mmul (block_of Y idx idx) B = meye (length idx) -> NoDup idx.
Proof.
  intros Y B idx E. apply (NoDup_nth idx 0%nat). intros i j Hi Hj Eij.
  destruct (Nat.eq_dec i j) as [|N]; auto. exfalso.
  assert (nc B = length idx) by (apply (f_equal nc) in E; exact E).
  assert (G : get (mmul (block_of Y idx idx) B) i i = get (mmul (block_of Y idx idx) B) j i).
  { rewrite !get_mmul by (cbn; lia). apply sumn_ext. intros k Hk. cbn in Hk.
    unfold block_of. rewrite !get_mk by auto. rewrite Eij. reflexivity. }
  rewrite E in G. rewrite !get_meye in G by auto. rewrite Nat.eqb_refl in G.
  destruct (Nat.eqb_spec j i); [congruence|]. apply k1_neq0. exact G.
Qed.

(** the pseudo-inverse of an invertible matrix is its inverse *)
Lemma gen_inverse : forall (A B P : mat K) n, shape A n n -> shape B n n -> shape P n n -> mmul A B = meye n ->
  mmul (mmul A P) A = A -> mmul A P = meye n /\ mmul P A = meye n.
Proof.
  intros A B P n (WA & RA & CA) (WB & RB & CB) (WP & RP & CP) E G.
  assert (E' : mmul B A = meye n) by (apply (right_inverse_two_sided A B n); repeat split; auto; apply WA || apply WB).
  assert (AP : mmul A P = meye n).
  { rewrite <- E. rewrite <- G at 2. rewrite (mmul_assoc (mmul A P) A B) by (cbn; congruence). rewrite E.
    symmetry. apply mmul_1_r'; [apply wf_mk|cbn; auto]. }
  split; auto. apply (right_inverse_two_sided A P n); repeat split; auto; apply WA || apply WP.
Qed.

Section Reduced.
Variables (Y P : mat K) (n : nat) (kept idx : list nat).
Hypothesis SY : shape Y n n.
Hypothesis HP : Permutation (kept ++ idx) (range n).
Hypothesis SP : shape P (length idx) (length idx).
Hypothesis E1 : mmul (block_of Y idx idx) P = meye (length idx).
Hypothesis E2 : mmul P (block_of Y idx idx) = meye (length idx).
Notation r := (length idx).
Notation m := (length kept).

Let Nd : NoDup (kept ++ idx).
Proof. apply (Permutation_NoDup (Permutation_sym HP)). apply seq_NoDup. Qed.
Let Nk : NoDup kept.
Proof. apply (NoDup_app_l _ _ Nd). Qed.
Let Ni : NoDup idx.
Proof. apply (NoDup_app_r _ _ Nd). Qed.
Let Hk : forall i, In i kept -> (i < n)%nat.
Proof. intros i Hi. apply in_range. apply (Permutation_in _ HP). apply in_or_app; auto. Qed.
Let Hidx : forall i, In i idx -> (i < n)%nat.
Proof. intros i Hi. apply in_range. apply (Permutation_in _ HP). apply in_or_app; auto. Qed.
Let Hdis : forall i, In i kept -> ~ In i idx.
Proof. apply (NoDup_app_dis _ _ Nd). Qed.
Let nthk : forall k, (k < m)%nat -> (nth k kept 0 < n)%nat.
Proof. intros. apply Hk, nth_In. auto. Qed.
Let nthr : forall k, (k < r)%nat -> (nth k idx 0 < n)%nat.
Proof. intros. apply Hidx, nth_In. auto. Qed.

(** columns of V *)
Definition cols_of (V : mat K) (l : list nat) : mat K := mk (nr V) (length l) (fun t j => get V t (nth j l 0%nat)).

Lemma cols_product : forall V ci, nc V = n -> (forall i, In i ci -> (i < n)%nat) ->
  cols_of (mmul V Y) ci = madd (mmul (cols_of V kept) (block_of Y kept ci)) (mmul (cols_of V idx) (block_of Y idx ci)).
Proof.
  intros V ci CV Hci. destruct SY as (_ & RY & CY). unfold cols_of at 1, madd. cbn [nr nc mmul mk cols_of block_of].
  apply mk_ext. intros t k Ht Hk'. cbn in Ht.
  assert (nth k ci 0 < n)%nat by (apply Hci, nth_In; auto).
  rewrite get_mmul by (rewrite ?CY; auto). rewrite CV.
  rewrite (sum_split n kept idx _ HP).
  rewrite !get_mmul by (cbn; auto). cbn [nc cols_of mk]. f_equal; apply sumn_ext; intros j Hj;
    unfold cols_of, block_of; rewrite !get_mk by auto; reflexivity.
Qed.

Lemma no_injection_cols : forall V, nc V = n -> (no_injection idx V Y <-> cols_of (mmul V Y) idx = mk (nr V) r (fun _ _ => 0)).
Proof.
  intros V CV. destruct SY as (_ & RY & CY). split.
  - intros H. apply mk_ext. intros t j Ht Hj. apply H; auto. apply nth_In; auto.
  - intros H t i Ht Hi. destruct (In_nth idx i 0%nat Hi) as (j & Hj & <-).
    apply (f_equal (fun M => get M t j)) in H. unfold cols_of in H. rewrite !get_mk in H by (cbn; auto). exact H.
Qed.

Lemma mk_zero_add : forall (A B : mat K) a b, shape A a b -> shape B a b -> madd A B = mk a b (fun _ _ => 0) -> B = mopp A.
Proof.
  intros A B a b SA SB H. apply (gshape_ext _ _ a b); auto.
  - destruct SA as (? & RA & CA). split; [apply wf_mk|cbn; auto].
  - intros i j Hi Hj. destruct SA as (? & RA & CA). rewrite get_mopp by lia.
    apply (f_equal (fun M => get M i j)) in H. rewrite get_madd, get_mk in H by lia.
    transitivity (get A i j + get B i j - get A i j); [ring|rewrite H; ring].
Qed.

Lemma mopp_mopp : forall A : mat K, wf A -> mopp (mopp A) = A.
Proof.
  intros A W. apply (gshape_ext _ _ (nr A) (nc A)); [split; [apply wf_mk|cbn; auto]|repeat split; auto; apply W|].
  intros i j Hi Hj. rewrite !get_mopp by (cbn; auto). ring.
Qed.

Lemma solved_voltages : forall V, nc V = n -> no_injection idx V Y ->
  cols_of V idx = mopp (mmul (mmul (cols_of V kept) (block_of Y kept idx)) P).
Proof.
  intros V CV H. apply (no_injection_cols V CV) in H.
  rewrite (cols_product V idx CV Hidx) in H.
  assert (S1 : shape (mmul (cols_of V kept) (block_of Y kept idx)) (nr V) r) by (split; [apply wf_mk|cbn; auto]).
  assert (S2 : shape (mmul (cols_of V idx) (block_of Y idx idx)) (nr V) r) by (split; [apply wf_mk|cbn; auto]).
  apply (mk_zero_add _ _ _ _ S1 S2) in H.
  apply (f_equal (fun M => mmul M P)) in H.
  destruct SP as (WP & RP & CP).
  rewrite mmul_assoc in H by (cbn; auto). rewrite E1 in H.
  rewrite mmul_1_r' in H by (auto using wf_mk; cbn; auto; apply wf_mk).
  rewrite H. apply mmul_mopp_l.
Qed.

Lemma kept_currents : forall V, nc V = n -> no_injection idx V Y ->
  cols_of (mmul V Y) kept = mmul (cols_of V kept) (reduced Y P kept idx).
Proof.
  intros V CV H. rewrite (cols_product V kept CV Hk). rewrite (solved_voltages V CV H).
  destruct SP as (WP & RP & CP).
  unfold reduced.
  rewrite mmul_msubt_r by (cbn; auto). rewrite mmul_mopp_l.
  rewrite <- (mmul_assoc (cols_of V kept)) by (cbn; auto).
  rewrite <- (mmul_assoc (cols_of V kept)) by (cbn; auto).
  apply (gshape_ext _ _ (nr V) m); try (split; [apply wf_mk|cbn; auto]).
  intros i j Hi Hj. rewrite get_madd, get_msubt, get_mopp by (cbn; auto). ring.
Qed.

Lemma extension : forall T W, shape W T m -> exists V, shape V T n /\ no_injection idx V Y /\ cols_of V kept = W.
Proof.
  intros T W SW. destruct SP as (WP & RP & CP). destruct SW as (WW & RW & CW).
  set (U := mopp (mmul (mmul W (block_of Y kept idx)) P)).
  assert (SU : shape U T r) by (split; [apply wf_mk|cbn; auto]).
  set (V := mk T n (fun t i => if mem i idx then get U t (pos i idx) else get W t (pos i kept))).
  assert (SV : shape V T n) by apply shape_mk.
  assert (Ck : cols_of V kept = W).
  { apply (gshape_ext _ _ T m); [split; [apply wf_mk|cbn; auto]|repeat split; auto; apply WW|].
    intros t k Ht Hk'. unfold cols_of. rewrite get_mk by auto. unfold V. rewrite get_mk by auto.
    assert (I := Hdis _ (nth_In kept 0%nat Hk')).
    apply mem_not_In in I. rewrite I. rewrite pos_nth; auto. }
  assert (Ci : cols_of V idx = U).
  { apply (gshape_ext _ _ T r); [split; [apply wf_mk|cbn; auto]|exact SU|].
    intros t k Ht Hk'. unfold cols_of. rewrite get_mk by auto. unfold V. rewrite get_mk by auto.
    assert (I := nth_In idx 0%nat Hk'). apply mem_In in I. rewrite I. rewrite pos_nth; auto. }
  exists V. split; [exact SV|]. split; [|exact Ck].
  apply no_injection_cols; [reflexivity|]. rewrite cols_product by auto. rewrite Ck, Ci. unfold U.
  rewrite mmul_mopp_l. rewrite (mmul_assoc _ P) by (cbn; auto). rewrite E2.
  rewrite mmul_1_r' by (try apply wf_mk; cbn; auto).
  change (nr V) with T.
  apply (gshape_ext _ _ T r); [split; [apply wf_mk|cbn; auto]|apply shape_mk|].
  intros i j Hi Hj. rewrite get_madd, get_mopp, get_mk by (cbn; rewrite ?RW; auto). ring.
Qed.

Lemma reduced_describes : describes n kept idx Y (reduced Y P kept idx).
Proof.
  split; [split; [apply wf_mk|cbn; auto]|]. split.
  - intros V CV WV H t k Ht Hk'.
    assert (G := kept_currents V CV H). apply (f_equal (fun M => get M t k)) in G.
    unfold cols_of at 1 in G. rewrite get_mk in G by (cbn; auto). rewrite G.
    rewrite get_mmul by (cbn; auto). apply sumn_ext. intros j Hj. cbn in Hj.
    unfold cols_of. rewrite get_mk by auto. reflexivity.
  - intros T W SW. destruct (extension T W SW) as (V & SV & NV & CV). exists V. split; [auto|]. split; [auto|].
    intros t k Ht Hk'. rewrite <- CV. unfold cols_of. rewrite get_mk; auto. destruct SV as (_ & -> & _). auto.
Qed.
End Reduced.

(** at most one matrix describes the network in a given order *)
Lemma describes_unique : forall n order idx idx' (Y Z Z' : mat K), (forall i, In i idx <-> In i idx') ->
  describes n order idx Y Z -> describes n order idx' Y Z' -> Z = Z'.
Proof.
  intros n order idx idx' Y Z Z' Hi (SZ & A & B) (SZ' & A' & _).
  apply (gshape_ext _ _ (length order) (length order)); auto.
  intros i k Hi' Hk.
  destruct (B (length order) (meye (length order)) (shape_meye _)) as (V & (WV & RV & CV) & NV & EV).
  assert (NV' : no_injection idx' V Y) by (intros t j Ht Hj; apply NV; auto; apply Hi; auto).
  assert (G := A V CV WV NV i k ltac:(lia) Hk). assert (G' := A' V CV WV NV' i k ltac:(lia) Hk).
  rewrite G in G'.
  assert (X : forall M : mat K, sumn (length order) (fun j => get V i (nth j order 0%nat) * get M j k) = get M i k).
  { intros M. rewrite (sumn_ext _ _ (fun j => (if (i =? j)%nat then 1 else 0) * get M j k)).
    - apply (sumn_delta_l (length order) i (fun j => get M j k)); auto.
    - intros j Hj. rewrite EV, get_meye by auto. reflexivity. }
  rewrite !X in G'. exact G'.
Qed.

Lemma p_kron_behaviour : forall pinv (Y B : mat K) n idx, shape Y n n -> (forall i, In i idx -> (i < n)%nat) ->
  shape B (length idx) (length idx) -> mmul (block_of Y idx idx) B = meye (length idx) ->
  shape (pinv (block_of Y idx idx)) (length idx) (length idx) ->
  mmul (mmul (block_of Y idx idx) (pinv (block_of Y idx idx))) (block_of Y idx idx) = block_of Y idx idx ->
  exists Z, kron_reduction pinv idx Y = Ok Z /\ describes n (remaining n idx) idx Y Z.
Proof.
  intros pinv Y B n idx SY Hidx SB E SP G.
  destruct (gen_inverse _ _ _ _ (block_shape Y idx idx) SB SP E G) as [G1 G2].
  exists (reduced Y (pinv (block_of Y idx idx)) (remaining n idx) idx). split.
  - apply kron_ok; auto.
  - apply reduced_describes; auto. apply remaining_split; auto. apply (invertible_nodup Y B); auto.
Qed.
(** inverse of the permuted block *)
Lemma block_perm_inverse : forall (Y B : mat K) idx idx', Permutation idx idx' -> shape B (length idx) (length idx) ->
  mmul (block_of Y idx idx) B = meye (length idx) ->
  exists B', shape B' (length idx') (length idx') /\ mmul (block_of Y idx' idx') B' = meye (length idx').
Proof.
  intros Y B idx idx' HP SB E.
  assert (N := invertible_nodup Y B idx E). assert (N' := Permutation_NoDup HP N).
  assert (In' : forall k, (k < length idx')%nat -> In (nth k idx' 0%nat) idx) by (intros k Hk; apply (Permutation_in _ (Permutation_sym HP)), nth_In; auto).
  exists (mk (length idx') (length idx') (fun a b => get B (pos (nth a idx' 0%nat) idx) (pos (nth b idx' 0%nat) idx))).
  split; [apply shape_mk|].
  apply (gshape_ext _ _ (length idx') (length idx')); [split; [apply wf_mk|cbn; auto]|apply shape_meye|].
  intros a b Ha Hb. rewrite get_mmul by (cbn; auto). cbn [nc block_of mk].
  rewrite (sumn_ext _ _ (fun k => (fun x => get Y (nth a idx' 0%nat) x * get B (pos x idx) (pos (nth b idx' 0%nat) idx)) (nth k idx' 0%nat)))
    by (intros k Hk; unfold block_of; rewrite !get_mk by auto; reflexivity).
  rewrite <- (lsum_map_nth (fun x => get Y (nth a idx' 0%nat) x * get B (pos x idx) (pos (nth b idx' 0%nat) idx)) idx').
  rewrite <- (lsum_perm _ _ (Permutation_map _ HP)). rewrite lsum_map_nth.
  destruct (pos_In idx _ N (In' a Ha)) as [Pa Ea]. destruct (pos_In idx _ N (In' b Hb)) as [Pb Eb].
  transitivity (get (mmul (block_of Y idx idx) B) (pos (nth a idx' 0%nat) idx) (pos (nth b idx' 0%nat) idx)).
  - destruct SB as (_ & RB & CB). rewrite get_mmul by (cbn; lia). cbn [nc block_of mk]. apply sumn_ext. intros k Hk.
    unfold block_of. rewrite get_mk by auto. rewrite pos_nth by auto. rewrite Ea. reflexivity.
  - rewrite E, !get_meye by auto.
    destruct (Nat.eqb_spec a b) as [->|Nab]; [rewrite Nat.eqb_refl; reflexivity|].
    destruct (Nat.eqb_spec (pos (nth a idx' 0%nat) idx) (pos (nth b idx' 0%nat) idx)) as [Q|]; [|reflexivity].
    exfalso. apply Nab. apply (NoDup_nth idx' 0%nat); auto. rewrite <- Ea, <- Eb, Q. reflexivity.
Qed.

(** row and column sums *)
Lemma describes_row_sums : forall n order idx (Y Z : mat K), shape Y n n -> Permutation (order ++ idx) (range n) ->
  describes n order idx Y Z -> (forall i, (i < n)%nat -> sumn n (fun j => get Y i j) = 0) ->
  forall i, (i < length order)%nat -> sumn (length order) (fun j => get Z i j) = 0.
Proof.
  intros n order idx Y Z (_ & RY & CY) HP (SZ & A & B) H i Hi.
  destruct (B (length order) (meye (length order)) (shape_meye _)) as (V & (WV & RV & CV) & NV & EV).
  assert (X : forall k, (k < length order)%nat -> get (mmul V Y) i (nth k order 0%nat) = get Z i k).
  { intros k Hk. rewrite (A V CV WV NV i k) by lia.
    rewrite (sumn_ext _ _ (fun j => (if (i =? j)%nat then 1 else 0) * get Z j k)).
    - apply (sumn_delta_l (length order) i (fun j => get Z j k)); auto.
    - intros j Hj. rewrite EV, get_meye by auto. reflexivity. }
  rewrite <- (sumn_ext _ _ _ X).
  assert (S1 : sumn n (fun k => get (mmul V Y) i k) = 0).
  { rewrite (sumn_ext _ _ (fun k => sumn n (fun j => get V i j * get Y j k))) by (intros k Hk; rewrite get_mmul by lia; rewrite CV; reflexivity).
    rewrite sumn_swap. apply sumn_zero. intros j Hj. rewrite sumn_scal_l, H by auto. ring. }
  rewrite (sum_split n order idx (fun k => get (mmul V Y) i k) HP) in S1.
  rewrite (sumn_zero (length idx)) in S1.
  - rewrite <- S1. ring.
  - intros k Hk. apply NV; [lia|]. apply nth_In; auto.
Qed.
Lemma describes_col_sums : forall n order idx (Y Z : mat K), shape Y n n -> Permutation (order ++ idx) (range n) ->
  describes n order idx Y Z -> (forall j, (j < n)%nat -> sumn n (fun i => get Y i j) = 0) ->
  forall j, (j < length order)%nat -> sumn (length order) (fun i => get Z i j) = 0.
Proof.
  intros n order idx Y Z (_ & RY & CY) HP (SZ & A & B) H j Hj.
  set (V := mk 1 n (fun _ _ => 1) : mat K).
  assert (X : forall k, (k < n)%nat -> get (mmul V Y) 0 k = 0).
  { intros k Hk. rewrite get_mmul by (cbn; lia). cbn [nc V mk]. rewrite <- (H k Hk). apply sumn_ext. intros i Hi.
    unfold V. rewrite get_mk by lia. ring. }
  assert (HI : forall x, In x (order ++ idx) -> (x < n)%nat) by (intros x Hx; apply in_range, (Permutation_in _ HP); auto).
  assert (G := A V eq_refl (wf_mk _ _ _)).
  rewrite <- (X (nth j order 0%nat)) by (apply HI, in_or_app; left; apply nth_In; auto).
  rewrite G; auto.
  - apply sumn_ext. intros i Hi. unfold V. rewrite get_mk; [ring|lia|]. apply HI, in_or_app; left; apply nth_In; auto.
  - intros t i Ht Hi. cbn in Ht. replace t with 0%nat by lia. apply X. apply HI, in_or_app; auto.
Qed.

(** symmetric and zero row sums *)
Lemma tr_block : forall (Y : mat K) n ri ci, shape Y n n -> tr Y = Y -> (forall i, In i ri -> (i < n)%nat) -> (forall i, In i ci -> (i < n)%nat) ->
  tr (block_of Y ri ci) = block_of Y ci ri.
Proof.
  intros Y n ri ci (_ & RY & CY) T Hr Hc.
  apply (gshape_ext _ _ (length ci) (length ri)); try (split; [apply wf_mk|cbn; auto]).
  intros i j Hi Hj. rewrite get_tr by (cbn; auto). unfold block_of. rewrite !get_mk by auto.
  assert (nth j ri 0 < n)%nat by (apply Hr, nth_In; auto). assert (nth i ci 0 < n)%nat by (apply Hc, nth_In; auto).
  transitivity (get (tr Y) (nth j ri 0%nat) (nth i ci 0%nat)); [rewrite T; reflexivity|]. apply get_tr; lia.
Qed.
Lemma reduced_sym : forall (Y P : mat K) n idx kept, shape Y n n -> tr Y = Y -> (forall i, In i idx -> (i < n)%nat) ->
  (forall i, In i kept -> (i < n)%nat) -> shape P (length idx) (length idx) -> mmul (block_of Y idx idx) P = meye (length idx) ->
  tr (reduced Y P kept idx) = reduced Y P kept idx.
Proof.
  intros Y P n idx kept SY T Hi Hk SP E.
  assert (TP : tr P = P) by (apply (inverse_sym (block_of Y idx idx) P (length idx)); auto; [apply block_shape|apply (tr_block Y n); auto]).
  assert (S1 : shape (mmul (mmul (block_of Y kept idx) P) (block_of Y idx kept)) (length kept) (length kept)) by (split; [apply wf_mk|cbn; auto]).
  assert (T1 : tr (mmul (mmul (block_of Y kept idx) P) (block_of Y idx kept)) = mmul (mmul (block_of Y kept idx) P) (block_of Y idx kept)).
  { destruct SP as (WP & RP & CP). rewrite !tr_mmul by (cbn; auto). rewrite TP, !(tr_block Y n) by auto.
    symmetry. apply mmul_assoc; cbn; auto. }
  unfold reduced. apply (gshape_ext _ _ (length kept) (length kept)); try (split; [apply wf_mk|cbn; auto]).
  intros i j Hi' Hj'. rewrite get_tr by (cbn; auto). rewrite !get_msubt by (cbn; auto). f_equal.
  - apply (f_equal (fun M => get M i j)) in T1. rewrite <- (tr_block Y n kept kept) at 1 by auto. rewrite get_tr by (cbn; auto). reflexivity.
  - rewrite <- T1 at 1. rewrite get_tr by (cbn; auto). reflexivity.
Qed.
End ProofKron.

(** ** Statements for complex admittances *)
From Verif Require Import SpecMatrix SpecLS.
Section Final.
Context {K : Type} {O : Ops K} {F : Fld K} {FR : FReal K}.
Notation CK := (cplx K).

(** the eliminated block is invertible, and [pinv] obeys its contract on it *)
Lemma p_kron_external : forall (pinv : mat CK -> mat CK) Y B n idx, shape Y n n -> (forall i, In i idx -> (i < n)%nat) ->
  shape B (length idx) (length idx) -> mmul (block_of Y idx idx) B = meye (length idx) ->
  penrose (length idx) (length idx) (block_of Y idx idx) (pinv (block_of Y idx idx)) ->
  exists Z order, kron_reduction pinv idx Y = Ok Z /\ Permutation order (kept_ascending n idx) /\ describes n order idx Y Z.
Proof.
  intros pinv Y B n idx SY Hi SB E (_ & SP & G & _).
  destruct (p_kron_behaviour pinv Y B n idx SY Hi SB E SP G) as (Z & HZ & D).
  exists Z, (remaining n idx). split; [auto|]. split; [|auto]. apply remaining_perm.
Qed.
Lemma p_kron_listing : forall (pinv : mat CK -> mat CK) Y B n idx idx', shape Y n n -> (forall i, In i idx -> (i < n)%nat) ->
  shape B (length idx) (length idx) -> mmul (block_of Y idx idx) B = meye (length idx) ->
  Permutation idx idx' ->
  penrose (length idx) (length idx) (block_of Y idx idx) (pinv (block_of Y idx idx)) ->
  penrose (length idx') (length idx') (block_of Y idx' idx') (pinv (block_of Y idx' idx')) ->
  kron_reduction pinv idx' Y = kron_reduction pinv idx Y.
Proof.
  intros pinv Y B n idx idx' SY Hi SB E HP (_ & SP & G & _) (_ & SP' & G' & _).
  destruct (block_perm_inverse Y B idx idx' HP SB E) as (B' & SB' & E').
  assert (Hi' : forall i, In i idx' -> (i < n)%nat) by (intros i I; apply Hi, (Permutation_in _ (Permutation_sym HP)); auto).
  assert (HI : forall x, In x idx <-> In x idx').
  { intros x. split; apply Permutation_in; [exact HP|apply Permutation_sym; exact HP]. }
  destruct (p_kron_behaviour pinv Y B n idx SY Hi SB E SP G) as (Z & HZ & D).
  destruct (p_kron_behaviour pinv Y B' n idx' SY Hi' SB' E' SP' G') as (Z' & HZ' & D').
  rewrite HZ, HZ'. f_equal. rewrite <- (remaining_ext n idx idx' HI) in D'.
  symmetry. apply (describes_unique n (remaining n idx) idx idx' Y); auto.
Qed.
Lemma p_kron_unique : forall n order idx (Y Z Z' : mat CK), describes n order idx Y Z -> describes n order idx Y Z' -> Z = Z'.
Proof. intros n order idx Y Z Z' D D'. apply (describes_unique n order idx idx Y Z Z'); auto. tauto. Qed.
Lemma p_kron_outside : forall (pinv : mat CK -> mat CK) Y n idx i, shape Y n n -> In i idx -> (n <= i)%nat ->
  kron_reduction pinv idx Y = Err IndexError.
Proof. intros pinv Y n idx i. apply kron_err. Qed.

Lemma p_kron_symmetric : forall (pinv : mat CK -> mat CK) Y B n idx, shape Y n n -> (forall i, In i idx -> (i < n)%nat) ->
  shape B (length idx) (length idx) -> mmul (block_of Y idx idx) B = meye (length idx) ->
  penrose (length idx) (length idx) (block_of Y idx idx) (pinv (block_of Y idx idx)) ->
  tr Y = Y -> exists Z, kron_reduction pinv idx Y = Ok Z /\ tr Z = Z.
Proof.
  intros pinv Y B n idx SY Hi SB E (_ & SP & G & _) T.
  destruct (gen_inverse _ _ _ _ (block_shape Y idx idx) SB SP E G) as [G1 G2].
  eexists. split; [apply (kron_ok pinv Y n idx); auto|].
  apply (reduced_sym Y _ n); auto. intros i I. apply remaining_In in I. tauto.
Qed.
Lemma p_kron_sums : forall (pinv : mat CK -> mat CK) Y B n idx, shape Y n n -> (forall i, In i idx -> (i < n)%nat) ->
  shape B (length idx) (length idx) -> mmul (block_of Y idx idx) B = meye (length idx) ->
  penrose (length idx) (length idx) (block_of Y idx idx) (pinv (block_of Y idx idx)) ->
  exists Z m, kron_reduction pinv idx Y = Ok Z /\ shape Z m m /\ m = length (kept_ascending n idx) /\
  ((forall i, (i < n)%nat -> sumn n (fun j => get Y i j) = 0) -> forall i, (i < m)%nat -> sumn m (fun j => get Z i j) = 0) /\
  ((forall j, (j < n)%nat -> sumn n (fun i => get Y i j) = 0) -> forall j, (j < m)%nat -> sumn m (fun i => get Z i j) = 0).
Proof.
  intros pinv Y B n idx SY Hi SB E (_ & SP & G & _).
  destruct (p_kron_behaviour pinv Y B n idx SY Hi SB E SP G) as (Z & HZ & D).
  assert (HP : Permutation (remaining n idx ++ idx) (range n)) by (apply remaining_split; auto; apply (invertible_nodup Y B); auto).
  exists Z, (length (remaining n idx)). split; [auto|]. split; [apply D|]. split; [apply Permutation_length, remaining_perm|].
  split; [apply (describes_row_sums n (remaining n idx) idx Y Z SY HP D)|apply (describes_col_sums n (remaining n idx) idx Y Z SY HP D)].
Qed.

(** C45 *)
Lemma p_kron_ascending : forall (pinv : mat CK -> mat CK) Y B n idx, shape Y n n -> (forall i, In i idx -> (i < n)%nat) ->
  shape B (length idx) (length idx) -> mmul (block_of Y idx idx) B = meye (length idx) ->
  penrose (length idx) (length idx) (block_of Y idx idx) (pinv (block_of Y idx idx)) ->
  let k := length (kept_ascending n idx) in
  ((n <= 8)%nat \/ (5 <= k /\ n <= 32)%nat \/ (19 <= k /\ n <= 128)%nat \/ (77 <= k /\ n <= 512)%nat \/ (307 <= k /\ n <= 2048)%nat \/
   (3 * n <= 5 * k)%nat) ->
  exists Z, kron_reduction pinv idx Y = Ok Z /\ describes n (kept_ascending n idx) idx Y Z.
Proof.
  intros pinv Y B n idx SY Hi SB E (_ & SP & G & _) k H.
  destruct (p_kron_behaviour pinv Y B n idx SY Hi SB E SP G) as (Z & HZ & D).
  exists Z. split; [auto|].
  assert (R : remaining n idx = kept_ascending n idx).
  { unfold k in H. change (kept_ascending n idx) with (kept_nodes n idx) in *.
    destruct H as [H|[H|[H|[H|[H|H]]]]]; try (apply remaining_sorted; auto 8; fail).
    apply remaining_sorted_most; auto. }
  rewrite <- R. exact D.
Qed.
Lemma p_ascending_wrong : forall (Y P Z : mat CK) n idx, shape Y n n -> NoDup idx -> (forall i, In i idx -> (i < n)%nat) ->
  shape P (length idx) (length idx) -> mmul (block_of Y idx idx) P = meye (length idx) -> mmul P (block_of Y idx idx) = meye (length idx) ->
  Z <> reduced Y P (kept_ascending n idx) idx -> ~ describes n (kept_ascending n idx) idx Y Z.
Proof.
  intros Y P Z n idx SY N Hi SP E1 E2 NZ D. apply NZ.
  apply (p_kron_unique n (kept_ascending n idx) idx Y); auto.
  apply reduced_describes; auto.
  eapply Permutation_trans; [|apply (remaining_split n idx N Hi)].
  apply Permutation_app_tail. apply Permutation_sym. apply remaining_perm.
Qed.
End Final.
