(** The penalty of a prior built by additions of Laplace rows, addition by addition. *)
From Coq Require Import Bool Arith List ZArith Lia Ring Field.
From Verif Require Import BasePy BaseFld BaseOrd BaseSum BaseMat BaseNumpy ModelMatrixOps ModelPrior
  ModelIdent SpecPrior SpecIdent ProofPrior.
Import ListNotations.
Local Open Scope K_scope.

Section Penalty.
Context {K : Type} {O : Ops K} {F : Fld K} {O2 : OrdOps K} {OF : OrdFld K}.
Add Field Kfld : (@k_field K O F).

(** ** absolute values *)
Lemma kabs_unique : forall x a : K, 0 <=! a -> a * a = x * x -> kabs x = a.
Proof.
  intros x a Ha E. pose proof (kabs_nonneg x) as Hx. pose proof (kabs_sqr x) as S.
  assert (P : (kabs x - a) * (kabs x + a) = 0) by (replace ((kabs x - a) * (kabs x + a)) with (kabs x * kabs x - a * a) by ring; rewrite S, E; ring).
  destruct (kmul_integral _ _ P) as [H|H]; [apply ksub_eq0; assumption|].
  destruct (kle_add_zero _ _ Hx Ha H) as [-> ->]. reflexivity.
Qed.
Lemma kabs_mul : forall x y : K, kabs (x * y) = kabs x * kabs y.
Proof.
  intros x y. apply kabs_unique; [apply kle_mul; apply kabs_nonneg|].
  replace (kabs x * kabs y * (kabs x * kabs y)) with ((kabs x * kabs x) * (kabs y * kabs y)) by ring.
  rewrite !kabs_sqr. ring.
Qed.
Lemma kabs_opp : forall x : K, kabs (- x) = kabs x.
Proof. intros x. apply kabs_unique; [apply kabs_nonneg|]. rewrite kabs_sqr. ring. Qed.
Lemma kabs_kabs : forall x : K, kabs (kabs x) = kabs x.
Proof. intros x. apply kabs_pos_id. apply kabs_nonneg. Qed.
Lemma kabs_neq0 : forall x : K, x <> 0 -> kabs x <> 0.
Proof. intros x H E. apply H. apply kabs_zero. assumption. Qed.
Lemma kabs_div_abs : forall x y : K, y <> 0 -> kabs (x / kabs y) = kabs (x / y).
Proof.
  intros x y H. apply kabs_unique; [apply kabs_nonneg|]. rewrite kabs_sqr.
  assert (H2 := kabs_neq0 y H).
  replace (x / kabs y * (x / kabs y)) with (x * x / (kabs y * kabs y)) by (field; assumption).
  rewrite kabs_sqr. field. assumption.
Qed.
Lemma kabs_1 : kabs (1 : K) = 1.
Proof. apply kabs_pos_id. apply kle_01. Qed.
Lemma cost_opp : forall al u : K, cost al (- u) = cost al u.
Proof. intros. unfold cost. rewrite kabs_opp. reflexivity. Qed.
Lemma knat_inj : forall m n, (knat m : K) = knat n -> m = n.
Proof.
  assert (G : forall m n, (m < n)%nat -> (knat m : K) <> knat n).
  { intros m n H E. apply (knat_neq0 (K := K) (n - m)); [lia|].
    replace n with (m + (n - m))%nat in E by lia. rewrite knat_add in E.
    assert (E2 : knat m + knat (n - m) - knat m = knat m - (knat m : K)) by (rewrite <- E; reflexivity).
    transitivity (knat m + knat (n - m) - (knat m : K)); [ring|]. rewrite E2. ring. }
  intros m n E. destruct (Nat.lt_trichotomy m n) as [H|[H|H]]; [destruct (G m n H E)|assumption|symmetry in E; destruct (G n m H E)].
Qed.

(** ** additions *)
Record good (al : K) (n m : nat) (p : spprior K) (pf : list K -> K) : Prop := {
  g_sparse : is_sparse p = true;
  g_wf : well_formed (dense p) n;
  g_ones : forall i, (i < m)%nat -> nth i (gamma (dense p)) 0%nat = 1%nat;
  g_al : alpha (dense p) = al;
  g_m : length (bmu (base (dense p))) = m;
  g_pen : forall x, length x = n -> sumn m (fun i => cost al (residual (base (dense p)) x i)) = pf x }.

Lemma good_init : forall al n, good al n 0 (spprior_init al n None) (fun _ => 0).
Proof. intros al n. split; try reflexivity; [apply p_init_wf|intros; lia]. Qed.

Lemma good_added : forall al n m p pf a, good al n m p pf ->
  balanced a -> valid_indices n a -> nonzero_values a -> (forall i, (i < rows_of a)%nat -> order_of a i = 1%nat) ->
  (match a with AddExactAdaptive _ _ _ _ => False | _ => True end) ->
  exists q, added p a = Ok q /\ good al n (m + rows_of a) q (fun x => pf x + sumn (rows_of a) (fun i => cost al (documented a x i))).
Proof.
  intros al n m p pf a G Hb Hv Hz Ho Ha. destruct G as [Gs Gw G1 Ga Gm Gp].
  destruct (p_base_add (dense p) a n Gw Hb Hv Hz) as (q & Eq & Hq & Hres).
  destruct (p_add_wf _ _ _ _ Gw Hb Eq) as (Wq & (Hle & Hext) & Haq & Hlen).
  exists (mkSSP q true). unfold added, via_dense. rewrite Gs, Eq. split; [reflexivity|].
  rewrite Gm in *.
  split; cbn [is_sparse dense]; auto.
  - intros i Hi. destruct (Nat.lt_ge_cases i m) as [H|H].
    + destruct (Hext i H) as (_ & _ & ->). apply G1. assumption.
    + replace i with (m + (i - m))%nat by lia. rewrite Hq by lia. apply Ho. lia.
  - congruence.
  - intros x Hx. rewrite sumn_plus, <- (Gp x Hx). f_equal; apply sumn_ext; intros i Hi; f_equal.
    + unfold residual. destruct (Hext i Hi) as (H1 & H2 & _). rewrite H2. f_equal. apply sumn_ext. intros k Hk.
      rewrite H1; [reflexivity|]. destruct Gw as (-> & _). lia.
    + destruct a; try contradiction; apply Hres; assumption.
Qed.

(** the smooth classes add an adaptive exact prior as an exact one *)
Lemma added_adaptive : forall p ix v w o, added p (AddExactAdaptive ix v w o : addition K) = added p (AddExact ix v w o).
Proof. reflexivity. Qed.

Lemma good_penalty : forall al n m p pf x, good al n m p pf -> n <> 1%nat -> m <> 1%nat -> length x = n ->
  penalty_at p x (pf x).
Proof.
  intros al n m p pf x [Gs Gw G1 Ga Gm Gp] Hn Hm Hx.
  destruct (p_log_value (dense p) n x Gw Hx Hn) as (A & b & E & _). exists A, b.
  rewrite p_sparse_log by (rewrite Gm; assumption). rewrite E. f_equal. f_equal.
  rewrite <- (Gp x Hx), Gm. apply sumn_ext. intros i Hi. unfold wt, cost. rewrite G1, Ga by assumption.
  cbn [Nat.sub kpow]. f_equal. ring.
Qed.
Lemma penalty_unique : forall (p : spprior K) x c d, penalty_at p x c -> penalty_at p x d -> c = d.
Proof. intros p x c d (A & b & E) (A2 & b2 & E2). rewrite E in E2. injection E2 as _ _ E3. assumption. Qed.

(** ** rows given by lists of positions *)
Lemma nth_map_nat : forall (idx : list nat) i, (i < length idx)%nat -> nth i (map Z.of_nat idx) 0%Z = Z.of_nat (nth i idx 0%nat).
Proof. intros idx i H. change 0%Z with (Z.of_nat 0). apply map_nth. Qed.
Lemma sel_nat : forall (x : list K) k, sel x (Z.of_nat k) = vget x k.
Proof. intros x k. unfold sel, pos. destruct (Z.ltb_spec (Z.of_nat k) 0); [lia|]. rewrite Nat2Z.id. reflexivity. Qed.
Lemma pos_nat : forall n k, pos n (Z.of_nat k) = k.
Proof. intros n k. unfold pos. destruct (Z.ltb_spec (Z.of_nat k) 0); [lia|]. apply Nat2Z.id. Qed.
Lemma bounds_nat : forall n idx, Forall (fun k => (k < n)%nat) idx -> Forall (in_bounds n) (map Z.of_nat idx).
Proof. intros n idx H. apply Forall_map. eapply Forall_impl; [|exact H]. intros k Hk. unfold in_bounds. simpl in *. lia. Qed.
Lemma vget_pick : forall (v : list K) idx i, (i < length idx)%nat -> vget (pick v idx) i = vget v (nth i idx 0%nat).
Proof. intros v idx i H. unfold pick, vget at 1. rewrite (nth_indep _ 0 (vget v 0%nat)) by (rewrite map_length; assumption). apply map_nth. Qed.
Lemma sum_list : forall (idx : list nat) (g : nat -> K), sumn (length idx) (fun i => g (nth i idx 0%nat)) = lsum (map g idx).
Proof.
  intros idx g. rewrite lsum_nth, map_length. apply sumn_ext. intros i Hi.
  rewrite (nth_indep _ 0 (g 0%nat)) by (rewrite map_length; assumption). rewrite map_nth. reflexivity.
Qed.

(** adaptive sparsity on positions [idx] *)
Lemma good_adaptive_sparsity : forall al n m p pf idx (v : list K), good al n m p pf -> Forall (fun k => (k < n)%nat) idx ->
  Forall (fun k => vget v k <> 0) idx ->
  exists q, added p (AddAdaptiveSparsity (map Z.of_nat idx) (pick v idx) (AScalar LAPLACE)) = Ok q /\
    good al n (m + length idx) q (fun x => pf x + lsum (map (fun k => cost al (vget x k / vget v k)) idx)).
Proof.
  intros al n m p pf idx v G Hi Hv.
  destruct (good_added al n m p pf (AddAdaptiveSparsity (map Z.of_nat idx) (pick v idx) (AScalar LAPLACE)) G) as (q & E & Gq).
  - cbn. unfold pick. rewrite !map_length. auto.
  - cbn. apply bounds_nat. assumption.
  - cbn. apply Forall_map. assumption.
  - reflexivity.
  - exact I.
  - exists q. split; [exact E|]. cbn [rows_of] in Gq. rewrite map_length in Gq.
    destruct Gq as [H1 H2 H3 H4 H5 H6]. split; auto. intros x Hx. rewrite (H6 x Hx). f_equal.
    rewrite <- (sum_list idx (fun k => cost al (vget x k / vget v k))). apply sumn_ext. intros i Hk. cbn [documented].
    rewrite nth_map_nat, sel_nat, vget_pick by assumption. reflexivity.
Qed.
(** exact values on positions [idx] *)
Lemma good_exact : forall al n m p pf idx (v : list K) w lam, good al n m p pf -> Forall (fun k => (k < n)%nat) idx ->
  length v = length idx -> (w = ANone /\ lam = 1 \/ w = AScalar lam) ->
  exists q, added p (AddExact (map Z.of_nat idx) v w (AScalar LAPLACE)) = Ok q /\
    good al n (m + length idx) q (fun x => pf x + sumn (length idx) (fun i => cost al (lam * (vget x (nth i idx 0%nat) - vget v i)))).
Proof.
  intros al n m p pf idx v w lam G Hi Hl Hw.
  destruct (good_added al n m p pf (AddExact (map Z.of_nat idx) v w (AScalar LAPLACE)) G) as (q & E & Gq).
  - cbn. rewrite !map_length. destruct Hw as [[-> _]| ->]; cbn; auto.
  - cbn. apply bounds_nat. assumption.
  - exact I.
  - reflexivity.
  - exact I.
  - exists q. split; [exact E|]. cbn [rows_of] in Gq. rewrite map_length in Gq.
    destruct Gq as [H1 H2 H3 H4 H5 H6]. split; auto. intros x Hx. rewrite (H6 x Hx). f_equal.
    apply sumn_ext. intros i Hk. cbn [documented].
    rewrite nth_map_nat, sel_nat by assumption. destruct Hw as [[-> ->]| ->]; reflexivity.
Qed.
(** contrasts on rows of positions *)
Lemma good_contrast : forall al n m p pf rows w (v l : list K), good al n m p pf ->
  Forall (fun r => length r = w /\ NoDup r /\ Forall (fun k => (k < n)%nat) r) rows ->
  length v = length rows -> length l = length rows -> Forall (fun y => y <> 0) v ->
  exists q, added p (AddContrast (Mat (length rows) w (map (map Z.of_nat) rows)) v (AList l) (AScalar LAPLACE)) = Ok q /\
    good al n (m + length rows) q (fun x => pf x + sumn (length rows) (fun i =>
      cost al (vget l i * (lsum (map (vget x) (nth i rows [])) / vget v i - 1)))).
Proof.
  intros al n m p pf rows w v l G Hr Hv Hl Hz.
  destruct (good_added al n m p pf (AddContrast (Mat (length rows) w (map (map Z.of_nat) rows)) v (AList l) (AScalar LAPLACE)) G) as (q & E & Gq).
  - cbn. auto.
  - cbn. split.
    + split; cbn; [apply map_length|]. apply Forall_map. eapply Forall_impl; [|exact Hr]. intros r (H & _). cbn. rewrite map_length. assumption.
    + apply Forall_map. eapply Forall_impl; [|exact Hr]. intros r (_ & H & H2). split; [apply bounds_nat; assumption|].
      rewrite map_map. erewrite map_ext; [rewrite map_id; assumption|]. intros k. apply pos_nat.
  - exact Hz.
  - reflexivity.
  - exact I.
  - exists q. split; [exact E|]. cbn [rows_of nr] in Gq.
    destruct Gq as [H1 H2 H3 H4 H5 H6]. split; auto. intros x Hx. rewrite (H6 x Hx). f_equal.
    apply sumn_ext. intros i Hk. cbn [documented dat arg_at]. f_equal. f_equal. f_equal. f_equal. f_equal.
    change (@nil Z) with (map Z.of_nat []). rewrite map_nth, map_map. apply map_ext. intros k. apply sel_nat.
Qed.
End Penalty.
