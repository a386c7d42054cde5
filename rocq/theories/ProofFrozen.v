(** The rows of the priors of identification, residual by residual: the sum over the rows of any even cost of the residuals at two
    parameter vectors. *)
From Coq Require Import String.
From Coq Require Import Bool Arith List ZArith Lia Ring Field.
From Verif Require Import BasePy BaseFld BaseOrd BaseSum BaseMat BaseNumpy BaseLin ModelMatrixOps SpecMatrix ModelPrior ModelFit
  ModelIdent SpecPrior SpecFit SpecIdent SpecBayes ProofRagged ProofMatrixOps ProofStruct ProofElim ProofMatrixProps ProofFitBase ProofFitRep ProofPrior
  ProofSet ProofIdent ProofPenalty ProofIdentMain ProofIdentThm.
Import ListNotations.
Close Scope string_scope.
Local Open Scope K_scope.

Section Frozen.
Context {K : Type} {O : Ops K} {F : Fld K} {O2 : OrdOps K} {OF : OrdFld K}.
Notation CK := (cplx K).
Add Field Kfld : (@k_field K O F).

Definition even (g : K -> K -> K) : Prop := forall a b, g (- a) (- b) = g a b.
Lemma even_cost : forall al, even (fun _ => cost al).
Proof. intros al a b. apply cost_opp. Qed.
Lemma even_relaxed : forall al, even (relaxed al).
Proof. intros al a b. unfold relaxed. rewrite kabs_opp. f_equal. ring. Qed.

Record rows_are (al : K) (n m : nat) (p : spprior K) (pf : (K -> K -> K) -> list K -> list K -> K) : Prop := {
  r_sparse : is_sparse p = true;
  r_wf : well_formed (dense p) n;
  r_ones : forall i, (i < m)%nat -> nth i (gamma (dense p)) 0%nat = 1%nat;
  r_al : alpha (dense p) = al;
  r_m : length (bmu (base (dense p))) = m;
  r_pen : forall g w x, even g -> length w = n -> length x = n ->
    sumn m (fun i => g (residual (base (dense p)) w i) (residual (base (dense p)) x i)) = pf g w x }.

Lemma rows_init : forall al n, rows_are al n 0 (spprior_init al n None) (fun _ _ _ => 0).
Proof. intros al n. split; try reflexivity; [apply p_init_wf|intros; lia]. Qed.

Lemma rows_added : forall al n m p pf a, rows_are al n m p pf ->
  balanced a -> valid_indices n a -> nonzero_values a -> (forall i, (i < rows_of a)%nat -> order_of a i = 1%nat) ->
  (match a with AddExactAdaptive _ _ _ _ => False | _ => True end) ->
  exists q, added p a = Ok q /\ rows_are al n (m + rows_of a) q (fun g w x => pf g w x + sumn (rows_of a) (fun i => g (documented a w i) (documented a x i))).
Proof.
  intros al n m p pf a G Hb Hv Hz Ho Ha. destruct G as [Gs Gw G1 Ga Gm Gp].
  destruct (p_base_add (dense p) a n Gw Hb Hv Hz) as (q & Eq & Hq & Hres).
  destruct (p_add_wf _ _ _ _ Gw Hb Eq) as (Wq & (Hle & Hext) & Haq & Hlen).
  exists (mkSSP q true). unfold added, via_dense. rewrite Gs, Eq. split; [reflexivity|].
  rewrite Gm in *.
  assert (R1 : forall x i, length x = n -> (i < m)%nat -> residual (base q) x i = residual (base (dense p)) x i).
  { intros x i Hx Hi. unfold residual. destruct (Hext i Hi) as (H1 & H2 & _). rewrite H2. f_equal. apply sumn_ext. intros k Hk.
    rewrite H1; [reflexivity|]. destruct Gw as (-> & _). lia. }
  assert (R2 : forall x i, length x = n -> (i < rows_of a)%nat -> residual (base q) x (m + i) = documented a x i)
    by (intros x i Hx Hi; destruct a; try contradiction; apply Hres; assumption).
  split; cbn [is_sparse dense]; auto.
  - intros i Hi. destruct (Nat.lt_ge_cases i m) as [H|H].
    + destruct (Hext i H) as (_ & _ & ->). apply G1. assumption.
    + replace i with (m + (i - m))%nat by lia. rewrite Hq by lia. apply Ho. lia.
  - congruence.
  - intros g w x Hg Hw Hx. rewrite sumn_plus, <- (Gp g w x Hg Hw Hx). f_equal; apply sumn_ext; intros i Hi; f_equal; auto.
Qed.

Lemma rows_adaptive_sparsity : forall al n m p pf idx (v : list K), rows_are al n m p pf -> Forall (fun k => (k < n)%nat) idx ->
  Forall (fun k => vget v k <> 0) idx ->
  exists q, added p (AddAdaptiveSparsity (map Z.of_nat idx) (pick v idx) (AScalar LAPLACE)) = Ok q /\
    rows_are al n (m + length idx) q (fun g w x => pf g w x + lsum (map (fun k => g (vget w k / vget v k) (vget x k / vget v k)) idx)).
Proof.
  intros al n m p pf idx v G Hi Hv.
  destruct (rows_added al n m p pf (AddAdaptiveSparsity (map Z.of_nat idx) (pick v idx) (AScalar LAPLACE)) G) as (q & E & Gq).
  - cbn. unfold pick. rewrite !map_length. auto.
  - cbn. apply bounds_nat. assumption.
  - cbn. apply Forall_map. assumption.
  - reflexivity.
  - exact I.
  - exists q. split; [exact E|]. cbn [rows_of] in Gq. rewrite map_length in Gq.
    destruct Gq as [H1 H2 H3 H4 H5 H6]. split; auto. intros g w x Hg Hw Hx. rewrite (H6 g w x Hg Hw Hx). f_equal.
    rewrite <- (sum_list idx (fun k => g (vget w k / vget v k) (vget x k / vget v k))). apply sumn_ext. intros i Hk. cbn [documented].
    rewrite nth_map_nat, !sel_nat, vget_pick by assumption. reflexivity.
Qed.

Lemma rows_contrast : forall al n m p pf rows w (v l : list K), rows_are al n m p pf ->
  Forall (fun r => length r = w /\ NoDup r /\ Forall (fun k => (k < n)%nat) r) rows ->
  length v = length rows -> length l = length rows -> Forall (fun y => y <> 0) v ->
  exists q, added p (AddContrast (Mat (length rows) w (map (map Z.of_nat) rows)) v (AList l) (AScalar LAPLACE)) = Ok q /\
    rows_are al n (m + length rows) q (fun g x0 x => pf g x0 x + sumn (length rows) (fun i =>
      g (vget l i * (lsum (map (vget x0) (nth i rows [])) / vget v i - 1)) (vget l i * (lsum (map (vget x) (nth i rows [])) / vget v i - 1)))).
Proof.
  intros al n m p pf rows w v l G Hr Hv Hl Hz.
  destruct (rows_added al n m p pf (AddContrast (Mat (length rows) w (map (map Z.of_nat) rows)) v (AList l) (AScalar LAPLACE)) G) as (q & E & Gq).
  - cbn. auto.
  - cbn. split.
    + split; cbn; [apply map_length|]. apply Forall_map. eapply Forall_impl; [|exact Hr]. intros r (H & _). cbn. rewrite map_length. assumption.
    + apply Forall_map. eapply Forall_impl; [|exact Hr]. intros r (_ & H & H2). split; [apply bounds_nat; assumption|].
      rewrite map_map. erewrite map_ext; [rewrite map_id; assumption|]. intros k. apply pos_nat.
  - exact Hz.
  - reflexivity.
  - exact I.
  - exists q. split; [exact E|]. cbn [rows_of nr] in Gq.
    destruct Gq as [H1 H2 H3 H4 H5 H6]. split; auto. intros g x0 x Hg Hx0 Hx. rewrite (H6 g x0 x Hg Hx0 Hx). f_equal.
    apply sumn_ext. intros i Hk. cbn [documented dat arg_at].
    assert (M : forall y : list K, map (sel y) (nth i (map (map Z.of_nat) rows) []) = map (vget y) (nth i rows [])).
    { intros y. change (@nil Z) with (map Z.of_nat []). rewrite map_nth, map_map. apply map_ext. intros k. apply sel_nat. }
    rewrite !M. reflexivity.
Qed.

(** a parameter divided by the size of that of the estimate: same sign at every vector *)
Lemma psign_pair : forall lap (g : K -> K -> K) x0 x y, even g -> y <> 0 ->
  g (psign lap x0 / kabs (psign lap y)) (psign lap x / kabs (psign lap y)) = g (x0 / y) (x / y).
Proof.
  intros lap g x0 x y Hg Hy.
  assert (A : kabs (psign lap y) = y \/ kabs (psign lap y) = - y).
  { pose proof (kabs_sqr (psign lap y)) as S. assert (P : (kabs (psign lap y) - y) * (kabs (psign lap y) + y) = 0).
    { replace ((kabs (psign lap y) - y) * (kabs (psign lap y) + y)) with (kabs (psign lap y) * kabs (psign lap y) - y * y) by ring.
      rewrite S. destruct lap; cbn [psign]; ring. }
    destruct (kmul_integral _ _ P) as [H|H]; [left; apply ksub_eq0; assumption|right].
    replace (kabs (psign lap y)) with (kabs (psign lap y) + y - y) by ring. rewrite H. ring. }
  assert (Hn : - y <> 0) by (intros H; apply Hy; replace y with (- - y) by ring; rewrite H; ring).
  destruct A as [-> | ->]; destruct lap; cbn [psign].
  - rewrite <- (Hg (x0 / y)). f_equal; field; repeat split; assumption.
  - reflexivity.
  - f_equal; field; repeat split; assumption.
  - rewrite <- (Hg (x0 / y)). f_equal; field; repeat split; assumption.
Qed.

Lemma sparsity_rows : forall lap n al (Y : mat CK) idx, shape Y n n -> no_zero_line n Y ->
  idx = where_pos (make_real_vector (times (Cx 1 1) (map kabs (pv lap (off_diagonal n))))) ->
  exists q, added (spprior_init al (psize lap n + psize lap n) None) (AddAdaptiveSparsity (map Z.of_nat idx)
      (pick (map kabs (make_real_vector (pv lap (sym_part n Y)))) idx) (AScalar LAPLACE)) = Ok q /\
    exists pf, rows_are al (psize lap n + psize lap n) (length idx) q pf /\
      forall g M0 M, even g -> shape M0 n n -> shape M n n -> pf g (parameters lap M0) (parameters lap M) = line_pairs g n Y M0 M.
Proof.
  intros lap n al Y idx HY Hz Ei.
  rewrite real_times in Ei. cbn [re im] in Ei.
  assert (M1 := mask_off_abs lap n 1 eq_refl).
  set (vv := map kabs (make_real_vector (pv lap (sym_part n Y)))).
  assert (V1 : forall a b, (b < a)%nat -> (a < n)%nat -> vget vv (pidx lap n a b) = kabs (psign lap (re (get (sym_part n Y) a b)))).
  { intros a b Hb Ha. unfold vv. rewrite vget_abs_map. f_equal. apply (param_re lap n (sym_part n Y)); auto. apply shape_mk. }
  assert (V2 : forall a b, (b < a)%nat -> (a < n)%nat -> vget vv (psize lap n + pidx lap n a b) = kabs (psign lap (im (get (sym_part n Y) a b)))).
  { intros a b Hb Ha. unfold vv. rewrite vget_abs_map. f_equal. apply (param_im lap n (sym_part n Y)); auto. apply shape_mk. }
  assert (Hdiag : forall a : nat, negb (a =? a)%nat = true -> False) by (intros a; rewrite Nat.eqb_refl; discriminate).
  destruct (rows_adaptive_sparsity al (psize lap n + psize lap n) 0 (spprior_init al (psize lap n + psize lap n) None) (fun _ _ _ => 0) idx vv)
    as (q & E & G).
  - apply rows_init.
  - subst idx. apply where_pos_lt. rewrite app_length, !map_length, length_pv. reflexivity.
  - subst idx. apply (where_forall lap n _ _ _ _ _ M1 M1).
    + intros a b Hb Ha _. rewrite V1 by assumption. apply kabs_neq0, psign_neq0. apply Hz; lia.
    + intros a b Hb Ha _. rewrite V2 by assumption. apply kabs_neq0, psign_neq0. apply Hz; lia.
    + intros _ a Ha H. destruct (Hdiag _ H).
    + intros _ a Ha H. destruct (Hdiag _ H).
  - exists q. split; [exact E|]. eexists. split; [exact G|]. intros g M0 M Hg HM0 HM. cbn beta.
    rewrite Ei.
    rewrite (sum_where_params lap n _ _ _ _ _
      (fun a b => g (re (get M0 a b) / re (get (sym_part n Y) a b)) (re (get M a b) / re (get (sym_part n Y) a b)))
      (fun a b => g (im (get M0 a b) / im (get (sym_part n Y) a b)) (im (get M a b) / im (get (sym_part n Y) a b)))
      (fun _ => 0) (fun _ => 0) M1 M1).
    + rewrite sum_off, sum_off_diag. unfold line_pairs, parts. destruct lap; ring.
    + intros a b Hb Ha _. rewrite V1, !(param_re lap n) by assumption. apply psign_pair; [assumption|]. apply Hz; lia.
    + intros a b Hb Ha _. rewrite V2, !(param_im lap n) by assumption. apply psign_pair; [assumption|]. apply Hz; lia.
    + intros _ a Ha H. destruct (Hdiag _ H).
    + intros _ a Ha H. destruct (Hdiag _ H).
Qed.

Lemma contrast_pairs : forall lap tls n al lam (Y : mat CK) m p pf, (0 < n)%nat -> rows_are al (psize lap n + psize lap n) m p pf ->
  (forall i, (i < n)%nat -> nonzero_parts (reference tls n Y i)) ->
  exists idx q, index_array (map (row_of lap n (Cx 1 0)) (range n) ++ map (row_of lap n (Cx 0 1)) (range n)) = Ok idx /\
    added p (AddContrast idx (contrast_values lap tls n Y) (AList (map (fun s => lam * s) (repeat (- (1)) n ++ repeat 1 n))) (AScalar LAPLACE)) = Ok q /\
    exists pf2, rows_are al (psize lap n + psize lap n) (m + (n + n)) q pf2 /\
      forall g M0 M, even g -> symmetric n M0 -> symmetric n M ->
        pf2 g (parameters lap M0) (parameters lap M) = pf g (parameters lap M0) (parameters lap M) + node_pairs g lam tls n Y M0 M.
Proof.
  intros lap tls n al lam Y m p pf Hn G Hz.
  set (rows := map (row_of lap n (Cx 1 0)) (range n) ++ map (row_of lap n (Cx 0 1)) (range n)).
  assert (Hlen : length rows = (n + n)%nat) by (unfold rows; rewrite app_length, !map_length, length_range; reflexivity).
  assert (Hrows : Forall (fun r => length r = (n - 1)%nat /\ NoDup r /\ Forall (fun k => (k < psize lap n + psize lap n)%nat) r) rows).
  { unfold rows. apply Forall_app. split; apply Forall_map; apply Forall_forall; intros i Hi; apply in_range in Hi; apply row_ok; auto. }
  exists (Mat (length rows) (n - 1) (map (map Z.of_nat) rows)).
  destruct (rows_contrast al _ m p pf rows (n - 1) (contrast_values lap tls n Y) (map (fun s => lam * s) (repeat (- (1)) n ++ repeat 1 n)) G Hrows)
    as (q & E & Gq).
  - rewrite Hlen. unfold contrast_values. rewrite app_length, !length_mkv. reflexivity.
  - rewrite Hlen, map_length, app_length, !repeat_length. reflexivity.
  - unfold contrast_values. apply Forall_app. unfold mkv.
    split; apply Forall_map; apply Forall_forall; intros i Hi; apply in_range in Hi; apply psign_neq0; apply Hz; assumption.
  - exists q. split; [|split; [exact E|]].
    + apply index_array_ok.
      * intros H. rewrite H in Hlen. simpl in Hlen. lia.
      * eapply Forall_impl; [|exact Hrows]. intros r (H & _). exact H.
    + rewrite Hlen in Gq. eexists. split; [exact Gq|]. intros g M0 M Hg HM0 HM. cbn beta. f_equal. rewrite sumn_plus. unfold node_pairs, parts. rewrite sumn_add.
      f_equal; apply sumn_ext; intros i Hi.
      * rewrite map_app.
        rewrite (vget_app_left (map _ (repeat (- (1)) n))) by (rewrite map_length, repeat_length; assumption).
        rewrite vget_map_in by (rewrite repeat_length; assumption).
        unfold contrast_values. rewrite (vget_app_left (mkv n _)) by (rewrite length_mkv; assumption). rewrite vget_mkv by assumption.
        unfold rows. rewrite app_nth1 by (rewrite map_length, length_range; assumption).
        rewrite (nth_map_range _ (row_of lap n (Cx 1 0))) by assumption.
        rewrite !row_sum_re by assumption. rewrite !psign_ratio by (apply Hz; assumption).
        unfold vget. rewrite nth_repeat_lt by assumption.
        rewrite <- Hg. f_equal; ring.
      * rewrite map_app.
        rewrite (vget_app_off (map _ (repeat (- (1)) n)) _ n) by (rewrite map_length, repeat_length; reflexivity).
        rewrite vget_map_in by (rewrite repeat_length; assumption).
        unfold contrast_values. rewrite (vget_app_off (mkv n _) _ n) by apply length_mkv. rewrite vget_mkv by assumption.
        unfold rows. rewrite app_nth2 by (rewrite map_length, length_range; lia). rewrite map_length, length_range.
        replace (n + i - n)%nat with i by lia.
        rewrite (nth_map_range _ (row_of lap n (Cx 0 1))) by assumption.
        rewrite !row_sum_im by assumption. rewrite !psign_ratio by (apply Hz; assumption).
        unfold vget. rewrite nth_repeat_lt by assumption. f_equal; ring.
Qed.

(** ** the complex prior *)
Ltac start HY ED EE :=
  unfold build_complex_prior; rewrite ED; cbn [bind]; rewrite EE; cbn [bind];
  erewrite symmetrised_ok by eassumption; cbn [bind]; cbv zeta;
  erewrite eliminated_ok by eassumption; cbn [bind];
  erewrite eliminated_real_ok by (eassumption || apply off_diagonal_sym); cbn [bind];
  erewrite eliminated_completed by eassumption; cbn [bind];
  rewrite length_pv; cbn [nr sym_part mk].

Theorem p_complex_rows : forall lap tls n lam (Y : mat CK), (2 <= n)%nat -> shape Y n n -> no_zero_line n Y ->
  (forall i, (i < n)%nat -> nonzero_parts (reference tls n Y i)) ->
  exists p m pf, build_complex_prior n lam Y lap tls true false = Ok p /\ (1 < m)%nat /\ rows_are (tenth 8) (psize lap n + psize lap n) m p pf /\
    forall g M0 M, even g -> symmetric n M0 -> symmetric n M ->
      pf g (parameters lap M0) (parameters lap M) = line_pairs g n Y M0 M + node_pairs g lam tls n Y M0 M.
Proof.
  intros lap tls n lam Y Hn HY Hz Hr.
  destruct (dt_is n lap) as (D & ED & HD). destruct (e_is n lap) as (E & EE & HE).
  start HY ED EE. rewrite times2.
  destruct (sparsity_rows lap n (tenth 8) Y _ HY Hz eq_refl) as (q & E1 & pf & G & Hpf).
  rewrite E1. cbn [bind].
  erewrite (contrast_rows lap n E (Cx 1 0)), (contrast_rows lap n E (Cx 0 1)) by assumption. cbn [bind].
  destruct (contrast_pairs lap tls n (tenth 8) lam Y _ q pf ltac:(lia) G Hr) as (idx & q2 & E2 & E3 & pf2 & G2 & Hpf2).
  rewrite E2. cbn [bind]. rewrite (values_ok lap tls n Y _ HY eq_refl). rewrite E3. cbn [bind].
  exists q2. eexists. exists pf2. split; [reflexivity|]. split; [|split; [exact G2|]]; [lia|]. intros g M0 M Hg HM0 HM.
  rewrite Hpf2, Hpf by (assumption || apply HM0 || apply HM). reflexivity.
Qed.

(** ** the Lasso prior *)
Theorem p_lasso_rows : forall lap n (Y : mat CK), (2 <= n)%nat -> shape Y n n ->
  Forall (fun y => y <> 0) (parameters lap (sym_part n Y)) ->
  exists p m pf, build_lasso_prior n Y lap = Ok p /\ (1 < m)%nat /\ rows_are (tenth 5) (psize lap n + psize lap n) m p pf /\
    forall g w x, even g -> length w = (psize lap n + psize lap n)%nat -> length x = (psize lap n + psize lap n)%nat ->
      pf g w x = sumn (length (parameters lap (sym_part n Y))) (fun k =>
        g (kabs (vget (parameters lap (sym_part n Y)) k) * vget w k) (kabs (vget (parameters lap (sym_part n Y)) k) * vget x k)).
Proof.
  intros lap n Y Hn HY Hz.
  destruct (dt_is n lap) as (D & ED & HD). destruct (e_is n lap) as (E & EE & HE).
  unfold build_lasso_prior. rewrite ED; cbn [bind]; rewrite EE; cbn [bind].
  erewrite symmetrised_ok by eassumption; cbn [bind]; cbv zeta.
  erewrite eliminated_completed by eassumption; cbn [bind].
  erewrite eliminated_ok by eassumption; cbn [bind].
  change (make_real_vector (pv lap (sym_part n Y))) with (parameters lap (sym_part n Y)).
  rewrite length_pv. cbn [nr sym_part mk]. rewrite times2.
  assert (Ly := length_parameters lap n (sym_part n Y) (shape_sym_part n Y)).
  set (y := parameters lap (sym_part n Y)) in *.
  set (v := map (fun x => 1 / kabs x) y).
  assert (Hv : forall k, (k < length y)%nat -> vget v k = 1 / kabs (vget y k)) by (intros; unfold v; apply (vget_map_in (fun x => 1 / kabs x)); assumption).
  assert (Hy : forall k, (k < length y)%nat -> kabs (vget y k) <> 0).
  { intros k Hk. apply kabs_neq0. rewrite Forall_forall in Hz. apply Hz. apply nth_In. assumption. }
  assert (Epick : pick v (range (psize lap n + psize lap n)) = v).
  { apply vec_ext; unfold pick; rewrite map_length, length_range, <- Ly; [unfold v; rewrite map_length; reflexivity|].
      intros k Hk. unfold vget at 1. rewrite (nth_map_range _ (vget v)) by assumption. reflexivity. }
  destruct (rows_adaptive_sparsity (tenth 5) _ 0 _ _ (range (psize lap n + psize lap n)) v (rows_init (tenth 5) (psize lap n + psize lap n)))
    as (q & Eq & G).
  - apply Forall_forall. intros k Hk. apply in_range in Hk. assumption.
  - apply Forall_forall. intros k Hk. apply in_range in Hk. rewrite <- Ly in Hk. rewrite Hv by assumption. specialize (Hy k Hk).
    intros H. apply (k1_neq0 (K := K)). rewrite <- (kdiv_mul 1 (kabs (vget y k))), H by assumption. ring.
  - exists q. eexists. eexists. split; [rewrite Epick in Eq; exact Eq|]. split; [|split; [exact G|]].
    + rewrite length_range, Nat.add_0_l. assert (1 <= psize lap n)%nat; [|lia].
      pose proof (pidx_lt lap n 1 0 ltac:(lia) ltac:(lia)). lia.
    + intros g w x Hg Hw Hx. cbn beta. rewrite lsum_map_range, Ly.
      match goal with |- 0 + ?a = _ => replace (0 + a) with a by ring end. apply sumn_ext. intros k Hk. rewrite <- Ly in Hk.
      rewrite Hv by assumption. specialize (Hy k Hk). f_equal; field; repeat split; (exact Hy || apply k1_neq0).
Qed.

(** ** from rows to the penalties of the estimators *)
Lemma rows_log : forall al n m p pf x, rows_are al n m p pf -> (1 < m)%nat -> sp_log_distribution p x = log_distribution (dense p) x.
Proof. intros al n m p pf x G H. apply p_sparse_log. rewrite (r_m _ _ _ _ _ G). lia. Qed.
Lemma rows_frozen : forall al n m p pf w x, rows_are al n m p pf -> length w = n -> length x = n ->
  frozen_penalty (dense p) w x = pf (relaxed al) w x.
Proof.
  intros al n m p pf w x [Gs Gw G1 Ga Gm Gp] Hw Hx. rewrite <- (Gp (relaxed al) w x (even_relaxed al) Hw Hx). unfold frozen_penalty. rewrite Gm.
  apply sumn_ext. intros i Hi. rewrite G1, Ga by assumption. unfold relaxed. cbn [Nat.sub kpow]. f_equal. f_equal. ring.
Qed.
Lemma rows_sum : forall al n m p pf w x, rows_are al n m p pf -> length w = n -> length x = n ->
  prior_sum (dense p) x = pf (fun _ => cost al) w x.
Proof.
  intros al n m p pf w x [Gs Gw G1 Ga Gm Gp] Hw Hx. rewrite <- (Gp (fun _ => cost al) w x (even_cost al) Hw Hx). unfold prior_sum. rewrite Gm.
  apply sumn_ext. intros i Hi. rewrite G1, Ga by assumption. unfold cost. cbn [Nat.sub kpow]. f_equal. ring.
Qed.
End Frozen.
