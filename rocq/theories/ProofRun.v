(** Lemmas about ModelRun.v: centring, priors, noise-free data *)
From Coq Require Import String.
From Coq Require Import Bool Arith List ZArith Lia Field.
From Verif Require Import BasePy BaseFld BaseOrd BaseSum BaseMat BaseNumpy BaseLin SpecMatrix ModelMatrixOps ModelPrior SpecPrior ProofPrior ModelFit
  ModelLS SpecLS ProofLS ProofTLS ModelIdent ProofIdent ProofPenalty ProofIdentMain ProofIdentThm ModelRun SpecRun.
Import ListNotations.
Close Scope string_scope.
Local Open Scope K_scope.

Section Centre.
Context {K : Type} {O : Ops K} {F : Fld (cplx K)}.
Notation CK := (cplx K).
Add Field CKf : (@k_field CK _ F).

Lemma mean_shift : forall (m : mat CK) c j, shape m (nr m) (nc m) -> (0 < nr m)%nat -> (j < nc m)%nat ->
  mean_col (shifted m c) j = mean_col m j + c j.
Proof.
  intros m c j _ HT Hj. unfold mean_col, shifted. cbn [nr mk]. 
  rewrite (sumn_ext _ _ (fun t => get m t j + c j)) by (intros; rewrite get_mk by auto; reflexivity).
  rewrite sumn_add, sumn_const. field. apply knat_neq0. lia.
Qed.
Lemma p_shift_columns : forall (m : mat CK) c, minus_col_means (shifted m c) = minus_col_means m.
Proof.
  intros m c. unfold minus_col_means. apply mk_eq; [reflexivity|reflexivity|]. cbn [nr nc shifted mk]. intros t j Ht Hj.
  change (mk (nr m) (nc m) (fun t j => get m t j + c j)) with (shifted m c).
  unfold mean_col. cbn [nr shifted mk]. unfold shifted at 1. rewrite get_mk by auto.
  rewrite (sumn_ext _ _ (fun t => get m t j + c j)) by (intros; unfold shifted; rewrite get_mk by auto; reflexivity).
  rewrite sumn_add, sumn_const. field. apply knat_neq0. lia.
Qed.
Lemma p_shift_all : forall (m : mat CK) c, minus_mean (shifted m (fun _ => c)) = minus_mean m.
Proof.
  intros m c. unfold minus_mean. apply mk_eq; [reflexivity|reflexivity|]. cbn [nr nc shifted mk]. intros t j Ht Hj.
  change (mk (nr m) (nc m) (fun t j => get m t j + c)) with (shifted m (fun _ => c)).
  unfold mean_all. cbn [nr nc shifted mk]. unfold shifted at 1. rewrite get_mk by auto.
  rewrite (sumn_ext (nr m) _ (fun t => sumn (nc m) (fun j => get m t j) + knat (nc m) * c)).
  2:{ intros a Ha. rewrite (sumn_ext _ _ (fun j => get m a j + c)) by (intros; unfold shifted; rewrite get_mk by auto; reflexivity).
      rewrite sumn_add, sumn_const. reflexivity. }
  rewrite sumn_add, sumn_const.
  assert (E : knat (nr m * nc m) = knat (nr m) * knat (nc m) :> CK).
  { generalize (nr m). induction n as [|n IH]; [change (knat (0 * nc m)) with (0 : CK); change (knat 0) with (0 : CK); ring|].
    cbn [Nat.mul]. rewrite knat_add, IH. change (knat (S n)) with (knat n + 1 : CK). ring. }
  rewrite E. field. split; apply knat_neq0; lia.
Qed.
Lemma p_centred_explained : forall T n m (V Y I : mat CK) c, explained T n m V Y I c ->
  minus_col_means I = mmul (minus_col_means V) Y.
Proof.
  intros T n m V Y I c ((WV & RV & CV) & (WY & RY & CY) & (WI & RI & CI) & H).
  apply (gshape_ext _ _ T m); [split; [apply wf_mk|split; cbn; auto]|split; [apply wf_mk|split; cbn; auto]|].
  intros t j Ht Hj. unfold minus_col_means at 1. rewrite get_mk by lia. rewrite get_mmul by (cbn; lia). cbn [nc minus_col_means mk]. rewrite CV.
  rewrite (sumn_ext n _ (fun k => get V t k * get Y k j - mean_col V k * get Y k j)).
  2:{ intros k Hk. unfold minus_col_means. rewrite get_mk by lia. ring. }
  rewrite sumn_sub. rewrite H by auto. unfold mean_col. rewrite RI, RV.
  rewrite (sumn_ext T _ (fun a => sumn n (fun k => get V a k * get Y k j) + c j)) by (intros; apply H; auto).
  rewrite sumn_add, sumn_const, sumn_swap.
  rewrite (sumn_ext n (fun k => sumn T (fun t0 => get V t0 k) / knat T * get Y k j) (fun k => 1 / knat T * sumn T (fun t0 => get V t0 k * get Y k j))).
  2:{ intros k Hk. rewrite sumn_scal_r. field. apply knat_neq0. lia. }
  rewrite sumn_scal_l. field. apply knat_neq0. lia.
Qed.
Lemma p_centred_laplacian : forall T n m (V Y I : mat CK), explained T n m V Y I (fun _ => 0) -> zero_column_sums n m Y ->
  I = mmul (minus_mean V) Y.
Proof.
  intros T n m V Y I ((WV & RV & CV) & (WY & RY & CY) & SI & H) Z.
  apply (gshape_ext _ _ T m); [auto|split; [apply wf_mk|split; cbn; auto]|].
  intros t j Ht Hj. rewrite get_mmul by (cbn; lia). cbn [nc minus_mean mk]. rewrite CV.
  rewrite (sumn_ext n _ (fun k => get V t k * get Y k j - mean_all V * get Y k j)).
  2:{ intros k Hk. unfold minus_mean. rewrite get_mk by lia. ring. }
  rewrite sumn_sub, sumn_scal_l, (Z j Hj), H by auto. ring.
Qed.
End Centre.

Section Exact.
Context {K : Type} {O : Ops K} {F : Fld K} {O2 : OrdOps K} {OF : OrdFld K}.
Notation CK := (cplx K).

Lemma lasso_builds : forall lap n (Y : mat CK), shape Y n n -> exists p, build_lasso_prior n Y lap = Ok p.
Proof.
  intros lap n Y HY.
  destruct (dt_is n lap) as (D & ED & HD). destruct (e_is n lap) as (E & EE & HE).
  unfold build_lasso_prior. rewrite ED; cbn [bind]; rewrite EE; cbn [bind].
  erewrite symmetrised_ok by eassumption; cbn [bind]; cbv zeta.
  erewrite eliminated_completed by eassumption; cbn [bind].
  erewrite eliminated_ok by eassumption; cbn [bind].
  set (v := map (fun x => 1 / kabs x) _). set (k := (length _ * 2)%nat).
  assert (Lv : length v = k).
  { unfold v, k. rewrite map_length. unfold make_real_vector. rewrite app_length, !map_length. lia. }
  unfold added, via_dense. cbn [is_sparse spprior_init dense apply_addition].
  unfold s_add_adaptive_sparsity, add_adaptive_sparsity_prior. cbn [base sprior_init bprior_init bn].
  destruct (build_rows_ok k (map Z.of_nat (range k)) (fun i => v0 <- pyget v i ;; Ok (1 / v0)) (fun i => 1 / vget v i)) as (m & Em & Sm & _).
  - apply Forall_forall. intros z Hz. apply in_map_iff in Hz. destruct Hz as (a & <- & Ha). apply in_range in Ha. unfold in_bounds. lia.
  - rewrite map_length, length_range. intros i Hi. rewrite (pyget_ok _ v i 0) by lia. reflexivity.
  - unfold stack_rows. rewrite Em. cbn [bind with_mu bL]. unfold np_vstack. destruct Sm as (_ & _ & Cm). rewrite Cm. cbn [nc mzeros mk].
    rewrite Nat.eqb_refl. cbn. eauto.
Qed.

Definition lasso_object (conf : config K) (lap : bool) (N : Z) (p : spprior K) : estimator K :=
  new_estimator (sp_log_distribution p) (lambda_lasso conf) (abs_tol conf) (rel_tol conf) (Z.to_nat N) (fun n => dt_of n lap) (fun n => e_of n lap).

Lemma colm_concat1 : forall (Y : mat CK) n, shape Y n 1 -> colm (concat (dat Y)) = Y.
Proof.
  intros Y n (W & R & C). 
  assert (E : forall l : list (list CK), Forall (fun r => length r = 1%nat) l ->
    length (concat l) = length l /\ forall i, vget (concat l) i = nth 0 (nth i l []) 0).
  { induction l as [|r l IH]; intros H; [split; auto; intro i; unfold vget; cbn; destruct i; reflexivity|].
    inversion H as [|? ? Hr Hl]; subst. destruct (IH Hl) as [A B]. destruct r as [|x [|y r]]; try discriminate. cbn [concat app length]. rewrite A.
    split; [reflexivity|]. intros [|i]; [reflexivity|]. cbn [nth]. unfold vget. cbn [nth]. apply B. }
  destruct W as [W1 W2]. rewrite C in W2. destruct (E _ W2) as [A B].
  apply (gshape_ext _ _ n 1); [unfold colm; rewrite A, W1, R; apply shape_mk|split; [split; [auto|rewrite C; auto]|auto]|].
  intros i j Hi Hj. unfold colm. rewrite get_mk by lia. rewrite B. unfold get, gget. replace j with 0%nat by lia. reflexivity.
Qed.

Lemma estimates_exact : forall pinv svd spsolve (conf : config K) T n (V Y I : mat CK) c lap N,
  explained T n n V Y I c -> (lap = true -> (forall j, (j < n)%nat -> c j = 0) /\ zero_column_sums n n Y) -> (0 < n)%nat ->
  inj (fst (centred lap V I)) -> routines pinv svd T n n (fst (centred lap V I)) (snd (centred lap V I)) ->
  exists p, standard_estimates pinv svd spsolve conf V I lap N =
    if (0 <? N)%Z then
      y0 <- half_sum Y ;;
      '(y_lasso, _) <- fit_result (br_fit spsolve (lasso_object conf lap N p) (fst (centred lap V I)) (snd (centred lap V I)) y0) ;;
      Ok (Y, Y, y_lasso)
    else Ok (Y, Y, Y).
Proof.
  intros pinv svd spsolve conf T n V Y I c lap N E L Hn J [P S].
  pose proof E as ((WV & RV & CV) & SY & SI & _).
  assert (E2 : snd (centred lap V I) = mmul (fst (centred lap V I)) Y).
  { destruct lap; cbn [centred fst snd].
    - destruct (L eq_refl) as [Z0 Zc]. apply (p_centred_laplacian T n n V Y I); auto.
      destruct E as (A & B & C & H). repeat split; try apply A; try apply B; try apply C. intros t j Ht Hj. rewrite H, Z0 by auto. reflexivity.
    - apply (p_centred_explained T n n V Y I c). auto. }
  destruct (lasso_builds lap n Y SY) as (p & Ep). exists p.
  unfold standard_estimates. rewrite CV. destruct (centred lap V I) as [V' I'] eqn:EC. cbn [fst snd] in *. subst I'.
  rewrite (p_ols_exact pinv V' Y T n n P J SY). cbn [bind].
  rewrite (p_tls_exact svd T n n V' Y); [|apply P|auto|auto|auto]. cbn [bind].
  assert (EY : as_matrix (if (1 <? n)%nat then A2 Y else A1 (concat (dat Y))) = Y).
  { destruct (1 <? n)%nat eqn:E1; [reflexivity|]. apply Nat.ltb_ge in E1. assert (H : n = 1%nat) by lia. rewrite H in SY. exact (colm_concat1 Y 1 SY). }
  rewrite EY, Ep. cbn [bind]. unfold lasso_object. reflexivity.
Qed.
End Exact.
