(** Renumbered nodes: the regression of the Lasso, its penalty, all standard methods. *)
From Coq Require Import Bool Arith List ZArith Lia Ring Field Permutation.
From Verif Require Import BasePy BaseFld BaseOrd BaseSum BaseMat BaseNumpy BaseLin ModelMatrixOps SpecMatrix ModelPrior ModelFit ModelLS ModelIdent ModelRun
  SpecPrior SpecLS SpecFit SpecIdent SpecBayes SpecOrder SpecTLS SpecRenumber ProofRagged ProofMatrixOps ProofStruct ProofElim ProofMatrixProps ProofPrior ProofLS ProofFitBase ProofFit ProofFitOpt ProofFitBR ProofFitRep
  ProofIdent ProofPenalty ProofIdentMain ProofIdentThm ProofFrozen ProofBayes ProofBayesRun ProofOrder4 ProofOrder5 ProofOrderRun ProofRenumber ProofRenumber2 ProofEquiv ProofEquiv2.
Import ListNotations.
Local Open Scope K_scope.

Section Equiv.
Context {K : Type} {O : Ops K} {F : Fld K} {O2 : OrdOps K} {OF : OrdFld K}.
Notation CK := (cplx K).
Add Field KfldE3 : (@k_field K O F).

Lemma dt_inj : forall lap n (D : mat K), dt_of n lap = Ok D -> inj D.
Proof. intros [|] n D H; [apply (lap_inj n D H)|apply (dup_inj n D H)]. Qed.

Section Perm.
Variables (n : nat) (p : nat -> nat) (HP : numbering n p).
Let Hlt := order_lt n p HP.

(** ** the regression *)
Section Fit.
Variables (lap : bool) (m m' N : nat) (al lam at_ rt : K) (prior prior' : spprior K).
Variables pf pf' : (K -> K -> K) -> list K -> list K -> K.
Variables q q' : (K -> K -> K) -> mat CK -> mat CK -> K.
Hypothesis G : rows_are al (psize lap n + psize lap n) m prior pf.
Hypothesis G' : rows_are al (psize lap n + psize lap n) m' prior' pf'.
Hypothesis Hm : (1 < m)%nat.
Hypothesis Hm' : (1 < m')%nat.
Hypothesis Hal : 0 <! al.
Hypothesis Hlam : 0 <=! lam.
Hypothesis Hq : forall g M0 M, even g -> symmetric n M0 -> symmetric n M -> pf g (parameters lap M0) (parameters lap M) = q g M0 M.
Hypothesis Hq' : forall g M0 M, even g -> symmetric n M0 -> symmetric n M -> pf' g (parameters lap M0) (parameters lap M) = q' g M0 M.
Hypothesis Hqq : forall g M0 M0' M M', renumbered n p M0 M0' -> renumbered n p M M' -> symmetric n M0 -> symmetric n M -> q' g M0' M' = q g M0 M.

Definition side_by_side (s s' : lstate K) : Prop := exists M0 M0', renumbered n p M0 M0' /\ at_matrix n lap prior M0 s /\ at_matrix n lap prior' M0' s'.

Theorem br_fit_ren : forall spsolve spsolve' T (x x' z z' Y0 Y0' : mat CK), solver_sound spsolve -> solver_complete spsolve -> solver_sound spsolve' -> solver_complete spsolve' ->
  columns_renumbered T n p x x' -> columns_renumbered T n p z z' -> inj x -> symmetric n Y0 -> renumbered n p Y0 Y0' ->
  exists y y' its its', fit_result (br_fit spsolve (object prior lam at_ rt N lap) x z Y0) = Ok (y, its) /\ fit_result (br_fit spsolve' (object prior' lam at_ rt N lap) x' z' Y0') = Ok (y', its') /\
    renumbered n p y y' /\ Forall2 (same_record (renumbered n p)) its its'.
Proof.
  intros spsolve spsolve' T x x' z z' Y0 Y0' Hs Hc Hs' Hc' HX HZ Ix SY RY. assert (SY' := symmetric_ren n p HP _ _ RY SY). assert (Ix' := inj_ren n p HP T x x' HX Ix).
  destruct (dt_is n lap) as (D & ED & HD). destruct (e_is n lap) as (E & EE & HE). assert (ID := dt_inj lap n D ED).
  destruct (start_at n lap m N al lam at_ rt prior pf G Hm Hal E Y0 HE SY) as (M & mu & pen & EM & A0).
  destruct (start_at n lap m' N al lam at_ rt prior' pf' G' Hm' Hal E Y0' HE SY') as (M' & mu' & pen' & EM' & A0').
  pose proof HX as ((_ & Rx & Cx) & (_ & Rx' & Cx') & _). pose proof (proj1 HD) as (_ & RD & CD). pose proof (proj1 HE) as (_ & RE & CE).
  assert (I : forall (pr : spprior K) (a Y : mat CK) Mq muq penq, nc a = n -> shape Y n n -> e_prior (object pr lam at_ rt N lap) (make_real_vector (mvmul (cmat E) (vectorize_matrix Y))) = Ok (Mq, muq, penq) ->
    fit_init (object pr lam at_ rt N lap) a Y = Ok (D, regressor n a D, Mq, muq)).
  { intros pr a Y Mq muq penq Ca (_ & RY0 & CY0) EQ. unfold fit_init. rewrite Ca. cbn [object new_estimator e_dt e_el]. rewrite ED. cbn [bind]. rewrite EE. cbn [bind].
    rewrite matmul_ok by (cbn [nc mkron meye mk nr cmat mmap]; rewrite Ca, RD; reflexivity). cbn [bind].
    rewrite matvec_ok by (rewrite length_vectorize; cbn [nc cmat mmap mk]; rewrite CE, RY0, CY0; reflexivity). cbn [bind]. rewrite EQ. reflexivity. }
  unfold br_fit. rewrite (I prior x Y0 M mu pen Cx (proj1 SY) EM), (I prior' x' Y0' M' mu' pen' Cx' (proj1 SY') EM'). rewrite Cx, Cx'. cbn [object new_estimator e_abs_tol e_rel_tol e_max e_iters].
  destruct (loop_sim (renumbered n p) side_by_side at_ rt
    (br_step spsolve (object prior lam at_ rt N lap) D (regressor n x D) (make_real_vector (vectorize_matrix z)) n)
    (br_step spsolve' (object prior' lam at_ rt N lap) D (regressor n x' D) (make_real_vector (vectorize_matrix z')) n)) with (fuel := N) (it := 0%nat) (iters := @nil (status K)) (iters' := @nil (status K)) (s := (Y0, M, mu)) (s' := (Y0', M', mu'))
    as (l & l' & f & f' & L1 & L2 & L3 & L4).
  - intros s s' (A & B & R & (<- & _) & (<- & _)). exact R.
  - intros s s' (A & B & R & AA & AB).
    destruct (br_round n lap m N al lam at_ rt prior pf q G Hm Hal Hlam Hq spsolve x z T D s A Hs Hc (proj1 HX) (proj1 HZ) Ix HD ID AA) as (s1 & Q & E1 & B1 & B2 & B3 & _).
    destruct (br_round n lap m' N al lam at_ rt prior' pf' q' G' Hm' Hal Hlam Hq' spsolve' x' z' T D s' B Hs' Hc' (proj1 (proj2 HX)) (proj1 (proj2 HZ)) Ix' HD ID AB) as (s1' & Q' & E1' & B1' & B2' & _ & B4').
    assert (SA : symmetric n A) by apply AA. assert (SQ := admissible_sym _ _ _ B2).
    assert (V : forall X X', renumbered n p X X' -> symmetric n X -> value al lam q' x' z' B X' = value al lam q x z A X).
    { intros X X' RX SX. unfold value. rewrite (Hqq _ A B X X' R RX SA SX). rewrite (fro2_ren n p HP T _ _ (difference_ren n p HP T _ _ _ _ HZ (flows_ren n p HP T _ _ _ _ HX RX))). reflexivity. }
    assert (RQ : renumbered n p Q Q').
    { pose proof (renumber_is n p Q (proj1 SQ)) as RN. pose proof (admissible_ren n p HP lap _ _ RN B2) as AN.
      assert (SQ' : shape Q' n n) by apply (admissible_sym _ _ _ B2').
      pose proof (unnumber_is n p HP Q' SQ') as RU. pose proof (admissible_unren n p HP lap _ _ RU B2') as AU.
      rewrite <- (B4' (renumber n p Q) AN); [exact RN|]. rewrite (V _ _ RN SQ), (V _ _ RU (admissible_sym _ _ _ AU)). apply B3. exact AU. }
    exists s1, s1'. eexists. split; [exact E1|]. split; [|exists Q, Q'; auto]. rewrite E1'. rewrite (Hqq _ Q Q' Q Q' RQ RQ SQ SQ).
    rewrite (fro2_ren n p HP T _ _ (difference_ren n p HP T _ _ _ _ HZ (flows_ren n p HP T _ _ _ _ HX RQ))). reflexivity.
  - exists Y0, Y0'. auto.
  - constructor.
  - rewrite L1, L2. unfold finish_fit. cbn [snd fst fit_result e_adm e_iters]. exists (fst (fst f)), (fst (fst f')), l, l'. split; [reflexivity|]. split; [reflexivity|]. split; [|exact L3].
    destruct L4 as (A & B & R & (<- & _) & (<- & _)). exact R.
Qed.
End Fit.

(** ** the penalty of the Lasso *)
Definition lasso_lines (lap : bool) (S : mat CK) (g : K -> K -> K) (M0 M : mat CK) : K :=
  let f := fun a b => parts (fun part => g (kabs (part (get S a b)) * part (get M0 a b)) (kabs (part (get S a b)) * part (get M a b))) in
  line_sum n f + (if lap then 0 else sumn n (fun a => f a a)).
Lemma length_pvn : forall lap (M : mat CK), shape M n n -> length (pv lap M) = psize lap n.
Proof. intros lap M (_ & R & _). rewrite length_pv, R. reflexivity. Qed.
Lemma psign_even : forall lap (g : K -> K -> K) a b c, even g -> g (kabs (psign lap a) * psign lap b) (kabs (psign lap a) * psign lap c) = g (kabs a * b) (kabs a * c).
Proof.
  intros [|] g a b c Hg; cbn [psign]; [|reflexivity]. rewrite kabs_opp. replace (kabs a * - b) with (- (kabs a * b)) by ring. replace (kabs a * - c) with (- (kabs a * c)) by ring. apply Hg.
Qed.
Lemma lasso_is_lines : forall lap (S M0 M : mat CK) g, even g -> shape S n n -> shape M0 n n -> shape M n n ->
  sumn (length (parameters lap S)) (fun k => g (kabs (vget (parameters lap S) k) * vget (parameters lap M0) k) (kabs (vget (parameters lap S) k) * vget (parameters lap M) k)) = lasso_lines lap S g M0 M.
Proof.
  intros lap S M0 M g Hg HS H0 H1. rewrite (length_parameters lap n S HS), sumn_plus.
  assert (L := length_pvn lap S HS). assert (L0 := length_pvn lap M0 H0). assert (L1 := length_pvn lap M H1).
  assert (R : forall (M : mat CK) k, length (pv lap M) = psize lap n -> (k < psize lap n)%nat -> vget (parameters lap M) k = re (vget (pv lap M) k) /\ vget (parameters lap M) (psize lap n + k) = im (vget (pv lap M) k)).
  { intros X k LX Hk. unfold parameters. change (if lap then ve X else vech X) with (pv lap X). rewrite !vget_make_real_vector by lia. rewrite LX. destruct (Nat.ltb_spec k (psize lap n)); [|lia]. destruct (Nat.ltb_spec (psize lap n + k) (psize lap n)); [lia|]. split; [reflexivity|]. f_equal. f_equal. lia. }
  assert (NS := proj1 (proj2 HS)). assert (N0 := proj1 (proj2 H0)). assert (N1 := proj1 (proj2 H1)).
  rewrite <- sumn_add, sum_params. unfold lasso_lines. f_equal.
  - apply line_sum_ext. intros a b Hb Ha. pose proof (pidx_lt lap n a b Hb Ha) as HI. destruct (R S _ L HI) as [-> ->]. destruct (R M0 _ L0 HI) as [-> ->]. destruct (R M _ L1 HI) as [-> ->].
    pose proof (vget_pv CK _ lap S a b Hb ltac:(lia)) as VS. rewrite NS in VS. pose proof (vget_pv CK _ lap M0 a b Hb ltac:(lia)) as V0. rewrite N0 in V0. pose proof (vget_pv CK _ lap M a b Hb ltac:(lia)) as V1. rewrite N1 in V1.
    rewrite VS, V0, V1, !re_psign, !im_psign, !psign_even by assumption. reflexivity.
  - destruct lap; [reflexivity|]. apply sumn_ext. intros a Ha. assert (HI : (hidx n a a < psize false n)%nat) by (apply hidx_lt; lia). destruct (R S _ L HI) as [-> ->]. destruct (R M0 _ L0 HI) as [-> ->]. destruct (R M _ L1 HI) as [-> ->].
    pose proof (vget_vech S a a ltac:(lia) ltac:(lia)) as VS. rewrite NS in VS. pose proof (vget_vech M0 a a ltac:(lia) ltac:(lia)) as V0. rewrite N0 in V0. pose proof (vget_vech M a a ltac:(lia) ltac:(lia)) as V1. rewrite N1 in V1.
    cbn [pv]. rewrite VS, V0, V1. reflexivity.
Qed.
Lemma lasso_ren : forall lap (S S' M0 M0' M M' : mat CK) g, symmetric n S -> symmetric n M0 -> symmetric n M -> renumbered n p S S' -> renumbered n p M0 M0' -> renumbered n p M M' ->
  lasso_lines lap S' g M0' M' = lasso_lines lap S g M0 M.
Proof.
  intros lap S S' M0 M0' M M' g [_ SS] [_ S0] [_ S1] (_ & _ & RS) (_ & _ & R0) (_ & _ & R1). unfold lasso_lines. f_equal.
  - rewrite <- (line_sum_numbering n p (fun a b => parts (fun part => g (kabs (part (get S a b)) * part (get M0 a b)) (kabs (part (get S a b)) * part (get M a b)))) HP).
    + apply line_sum_ext. intros a b Hb Ha. rewrite RS, R0, R1 by lia. reflexivity.
    + intros i j Hi Hj. rewrite (SS j i), (S0 j i), (S1 j i) by assumption. reflexivity.
  - destruct lap; [reflexivity|]. rewrite <- (sum_numbering n p (fun a => parts (fun part => g (kabs (part (get S a a)) * part (get M0 a a)) (kabs (part (get S a a)) * part (get M a a)))) HP).
    apply sumn_ext. intros a Ha. rewrite RS, R0, R1 by lia. reflexivity.
Qed.
Lemma sym_part_ren : forall Y Y' : mat CK, renumbered n p Y Y' -> renumbered n p (sym_part n Y) (sym_part n Y').
Proof.
  intros Y Y' (HY & HY' & E). split; [apply shape_mk|]. split; [apply shape_mk|]. intros i j Hi Hj. rewrite !get_sym_part by (try apply Hlt; assumption). rewrite !E by assumption. reflexivity.
Qed.

(** no parameter is zero *)
Lemma all_params : forall lap (Q : nat -> bool), (forall a b, (b < a)%nat -> (a < n)%nat -> Q (pidx lap n a b) = true) -> (lap = false -> forall a, (a < n)%nat -> Q (hidx n a a) = true) ->
  forall k, (k < psize lap n)%nat -> Q k = true.
Proof.
  intros lap Q H1 H2 k Hk. pose proof (sum_params lap n (fun k => if Q k then 0 else 1 : K)) as S.
  assert (Z : sumn (psize lap n) (fun k => if Q k then 0 else 1 : K) = 0).
  { rewrite S. rewrite (line_sum_ext n _ (fun _ _ => 0)) by (intros i j Hj Hi; rewrite H1 by assumption; reflexivity). unfold line_sum.
    rewrite (sumn_zero n (fun i => sumn i (fun _ => 0))) by (intros; apply sumn_zero; auto). destruct lap; [ring|]. rewrite sumn_zero; [ring|]. intros a Ha. rewrite H2 by auto. reflexivity. }
  pose proof (sumn_nonneg_zero (psize lap n) (fun k => if Q k then 0 else 1 : K)) as W. cbv beta in W. specialize (W ltac:(intros i Hi; destruct (Q i); [apply kle_refl|apply kle_01]) Z k Hk).
  destruct (Q k); [reflexivity|]. exfalso. exact (k1_neq0 W).
Qed.
Definition nonzero_at (lap : bool) (S : mat CK) : Prop := (forall a b, (b < a)%nat -> (a < n)%nat -> nonzero_parts (get S a b)) /\ (lap = false -> forall a, (a < n)%nat -> nonzero_parts (get S a a)).
Lemma nonzero_sign : forall lap z, nonzero_parts z <-> nonzero_parts (psign lap z : CK).
Proof.
  intros [|] z; cbn [psign]; [|tauto]. unfold nonzero_parts. change (re (- z)) with (- re z). change (im (- z)) with (- im z).
  assert (Q : forall x : K, - x = 0 <-> x = 0) by (intros x; split; intro H; [replace x with (- - x) by ring; rewrite H; ring|rewrite H; ring]). rewrite !Q. tauto.
Qed.
Lemma params_nonzero : forall lap (S : mat CK), shape S n n -> Forall (fun y => y <> 0) (parameters lap S) <-> nonzero_at lap S.
Proof.
  intros lap S HS. assert (L := length_pvn lap S HS). assert (NS := proj1 (proj2 HS)).
  assert (A : Forall (fun y => y <> 0) (parameters lap S) <-> forall k, (k < psize lap n)%nat -> nonzero_parts (vget (pv lap S) k)).
  { rewrite Forall_forall. unfold parameters. change (if lap then ve S else vech S) with (pv lap S). unfold make_real_vector. split.
    - intros H k Hk. split; apply H; apply in_or_app; [left|right]; apply in_map; apply nth_In; lia.
    - intros H y Hy. apply in_app_or in Hy. destruct Hy as [Hy|Hy]; apply in_map_iff in Hy; destruct Hy as (z & <- & Hz); destruct (In_nth _ _ (0 : CK) Hz) as (k & Hk & <-); rewrite L in Hk; apply (H k Hk). }
  rewrite A. split.
  - intros H. split.
    + intros a b Hb Ha. apply (proj2 (nonzero_sign lap _)). pose proof (vget_pv CK _ lap S a b Hb ltac:(lia)) as V. rewrite NS in V. rewrite <- V. apply H. apply pidx_lt; assumption.
    + intros -> a Ha. pose proof (vget_vech S a a ltac:(lia) ltac:(lia)) as V. rewrite NS in V. rewrite <- V. apply (H (hidx n a a)). apply hidx_lt; lia.
  - intros [H1 H2] k Hk.
    assert (B : forall z : CK, negb (re z =? 0) && negb (im z =? 0) = true <-> nonzero_parts z).
    { intros z. unfold nonzero_parts. rewrite andb_true_iff, !negb_true_iff. split; intros [X Y]; split.
      - intro Z. rewrite Z, keqb_refl in X. discriminate.
      - intro Z. rewrite Z, keqb_refl in Y. discriminate.
      - destruct (re z =? 0) eqn:Z; [exfalso; apply X; apply keqb_eq; exact Z|reflexivity].
      - destruct (im z =? 0) eqn:Z; [exfalso; apply Y; apply keqb_eq; exact Z|reflexivity]. }
    apply B. apply (all_params lap (fun k => negb (re (vget (pv lap S) k) =? 0) && negb (im (vget (pv lap S) k) =? 0))); [| |exact Hk].
    + intros a b Hb Ha. apply B. pose proof (vget_pv CK _ lap S a b Hb ltac:(lia)) as V. rewrite NS in V. rewrite V. apply (proj1 (nonzero_sign lap _)). apply H1; assumption.
    + intros -> a Ha. apply B. pose proof (vget_vech S a a ltac:(lia) ltac:(lia)) as V. rewrite NS in V. cbn [pv]. rewrite V. apply H2; auto.
Qed.
Lemma nonzero_ren : forall lap (S S' : mat CK), symmetric n S -> renumbered n p S S' -> nonzero_at lap S -> nonzero_at lap S'.
Proof.
  intros lap S S' [_ Sy] (_ & _ & E) [H1 H2]. split.
  - intros a b Hb Ha. rewrite E by lia. pose proof (Hlt a ltac:(lia)). pose proof (Hlt b ltac:(lia)).
    destruct (Nat.lt_total (p a) (p b)) as [L|[L|L]]; [rewrite Sy by assumption; apply H1; assumption| |apply H1; assumption].
    exfalso. assert (a = b) by (apply (order_inj n p HP); (assumption || lia)). lia.
  - intros Hl a Ha. rewrite E by assumption. apply H2; auto.
Qed.

(** ** centred tables *)
Lemma mean_ren : forall T (x x' : mat CK), columns_renumbered T n p x x' -> columns_renumbered T n p (minus_mean x) (minus_mean x').
Proof.
  intros T x x' ((W & R & C) & (W' & R' & C') & E). assert (S : forall a : mat CK, nr a = T -> nc a = n -> shape (minus_mean a) T n) by (intros a <- <-; apply shape_mk).
  split; [apply S; assumption|]. split; [apply S; assumption|]. intros t j Ht Hj. pose proof (Hlt j Hj). unfold minus_mean. rewrite !get_mk by lia. rewrite E by assumption. f_equal. unfold mean_all. rewrite R, C, R', C'. f_equal.
  apply sumn_ext. intros s Hs. rewrite <- (sum_numbering n p (fun k => get x s k) HP). apply sumn_ext. intros k Hk. apply E; assumption.
Qed.
Lemma col_means_ren : forall T (x x' : mat CK), columns_renumbered T n p x x' -> columns_renumbered T n p (minus_col_means x) (minus_col_means x').
Proof.
  intros T x x' ((W & R & C) & (W' & R' & C') & E). assert (S : forall a : mat CK, nr a = T -> nc a = n -> shape (minus_col_means a) T n) by (intros a <- <-; apply shape_mk).
  split; [apply S; assumption|]. split; [apply S; assumption|]. intros t j Ht Hj. pose proof (Hlt j Hj). unfold minus_col_means. rewrite !get_mk by lia. rewrite E by assumption. f_equal. unfold mean_col. rewrite R, R'. f_equal.
  apply sumn_ext. intros s Hs. apply E; assumption.
Qed.
Lemma centred_ren : forall lap T (v v' i i' : mat CK), columns_renumbered T n p v v' -> columns_renumbered T n p i i' ->
  columns_renumbered T n p (fst (centred lap v i)) (fst (centred lap v' i')) /\ columns_renumbered T n p (snd (centred lap v i)) (snd (centred lap v' i')).
Proof. intros [|] T v v' i i' HV HI; cbn [centred fst snd]; split; try assumption; [apply mean_ren|apply col_means_ren|apply col_means_ren]; assumption. Qed.

(** ** the standard methods *)
Theorem standard_ren : forall pinv svd spsolve spsolve' (conf : config K) T (v v' i i' : mat CK) lap N,
  solver_sound spsolve -> solver_complete spsolve -> solver_sound spsolve' -> solver_complete spsolve' -> 0 <=! lambda_lasso conf -> (2 <= n)%nat -> columns_renumbered T n p v v' -> columns_renumbered T n p i i' ->
  library_right T pinv svd lap n v i -> library_right T pinv svd lap n v' i' -> table_apart svd lap n v i -> inj (fst (centred lap v i)) ->
  (forall a, complex_regression_fit pinv (fst (centred lap v i)) (snd (centred lap v i)) = Ok a -> Forall (fun y => y <> 0) (parameters lap (sym_part n a))) ->
  both (fun r r' => renumbered n p (fst (fst r)) (fst (fst r')) /\ renumbered n p (snd (fst r)) (snd (fst r')) /\ renumbered n p (snd r) (snd r'))
    (standard_estimates pinv svd spsolve conf v i lap N) (standard_estimates pinv svd spsolve' conf v' i' lap N).
Proof.
  intros pinv svd spsolve spsolve' conf T v v' i i' lap N Hs Hc Hs' Hc' Hl Hn HV HI L L' A Ix NZ. unfold standard_estimates, library_right, table_apart in *. destruct (centred_ren lap T v v' i i' HV HI) as [RV RI].
  destruct HV as ((_ & _ & C) & (_ & _ & C') & _). rewrite C, C'. destruct (centred lap v i) as [x z]. destruct (centred lap v' i') as [x' z']. cbn [fst snd] in *. destruct L as [P S]. destruct L' as [P' S'].
  pose proof (ols_renumbered n p HP pinv T x x' z z' RV RI P P') as HO. destruct (svd (hstack2 x z)) as [[u s] vh] eqn:E.
  assert (HT : both (coefficients n n (renumbered n p)) (tls_fit svd x (A2 z)) (tls_fit svd x' (A2 z'))).
  { apply (tls_renumbered n p HP svd T x x' z z' s); try assumption; [lia|rewrite E; split; [reflexivity|exact S]]. }
  destruct (complex_regression_fit pinv x z) as [a|er]; destruct (complex_regression_fit pinv x' z') as [a'|er']; cbn [both] in HO; try contradiction; [|rewrite HO; reflexivity]. cbn [bind].
  destruct (tls_fit svd x (A2 z)) as [t|er]; destruct (tls_fit svd x' (A2 z')) as [t'|er']; cbn [both] in HT; try contradiction; [|rewrite HT; reflexivity]. cbn [bind].
  assert (HT2 : renumbered n p (as_matrix t) (as_matrix t')).
  { destruct HT as (b & b' & [S1 S2] & [S3 S4] & RB). destruct t as [?|?]; [destruct S2; lia|]. destruct t' as [?|?]; [destruct S4; lia|]. cbn [as_matrix]. rewrite S2, S4. exact RB. }
  specialize (NZ a eq_refl). pose proof HO as (SA & SA' & _). pose proof (sym_part_ren a a' HO) as HS. assert (SS := sym_part_sym CK _ _ n a).
  assert (NZ' : Forall (fun y => y <> 0) (parameters lap (sym_part n a'))).
  { apply (params_nonzero lap _ (proj1 (proj2 HS))). apply (nonzero_ren lap (sym_part n a)); [exact SS|exact HS|]. apply (params_nonzero lap _ (proj1 HS)). exact NZ. }
  destruct (p_lasso_rows lap n a Hn SA NZ) as (pr & m & pf & EP & Hm & G & Hpf). destruct (p_lasso_rows lap n a' Hn SA' NZ') as (pr' & m' & pf' & EP' & Hm' & G' & Hpf').
  rewrite EP, EP'. cbn [bind]. destruct (0 <? N)%Z; [|cbn [both fst snd]; auto]. rewrite (half_sum_is n a SA), (half_sum_is n a' SA'). cbn [bind].
  change (new_estimator (sp_log_distribution pr) (lambda_lasso conf) (abs_tol conf) (rel_tol conf) (Z.to_nat N) (fun k => dt_of k lap) (fun k => e_of k lap)) with (object pr (lambda_lasso conf) (abs_tol conf) (rel_tol conf) (Z.to_nat N) lap).
  change (new_estimator (sp_log_distribution pr') (lambda_lasso conf) (abs_tol conf) (rel_tol conf) (Z.to_nat N) (fun k => dt_of k lap) (fun k => e_of k lap)) with (object pr' (lambda_lasso conf) (abs_tol conf) (rel_tol conf) (Z.to_nat N) lap).
  destruct (br_fit_ren lap m m' (Z.to_nat N) (tenth 5) (lambda_lasso conf) (abs_tol conf) (rel_tol conf) pr pr' pf pf' (lasso_lines lap (sym_part n a)) (lasso_lines lap (sym_part n a')) G G' Hm Hm') with (spsolve := spsolve) (spsolve' := spsolve') (T := T) (x := x) (x' := x') (z := z) (z' := z') (Y0 := sym_part n a) (Y0' := sym_part n a')
    as (y & y' & its & its' & E1 & E2 & RY & _); try assumption.
  - apply tenth_pos.
  - intros g M0 M Hg H0 H1. rewrite Hpf by (try assumption; apply length_parameters; (apply H0 || apply H1)). apply lasso_is_lines; (assumption || apply H0 || apply H1 || apply SS).
  - intros g M0 M Hg H0 H1. rewrite Hpf' by (try assumption; apply length_parameters; (apply H0 || apply H1)). apply lasso_is_lines; (assumption || apply H0 || apply H1 || apply (sym_part_sym CK _ _ n a')).
  - intros g M0 M0' M M' R0 R1 S0 S1. apply lasso_ren; assumption.
  - rewrite E1, E2. cbn [bind both fst snd]. auto.
Qed.
End Perm.
End Equiv.
