(** Two sets of numerical routines that do what they should give the same results. *)
From Coq Require Import Bool Arith List ZArith Lia Ring Field Permutation.
From Verif Require Import BasePy BaseFld BaseOrd BaseSum BaseMat BaseNumpy BaseLin ModelMatrixOps SpecMatrix ModelPrior ModelFit ModelLS ModelIdent ModelRun
  SpecPrior SpecLS SpecFit SpecIdent SpecBayes SpecOrder SpecTLS SpecRenumber ProofRagged ProofMatrixOps ProofStruct ProofElim ProofMatrixProps ProofPrior ProofLS ProofFitBase ProofFit ProofFitOpt ProofFitBR ProofFitRep
  ProofIdent ProofPenalty ProofIdentMain ProofIdentThm ProofFrozen ProofBayes ProofBayesRun ProofRunIO ProofOffset ProofOrder4 ProofOrder5 ProofOrderRun ProofRenumber ProofRenumber2 ProofEquiv ProofEquiv2 ProofEquiv3 ProofEquiv4 ProofEquiv5 ProofEquiv6.
Import ListNotations.
Local Open Scope K_scope.

Section Routines.
Context {K : Type} {O : Ops K} {F : Fld K} {O2 : OrdOps K} {OF : OrdFld K}.
Notation CK := (cplx K).

Definition same_numbers (j : nat) : nat := j.
Lemma same_numbering : forall n, numbering n same_numbers.
Proof. intros n. unfold numbering, new_order, same_numbers. rewrite map_id. apply Permutation_refl. Qed.
Lemma same_matrix : forall n (y y' : mat CK), renumbered n same_numbers y y' -> y' = y.
Proof. intros n y y' (H & H' & E). apply (gshape_ext _ _ n n H' H). exact E. Qed.
Lemma same_table : forall T n (x x' : mat CK), columns_renumbered T n same_numbers x x' -> x' = x.
Proof. intros T n x x' (H & H' & E). apply (gshape_ext _ _ T n H' H). exact E. Qed.
Lemma matrix_itself : forall n (y : mat CK), shape y n n -> renumbered n same_numbers y y.
Proof. intros n y H. split; [exact H|]. split; [exact H|]. reflexivity. Qed.
Lemma table_itself : forall T n (x : mat CK), shape x T n -> columns_renumbered T n same_numbers x x.
Proof. intros T n x H. split; [exact H|]. split; [exact H|]. reflexivity. Qed.
Lemma same_records : forall n (l l' : list (status K)), Forall2 (same_record (renumbered n same_numbers)) l l' -> l' = l.
Proof. intros n l l' H. induction H as [|[a b c] [a' b' c'] l l' (H1 & H2 & H3) _ IH]; [reflexivity|]. cbn in H1, H2, H3. rewrite IH, H1, H2, (same_matrix n _ _ H3). reflexivity. Qed.

Lemma ols_two : forall pinv pinv' T n (x z : mat CK), penrose T n x (pinv x) -> penrose T n x (pinv' x) -> complex_regression_fit pinv' x z = complex_regression_fit pinv x z.
Proof. intros pinv pinv' T n x z P P'. unfold complex_regression_fit. rewrite (penrose_unique T n x _ _ P' P). reflexivity. Qed.
Lemma tls_two : forall svd svd' T n m (x y : mat CK) s, shape x T n -> shape y T m ->
  (let '(u, s0, vh) := svd (hstack2 x y) in s0 = s /\ is_svd T (n + m) (hstack2 x y) u s0 vh) -> (let '(u, s0, vh) := svd' (hstack2 x y) in is_svd T (n + m) (hstack2 x y) u s0 vh) ->
  apart n (n + m) s -> tls_fit svd' x (A2 y) = tls_fit svd x (A2 y).
Proof.
  intros svd svd' T n m x y s (WX & RX & CX) (WY & RY & CY) HS HS' SEP. unfold tls_fit, np_block2. rewrite RX, RY, Nat.eqb_refl. cbn [bind].
  destruct (svd (hstack2 x y)) as [[u s0] vh]. destruct HS as [-> HS]. destruct (svd' (hstack2 x y)) as [[u' s'] vh'].
  pose proof HS as (_ & _ & (Wv & Rv & Cv) & _). pose proof HS' as (_ & _ & (Wv' & Rv' & Cv') & _).
  pose proof (tls_blocks T T n m _ _ _ _ _ _ _ _ HS HS' eq_refl SEP) as B.
  change (mk (nc vh) (nr vh) (fun i j => conj (get vh j i))) with (ctr vh). change (mk (nc vh') (nr vh') (fun i j => conj (get vh' j i))) with (ctr vh').
  change (nc (ctr vh)) with (nr vh). change (nc (ctr vh')) with (nr vh'). change (nr (ctr vh)) with (nc vh). change (nr (ctr vh')) with (nc vh'). rewrite Rv, Rv', Cv, Cv', CX.
  revert B. destruct (kinverse (mslice (ctr vh') n (n + m) n (n + m))); destruct (kinverse (mslice (ctr vh) n (n + m) n (n + m))); cbn [bind]; intro B; first [rewrite B; reflexivity|rewrite <- B; reflexivity|injection B as ->; reflexivity].
Qed.

Lemma centred_shapes : forall lap T n (v i : mat CK), shape v T n -> shape i T n -> shape (fst (centred lap v i)) T n /\ shape (snd (centred lap v i)) T n.
Proof. intros lap T n v i HV HI. destruct (centred_ren n same_numbers (same_numbering n) lap T v v i i (table_itself T n v HV) (table_itself T n i HI)) as [[A _] [B _]]. split; assumption. Qed.
Lemma standard_lib : forall pinv pinv' svd svd' spsolve (conf : config K) T n (v i : mat CK) lap N, shape v T n -> shape i T n ->
  library_right T pinv svd lap n v i -> library_right T pinv' svd' lap n v i -> table_apart svd lap n v i ->
  standard_estimates pinv' svd' spsolve conf v i lap N = standard_estimates pinv svd spsolve conf v i lap N.
Proof.
  intros pinv pinv' svd svd' spsolve conf T n v i lap N HV HI L L' A. unfold standard_estimates, library_right, table_apart in *. destruct (centred_shapes lap T n v i HV HI) as [SX SZ].
  destruct (centred lap v i) as [x z]. cbn [fst snd] in *. destruct L as [P S]. destruct L' as [P' S']. rewrite (ols_two pinv pinv' T n x z P P').
  destruct (svd (hstack2 x z)) as [[u s] vh] eqn:E. rewrite (tls_two svd svd' T n n x z s SX SZ); [reflexivity|rewrite E; split; [reflexivity|exact S]|exact S'|exact A].
Qed.
Theorem standard_two : forall pinv pinv' svd svd' spsolve spsolve' (conf : config K) T n (v i : mat CK) lap N,
  solver_sound spsolve -> solver_complete spsolve -> solver_sound spsolve' -> solver_complete spsolve' -> 0 <=! lambda_lasso conf -> (2 <= n)%nat -> shape v T n -> shape i T n ->
  library_right T pinv svd lap n v i -> library_right T pinv' svd' lap n v i -> table_apart svd lap n v i -> inj (fst (centred lap v i)) ->
  (forall a, complex_regression_fit pinv (fst (centred lap v i)) (snd (centred lap v i)) = Ok a -> Forall (fun y => y <> 0) (parameters lap (sym_part n a))) ->
  standard_estimates pinv' svd' spsolve' conf v i lap N = standard_estimates pinv svd spsolve conf v i lap N.
Proof.
  intros pinv pinv' svd svd' spsolve spsolve' conf T n v i lap N Hs Hc Hs' Hc' Hl Hn HV HI L L' A Ix NZ.
  rewrite (standard_lib pinv pinv' svd svd' spsolve' conf T n v i lap N HV HI L L' A).
  pose proof (standard_ren n same_numbers (same_numbering n) pinv svd spsolve spsolve' conf T v v i i lap N Hs Hc Hs' Hc' Hl Hn (table_itself T n v HV) (table_itself T n i HI) L L A Ix NZ) as H.
  destruct (standard_estimates pinv svd spsolve conf v i lap N) as [[[o t] l]|e]; destruct (standard_estimates pinv svd spsolve' conf v i lap N) as [[[o' t'] l']|e']; cbn [both fst snd] in H; try contradiction.
  - destruct H as (H1 & H2 & H3). rewrite (same_matrix n _ _ H1), (same_matrix n _ _ H2), (same_matrix n _ _ H3). reflexivity.
  - rewrite H. reflexivity.
Qed.

Theorem bayesian_two : forall spsolve spsolve' cabs true_cov naive_cov (conf : config K) name T n (v i y0 : mat CK) sv sc r w u it s,
  solver_sound spsolve -> solver_complete spsolve -> solver_sound spsolve' -> solver_complete spsolve' -> 0 <! lambda_eiv conf -> contrast_each_row conf = true -> regularize_diag conf = false -> (2 <= n)%nat ->
  nc v = n -> (forall x z xw zw, ModelRun.eiv_data cabs true_cov naive_cov v i sv sc r w u = Ok (x, z, xw, zw) -> shape x T n /\ shape z T n /\ match xw with Some W => posdef (2 * (n * T)) W /\ zw <> None | None => True end) ->
  symmetric n y0 -> no_zero_line n y0 -> (forall k, (k < n)%nat -> nonzero_parts (reference (use_tls_diag conf) n y0 k)) ->
  bayesian_eiv spsolve' cabs true_cov naive_cov conf name v i sv sc r y0 None true w it u s = bayesian_eiv spsolve cabs true_cov naive_cov conf name v i sv sc r y0 None true w it u s.
Proof.
  intros spsolve spsolve' cabs tc ncv conf name T n v i y0 sv sc r w u it s Hs Hc Hs' Hc' Hlam Hrow Hdiag Hn Cv HD SY NZ NR.
  destruct (p_complex_rows true (use_tls_diag conf) n (lambdaprime conf) y0 Hn (proj1 SY) NZ NR) as (pr & m & pf & EP & Hm & G & Hpf).
  pose proof (lines_decisive n m (tenth 8) _ _ y0 pr pf G NZ Hpf) as Dc.
  set (q := fun g M0 M => line_pairs g n y0 M0 M + node_pairs g (lambdaprime conf) (use_tls_diag conf) n y0 M0 M) in *.
  assert (Hqq : forall g M0 M0' M M', renumbered n same_numbers M0 M0' -> renumbered n same_numbers M M' -> symmetric n M0 -> symmetric n M -> q g M0' M' = q g M0 M).
  { intros g M0 M0' M M' R0 R1 _ _. rewrite (same_matrix n _ _ R0), (same_matrix n _ _ R1). reflexivity. }
  unfold bayesian_eiv. rewrite !bind_lift. unfold eiv_object, bayesian_prior. rewrite Hrow, Hdiag, Cv, EP. cbn [bind]. destruct (0 <? it)%Z; [|reflexivity]. rewrite !bind_lift.
  destruct (eiv_data cabs tc ncv v i sv sc r w u) as [[[[x z] xw] zw]|er]; [|reflexivity]. destruct (HD x z xw zw eq_refl) as (SX & SZ & HW). destruct (centred_shapes true T n x z SX SZ) as [S1 S2].
  destruct (centred true x z) as [x1 z1]. cbn [fst snd] in S1, S2. rewrite !bind_lift.
  change (new_estimator (sp_log_distribution pr) (lambda_eiv conf) (abs_tol conf) (rel_tol conf) (Z.to_nat it) (fun k => dt_of k true) (fun k => e_of k true)) with (object pr (lambda_eiv conf) (abs_tol conf) (rel_tol conf) (Z.to_nat it) true).
  assert (R : exists y y' its its', fit_result (eiv_fit spsolve cabs (object pr (lambda_eiv conf) (abs_tol conf) (rel_tol conf) (Z.to_nat it) true) x1 z1 xw zw y0) = Ok (y, its) /\
    fit_result (eiv_fit spsolve' cabs (object pr (lambda_eiv conf) (abs_tol conf) (rel_tol conf) (Z.to_nat it) true) x1 z1 xw zw y0) = Ok (y', its') /\ renumbered n same_numbers y y' /\ Forall2 (same_record (renumbered n same_numbers)) its its').
  { destruct xw as [W|].
    - destruct HW as [PW N1]. destruct zw as [Z|]; [|contradiction].
      apply (eivw_fit_ren n same_numbers (same_numbering n) true m m (Z.to_nat it) (tenth 8) (lambda_eiv conf) (abs_tol conf) (rel_tol conf) pr pr pf pf q q G G Hm Hm (tenth_pos 8) Hlam Hpf Hpf Hqq Dc Dc spsolve spsolve' cabs T); try assumption; try (apply table_itself; assumption); [|apply matrix_itself; apply SY].
      split; [apply PW|]. split; [apply PW|]. intros X X' HX. rewrite (same_table T n _ _ HX). reflexivity.
    - apply (eivu_fit_ren n same_numbers (same_numbering n) true m m (Z.to_nat it) (tenth 8) (lambda_eiv conf) (abs_tol conf) (rel_tol conf) pr pr pf pf q q G G Hm Hm (tenth_pos 8) Hlam Hpf Hpf Hqq Dc Dc spsolve spsolve' cabs T); try assumption; try (apply table_itself; assumption); apply matrix_itself; apply SY. }
  destruct R as (y & y' & its & its' & E1 & E2 & R1 & R2). rewrite E1, E2. rewrite (same_matrix n _ _ R1), (same_records n _ _ R2). reflexivity.
Qed.
End Routines.
