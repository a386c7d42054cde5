(** Property C116: the factor of the penalties. *)
From Coq Require Import String.
From Coq Require Import Bool Arith ZArith Lia List Permutation Qcanon Reals.
From Verif Require Import BasePy BaseFld BaseOrd BaseSum BaseMat BaseNumpy BaseLin BaseEx SpecMatrix ModelMatrixOps ModelPrior ModelFit ModelLS SpecPrior SpecLS SpecFit SpecIdent SpecBayes
  ModelIdent ModelRun SpecRun SpecOrder SpecTLS SpecOffset SpecRenumber SpecFactor ProofFitBase ProofFitOpt ProofIdentMain ProofIdentThm ProofIdent ProofPenalty ProofFrozen ProofBayes ProofBayesRun ProofFitRep ProofOffset ProofRunIO ProofOrder4 ProofOrder5 ProofOrderRun ProofRenumber2 ProofEquiv ProofEquiv2 ProofEquiv3 ProofEquiv4 ProofEquiv5 ProofEquiv6 ProofRenumberCov ProofRoutines ProofFactor
  PropRun PropOffset PropRenumber PropRenumberRun PropRenumberEIV PropRoutines.
Import ListNotations.
Close Scope R_scope. Close Scope Qc_scope. Close Scope Q_scope. Close Scope string_scope. Open Scope list_scope. Open Scope nat_scope.

(** all weights, the factor of the penalties and the absolute tolerance multiplied by the same number: the same estimate, the same
    iterations, the targets multiplied by the number *)
Theorem C116_ratio :
  forall (K : Type) (O : Ops K) (F : Fld K) (O2 : OrdOps K) (OF : OrdFld K) spsolve cabs true_cov true_cov' naive_cov (conf : config K) name c T n (v i y0 : mat (cplx K)) sv sc r W W' Z Z' it s s',
  solver_sound spsolve -> solver_complete spsolve -> (0 <! c)%K -> (0 <! lambda_eiv conf)%K -> contrast_each_row conf = true -> regularize_diag conf = false ->
  2 <= n -> (0 < it)%Z -> shape v T n -> shape i T n ->
  true_cov v (AScalar (re sv)) (im sv) true = Ok W -> true_cov' v (AScalar (re sv)) (im sv) true = Ok W' -> posdef (2 * (n * T)) W -> weights_scaled c W W' ->
  true_cov i (AList (map (fun x => re sc * x)%K r)) (im sc) true = Ok Z -> true_cov' i (AList (map (fun x => re sc * x)%K r)) (im sc) true = Ok Z' ->
  symmetric n y0 -> no_zero_line n y0 -> (forall k, k < n -> nonzero_parts (reference (use_tls_diag conf) n y0 k)) ->
  exists y its its',
    snd (bayesian_eiv spsolve cabs true_cov naive_cov conf name v i sv sc r y0 None true true it true s) = Ok (y, its) /\
    snd (bayesian_eiv spsolve cabs true_cov' naive_cov (with_factor c conf) name v i sv sc r y0 None true true it true s') = Ok (y, its') /\
    Forall2 (record_scaled c) its its'.
Proof.
  intros K O F O2 OF sp cabs tc tc' ncv conf name c T n v i y0 sv sc r W W' Z Z' it s s' Hs Hc Hc0 Hlam Hrow Hdiag Hn Hit HV HI EW EW' PW SW EZ EZ' SY NZ NR.
  destruct (p_complex_rows true (use_tls_diag conf) n (lambdaprime conf) y0 Hn (proj1 SY) NZ NR) as (pr & m & pf & EP & Hm & G & Hpf).
  pose proof (lines_decisive n m (tenth 8) _ _ y0 pr pf G NZ Hpf) as Dc. rewrite (scaled_is c W W' SW) in EW'. pose proof HV as (_ & _ & Cv). destruct (centred_shapes true T n v i HV HI) as [S1 S2].
  unfold bayesian_eiv. rewrite !bind_lift. unfold eiv_object, bayesian_prior. cbn [with_factor lambda_lasso lambda_eiv lambdaprime abs_tol rel_tol use_tls_diag contrast_each_row regularize_diag]. rewrite Hrow, Hdiag, Cv, EP. cbn [bind]. rewrite (proj2 (Z.ltb_lt 0 it) Hit). rewrite !bind_lift.
  unfold eiv_data. cbn [andb]. rewrite EW, EW', EZ, EZ'. cbn [bind]. destruct (centred true v i) as [x1 z1]. cbn [fst snd] in S1, S2. rewrite !bind_lift.
  destruct (eivw_scale c Hc0 n m (Z.to_nat it) true (tenth 8) (lambda_eiv conf) (abs_tol conf) (rel_tol conf) pr pf _ G Hm (tenth_pos 8) Hlam Hpf Dc sp sp cabs T x1 z1 y0 W Z Z' Hs Hc Hs Hc S1 S2 PW SY) as (y & its & its' & E1 & E2 & R).
  unfold object in E1, E2. rewrite E1, E2. rewrite !bind_save. exists y, its, its'. auto.
Qed.
Print Assumptions C116_ratio.

(** one iteration, once with the factor of the configuration and once with a larger one: the larger factor gives a smaller or equal penalty (with the
    weights of the start value, as used in this iteration) and a larger or equal misfit to the data with the corrected voltages, which are the same *)
Theorem C116_larger_bayesian :
  forall (K : Type) (O : Ops K) (F : Fld K) (O2 : OrdOps K) (OF : OrdFld K) spsolve cabs true_cov naive_cov (conf : config K) name l T n (v i y0 : mat (cplx K)) sv sc r W Z s s',
  solver_sound spsolve -> solver_complete spsolve -> (0 <! lambda_eiv conf)%K -> (lambda_eiv conf <! l)%K -> contrast_each_row conf = true -> regularize_diag conf = false ->
  2 <= n -> shape v T n -> shape i T n ->
  true_cov v (AScalar (re sv)) (im sv) true = Ok W -> posdef (2 * (n * T)) W -> true_cov i (AList (map (fun x => re sc * x)%K r)) (im sc) true = Ok Z ->
  symmetric n y0 -> no_zero_line n y0 -> (forall k, k < n -> nonzero_parts (reference (use_tls_diag conf) n y0 k)) ->
  let x := fst (centred true v i) in
  exists y y' its its' C,
    snd (bayesian_eiv spsolve cabs true_cov naive_cov conf name v i sv sc r y0 None true true 1 true s) = Ok (y, its) /\
    snd (bayesian_eiv spsolve cabs true_cov naive_cov (other_factor l conf) name v i sv sc r y0 None true true 1 true s') = Ok (y', its') /\
    shape C T n /\ (forall C', shape C' T n -> (input_objective W W x i y0 C <=! input_objective W W x i y0 C')%K) /\
    (relaxed_pen (tenth 8) (lambdaprime conf) (use_tls_diag conf) n y0 y0 y' <=! relaxed_pen (tenth 8) (lambdaprime conf) (use_tls_diag conf) n y0 y0 y)%K /\
    (wnorm2 W (msubt i (mmul (msubt x C) y)) <=! wnorm2 W (msubt i (mmul (msubt x C) y')))%K.
Proof.
  intros K O F O2 OF sp cabs tc ncv conf name l T n v i y0 sv sc r W Z s s' Hs Hc Hlam Hl Hrow Hdiag Hn HV HI EW PW EZ SY NZ NR x.
  destruct (p_complex_rows true (use_tls_diag conf) n (lambdaprime conf) y0 Hn (proj1 SY) NZ NR) as (pr & m & pf & EP & Hm & G & Hpf).
  pose proof (lines_decisive n m (tenth 8) _ _ y0 pr pf G NZ Hpf) as Dc. pose proof HV as (_ & _ & Cv). destruct (centred_shapes true T n v i HV HI) as [S1 S2]. fold x in S1.
  assert (Hl' : (0 <! l)%K) by (apply (klt_trans_le _ _ _ Hlam); apply klt_le; exact Hl).
  destruct (eivw_one n m true (tenth 8) (abs_tol conf) (rel_tol conf) pr pf _ G Hm (tenth_pos 8) Hpf (lambda_eiv conf) sp cabs T x i y0 W Z Dc Hlam Hs Hc S1 HI PW SY) as (y & its & C & E1 & A1 & SC & BC & B1).
  destruct (eivw_one n m true (tenth 8) (abs_tol conf) (rel_tol conf) pr pf _ G Hm (tenth_pos 8) Hpf l sp cabs T x i y0 W Z Dc Hl' Hs Hc S1 HI PW SY) as (y' & its' & C' & E2 & A2 & SC' & BC' & B2).
  assert (EC : C' = C) by (apply (correction_unique W T n x i y0 C C'); try assumption; [apply SY|apply BC'; exact SC]). subst C'.
  exists y, y', its, its', C. unfold bayesian_eiv. rewrite !bind_lift. unfold eiv_object, bayesian_prior. cbn [other_factor lambda_lasso lambda_eiv lambdaprime abs_tol rel_tol use_tls_diag contrast_each_row regularize_diag]. rewrite Hrow, Hdiag, Cv, EP. cbn [bind].
  change (0 <? 1)%Z with true. cbv iota. rewrite !bind_lift. unfold eiv_data. cbn [andb]. rewrite EW, EZ. cbn [bind]. change (centred true v i) with (x, i). cbv beta iota. rewrite !bind_lift. change (Z.to_nat 1) with 1.
  unfold object in E1, E2. rewrite E1, E2. rewrite !bind_save. split; [reflexivity|]. split; [reflexivity|]. split; [exact SC|]. split; [exact BC|].
  apply (trade (lambda_eiv conf) l); [apply klt_le; exact Hlam|exact Hl|exact (B1 y' A2)|exact (B2 y A1)].
Qed.
Print Assumptions C116_larger_bayesian.

(** the same for the Lasso of the standard methods, with and without the Laplacian structure; the penalty has the weights of the symmetric part of the estimate of ordinary least squares *)
Theorem C116_larger_lasso :
  forall (K : Type) (O : Ops K) (F : Fld K) (O2 : OrdOps K) (OF : OrdFld K) pinv svd spsolve (conf : config K) name lap l T n (v i : mat (cplx K)) s s' o t y,
  solver_sound spsolve -> solver_complete spsolve -> (0 <=! lambda_lasso conf)%K -> (lambda_lasso conf <! l)%K -> 2 <= n -> shape v T n -> shape i T n ->
  inj (fst (centred lap v i)) ->
  snd (standard_methods pinv svd spsolve conf name (Some v) i lap 1 s) = Ok (o, t, y) ->
  shape o n n -> (forall j k, j < n -> k < n -> (lap = true -> j <> k) -> nonzero_parts (get (sym_part n o) j k)) ->
  exists y', snd (standard_methods pinv svd spsolve (other_lasso l conf) name (Some v) i lap 1 s') = Ok (o, t, y') /\
    let p := parameters lap (sym_part n o) in
    (relaxed_lasso (tenth 5) p p (parameters lap y') <=! relaxed_lasso (tenth 5) p p (parameters lap y))%K /\
    (fro2 (msubt (snd (centred lap v i)) (mmul (fst (centred lap v i)) y)) <=! fro2 (msubt (snd (centred lap v i)) (mmul (fst (centred lap v i)) y')))%K.
Proof.
  intros K O F O2 OF pinv svd sp conf name lap l T n v i s s' o t y Hs Hc Hlam Hl Hn HV HI Ix E SO NZ. pose proof HV as (_ & _ & Cv). destruct (centred_shapes lap T n v i HV HI) as [S1 S2].
  assert (NO : Forall (fun y => y <> 0%K) (parameters lap (sym_part n o))).
  { apply (params_nonzero n lap); [apply shape_mk|]. split; [intros j k Hk Hj; apply NZ; lia|intros -> j Hj; apply NZ; try lia; discriminate]. }
  destruct (p_lasso_rows lap n o Hn SO NO) as (pr & m & pf & EP & Hm & G & Hpf). assert (SS := sym_part_sym (cplx K) _ _ n o).
  unfold standard_methods in *. rewrite bind_lift in E. rewrite bind_lift. unfold standard_estimates in *. rewrite Cv in *. destruct (centred lap v i) as [x z]. cbn [fst snd] in *.
  destruct (complex_regression_fit pinv x z) as [a|]; [|discriminate]. cbn [bind] in *. destruct (tls_fit svd x (A2 z)) as [u|]; [|discriminate]. cbn [bind] in *.
  change (0 <? 1)%Z with true in *. change (Z.to_nat 1) with 1 in *. cbv iota in *.
  assert (EA : a = o).
  { destruct (build_lasso_prior n a lap) as [pr0|]; [|discriminate]. cbn [bind] in E. destruct (half_sum a) as [h|]; [|discriminate]. cbn [bind] in E. destruct (fit_result _) as [[yy ii]|]; [|discriminate]. cbn [bind] in E. rewrite bind_save in E. unfold lift in E. cbn [snd] in E. congruence. }
  subst a. rewrite EP in *. cbn [bind] in *. rewrite (half_sum_is n o SO) in *. cbn [bind] in *. cbn [other_lasso lambda_lasso abs_tol rel_tol].
  set (q := fun (g : K -> K -> K) (M0 M : mat (cplx K)) => sumn (length (parameters lap (sym_part n o))) (fun k => g (kabs (vget (parameters lap (sym_part n o)) k) * vget (parameters lap M0) k)%K (kabs (vget (parameters lap (sym_part n o)) k) * vget (parameters lap M) k)%K)).
  assert (Hq : forall g M0 M, even g -> symmetric n M0 -> symmetric n M -> pf g (parameters lap M0) (parameters lap M) = q g M0 M).
  { intros g M0 M Hg H0 H1. unfold q. apply Hpf; [exact Hg|apply length_parameters; apply H0|apply length_parameters; apply H1]. }
  assert (Hl' : (0 <=! l)%K) by (apply (kle_trans _ _ _ Hlam); apply klt_le; exact Hl).
  destruct (br_one n m lap (tenth 5) (abs_tol conf) (rel_tol conf) pr pf q G Hm (tenth_pos 5) Hq (lambda_lasso conf) sp T x z (sym_part n o) Hlam Hs Hc S1 S2 Ix SS) as (y1 & its & E1 & A1 & B1).
  destruct (br_one n m lap (tenth 5) (abs_tol conf) (rel_tol conf) pr pf q G Hm (tenth_pos 5) Hq l sp T x z (sym_part n o) Hl' Hs Hc S1 S2 Ix SS) as (y2 & its2 & E2 & A2 & B2).
  unfold object in E1, E2. rewrite E1 in E. rewrite E2. cbn [bind] in *. rewrite bind_save in E. unfold lift in E. cbn [snd] in E. assert (EY : y1 = y /\ as_matrix u = t) by (split; congruence). destruct EY as [-> <-].
  exists y2. rewrite bind_save. split; [reflexivity|]. apply (trade (lambda_lasso conf) l); [exact Hlam|exact Hl|exact (B1 y2 A2)|exact (B2 y A1)].
Qed.
Print Assumptions C116_larger_lasso.

(** *** the data of C112 *)
Definition f_cov (m : mat (cplx Qc)) (a : arg Qc) (d : Qc) (b : bool) : res (mat Qc) := match c_cov m a d b with Ok w => Ok (mscal (zq 5) w) | Err e => Err e end.
Lemma f_posdef : forall W, c_cov c_v (AScalar 1%K) 1%K true = Ok W -> posdef (2 * (3 * 2)) W.
Proof.
  intros W E. unfold c_cov in E. assert (Q : forall a b : mat Qc, Ok a = Ok b -> b = a) by (intros a b Q; congruence). apply Q in E. subst W.
  replace (blocks _ _ _ _) with (mdiag (map zq [10; 2; 2; 5; 5; 1; 1; 1; 2; 1; 1; 2]%Z)) by (apply meqb_eq; vm_compute; reflexivity).
  apply (posdef_diag (K := Qc) (map zq [10; 2; 2; 5; 5; 1; 1; 1; 2; 1; 1; 2]%Z)). repeat constructor.
Qed.
Example C116_ratio_ex : exists y its its',
  c_run true c_v c_i c_y = Ok (y, its) /\
  snd (bayesian_eiv ksolve norm1 f_cov c_cov (with_factor (zq 5) n_conf) "net" c_v c_i (cz 1 1) (cz 1 1) [zq 1; zq 1; zq 1] c_y None true true 1 true (fun _ => None)) = Ok (y, its') /\
  Forall2 (record_scaled (zq 5)) its its'.
Proof.
  unfold c_run. assert (L : (0 <! lambda_eiv n_conf)%K) by (vm_compute; reflexivity). assert (L5 : (0 <! zq 5)%K) by (vm_compute; reflexivity).
  eapply (C116_ratio Qc _ _ _ _ ksolve norm1 c_cov f_cov c_cov n_conf "net" (zq 5) 2 3 c_v c_i c_y (cz 1 1) (cz 1 1) [zq 1; zq 1; zq 1] _ _ _ _ 1%Z (fun _ => None) (fun _ => None) ksolve_solver_sound ksolve_solver_complete L5 L eq_refl eq_refl ltac:(lia) eq_refl).
  - apply shapeb_shape; reflexivity.
  - apply shapeb_shape; reflexivity.
  - reflexivity.
  - reflexivity.
  - apply f_posdef. reflexivity.
  - split; [apply wf_mk|]. split; [apply wf_mk|]. split; [reflexivity|]. split; [reflexivity|]. intros a b Ha Hb. apply get_mscal; assumption.
  - reflexivity.
  - reflexivity.
  - apply symmetricb_ok. vm_compute. reflexivity.
  - exact c_lines.
  - exact c_reference.
Qed.
Example C116_larger_bayesian_ex : exists y y' its its',
  c_run true c_v c_i c_y = Ok (y, its) /\
  snd (bayesian_eiv ksolve norm1 c_cov c_cov (other_factor (zq 3) n_conf) "net" c_v c_i (cz 1 1) (cz 1 1) [zq 1; zq 1; zq 1] c_y None true true 1 true (fun _ => None)) = Ok (y', its') /\
  (relaxed_pen (tenth 8) (zq 1) true 3 c_y c_y y' <=! relaxed_pen (tenth 8) (zq 1) true 3 c_y c_y y)%K.
Proof.
  unfold c_run. assert (L : (0 <! lambda_eiv n_conf)%K) by (vm_compute; reflexivity). assert (L5 : (lambda_eiv n_conf <! zq 3)%K) by (vm_compute; reflexivity).
  destruct (C116_larger_bayesian Qc _ _ _ _ ksolve norm1 c_cov c_cov n_conf "net" (zq 3) 2 3 c_v c_i c_y (cz 1 1) (cz 1 1) [zq 1; zq 1; zq 1] _ _ (fun _ => None) (fun _ => None) ksolve_solver_sound ksolve_solver_complete L L5 eq_refl eq_refl ltac:(lia)
    ltac:(apply shapeb_shape; reflexivity) ltac:(apply shapeb_shape; reflexivity) eq_refl ltac:(apply f_posdef; reflexivity) eq_refl ltac:(apply symmetricb_ok; vm_compute; reflexivity) c_lines c_reference) as (y & y' & its & its' & C & E1 & E2 & _ & _ & H & _).
  exists y, y', its, its'. split; [exact E1|]. split; [exact E2|exact H].
Qed.
Lemma n_run_is : forall v i, n_run v i = snd (standard_methods ex_pinv n_svd ksolve n_conf "net" (Some v) i false 1 (fun _ => None)).
Proof. reflexivity. Qed.
Example C116_larger_lasso_ex : exists o t y y',
  n_run n_v n_i = Ok (o, t, y) /\ snd (standard_methods ex_pinv n_svd ksolve (other_lasso (zq 7) n_conf) "net" (Some n_v) n_i false 1 (fun _ => None)) = Ok (o, t, y') /\ meqb y y' = false /\
  (fro2 (msubt (snd (centred false n_v n_i)) (mmul (fst (centred false n_v n_i)) y)) <=! fro2 (msubt (snd (centred false n_v n_i)) (mmul (fst (centred false n_v n_i)) y')))%K.
Proof.
  destruct C112_standard_ex as (_ & o & t & y & E & EO & _). apply meqb_eq in EO. subst o. exists n_y, t, y. pose proof E as E0. rewrite n_run_is in E0.
  assert (L : (0 <=! lambda_lasso n_conf)%K) by (vm_compute; reflexivity). assert (L5 : (lambda_lasso n_conf <! zq 7)%K) by (vm_compute; reflexivity).
  destruct (C116_larger_lasso Qc _ _ _ _ ex_pinv n_svd ksolve n_conf "net" false (zq 7) 4 2 n_v n_i (fun _ => None) (fun _ => None) n_y t y ksolve_solver_sound ksolve_solver_complete L L5 ltac:(lia)) as (y' & E' & _ & H).
  - apply shapeb_shape; reflexivity.
  - apply shapeb_shape; vm_compute; reflexivity.
  - apply (left_inverse 4 2 _ (ex_pinv (fst (centred false n_v n_i)))); vm_compute; reflexivity.
  - exact E0.
  - apply shapeb_shape; reflexivity.
  - intros j k Hj Hk _. destruct j as [|[|j]], k as [|[|k]]; try lia; split; intro Z; apply (f_equal (fun q : Qc => keqb q 0%K)) in Z; vm_compute in Z; discriminate.
  - exists y'. split; [exact E|]. split; [exact E'|]. split; [|exact H].
    assert (B : match n_run n_v n_i, snd (standard_methods ex_pinv n_svd ksolve (other_lasso (zq 7) n_conf) "net" (Some n_v) n_i false 1 (fun _ => None)) with Ok (_, _, a), Ok (_, _, b) => meqb a b | _, _ => true end = false) by (vm_compute; reflexivity).
    rewrite E, E' in B. exact B.
Qed.
