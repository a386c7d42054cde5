(** Property C112 (numbers of the nodes), continued: the Bayesian identification. *)
From Coq Require Import String.
From Coq Require Import Bool Arith ZArith Lia List Permutation Qcanon Reals.
From Verif Require Import BasePy BaseFld BaseOrd BaseSum BaseMat BaseNumpy BaseLin BaseEx SpecMatrix ModelMatrixOps ModelPrior ModelFit ModelLS SpecPrior SpecLS SpecFit SpecIdent SpecBayes
  ModelIdent ModelRun SpecRun SpecOrder SpecTLS SpecOffset SpecRenumber ModelErrorMetrics ModelNoiseCov SpecNoise ProofNoiseCov ProofRenumberCov ProofFitBase ProofFrozen ProofBayes ProofBayesRun ProofFitRep ProofOrder5 ProofOrderRun ProofEquiv ProofEquiv2 ProofEquiv3 ProofEquiv4 ProofEquiv5 ProofEquiv6 PropRun PropOffset PropRenumber PropRenumberRun PropNoiseCov.
Import ListNotations.
Close Scope R_scope. Close Scope Qc_scope. Close Scope Q_scope. Close Scope string_scope. Open Scope list_scope. Open Scope nat_scope.

(** the Laplacian form, without weights; the configuration of the shipped script (contrast for each node, no penalty of the
    diagonal) with a positive factor of the penalties; the initial estimate is symmetric and no value the prior divides by
    is zero.  Both runs succeed; the estimates, all records and their targets agree up to the numbers *)
Theorem C112_bayesian_unweighted :
  forall (K : Type) (O : Ops K) (F : Fld K) (O2 : OrdOps K) (OF : OrdFld K) spsolve cabs true_cov naive_cov (conf : config K) name T n p (v v' i i' y0 y0' : mat (cplx K)) sv sc r r' it u s s',
  solver_sound spsolve -> solver_complete spsolve -> (0 <! lambda_eiv conf)%K -> contrast_each_row conf = true -> regularize_diag conf = false ->
  2 <= n -> (0 < it)%Z -> numbering n p -> columns_renumbered T n p v v' -> columns_renumbered T n p i i' ->
  symmetric n y0 -> renumbered n p y0 y0' -> no_zero_line n y0 -> (forall k, k < n -> nonzero_parts (reference (use_tls_diag conf) n y0 k)) ->
  exists y y' its its',
    snd (bayesian_eiv spsolve cabs true_cov naive_cov conf name v i sv sc r y0 None true false it u s) = Ok (y, its) /\
    snd (bayesian_eiv spsolve cabs true_cov naive_cov conf name v' i' sv sc r' y0' None true false it u s') = Ok (y', its') /\
    renumbered n p y y' /\ Forall2 (same_record (renumbered n p)) its its'.
Proof.
  intros K O F O2 OF spsolve cabs tc nc_ conf name T n p v v' i i' y0 y0' sv sc r r' it u s s' Hs Hc Hl Hr Hd Hn Hit HP HV HI SY RY NZ NR.
  apply (bayesian_ren spsolve spsolve cabs tc nc_ conf n p HP T Hs Hc Hs Hc Hl Hr Hd Hn name v v' i i' y0 y0' v v' i i' sv sc r r' false u None None None None); try assumption; try reflexivity; apply HV.
Qed.
Print Assumptions C112_bayesian_unweighted.

(** with weights and data of synchronised instruments; the weights of the new numbers give the renumbered errors the same cost *)
Theorem C112_bayesian_weighted :
  forall (K : Type) (O : Ops K) (F : Fld K) (O2 : OrdOps K) (OF : OrdFld K) spsolve cabs true_cov naive_cov (conf : config K) name T n p (v v' i i' y0 y0' : mat (cplx K)) sv sc r r' W W' Z Z' it s s',
  solver_sound spsolve -> solver_complete spsolve -> (0 <! lambda_eiv conf)%K -> contrast_each_row conf = true -> regularize_diag conf = false ->
  2 <= n -> (0 < it)%Z -> numbering n p -> columns_renumbered T n p v v' -> columns_renumbered T n p i i' ->
  true_cov v (AScalar (re sv)) (im sv) true = Ok W -> true_cov v' (AScalar (re sv)) (im sv) true = Ok W' -> posdef (2 * (n * T)) W -> weights_renumbered T n p W W' ->
  true_cov i (AList (map (fun x => re sc * x)%K r)) (im sc) true = Ok Z -> true_cov i' (AList (map (fun x => re sc * x)%K r')) (im sc) true = Ok Z' ->
  symmetric n y0 -> renumbered n p y0 y0' -> no_zero_line n y0 -> (forall k, k < n -> nonzero_parts (reference (use_tls_diag conf) n y0 k)) ->
  exists y y' its its',
    snd (bayesian_eiv spsolve cabs true_cov naive_cov conf name v i sv sc r y0 None true true it true s) = Ok (y, its) /\
    snd (bayesian_eiv spsolve cabs true_cov naive_cov conf name v' i' sv sc r' y0' None true true it true s') = Ok (y', its') /\
    renumbered n p y y' /\ Forall2 (same_record (renumbered n p)) its its'.
Proof.
  intros K O F O2 OF spsolve cabs tc nc_ conf name T n p v v' i i' y0 y0' sv sc r r' W W' Z Z' it s s' Hs Hc Hl Hr Hd Hn Hit HP HV HI EW EW' PW RW EZ EZ' SY RY NZ NR.
  apply (bayesian_ren spsolve spsolve cabs tc nc_ conf n p HP T Hs Hc Hs Hc Hl Hr Hd Hn name v v' i i' y0 y0' v v' i i' sv sc r r' true true (Some W) (Some W') (Some Z) (Some Z')); try assumption; try apply HV.
  - unfold eiv_data. cbn [andb]. rewrite EW, EZ. reflexivity.
  - unfold eiv_data. cbn [andb]. rewrite EW', EZ'. reflexivity.
  - split; [exact PW|]. split; [exact RW|]. split; discriminate.
Qed.
Print Assumptions C112_bayesian_weighted.

(** the three functions that compute the weights from the measurements give weights of this kind; the standard deviations follow their nodes *)
Theorem C112_weights :
  forall T n p (M M' : mat C) sd sd' sp inverted s s' covariance W W' Q Q',
  numbering n p -> columns_renumbered T n p M M' -> sd_means n sd s -> sd_means n sd' s' -> (forall j, j < n -> s' j = s (p j)) ->
  In covariance [exact_noise_covariance; naive_noise_covariance; average_true_noise_covariance] ->
  covariance M sd sp inverted = Ok W -> covariance M' sd' sp inverted = Ok W' -> finite W Q -> finite W' Q' -> weights_renumbered T n p Q Q'.
Proof.
  intros T n p M M' sd sd' sp inverted s s' cov W W' Q Q' HP HM HS HS' ES [<-|[<-|[<-|[]]]] H H' FQ FQ'.
  - apply (cov_ren T n p exact_column exact_all M M' sd sd' sp inverted s s' W W' Q Q' HP exact_same HS HS' ES HM H H' FQ FQ').
  - apply (cov_ren T n p naive_column naive_all M M' sd sd' sp inverted s s' W W' Q Q' HP naive_same HS HS' ES HM H H' FQ FQ').
  - apply (cov_ren T n p average_kernel average_kernel M M' sd sd' sp inverted s s' W W' Q Q' HP average_same HS HS' ES HM H H' FQ FQ').
Qed.
Print Assumptions C112_weights.

(** *** two samples at three nodes, each node takes the number of the next one; the weights depend on the measurement *)
Definition cyc (j : nat) : nat := match j with 0 => 1 | 1 => 2 | _ => 0 end.
Lemma cyc_numbering : numbering 3 cyc.
Proof. unfold numbering, new_order. cbn. apply (Permutation_trans (l' := [1; 0; 2])); [apply perm_skip; apply perm_swap|apply perm_swap]. Qed.
Definition c_v : mat (cplx Qc) := czrows [[(3,0); (1,1); (2,0)]; [(1,0); (2,0); (0,1)]]%Z.
Definition c_i : mat (cplx Qc) := czrows [[(1,2); (0,1); (-1,0)]; [(2,0); (1,-1); (-3,1)]]%Z.
Definition c_y : mat (cplx Qc) := czrows [[(3,-3); (-1,1); (-2,2)]; [(-1,1); (4,-2); (-3,1)]; [(-2,2); (-3,1); (5,-3)]]%Z.
Definition c_v' : mat (cplx Qc) := mk 2 3 (fun t j => get c_v t (cyc j)).
Definition c_i' : mat (cplx Qc) := mk 2 3 (fun t j => get c_i t (cyc j)).
Definition c_y' : mat (cplx Qc) := mk 3 3 (fun j k => get c_y (cyc j) (cyc k)).
Definition c_cov (m : mat (cplx Qc)) (_ : arg Qc) (_ : Qc) (_ : bool) : res (mat Qc) :=
  Ok (blocks (nc m * nr m) (fun k => 1 + re (vget (vectorize_matrix m) k) * re (vget (vectorize_matrix m) k))%K (fun k => 1 + im (vget (vectorize_matrix m) k) * im (vget (vectorize_matrix m) k))%K (fun _ => 0%K)).
Definition c_run (w : bool) (v i y : mat (cplx Qc)) : res (mat (cplx Qc) * list (status Qc)) :=
  snd (bayesian_eiv ksolve norm1 c_cov c_cov n_conf "net" v i (cz 1 1) (cz 1 1) [zq 1; zq 1; zq 1] y None true w 1 true (fun _ => None)).
Lemma c_columns : columns_renumbered 2 3 cyc c_v c_v' /\ columns_renumbered 2 3 cyc c_i c_i' /\ renumbered 3 cyc c_y c_y'.
Proof.
  split; [|split]; (split; [apply shapeb_shape; reflexivity|]; split; [apply shape_mk|]).
  - intros t j Ht Hj. unfold c_v'. rewrite get_mk by assumption. reflexivity.
  - intros t j Ht Hj. unfold c_i'. rewrite get_mk by assumption. reflexivity.
  - intros j k Hj Hk. unfold c_y'. rewrite get_mk by assumption. reflexivity.
Qed.
Lemma c_lines : no_zero_line 3 c_y.
Proof. intros [|[|[|j]]] [|[|[|k]]] Hj Hk Hjk; try lia; split; intro Z; apply (f_equal (fun q : Qc => keqb q 0%K)) in Z; vm_compute in Z; discriminate. Qed.
Lemma c_reference : forall k, k < 3 -> nonzero_parts (reference true 3 c_y k).
Proof. intros [|[|[|k]]] Hk; try lia; split; intro Z; apply (f_equal (fun q : Qc => keqb q 0%K)) in Z; vm_compute in Z; discriminate. Qed.
Example C112_bayesian_unweighted_ex :
  (exists y y' its its', c_run false c_v c_i c_y = Ok (y, its) /\ c_run false c_v' c_i' c_y' = Ok (y', its') /\ renumbered 3 cyc y y' /\ Forall2 (same_record (renumbered 3 cyc)) its its') /\
  meqb c_v c_v' = false /\ meqb c_i c_i' = false /\ meqb c_y c_y' = false.
Proof.
  split; [|vm_compute; auto]. destruct c_columns as (R1 & R2 & R3). unfold c_run.
  apply (C112_bayesian_unweighted Qc _ _ _ _ ksolve norm1 c_cov c_cov n_conf "net" 2 3 cyc c_v c_v' c_i c_i' c_y c_y'); try assumption; try reflexivity; try lia.
  - apply ksolve_solver_sound.
  - apply ksolve_solver_complete.
  - exact cyc_numbering.
  - apply symmetricb_ok. vm_compute. reflexivity.
  - exact c_lines.
  - exact c_reference.
Qed.
Lemma c_weights : forall W W', c_cov c_v (AScalar 0%K) 0%K true = Ok W -> c_cov c_v' (AScalar 0%K) 0%K true = Ok W' -> weights_renumbered 2 3 cyc W W'.
Proof.
  intros W W' E E'. unfold c_cov in E, E'. assert (Q : forall a b : mat Qc, Ok a = Ok b -> a = b) by (intros a b Q; congruence). apply Q in E. apply Q in E'. subst W W'.
  apply (blocks_ren 2 3 cyc); [exact cyc_numbering|]. intros [|[|[|j]]] [|[|t]] Hj Ht; try lia; vm_compute; auto.
Qed.
Example C112_bayesian_weighted_ex :
  exists y y' its its', c_run true c_v c_i c_y = Ok (y, its) /\ c_run true c_v' c_i' c_y' = Ok (y', its') /\ renumbered 3 cyc y y' /\ Forall2 (same_record (renumbered 3 cyc)) its its'.
Proof.
  destruct c_columns as (R1 & R2 & R3). unfold c_run. assert (L : (0 <! lambda_eiv n_conf)%K) by (vm_compute; reflexivity).
  eapply (C112_bayesian_weighted Qc _ _ _ _ ksolve norm1 c_cov c_cov n_conf "net" 2 3 cyc c_v c_v' c_i c_i' c_y c_y' (cz 1 1) (cz 1 1) _ _ _ _ _ _ 1%Z _ _ ksolve_solver_sound ksolve_solver_complete L eq_refl eq_refl ltac:(lia) eq_refl cyc_numbering R1 R2 eq_refl eq_refl).
  - replace (blocks _ _ _ _) with (mdiag (map zq [10; 2; 2; 5; 5; 1; 1; 1; 2; 1; 1; 2]%Z)) by (apply meqb_eq; vm_compute; reflexivity).
    apply (posdef_diag (K := Qc) (map zq [10; 2; 2; 5; 5; 1; 1; 1; 2; 1; 1; 2]%Z)). repeat constructor.
  - apply c_weights; reflexivity.
  - reflexivity.
  - reflexivity.
  - apply symmetricb_ok. vm_compute. reflexivity.
  - exact R3.
  - exact c_lines.
  - exact c_reference.
Qed.

Definition r_m : mat C := mk 2 3 (fun t j => Cx (INR (S (t + 2 * j))) 1%R).
Definition r_m' : mat C := mk 2 3 (fun t j => get r_m t (cyc j)).
Example C112_weights_ex :
  exists W W' Q Q', average_true_noise_covariance r_m (SdArray [1; 2; 3]%R) 1%R false = Ok W /\ average_true_noise_covariance r_m' (SdArray [2; 3; 1]%R) 1%R false = Ok W' /\ finite W Q /\ finite W' Q' /\
    weights_renumbered 2 3 cyc Q Q'.
Proof.
  assert (V : In average_true_noise_covariance variants) by (cbn; auto).
  assert (S1 : sd_means 3 (SdArray [1; 2; 3]%R) (vget [1; 2; 3]%R)) by (constructor; reflexivity). assert (S2 : sd_means 3 (SdArray [2; 3; 1]%R) (vget [2; 3; 1]%R)) by (constructor; reflexivity).
  destruct (C32_symmetric_positive average_true_noise_covariance r_m _ 1%R _ V S1) as (W & Q & E & FQ & _). destruct (C32_symmetric_positive average_true_noise_covariance r_m' _ 1%R _ V S2) as (W' & Q' & E' & FQ' & _).
  exists W, W', Q, Q'. do 4 (split; [assumption|]).
  eapply (C112_weights 2 3 cyc r_m r_m' _ _ 1%R false (vget [1; 2; 3]%R) (vget [2; 3; 1]%R) average_true_noise_covariance W W' Q Q' cyc_numbering); try eassumption.
  - split; [apply shape_mk|]. split; [apply shape_mk|]. intros t j Ht Hj. unfold r_m'. rewrite get_mk by assumption. reflexivity.
  - intros [|[|[|j]]] Hj; [reflexivity|reflexivity|reflexivity|lia].
Qed.
