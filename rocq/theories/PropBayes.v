(** Properties C87-C89: what the Lasso and the Bayesian identification compute from the measurements *)
From Coq Require Import String.
From Coq Require Import Bool Arith ZArith Lia List Sorted Qcanon.
From Verif Require Import BasePy BaseFld BaseOrd BaseSum BaseMat BaseNumpy BaseLin BaseEx SpecMatrix ModelMatrixOps ModelPrior ModelFit ModelLS SpecLS SpecFit SpecIdent
  ModelIdent ModelRun SpecRun SpecIdentify SpecBayes ProofFitOpt ProofBayesRun ProofRatings ProofFitRep PropRun PropFit.
Import ListNotations.
Close Scope Qc_scope. Close Scope Q_scope. Close Scope string_scope. Open Scope list_scope. Open Scope nat_scope.

(** ** C87 *)
(** the saved Lasso estimate comes from at most the requested number of weighted regressions that start from the symmetric part of the unregularised estimate *)
Theorem C87_lasso_is_reweighted_regression :
  forall (K : Type) (O : Ops K) (F : Fld K) (O2 : OrdOps K) (OF : OrdFld K) pinv svd spsolve cabs ksqrt true_cov naive_cov (conf : config K),
  forall o (fs fs' : files K) (i v j w y a t l : mat (cplx K)) P f h T n,
  solver_sound spsolve -> kle 0%K (lambda_lasso conf) ->
  fs (simulation_path (network o)) = Some (Simulation i v j w y P f h) -> Forall (eq 1%Z) h ->
  identify pinv svd spsolve cabs ksqrt true_cov naive_cov conf o fs = (fs', Ok tt) -> three_phased (phases o) = false -> standard o = true \/ bayesian o = false ->
  (2 <= n) -> shape v T n -> shape i T n -> fs' (standard_path (network o)) = Some (Standard a t l) -> shape a n n ->
  Forall (fun y => y <> 0%K) (parameters (laplacian o) (sym_part n a)) ->
  if (0 <? max_iterations o)%Z
  then exists v1 i1, without_means (laplacian o) T n v i v1 i1 /\
    reweighted (laplacian o) n v1 i1 (lambda_lasso conf)
      (fun M0 M => relaxed_lasso (tenth 5) (parameters (laplacian o) (sym_part n a)) (parameters (laplacian o) M0) (parameters (laplacian o) M))
      (Z.to_nat (max_iterations o)) (sym_part n a) l
  else l = a.
Proof. intros. eapply p_identify_lasso; eassumption. Qed.
Print Assumptions C87_lasso_is_reweighted_regression.

(** ** C88 *)
(** with weights and synchronised measurements *)
Theorem C88_weighted_identification :
  forall (K : Type) (O : Ops K) (F : Fld K) (O2 : OrdOps K) (OF : OrdFld K) pinv svd spsolve cabs ksqrt true_cov naive_cov (conf : config K),
  forall o (fs fs' : files K) (i v j w y a t l : mat (cplx K)) P f h T n W,
  solver_sound spsolve -> kle 0%K (lambda_eiv conf) -> contrast_each_row conf = true -> regularize_diag conf = false ->
  fs (simulation_path (network o)) = Some (Simulation i v j w y P f h) -> Forall (eq 1%Z) h ->
  identify pinv svd spsolve cabs ksqrt true_cov naive_cov conf o fs = (fs', Ok tt) -> three_phased (phases o) = false -> (0 < rounds o)%Z -> exact o = false \/ laplacian o = true ->
  weighted o = true -> unsynchronized o = false ->
  (2 <= n) -> shape v T n -> shape i T n -> fs' (standard_path (network o)) = Some (Standard a t l) -> shape t n n -> no_zero_line n t ->
  (forall k, (k < n) -> nonzero_parts (reference (use_tls_diag conf) n t k)) ->
  true_cov v (AScalar (voltage_magnitude_sd conf / ksqrt f)%K) (voltage_phase_sd conf / ksqrt f)%K true = Ok W -> psd (2 * (n * T)) W ->
  exists v1 i1 yb its, without_means (laplacian o) T n v i v1 i1 /\ fs' (bayesian_path (network o)) = Some (Bayesian yb its) /\
    history_of (weighted_round (laplacian o) T n W v1 i1 (lambda_eiv conf) (fun M => (line_pen (tenth 8) n t M + node_pen (tenth 8) (lambdaprime conf) (use_tls_diag conf) n t M)%K) (relaxed_pen (tenth 8) (lambdaprime conf) (use_tls_diag conf) n t)) (sym_part n t) yb its.
Proof. intros. eapply p_identify_weighted; eassumption. Qed.
Print Assumptions C88_weighted_identification.

(** with weights and without synchronisation *)
Theorem C88_unsynchronised_identification :
  forall (K : Type) (O : Ops K) (F : Fld K) (O2 : OrdOps K) (OF : OrdFld K) pinv svd spsolve cabs ksqrt true_cov naive_cov (conf : config K),
  forall o (fs fs' : files K) (i v j w y a t l : mat (cplx K)) P f h T n S,
  solver_sound spsolve -> kle 0%K (lambda_eiv conf) -> contrast_each_row conf = true -> regularize_diag conf = false ->
  fs (simulation_path (network o)) = Some (Simulation i v j w y P f h) -> Forall (eq 1%Z) h ->
  identify pinv svd spsolve cabs ksqrt true_cov naive_cov conf o fs = (fs', Ok tt) -> three_phased (phases o) = false -> (0 < rounds o)%Z -> exact o = false \/ laplacian o = true ->
  weighted o = true -> unsynchronized o = true ->
  (2 <= n) -> shape v T n -> shape i T n -> fs' (standard_path (network o)) = Some (Standard a t l) -> shape t n n -> no_zero_line n t ->
  (forall k, (k < n) -> nonzero_parts (reference (use_tls_diag conf) n t k)) ->
  naive_cov (mk T n (fun r k => cre (cabs (get v r k)))) (AScalar (voltage_magnitude_sd conf / ksqrt f)%K) (voltage_phase_sd conf / ksqrt f * knat 100)%K false = Ok S ->
  wf S -> (forall W, inverted S W -> psd (2 * (n * T)) W) ->
  exists v0 i0 v1 i1 W yb its, rotated cabs T n v i v0 i0 /\ without_means (laplacian o) T n v0 i0 v1 i1 /\ inverted S W /\
    fs' (bayesian_path (network o)) = Some (Bayesian yb its) /\
    history_of (weighted_round (laplacian o) T n W v1 i1 (lambda_eiv conf) (fun M => (line_pen (tenth 8) n t M + node_pen (tenth 8) (lambdaprime conf) (use_tls_diag conf) n t M)%K) (relaxed_pen (tenth 8) (lambdaprime conf) (use_tls_diag conf) n t)) (sym_part n t) yb its.
Proof. intros. eapply p_identify_unsynchronized; eassumption. Qed.
Print Assumptions C88_unsynchronised_identification.

(** without weights *)
Theorem C88_unweighted_identification :
  forall (K : Type) (O : Ops K) (F : Fld K) (O2 : OrdOps K) (OF : OrdFld K) pinv svd spsolve cabs ksqrt true_cov naive_cov (conf : config K),
  forall o (fs fs' : files K) (i v j w y a t l : mat (cplx K)) P f h T n,
  solver_sound spsolve -> kle 0%K (lambda_eiv conf) -> contrast_each_row conf = true -> regularize_diag conf = false ->
  fs (simulation_path (network o)) = Some (Simulation i v j w y P f h) -> Forall (eq 1%Z) h ->
  identify pinv svd spsolve cabs ksqrt true_cov naive_cov conf o fs = (fs', Ok tt) -> three_phased (phases o) = false -> (0 < rounds o)%Z -> exact o = false \/ laplacian o = true ->
  weighted o = false ->
  (2 <= n) -> shape v T n -> shape i T n -> fs' (standard_path (network o)) = Some (Standard a t l) -> shape t n n -> no_zero_line n t ->
  (forall k, (k < n) -> nonzero_parts (reference (use_tls_diag conf) n t k)) ->
  exists v1 i1 yb its, without_means (laplacian o) T n v i v1 i1 /\ fs' (bayesian_path (network o)) = Some (Bayesian yb its) /\
    history_of (plain_round (laplacian o) T n v1 i1 (lambda_eiv conf) (relaxed_pen (tenth 8) (lambdaprime conf) (use_tls_diag conf) n t)) (sym_part n t) yb its.
Proof. intros. eapply p_identify_unweighted; eassumption. Qed.
Print Assumptions C88_unweighted_identification.

(** the network of two nodes of PropRun.v meets the hypotheses *)
Definition conf9 : config Qc := Config Qc (zq 1) (zq 1) (zq 1) (zq 0) (zq 0) false true false (zq 1) (zq 1) (zq 1) (zq 1).
Definition world9 (p : Z) : files Qc := fun q => if String.eqb q (simulation_path "net") then Some (Simulation net_i net_v net_i net_v net_y [zq p; zq 2] (zq 4) [1; 1]%Z) else None.
Notation run9 we us := (identify pinv1 svd1 ksolve norm1 (fun x => x) cov1 cov1 conf9 (opt 1 false false false "1" false false we false us) (world9 1)).
Definition nonzerob (z : cplx Qc) : bool := negb (re z =? 0)%K && negb (im z =? 0)%K.
Lemma nonzerob_ok : forall z, nonzerob z = true -> nonzero_parts z.
Proof.
  intros z H. apply andb_true_iff in H. destruct H as [H1 H2]. apply negb_true_iff in H1, H2. split; [apply (keqb_neq (K := Qc)) in H1|apply (keqb_neq (K := Qc)) in H2]; assumption.
Qed.
Definition readyb (a t : mat (cplx Qc)) : bool :=
  shapeb a 2 2 && shapeb t 2 2 && forall_lt 2 (fun i => forall_lt 2 (fun j => (i =? j) || nonzerob (get (sym_part 2 t) i j))) &&
  forall_lt 2 (fun k => nonzerob (reference false 2 t k)) && forallb (fun x => negb (x =? 0)%K) (parameters false (sym_part 2 a)).
Definition ready (a t : mat (cplx Qc)) : Prop :=
  shape a 2 2 /\ shape t 2 2 /\ no_zero_line 2 t /\ (forall k, k < 2 -> nonzero_parts (reference (use_tls_diag conf9) 2 t k)) /\
  Forall (fun y => y <> 0%K) (parameters false (sym_part 2 a)).
Lemma readyb_ok : forall a t, readyb a t = true -> ready a t.
Proof.
  intros a t H. unfold readyb in H. rewrite !andb_true_iff in H. destruct H as [[[[H1 H2] H3] H4] H5].
  split; [apply shapeb_shape; auto|]. split; [apply shapeb_shape; auto|]. split; [|split].
  - intros i j Hi Hj D. pose proof (forall_lt_spec _ _ (forall_lt_spec _ _ H3 i Hi) j Hj) as X. cbv beta in X. apply orb_true_iff in X.
    destruct X as [X|X]; [apply Nat.eqb_eq in X; contradiction|apply nonzerob_ok; exact X].
  - intros k Hk. apply nonzerob_ok. exact (forall_lt_spec _ _ H4 k Hk).
  - apply Forall_forall. intros x Hx. rewrite forallb_forall in H5. specialize (H5 x Hx). apply negb_true_iff in H5. apply (keqb_neq (K := Qc)) in H5. exact H5.
Qed.
Definition succeeds (r : files Qc * res unit) : bool :=
  okb (snd r) && match fst r (standard_path "net") with Some (Standard a t l) => readyb a t && negb (meqb a l) | _ => false end &&
  match fst r (bayesian_path "net") with Some (Bayesian y its) => negb (meqb y net_y) | _ => false end.
Lemma succeeds_ok : forall r, succeeds r = true -> exists fs' a t l, r = (fs', Ok tt) /\ fs' (standard_path "net") = Some (Standard a t l) /\ ready a t.
Proof.
  intros [fs' r] H. unfold succeeds in H. cbn [fst snd] in H. rewrite !andb_true_iff in H. destruct H as [[H1 H2] _]. apply okb_ok in H1. subst r.
  destruct (fs' (standard_path "net")) as [[|a t l| | |]|] eqn:E; try discriminate. apply andb_true_iff in H2. destruct H2 as [H2 _].
  exists fs', a, t, l. split; [reflexivity|]. split; [exact E|apply readyb_ok; exact H2].
Qed.
Lemma inverted_eye : forall m (W : mat Qc), inverted (meye m) W -> W = meye m.
Proof.
  intros m W (R & C & S & H). apply (gshape_ext _ _ m m); [split; [exact S|split; [exact R|exact C]]|apply shape_meye|].
  intros i j Hi Hj. destruct (H i j Hi Hj) as [H1 H2]. rewrite get_meye in * by assumption. destruct (i =? j) eqn:E.
  - assert (N : (1%K : Qc) <> 0%K) by (vm_compute; discriminate). specialize (H2 N). rewrite <- H2. symmetry. apply Qcmult_1_r.
  - apply H1. reflexivity.
Qed.
Example C88_example :
  (forall we us, exists fs' a t l, run9 we us = (fs', Ok tt) /\ fs' (standard_path "net") = Some (Standard a t l) /\ ready a t) /\
  contrast_each_row conf9 = true /\ regularize_diag conf9 = false /\ world9 1 (simulation_path "net") = Some (Simulation net_i net_v net_i net_v net_y [zq 1; zq 2] (zq 4) [1; 1]%Z) /\
  Forall (eq 1%Z) [1; 1]%Z /\ (forall we us, (0 < rounds (opt 1 false false false "1" false false we false us))%Z) /\ shape net_v 2 2 /\ shape net_i 2 2 /\
  (forall v s p b, shape v 2 2 -> exists W, cov1 v s p b = Ok W /\ psd (2 * (2 * 2)) W /\ wf W /\ forall V, inverted W V -> psd (2 * (2 * 2)) V) /\
  solver_sound (@ksolve Qc _).
Proof.
  split; [intros [] []; apply succeeds_ok; vm_compute; reflexivity|]. split; [reflexivity|]. split; [reflexivity|]. split; [reflexivity|]. split; [repeat constructor|].
  split; [intros [] []; reflexivity|]. split; [apply shapeb_shape; vm_compute; reflexivity|]. split; [apply shapeb_shape; vm_compute; reflexivity|].
  split; [|apply ksolve_solver_sound].
  intros v s p b (_ & R & C). exists (meye 8). unfold cov1. rewrite R, C. split; [reflexivity|]. split; [apply psd_meye|]. split; [apply shape_meye|].
  intros V HV. apply inverted_eye in HV. rewrite HV. apply psd_meye.
Qed.

(** ** C89 *)
(** the ratings and the noise levels of the currents never change the results *)
Theorem C89_ratings_and_current_noise_unused :
  forall (K : Type) (O : Ops K) (O2 : OrdOps K) pinv svd spsolve cabs ksqrt true_cov naive_cov (conf : config K) ma pa
    o (s1 s2 s1' s2' : files K) i v j w y P1 P2 f h,
  s1 (simulation_path (network o)) = Some (Simulation i v j w y P1 f h) ->
  s2 (simulation_path (network o)) = Some (Simulation i v j w y P2 f h) ->
  (forall p, p <> simulation_path (network o) -> s1 p = s2 p) ->
  identify pinv svd spsolve cabs ksqrt true_cov naive_cov conf o s1 = (s1', Ok tt) ->
  identify pinv svd spsolve cabs ksqrt true_cov naive_cov (with_current_sd conf ma pa) o s2 = (s2', Ok tt) ->
  forall p, p <> simulation_path (network o) -> s1' p = s2' p.
Proof. exact @p_ratings_do_not_matter. Qed.
Print Assumptions C89_ratings_and_current_noise_unused.

(** covariances that depend on the noise levels; the first rating is 1 or 50, both runs succeed with weights *)
Definition cov9 (m : mat (cplx Qc)) (sd : arg Qc) (p : Qc) (_ : bool) : res (mat Qc) :=
  let s := match sd with AScalar x => x | AList l => hd (zq 0) l | _ => zq 1 end in Ok (mscal (s * s + p * p)%K (meye (2 * nr m * nc m))).
Notation run89 conf p := (identify pinv1 svd1 ksolve norm1 (fun x => x) cov9 cov9 conf (opt 1 false false false "1" false false true false false) (world9 p)).
Example C89_example :
  okb (snd (run89 conf9 1%Z)) = true /\ okb (snd (run89 (with_current_sd conf9 (zq 7) (zq 3)) 50%Z)) = true /\
  res_meqb (cov9 net_i (AList [zq 1; zq 2]) (zq 1) true) (match cov9 net_i (AList [zq 350; zq 14]) (zq 3) true with Ok m => m | Err _ => meye 0 end) = false.
Proof. split; [|split]; vm_compute; reflexivity. Qed.
