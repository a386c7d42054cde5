(** Property C115: the results do not depend on which numerical routines the program calls, as long as these do what they should. *)
From Coq Require Import String.
From Coq Require Import Bool Arith ZArith Lia List Permutation Qcanon Reals.
From Verif Require Import BasePy BaseFld BaseOrd BaseSum BaseMat BaseNumpy BaseLin BaseEx SpecMatrix ModelMatrixOps ModelPrior ModelFit ModelLS SpecPrior SpecLS SpecFit SpecIdent SpecBayes
  ModelIdent ModelRun SpecRun SpecOrder SpecTLS SpecOffset SpecRenumber ProofFitBase ProofFrozen ProofBayes ProofBayesRun ProofFitRep ProofOffset ProofRunIO ProofOrder4 ProofOrder5 ProofOrderRun ProofRenumber2 ProofEquiv ProofEquiv2 ProofEquiv3 ProofEquiv6 ProofRenumberCov ProofRoutines PropRun PropOffset PropRenumber PropRenumberRun PropRenumberEIV.
Import ListNotations.
Close Scope R_scope. Close Scope Qc_scope. Close Scope Q_scope. Close Scope string_scope. Open Scope list_scope. Open Scope nat_scope.

Lemma bind_cong : forall K A B (m m' : io K A) (f f' : A -> io K B) s, m s = m' s -> (forall a s1, m' s = (s1, Ok a) -> f a s1 = f' a s1) -> bind_io m f s = bind_io m' f' s.
Proof. intros K A B m m' f f' s H1 H2. unfold bind_io. rewrite H1. destruct (m' s) as [s1 [a|e]] eqn:E; [apply H2; reflexivity|reflexivity]. Qed.

(** two exact pseudo-inverses, two exact singular value decompositions (with other singular vectors), two solvers that solve every
    system with one solution only: all three matrices, the written file and the exceptions are the same *)
Theorem C115_standard :
  forall (K : Type) (O : Ops K) (F : Fld K) (O2 : OrdOps K) (OF : OrdFld K) pinv pinv' svd svd' spsolve spsolve' (conf : config K) name lap T n (v i : mat (cplx K)) it s,
  solver_sound spsolve -> solver_complete spsolve -> solver_sound spsolve' -> solver_complete spsolve' -> (0 <=! lambda_lasso conf)%K -> 2 <= n -> shape v T n -> shape i T n ->
  routines_right pinv svd lap T n v i -> routines_right pinv' svd' lap T n v i -> values_apart svd lap n v i -> inj (fst (centred lap v i)) ->
  (forall a, complex_regression_fit pinv (fst (centred lap v i)) (snd (centred lap v i)) = Ok a ->
    forall j k, j < n -> k < n -> (lap = true -> j <> k) -> nonzero_parts (get (sym_part n a) j k)) ->
  standard_methods pinv' svd' spsolve' conf name (Some v) i lap it s = standard_methods pinv svd spsolve conf name (Some v) i lap it s.
Proof.
  intros K O F O2 OF pinv pinv' svd svd' sp sp' conf name lap T n v i it s Hs Hc Hs' Hc' Hl Hn HV HI L L' A Ix NZ. unfold standard_methods.
  rewrite (standard_two pinv pinv' svd svd' sp sp' conf T n v i lap it Hs Hc Hs' Hc' Hl Hn HV HI L L' A Ix); [reflexivity|].
  intros a Ha. apply (params_nonzero n lap); [apply shape_mk|]. split; [intros j k Hk Hj; apply (NZ a Ha); lia|intros -> j Hj; apply (NZ a Ha); try lia; discriminate].
Qed.
Print Assumptions C115_standard.

(** the Bayesian identification with the Laplacian structure: the estimate, all records, the written file, the exceptions *)
Theorem C115_bayesian :
  forall (K : Type) (O : Ops K) (F : Fld K) (O2 : OrdOps K) (OF : OrdFld K) spsolve spsolve' cabs true_cov naive_cov (conf : config K) name T n (v i y0 : mat (cplx K)) sv sc r w u it s,
  solver_sound spsolve -> solver_complete spsolve -> solver_sound spsolve' -> solver_complete spsolve' -> (0 <! lambda_eiv conf)%K -> contrast_each_row conf = true -> regularize_diag conf = false -> 2 <= n ->
  shape v T n -> shape i T n -> (w = true -> u = true /\ forall W, true_cov v (AScalar (re sv)) (im sv) true = Ok W -> posdef (2 * (n * T)) W) ->
  symmetric n y0 -> no_zero_line n y0 -> (forall k, k < n -> nonzero_parts (reference (use_tls_diag conf) n y0 k)) ->
  bayesian_eiv spsolve' cabs true_cov naive_cov conf name v i sv sc r y0 None true w it u s = bayesian_eiv spsolve cabs true_cov naive_cov conf name v i sv sc r y0 None true w it u s.
Proof.
  intros K O F O2 OF sp sp' cabs tc ncv conf name T n v i y0 sv sc r w u it s Hs Hc Hs' Hc' Hl Hr Hd Hn HV HI HW SY NZ NR.
  apply (bayesian_two sp sp' cabs tc ncv conf name T n v i y0 sv sc r w u it s Hs Hc Hs' Hc' Hl Hr Hd Hn (proj2 (proj2 HV))); try assumption.
  intros x z xw zw E. unfold eiv_data in E. assert (Q : forall (a b : mat (cplx K) * mat (cplx K) * option (mat K) * option (mat K)), Ok a = Ok b -> a = b) by (intros a b Q; congruence). destruct w; cbn [andb] in E.
  - destruct (HW eq_refl) as [-> HP]. cbn [andb] in E. destruct (tc v _ _ true) as [W|] eqn:EW; [|discriminate]. cbn [bind] in E. destruct (tc i _ _ true) as [Z|]; [|discriminate]. cbn [bind] in E. apply Q in E.
    assert (E1 : x = v) by congruence. assert (E2 : z = i) by congruence. assert (E3 : xw = Some W) by congruence. assert (E4 : zw = Some Z) by congruence. subst. split; [exact HV|]. split; [exact HI|]. split; [apply HP; reflexivity|discriminate].
  - apply Q in E. assert (E1 : x = v) by congruence. assert (E2 : z = i) by congruence. assert (E3 : xw = None) by congruence. subst. auto.
Qed.
Print Assumptions C115_bayesian.

(** the whole program for a network with one phase, started without -c, with -l, with the standard methods computed anew: the same files are written and
    it ends in the same way.  The estimate of total least squares must not have zeros where the prior divides *)
Theorem C115_program :
  forall (K : Type) (O : Ops K) (F : Fld K) (O2 : OrdOps K) (OF : OrdFld K) pinv pinv' svd svd' spsolve spsolve' cabs ksqrt true_cov naive_cov (conf : config K) o s T n i v j w y r f h,
  solver_sound spsolve -> solver_complete spsolve -> solver_sound spsolve' -> solver_complete spsolve' ->
  (0 <=! lambda_lasso conf)%K -> (0 <! lambda_eiv conf)%K -> contrast_each_row conf = true -> regularize_diag conf = false -> 2 <= n ->
  three_phased (phases o) = false -> (forall x, In x h -> x = 1%Z) -> laplacian o = true -> continue_id o = false -> (standard o = true \/ bayesian o = false) ->
  s (simulation_path (network o)) = Some (Simulation i v j w y r f h) -> shape v T n -> shape i T n ->
  routines_right pinv svd true T n v i -> routines_right pinv' svd' true T n v i -> values_apart svd true n v i -> inj (fst (centred true v i)) ->
  (forall a, complex_regression_fit pinv (fst (centred true v i)) (snd (centred true v i)) = Ok a ->
    forall j k, j < n -> k < n -> j <> k -> nonzero_parts (get (sym_part n a) j k)) ->
  (forall t, tls_fit svd (fst (centred true v i)) (A2 (snd (centred true v i))) = Ok t -> let y0 := sym_part n (as_matrix t) in
    no_zero_line n y0 /\ forall k, k < n -> nonzero_parts (reference (use_tls_diag conf) n y0 k)) ->
  (weighted o = true -> unsynchronized o = false /\
    forall W, true_cov v (AScalar (voltage_magnitude_sd conf / ksqrt f)%K) (voltage_phase_sd conf / ksqrt f)%K true = Ok W -> posdef (2 * (n * T)) W) ->
  identify pinv' svd' spsolve' cabs ksqrt true_cov naive_cov conf o s = identify pinv svd spsolve cabs ksqrt true_cov naive_cov conf o s.
Proof.
  intros K O F O2 OF pinv pinv' svd svd' sp sp' cabs ksqrt tc ncv conf o s T n i v j w y r f h Hs Hc Hs' Hc' Hl He Hr Hd Hn H3 Hh HL HC HR ES HV HI L L' A Ix NZ NT HW.
  assert (KP : keep_phase (phases o) i v j w y r h = Ok (i, v, j, w, y, r)).
  { unfold keep_phase. replace (existsb (fun x => negb (x =? 1)%Z) h) with false; [rewrite andb_false_r; reflexivity|]. symmetry. clear -Hh. induction h as [|x h IH]; [reflexivity|]. cbn [existsb]. rewrite (Hh x (or_introl eq_refl)), IH; [reflexivity|]. intros z Hz. apply Hh. right. exact Hz. }
  assert (RS : standard o || (negb (standard o) && negb (bayesian o)) = true) by (destruct HR as [->| ->]; [reflexivity|destruct (standard o); reflexivity]).
  assert (NO : forall a, complex_regression_fit pinv (fst (centred true v i)) (snd (centred true v i)) = Ok a -> Forall (fun y => y <> 0%K) (parameters true (sym_part n a))).
  { intros a Ha. apply (params_nonzero n true); [apply shape_mk|]. split; [intros q k Hk Hq; apply (NZ a Ha); lia|discriminate]. }
  unfold identify. destruct (phases_refused (phases o) (sequence o)); [reflexivity|]. rewrite H3, HL, HC, RS, andb_false_r.
  apply bind_cong; [reflexivity|]. intros c s1 E1. unfold load in E1. rewrite ES in E1. assert (E2 : c = Simulation i v j w y r f h) by congruence. subst c. rewrite KP, !bind_lift, !bind_save.
  apply bind_cong.
  - apply (C115_standard K O F O2 OF pinv pinv' svd svd' sp sp' conf (network o) true T n v i); try assumption. intros a Ha q k Hq Hk N. apply (NZ a Ha); auto.
  - intros [[yo yt] yl] s2 E2. assert (ST : shape yt n n /\ exists t, tls_fit svd (fst (centred true v i)) (A2 (snd (centred true v i))) = Ok t /\ yt = as_matrix t).
    { unfold standard_methods in E2. pose proof (standard_ren n same_numbers (same_numbering n) pinv svd sp sp conf T v v i i true (max_iterations o) Hs Hc Hs Hc Hl Hn (table_itself T n v HV) (table_itself T n i HI) L L A Ix NO) as B.
      destruct (standard_estimates pinv svd sp conf v i true (max_iterations o)) as [[[a b] c]|e] eqn:EE; [|discriminate]. cbn [both fst snd] in B. destruct B as (_ & (SB & _) & _).
      rewrite bind_lift, bind_save in E2. unfold lift in E2. assert (Q : forall (P R S : mat (cplx K)) (P' R' S' : mat (cplx K)) (x x' : files K), (x, Ok (P, R, S)) = (x', Ok (P', R', S')) -> R' = R) by (intros; congruence). apply Q in E2. subst yt. split; [exact SB|].
      unfold standard_estimates in EE. destruct (centred true v i) as [x z]. cbn [fst snd]. destruct (complex_regression_fit pinv x z) as [a0|]; [|discriminate]. cbn [bind] in EE. destruct (tls_fit svd x (A2 z)) as [t|]; [|discriminate]. exists t. split; [reflexivity|]. cbn [bind] in EE.
      assert (Q2 : forall (P R S : mat (cplx K)) (P' R' S' : mat (cplx K)), Ok (P, R, S) = Ok (P', R', S') -> R' = R) by (intros; congruence).
      destruct (build_lasso_prior (nc v) a0 true); [|discriminate]. cbn [bind] in EE. destruct (0 <? max_iterations o)%Z; [|apply Q2 in EE; exact EE].
      destruct (half_sum a0); [|discriminate]. cbn [bind] in EE. destruct (fit_result _) as [[yy ii]|]; [|discriminate]. cbn [bind] in EE. apply Q2 in EE. exact EE. }
    destruct ST as (ST & t & ET & ->). rewrite (half_sum_is n _ ST), !bind_lift. destruct (NT t ET) as [N1 N2].
    apply bind_same; [|reflexivity].
    apply (C115_bayesian K O F O2 OF sp sp' cabs tc ncv conf (network o) T n v i); try assumption; [|apply (ProofIdent.sym_part_sym (cplx K) _ _)].
    intros EW. destruct (HW EW) as [U P]. rewrite U. split; [reflexivity|exact P].
Qed.
Print Assumptions C115_program.

(** *** other routines: a solver that first multiplies the system by three, other singular vectors *)
Definition tripled (A : mat Qc) (b : list Qc) : res (list Qc) := ksolve (mscal (zq 3) A) (vscal (zq 3) b).
Lemma third : forall v : list Qc, vscal (qq 1 3) (vscal (zq 3) v) = v.
Proof. intros v. unfold vscal. rewrite map_map. rewrite <- (map_id v) at 2. apply map_ext. intros x. change (Qcmult (qq 1 3) (Qcmult (zq 3) x) = x). rewrite Qcmult_assoc. replace (Qcmult (qq 1 3) (zq 3)) with 1%Qc by (apply Qc_is_canon; reflexivity). apply Qcmult_1_l. Qed.
Lemma tripled_shape : forall (A : mat Qc) m, shape A m m -> shape (mscal (zq 3) A) m m.
Proof. intros A m (_ & R & C). unfold mscal. rewrite R, C. apply shape_mk. Qed.
Lemma tripled_length : forall (b : list Qc) m, length b = m -> length (vscal (zq 3) b) = m.
Proof. intros b m H. unfold vscal. rewrite map_length. exact H. Qed.
Lemma tripled_sound : solver_sound tripled.
Proof.
  intros A m b y HA Hb H. destruct (ksolve_solver_sound (mscal (zq 3) A) m _ y (tripled_shape A m HA) (tripled_length b m Hb) H) as [L E]. split; [exact L|].
  rewrite mvmul_mscal in E. apply (f_equal (vscal (qq 1 3))) in E. rewrite !third in E. exact E.
Qed.
Lemma tripled_complete : solver_complete tripled.
Proof.
  intros A m b HA Hb HI. apply (ksolve_solver_complete (mscal (zq 3) A) m _ (tripled_shape A m HA) (tripled_length b m Hb)). intros v Lv E. apply HI; [exact Lv|].
  rewrite mvmul_mscal in E. apply (f_equal (vscal (qq 1 3))) in E. rewrite third in E. rewrite E. change (nr (mscal (zq 3) A)) with (nr A). clear.
  unfold vzeros. induction (nr A) as [|k IH]; [reflexivity|]. cbn [repeat vscal map]. unfold vscal in IH. rewrite IH. f_equal. apply Qc_is_canon. reflexivity.
Qed.
Definition flip (k : nat) : nat := nth k [0; 1; 3; 2] 0.
Definition turned (r : mat (cplx Qc) * list Qc * mat (cplx Qc)) : mat (cplx Qc) * list Qc * mat (cplx Qc) :=
  let '(u, s, vh) := r in
  (mk 4 4 (fun t k => (get u t (flip k) * if (k =? 0)%nat then cz 0 1 else 1)%K), s, mk 4 4 (fun k j => (get vh (flip k) j * if (k =? 0)%nat then cz 0 (-1) else 1)%K)).

Example C115_standard_ex :
  standard_methods ex_pinv (fun m => turned (n_svd m)) tripled n_conf "net" (Some n_v) n_i false 1 (fun _ => None) = standard_methods ex_pinv n_svd ksolve n_conf "net" (Some n_v) n_i false 1 (fun _ => None) /\
  (exists o t l, n_run n_v n_i = Ok (o, t, l) /\ meqb o l = false) /\ meqb (fst (fst (turned (n_svd n_v)))) (fst (fst (n_svd n_v))) = false.
Proof.
  split.
  - apply (C115_standard Qc _ _ _ _ ex_pinv ex_pinv n_svd (fun m => turned (n_svd m)) ksolve tripled n_conf "net" false 4 2 n_v n_i 1 (fun _ => None)).
    + apply ksolve_solver_sound.
    + apply ksolve_solver_complete.
    + exact tripled_sound.
    + exact tripled_complete.
    + reflexivity.
    + lia.
    + apply shapeb_shape; reflexivity.
    + apply shapeb_shape; vm_compute; reflexivity.
    + apply nrightb_ok. vm_compute. reflexivity.
    + unfold routines_right. assert (P : penroseb 4 2 (fst (centred false n_v n_i)) (ex_pinv (fst (centred false n_v n_i))) = true) by (vm_compute; reflexivity).
      assert (S : (let '(u, s, vh) := turned (n_svd (hstack2 (fst (centred false n_v n_i)) (snd (centred false n_v n_i)))) in svdb 4 4 (hstack2 (fst (centred false n_v n_i)) (snd (centred false n_v n_i))) u s vh) = true) by (vm_compute; reflexivity).
      destruct (centred false n_v n_i) as [x y]. cbn [fst snd] in P, S. split; [apply penroseb_ok; exact P|]. destruct (turned (n_svd (hstack2 x y))) as [[u s] vh]. apply svdb_ok. exact S.
    + unfold values_apart, n_svd. cbn [centred]. intros [|[|a]] [|[|[|[|b]]]] Ha Hb Hc; try lia; vm_compute; reflexivity.
    + apply (left_inverse 4 2 _ (ex_pinv (fst (centred false n_v n_i)))); vm_compute; reflexivity.
    + intros a Ha j k Hj Hk _. assert (E : meqb a n_y = true).
      { assert (B : match complex_regression_fit ex_pinv (fst (centred false n_v n_i)) (snd (centred false n_v n_i)) with Ok b => meqb b n_y | Err _ => false end = true) by (vm_compute; reflexivity). rewrite Ha in B. exact B. }
      apply meqb_eq in E. subst a. destruct j as [|[|j]], k as [|[|k]]; try lia; split; intro Z; apply (f_equal (fun q : Qc => keqb q 0%K)) in Z; vm_compute in Z; discriminate.
  - split; [|vm_compute; reflexivity]. destruct C112_standard_ex as (_ & o & t & l & E & _ & N & _). exists o, t, l. split; [exact E|exact N].
Qed.

Example C115_bayesian_ex : forall w : bool,
  bayesian_eiv tripled norm1 c_cov c_cov n_conf "net" c_v c_i (cz 1 1) (cz 1 1) [zq 1; zq 1; zq 1] c_y None true w 1 true (fun _ => None) =
  bayesian_eiv ksolve norm1 c_cov c_cov n_conf "net" c_v c_i (cz 1 1) (cz 1 1) [zq 1; zq 1; zq 1] c_y None true w 1 true (fun _ => None) /\ exists r, c_run w c_v c_i c_y = Ok r.
Proof.
  intros w. split.
  - assert (L : (0 <! lambda_eiv n_conf)%K) by (vm_compute; reflexivity).
    apply (C115_bayesian Qc _ _ _ _ ksolve tripled norm1 c_cov c_cov n_conf "net" 2 3 c_v c_i c_y (cz 1 1) (cz 1 1) [zq 1; zq 1; zq 1] w true 1%Z (fun _ => None) ksolve_solver_sound ksolve_solver_complete tripled_sound tripled_complete L eq_refl eq_refl ltac:(lia)).
    + apply shapeb_shape; reflexivity.
    + apply shapeb_shape; reflexivity.
    + intros _. split; [reflexivity|]. intros W E. unfold c_cov in E. assert (Q : forall a b : mat Qc, Ok a = Ok b -> b = a) by (intros a b Q; congruence). apply Q in E. subst W.
      replace (blocks _ _ _ _) with (mdiag (map zq [10; 2; 2; 5; 5; 1; 1; 1; 2; 1; 1; 2]%Z)) by (apply meqb_eq; vm_compute; reflexivity).
      apply (posdef_diag (K := Qc) (map zq [10; 2; 2; 5; 5; 1; 1; 1; 2; 1; 1; 2]%Z)). repeat constructor.
    + apply symmetricb_ok. vm_compute. reflexivity.
    + exact c_lines.
    + exact c_reference.
  - destruct w.
    + destruct C112_bayesian_weighted_ex as (y & y' & its & its' & E & _). eexists. exact E.
    + destruct C112_bayesian_unweighted_ex as ((y & y' & its & its' & E & _) & _). eexists. exact E.
Qed.

(** *** a line between two nodes, four samples; the table of the data has the singular values 6, 3, 0 and 0 *)
Definition l_c (a b : Z) (d : positive) : cplx Qc := Cx (qq a d) (qq b d).
Definition l_y : mat (cplx Qc) := rows [[(n_w * l_c 2 0 1)%K; (n_w * l_c (-2) 0 1)%K]; [(n_w * l_c (-2) 0 1)%K; (n_w * l_c 2 0 1)%K]].
Definition l_u : mat (cplx Qc) := rows [[l_c 1 0 2; l_c 1 0 2; l_c 1 0 2; l_c 1 0 2]; [l_c 1 0 2; l_c (-1) 0 2; l_c (-1) 0 2; l_c 1 0 2];
  [l_c (-1) 0 2; l_c 1 0 2; l_c (-1) 0 2; l_c 1 0 2]; [l_c (-1) 0 2; l_c (-1) 0 2; l_c 1 0 2; l_c 1 0 2]].
Definition l_r : cplx Qc := (1 / l_c 4 1 1)%K.
Definition l_k : cplx Qc := l_c 1 0 3.
Definition l_vh : mat (cplx Qc) := rows [[l_k; 0%K; (l_k * l_c 2 0 1 * n_w)%K; (l_k * l_c (-2) 0 1 * n_w)%K];
  [(l_k * l_r * l_c 8 0 1)%K; (l_k * l_r * l_c 9 0 1)%K; (l_k * l_r * l_c (-2) 0 1 * n_w)%K; (l_k * l_r * l_c 2 0 1 * n_w)%K];
  [(l_k * conj n_w * l_c (-2) 0 1)%K; (l_k * conj n_w * l_c 2 0 1)%K; l_k; 0%K];
  [(l_k * l_r * conj n_w * l_c 2 0 1)%K; (l_k * l_r * conj n_w * l_c (-2) 0 1)%K; (l_k * l_r * l_c 8 0 1)%K; (l_k * l_r * l_c 9 0 1)%K]].
(** the inverse of the coefficients of the rows of (I, Y) with respect to the first two rows of [l_vh] *)
Definition l_low : mat (cplx Qc) := rows [[l_k; 0%K]; [(l_k * l_r * l_c 8 0 1)%K; (l_r * l_c 3 0 1)%K]].
Definition l_inv : mat (cplx Qc) := rows [[l_c 3 0 1; 0%K]; [l_c (-8) 0 3; l_c 4 1 3]].
Definition l_x : mat (cplx Qc) := mmul (mk 4 2 (fun t k => (get l_u t k * if (k =? 0)%nat then l_c 6 0 1 else l_c 3 0 1)%K)) l_low.
Definition l_v : mat (cplx Qc) := mmap (fun z => (z + l_c 20 1 1)%K) l_x.
Definition l_i : mat (cplx Qc) := mmul l_v l_y.
Definition l_p : mat (cplx Qc) := mmul l_inv (mk 2 4 (fun k t => (conj (get l_u t k) * if (k =? 0)%nat then l_c 1 0 6 else l_c 1 0 3)%K)).
Definition l_pinv (_ : mat (cplx Qc)) : mat (cplx Qc) := l_p.
Definition l_pinv' (m : mat (cplx Qc)) : mat (cplx Qc) := if meqb m l_x then l_p else ctr m.
Definition l_svd (_ : mat (cplx Qc)) : mat (cplx Qc) * list Qc * mat (cplx Qc) := (l_u, [zq 6; zq 3; zq 0; zq 0], l_vh).
Definition l_right (pinv : mat (cplx Qc) -> mat (cplx Qc)) (svd : mat (cplx Qc) -> mat (cplx Qc) * list Qc * mat (cplx Qc)) : bool :=
  let '(x, y) := centred true l_v l_i in penroseb 4 2 x (pinv x) && let '(u, s, vh) := svd (hstack2 x y) in svdb 4 4 (hstack2 x y) u s vh.
Lemma l_right_ok : forall pinv svd, l_right pinv svd = true -> routines_right pinv svd true 4 2 l_v l_i.
Proof. intros pinv svd H. unfold l_right in H. unfold routines_right. destruct (centred true l_v l_i) as [x y]. apply andb_true_iff in H. destruct H as [H1 H2]. split; [apply penroseb_ok; exact H1|]. destruct (svd (hstack2 x y)) as [[u s] vh]. apply svdb_ok. exact H2. Qed.
Definition l_opt : options := Options "net" 1 false false false "1" false false true true false false.
Definition l_files : files Qc := fun p => if String.eqb p (simulation_path "net") then Some (Simulation l_i l_v l_i l_v l_y [zq 1; zq 2] (zq 4) [1; 1]%Z) else None.
Lemma l_line : forall j k, j < 2 -> k < 2 -> nonzero_parts (get l_y j k).
Proof. intros [|[|j]] [|[|k]] Hj Hk; try lia; split; intro Z; apply (f_equal (fun q : Qc => keqb q 0%K)) in Z; vm_compute in Z; discriminate. Qed.
Lemma l_sym : sym_part 2 l_y = l_y.
Proof. apply meqb_eq. vm_compute. reflexivity. Qed.
Example C115_program_ex :
  identify l_pinv' (fun m => turned (l_svd m)) tripled norm1 (fun x => x) cov1 cov1 n_conf l_opt l_files = identify l_pinv l_svd ksolve norm1 (fun x => x) cov1 cov1 n_conf l_opt l_files /\
  snd (identify l_pinv l_svd ksolve norm1 (fun x => x) cov1 cov1 n_conf l_opt l_files) = Ok tt /\ meqb (l_pinv' l_v) (l_pinv l_v) = false.
Proof.
  split; [|split; [apply okb_ok; vm_compute; reflexivity|vm_compute; reflexivity]].
  assert (L : (0 <! lambda_eiv n_conf)%K) by (vm_compute; reflexivity). assert (L0 : (0 <=! lambda_lasso n_conf)%K) by (vm_compute; reflexivity).
  eapply (C115_program Qc _ _ _ _ l_pinv l_pinv' l_svd (fun m => turned (l_svd m)) ksolve tripled norm1 (fun x => x) cov1 cov1 n_conf l_opt l_files 4 2 l_i l_v l_i l_v l_y [zq 1; zq 2] (zq 4) [1; 1]%Z
    ksolve_solver_sound ksolve_solver_complete tripled_sound tripled_complete L0 L eq_refl eq_refl ltac:(lia) eq_refl).
  - intros x [<-|[<-|[]]]; reflexivity.
  - reflexivity.
  - reflexivity.
  - right. reflexivity.
  - reflexivity.
  - apply shapeb_shape. vm_compute. reflexivity.
  - apply shapeb_shape. vm_compute. reflexivity.
  - apply l_right_ok. vm_compute. reflexivity.
  - apply l_right_ok. vm_compute. reflexivity.
  - unfold values_apart, l_svd. cbn [centred]. intros [|[|a]] [|[|[|[|b]]]] Ha Hb Hc; try lia; vm_compute; reflexivity.
  - apply (left_inverse 4 2 _ l_p); vm_compute; reflexivity.
  - intros a Ha j k Hj Hk _. assert (E : meqb a l_y = true).
    { assert (B : match complex_regression_fit l_pinv (fst (centred true l_v l_i)) (snd (centred true l_v l_i)) with Ok b => meqb b l_y | Err _ => false end = true) by (vm_compute; reflexivity). rewrite Ha in B. exact B. }
    apply meqb_eq in E. subst a. rewrite l_sym. apply l_line; assumption.
  - intros t Ht. assert (E : meqb (as_matrix t) l_y = true).
    { assert (B : match tls_fit l_svd (fst (centred true l_v l_i)) (A2 (snd (centred true l_v l_i))) with Ok b => meqb (as_matrix b) l_y | Err _ => false end = true) by (vm_compute; reflexivity). rewrite Ht in B. exact B. }
    apply meqb_eq in E. rewrite E, l_sym. split; [intros j k Hj Hk _; apply l_line; assumption|]. intros [|[|k]] Hk; try lia; split; intro Z; apply (f_equal (fun q : Qc => keqb q 0%K)) in Z; vm_compute in Z; discriminate.
  - intros _. split; [reflexivity|]. intros W E. unfold cov1 in E. assert (Q : forall a b : mat Qc, Ok a = Ok b -> b = a) by (intros a b Q; congruence). apply Q in E. subst W.
    replace (meye _) with (mdiag (map zq [1; 1; 1; 1; 1; 1; 1; 1; 1; 1; 1; 1; 1; 1; 1; 1]%Z)) by (apply meqb_eq; vm_compute; reflexivity).
    apply (posdef_diag (K := Qc) (map zq [1; 1; 1; 1; 1; 1; 1; 1; 1; 1; 1; 1; 1; 1; 1; 1]%Z)). repeat constructor.
Qed.
