(** Property C118: repeated samples. *)
From Coq Require Import String.
From Coq Require Import Bool Arith ZArith Lia List Permutation Qcanon Reals.
From Verif Require Import BasePy BaseFld BaseOrd BaseSum BaseMat BaseNumpy BaseLin BaseEx SpecMatrix ModelMatrixOps ModelPrior ModelFit ModelLS SpecPrior SpecLS SpecFit SpecIdent SpecBayes
  ModelIdent ModelRun SpecRun SpecOrder SpecTLS SpecOffset SpecRenumber SpecFactor SpecRepeat ProofFitBase ProofFitOpt ProofIdentMain ProofIdentThm ProofIdent ProofPenalty ProofFrozen ProofBayes ProofBayesRun ProofFitRep ProofOffset ProofRunIO ProofOrder4 ProofOrder5 ProofOrderRun ProofRenumber2 ProofEquiv ProofEquiv2 ProofEquiv3 ProofEquiv4 ProofEquiv5 ProofEquiv6 ProofRenumberCov ProofRoutines ProofFactor ProofRepeat
  PropRun PropOffset PropRenumber PropRenumberRun PropRenumberEIV PropRoutines.
Import ListNotations.
Close Scope R_scope. Close Scope Qc_scope. Close Scope Q_scope. Close Scope string_scope. Open Scope list_scope. Open Scope nat_scope.

(** every sample recorded the same number of times, in any order: ordinary and total least squares give the same matrices (the program
    run with no iteration of the Lasso, whatever the configurations are), the same file is written and the run ends in the same way *)
Theorem C118_least_squares :
  forall (K : Type) (O : Ops K) (F : Fld K) (O2 : OrdOps K) (OF : OrdFld K) pinv svd spsolve (conf conf' : config K) name lap k T T' p n (v v' i i' : mat (cplx K)) it s,
  0 < k -> repeats k T T' p -> repeated T T' n p v v' -> repeated T T' n p i i' -> (it <= 0)%Z ->
  routines_right pinv svd lap T n v i -> routines_right pinv svd lap T' n v' i' -> values_apart svd lap n v i ->
  standard_methods pinv svd spsolve conf' name (Some v') i' lap it s = standard_methods pinv svd spsolve conf name (Some v) i lap it s.
Proof.
  intros K O F O2 OF pinv svd sp conf conf' name lap k T T' p n v v' i i' it s Hk HR HV HI Hit L L' A. unfold standard_methods.
  rewrite (rep_least k T T' p HR Hk pinv svd sp conf conf' n v v' i i' lap it Hit HV HI L L' A). reflexivity.
Qed.
Print Assumptions C118_least_squares.

(** with the Lasso: the factor of its penalty and the absolute tolerance must be multiplied by the number of records of a sample *)
Theorem C118_standard :
  forall (K : Type) (O : Ops K) (F : Fld K) (O2 : OrdOps K) (OF : OrdFld K) pinv svd spsolve (conf conf' : config K) name lap k T T' p n (v v' i i' : mat (cplx K)) it s,
  solver_sound spsolve -> solver_complete spsolve -> (0 <=! lambda_lasso conf)%K -> 2 <= n ->
  0 < k -> repeats k T T' p -> repeated T T' n p v v' -> repeated T T' n p i i' ->
  lambda_lasso conf' = (knat k * lambda_lasso conf)%K -> abs_tol conf' = (knat k * abs_tol conf)%K -> rel_tol conf' = rel_tol conf ->
  routines_right pinv svd lap T n v i -> routines_right pinv svd lap T' n v' i' -> values_apart svd lap n v i -> inj (fst (centred lap v i)) ->
  (forall a, complex_regression_fit pinv (fst (centred lap v i)) (snd (centred lap v i)) = Ok a ->
    forall j l, j < n -> l < n -> (lap = true -> j <> l) -> nonzero_parts (get (sym_part n a) j l)) ->
  standard_methods pinv svd spsolve conf' name (Some v') i' lap it s = standard_methods pinv svd spsolve conf name (Some v) i lap it s.
Proof.
  intros K O F O2 OF pinv svd sp conf conf' name lap k T T' p n v v' i i' it s Hs Hc Hl Hn Hk HR HV HI C1 C2 C3 L L' A Ix NZ. unfold standard_methods.
  rewrite (rep_standard k T T' p HR Hk pinv svd sp conf conf' n v v' i i' lap it Hs Hc Hl Hn HV HI C1 C2 C3 L L' A Ix); [reflexivity|].
  intros a Ha. apply (params_nonzero n lap); [apply shape_mk|]. split; [intros j l Hlj Hj; apply (NZ a Ha); lia|intros -> j Hj; apply (NZ a Ha); try lia; discriminate].
Qed.
Print Assumptions C118_standard.

(** *** four samples, each recorded four times, one round after the other *)
Definition r_p (t : nat) : nat := t mod 4.
Definition r_v : mat (cplx Qc) := mk 16 2 (fun t j => get n_v (r_p t) j).
Definition r_i : mat (cplx Qc) := mk 16 2 (fun t j => get n_i (r_p t) j).
Definition r_pinv (m : mat (cplx Qc)) : mat (cplx Qc) := mmap (fun z => (z / cz (Z.of_nat (nr m)) 0)%K) (ctr m).
(** half a Hadamard matrix with four rows *)
Definition r_h (a b : nat) : cplx Qc := n_q (nth (4 * a + b) [1; 1; 1; 1; 1; -1; 1; -1; 1; 1; -1; -1; 1; -1; -1; 1]%Z 0%Z) 2.
Definition r_svd (m : mat (cplx Qc)) : mat (cplx Qc) * list Qc * mat (cplx Qc) :=
  if (nr m =? 16)%nat then (mk 16 16 (fun t l => (r_h (t / 4) (l / 4) * get n_u (t mod 4) (l mod 4))%K), [qq 20 3; zq 5; zq 0; zq 0], n_vh) else n_svd m.
Definition r_conf : config Qc := Config Qc (zq 2) (zq 1) (zq 1) (qq 1 100) (qq 1 100) true true false (zq 1) (zq 1) (zq 1) (zq 1).
Definition r_conf' : config Qc := Config Qc (zq 8) (zq 1) (zq 1) (qq 4 100) (qq 1 100) true true false (zq 1) (zq 1) (zq 1) (zq 1).
Definition rrightb (T : nat) (v i : mat (cplx Qc)) : bool :=
  let '(x, y) := centred false v i in penroseb T 2 x (r_pinv x) && let '(u, s, vh) := r_svd (hstack2 x y) in svdb T 4 (hstack2 x y) u s vh.
Lemma rrightb_ok : forall T v i, rrightb T v i = true -> routines_right r_pinv r_svd false T 2 v i.
Proof. intros T v i H. unfold rrightb in H. unfold routines_right. destruct (centred false v i) as [x y]. apply andb_true_iff in H. destruct H as [H1 H2]. split; [apply penroseb_ok; exact H1|]. destruct (r_svd (hstack2 x y)) as [[u s] vh]. apply svdb_ok. exact H2. Qed.
Definition r_run (conf : config Qc) (v i : mat (cplx Qc)) (it : Z) : res (mat (cplx Qc) * mat (cplx Qc) * mat (cplx Qc)) := snd (standard_methods r_pinv r_svd ksolve conf "net" (Some v) i false it (fun _ => None)).
Lemma r_repeats : repeats 4 4 16 r_p.
Proof. split; [intros t Ht; apply Nat.mod_upper_bound; lia|]. intros [|[|[|[|t]]]] Ht; try lia; vm_compute; reflexivity. Qed.
Lemma r_vs : repeated 4 16 2 r_p n_v r_v.
Proof. split; [apply shapeb_shape; vm_compute; reflexivity|]. split; [apply shape_mk|]. intros t j Ht Hj. unfold r_v. rewrite get_mk by assumption. reflexivity. Qed.
Lemma r_is : repeated 4 16 2 r_p n_i r_i.
Proof. split; [apply shapeb_shape; vm_compute; reflexivity|]. split; [apply shape_mk|]. intros t j Ht Hj. unfold r_i. rewrite get_mk by assumption. reflexivity. Qed.
Lemma r_right : routines_right r_pinv r_svd false 4 2 n_v n_i.
Proof. apply rrightb_ok. vm_compute. reflexivity. Qed.
Lemma r_right' : routines_right r_pinv r_svd false 16 2 r_v r_i.
Proof. apply rrightb_ok. vm_compute. reflexivity. Qed.
Lemma r_apart : values_apart r_svd false 2 n_v n_i.
Proof.
  assert (B : (let '(x, y) := centred false n_v n_i in let '(_, s, _) := r_svd (hstack2 x y) in forall_lt 2 (fun a => forall_lt 4 (fun b => (b <? 2) || kltb (vget s b) (vget s a)))) = true) by (vm_compute; reflexivity).
  unfold values_apart. destruct (centred false n_v n_i) as [x y]. destruct (r_svd (hstack2 x y)) as [[u s] vh]. intros a b Ha Hb Hc. pose proof (forall_lt_spec _ _ (forall_lt_spec _ _ B a Ha) b Hc) as E. cbv beta in E.
  replace (b <? 2) with false in E by (symmetry; apply Nat.ltb_ge; exact Hb). exact E.
Qed.
Lemma r_inj : inj (fst (centred false n_v n_i)).
Proof. apply (left_inverse 4 2 _ (r_pinv (fst (centred false n_v n_i)))); vm_compute; reflexivity. Qed.
Lemma r_nonzero : forall a, complex_regression_fit r_pinv (fst (centred false n_v n_i)) (snd (centred false n_v n_i)) = Ok a ->
  forall j l, j < 2 -> l < 2 -> (false = true -> j <> l) -> nonzero_parts (get (sym_part 2 a) j l).
Proof.
  intros a Ha j k Hj Hk _. assert (E : meqb a n_y = true).
  { assert (B : match complex_regression_fit r_pinv (fst (centred false n_v n_i)) (snd (centred false n_v n_i)) with Ok b => meqb b n_y | Err _ => false end = true) by (vm_compute; reflexivity). rewrite Ha in B. exact B. }
  apply meqb_eq in E. subst a. destruct j as [|[|j]], k as [|[|k]]; try lia; split; intro Z; apply (f_equal (fun q : Qc => keqb q 0%K)) in Z; vm_compute in Z; discriminate.
Qed.
Example C118_least_squares_ex : r_run r_conf r_v r_i 0 = r_run r_conf n_v n_i 0 /\ exists o t l, r_run r_conf n_v n_i 0 = Ok (o, t, l) /\ meqb o n_y = true /\ meqb t n_y = true.
Proof.
  split.
  - refine (f_equal snd (C118_least_squares Qc _ _ _ _ r_pinv r_svd ksolve r_conf r_conf "net" false 4 4 16 r_p 2 n_v r_v n_i r_i 0 (fun _ => None) ltac:(lia) r_repeats r_vs r_is ltac:(lia) r_right r_right' r_apart)).
  - assert (B : match r_run r_conf n_v n_i 0 with Ok (o, t, l) => meqb o n_y && meqb t n_y | Err _ => false end = true) by (vm_compute; reflexivity).
    destruct (r_run r_conf n_v n_i 0) as [[[o t] l]|e]; [|discriminate]. apply andb_true_iff in B. destruct B as [B1 B2]. exists o, t, l. auto.
Qed.
Example C118_standard_ex : r_run r_conf' r_v r_i 2 = r_run r_conf n_v n_i 2 /\ exists o t l, r_run r_conf n_v n_i 2 = Ok (o, t, l) /\ meqb o l = false.
Proof.
  split.
  - refine (f_equal snd (C118_standard Qc _ _ _ _ r_pinv r_svd ksolve r_conf r_conf' "net" false 4 4 16 r_p 2 n_v r_v n_i r_i 2 (fun _ => None) ksolve_solver_sound ksolve_solver_complete _ ltac:(lia) ltac:(lia) r_repeats r_vs r_is _ _ eq_refl r_right r_right' r_apart r_inj r_nonzero)); [vm_compute; reflexivity| |]; apply Qc_is_canon; reflexivity.
  - assert (B : match r_run r_conf n_v n_i 2 with Ok (o, t, l) => negb (meqb o l) | Err _ => false end = true) by (vm_compute; reflexivity).
    destruct (r_run r_conf n_v n_i 2) as [[[o t] l]|e]; [|discriminate]. exists o, t, l. split; [reflexivity|]. apply negb_true_iff. exact B.
Qed.

(** with an unchanged configuration the Lasso gives another matrix for the repeated samples, though they say nothing new *)
Theorem C118_unchanged_refuted :
  exists pinv svd spsolve (conf : config Qc) name k T T' p n (v v' i i' : mat (cplx Qc)) it s,
    solver_sound spsolve /\ solver_complete spsolve /\ (0 <! lambda_lasso conf)%K /\ 0 < k /\ repeats k T T' p /\ repeated T T' n p v v' /\ repeated T T' n p i i' /\
    routines_right pinv svd false T n v i /\ routines_right pinv svd false T' n v' i' /\ values_apart svd false n v i /\ inj (fst (centred false v i)) /\
    exists o t l o' t' l', snd (standard_methods pinv svd spsolve conf name (Some v) i false it s) = Ok (o, t, l) /\
      snd (standard_methods pinv svd spsolve conf name (Some v') i' false it s) = Ok (o', t', l') /\ o' = o /\ t' = t /\ l' <> l.
Proof.
  exists r_pinv, r_svd, ksolve, r_conf, "net"%string, 4, 4, 16, r_p, 2, n_v, r_v, n_i, r_i, 1%Z, (fun _ => None).
  split; [apply ksolve_solver_sound|]. split; [apply ksolve_solver_complete|]. split; [vm_compute; reflexivity|]. split; [lia|]. split; [exact r_repeats|]. split; [exact r_vs|]. split; [exact r_is|].
  split; [exact r_right|]. split; [exact r_right'|]. split; [exact r_apart|]. split; [exact r_inj|].
  assert (B : match snd (standard_methods r_pinv r_svd ksolve r_conf "net" (Some n_v) n_i false 1 (fun _ => None)), snd (standard_methods r_pinv r_svd ksolve r_conf "net" (Some r_v) r_i false 1 (fun _ => None)) with
    | Ok (o, t, l), Ok (o', t', l') => meqb o' o && meqb t' t && negb (meqb l' l) | _, _ => false end = true) by (vm_compute; reflexivity).
  destruct (snd (standard_methods r_pinv r_svd ksolve r_conf "net" (Some n_v) n_i false 1 (fun _ => None))) as [[[o t] l]|]; [|discriminate].
  destruct (snd (standard_methods r_pinv r_svd ksolve r_conf "net" (Some r_v) r_i false 1 (fun _ => None))) as [[[o' t'] l']|]; [|discriminate].
  apply andb_true_iff in B. destruct B as [B B3]. apply andb_true_iff in B. destruct B as [B1 B2]. exists o, t, l, o', t', l'. split; [reflexivity|]. split; [reflexivity|].
  split; [apply meqb_eq; exact B1|]. split; [apply meqb_eq; exact B2|]. intro E. subst l'. rewrite meqb_refl in B3. discriminate.
Qed.
Print Assumptions C118_unchanged_refuted.
