(** Property C112 (numbers of the nodes), continued: the Lasso and the whole of the standard methods. *)
From Coq Require Import String.
From Coq Require Import Bool Arith ZArith Lia List Permutation Qcanon Reals.
From Verif Require Import BasePy BaseFld BaseOrd BaseSum BaseMat BaseNumpy BaseLin BaseEx SpecMatrix ModelMatrixOps ModelPrior ModelFit ModelLS SpecPrior SpecLS SpecFit SpecIdent SpecBayes
  ModelIdent ModelRun SpecRun SpecOrder SpecTLS SpecOffset SpecRenumber ProofFitBase ProofFrozen ProofFitRep ProofOrder5 ProofOrderRun ProofEquiv ProofEquiv2 ProofEquiv3 PropRun PropOffset PropRenumber.
Import ListNotations.
Close Scope R_scope. Close Scope Qc_scope. Close Scope Q_scope. Close Scope string_scope. Open Scope list_scope. Open Scope nat_scope.

(** the solver solves every system that has one solution only; the estimate of ordinary least squares, made symmetric, has no
    vanishing line (nor, without the Laplacian structure, a vanishing element on the diagonal), so that the weights of the Lasso are not zero *)
Theorem C112_standard :
  forall (K : Type) (O : Ops K) (F : Fld K) (O2 : OrdOps K) (OF : OrdFld K) pinv svd spsolve (conf : config K) name lap T n p (v v' i i' : mat (cplx K)) it s s',
  solver_sound spsolve -> solver_complete spsolve -> (0 <=! lambda_lasso conf)%K -> 2 <= n -> numbering n p ->
  columns_renumbered T n p v v' -> columns_renumbered T n p i i' ->
  routines_right pinv svd lap T n v i -> routines_right pinv svd lap T n v' i' -> values_apart svd lap n v i -> inj (fst (centred lap v i)) ->
  (forall a, complex_regression_fit pinv (fst (centred lap v i)) (snd (centred lap v i)) = Ok a ->
    forall j k, j < n -> k < n -> (lap = true -> j <> k) -> nonzero_parts (get (sym_part n a) j k)) ->
  both (three_renumbered n p) (snd (standard_methods pinv svd spsolve conf name (Some v) i lap it s)) (snd (standard_methods pinv svd spsolve conf name (Some v') i' lap it s')).
Proof.
  intros K O F O2 OF pinv svd spsolve conf name lap T n p v v' i i' it s s' Hs Hc Hl Hn HP HV HI L L' A Ix NZ.
  pose proof (standard_ren n p HP pinv svd spsolve spsolve conf T v v' i i' lap it Hs Hc Hs Hc Hl Hn HV HI L L' A Ix) as H.
  assert (B : both (three_renumbered n p) (standard_estimates pinv svd spsolve conf v i lap it) (standard_estimates pinv svd spsolve conf v' i' lap it)).
  { unfold both in *. destruct (standard_estimates pinv svd spsolve conf v i lap it) as [[[o t] l]|e]; destruct (standard_estimates pinv svd spsolve conf v' i' lap it) as [[[o' t'] l']|e'];
      apply H; intros a Ha; apply (params_nonzero n lap); try apply shape_mk; split; [intros j k Hk Hj; apply (NZ a Ha); lia|intros -> j Hj; apply (NZ a Ha); try lia; discriminate
        |intros j k Hk Hj; apply (NZ a Ha); lia|intros -> j Hj; apply (NZ a Ha); try lia; discriminate|intros j k Hk Hj; apply (NZ a Ha); lia|intros -> j Hj; apply (NZ a Ha); try lia; discriminate
        |intros j k Hk Hj; apply (NZ a Ha); lia|intros -> j Hj; apply (NZ a Ha); try lia; discriminate]. }
  unfold standard_methods. destruct (standard_estimates pinv svd spsolve conf v i lap it) as [[[o t] l]|e]; destruct (standard_estimates pinv svd spsolve conf v' i' lap it) as [[[o' t'] l']|e']; exact B.
Qed.
Print Assumptions C112_standard.

(** *** four samples at two nodes; the singular values of the table are 10/3, 5/2, 0 and 0 *)
Definition n_q (a : Z) (b : positive) : cplx Qc := Cx (qq a b) (zq 0).
Definition n_w : cplx Qc := Cx (qq 3 5) (qq 4 5).
Definition n_y : mat (cplx Qc) := rows [[(n_w * n_q 24 25)%K; (n_w * n_q (-7) 25)%K]; [(n_w * n_q (-7) 25)%K; (n_w * n_q 337 300)%K]].
Definition n_v : mat (cplx Qc) := ex_v.
Definition n_i : mat (cplx Qc) := mmul n_v n_y.
Definition n_v' : mat (cplx Qc) := mk 4 2 (fun t j => get n_v t (swap2 j)).
Definition n_i' : mat (cplx Qc) := mk 4 2 (fun t j => get n_i t (swap2 j)).
Definition n_u : mat (cplx Qc) := mmul ex_u (rows [[n_q 3 5; n_q 4 5; n_q 0 1; n_q 0 1]; [n_q (-4) 5; n_q 3 5; n_q 0 1; n_q 0 1]; [n_q 0 1; n_q 0 1; n_q 1 1; n_q 0 1]; [n_q 0 1; n_q 0 1; n_q 0 1; n_q 1 1]]).
(** the row (a q, b q) for one of the two eigenvectors q *)
Definition n_row (a b : cplx Qc) (q r : cplx Qc) : list (cplx Qc) := [(a * q)%K; (a * r)%K; (b * q)%K; (b * r)%K].
Definition n_vh : mat (cplx Qc) := rows [n_row (n_q 3 5) (n_w * n_q 4 5)%K (n_q 3 5) (n_q (-4) 5); n_row (n_q 4 5) (n_w * n_q 3 5)%K (n_q 4 5) (n_q 3 5);
  n_row (conj n_w * n_q (-4) 5)%K (n_q 3 5) (n_q 3 5) (n_q (-4) 5); n_row (conj n_w * n_q (-3) 5)%K (n_q 4 5) (n_q 4 5) (n_q 3 5)].
Definition n_svd (m : mat (cplx Qc)) : mat (cplx Qc) * list Qc * mat (cplx Qc) :=
  (n_u, [qq 10 3; qq 5 2; zq 0; zq 0], if meqb m (hstack2 (fst (centred false n_v n_i)) (snd (centred false n_v n_i))) then n_vh else mk 4 4 (fun k j => get n_vh k (nth j [1; 0; 3; 2] 0))).
Definition nrightb (v i : mat (cplx Qc)) : bool :=
  let '(x, y) := centred false v i in penroseb 4 2 x (ex_pinv x) && let '(u, s, vh) := n_svd (hstack2 x y) in svdb 4 4 (hstack2 x y) u s vh.
Lemma nrightb_ok : forall v i, nrightb v i = true -> routines_right ex_pinv n_svd false 4 2 v i.
Proof. intros v i H. unfold nrightb in H. unfold routines_right. destruct (centred false v i) as [x y]. apply andb_true_iff in H. destruct H as [H1 H2]. split; [apply penroseb_ok; exact H1|]. destruct (n_svd (hstack2 x y)) as [[u s] vh]. apply svdb_ok. exact H2. Qed.
Definition n_conf : config Qc := Config Qc (zq 2) (zq 1) (zq 1) (zq 0) (zq 0) true true false (zq 1) (zq 1) (zq 1) (zq 1).
Definition n_run (v i : mat (cplx Qc)) : res (mat (cplx Qc) * mat (cplx Qc) * mat (cplx Qc)) := snd (standard_methods ex_pinv n_svd ksolve n_conf "net" (Some v) i false 1 (fun _ => None)).
Example C112_standard_ex : both (three_renumbered 2 swap2) (n_run n_v n_i) (n_run n_v' n_i') /\ exists o t l, n_run n_v n_i = Ok (o, t, l) /\ meqb o n_y = true /\ meqb o l = false /\ meqb (n_v') n_v = false.
Proof.
  split.
  - apply (C112_standard Qc _ _ _ _ ex_pinv n_svd ksolve n_conf "net" false 4 2 swap2 n_v n_v' n_i n_i' 1 (fun _ => None) (fun _ => None)).
    + apply ksolve_solver_sound.
    + apply ksolve_solver_complete.
    + reflexivity.
    + lia.
    + exact swap2_numbering.
    + split; [apply shapeb_shape; reflexivity|]. split; [apply shape_mk|]. intros t j Ht Hj. unfold n_v'. rewrite get_mk by assumption. reflexivity.
    + split; [apply shapeb_shape; vm_compute; reflexivity|]. split; [apply shape_mk|]. intros t j Ht Hj. unfold n_i'. rewrite get_mk by assumption. reflexivity.
    + apply nrightb_ok. vm_compute. reflexivity.
    + apply nrightb_ok. vm_compute. reflexivity.
    + unfold values_apart, n_svd. cbn [centred]. intros [|[|a]] [|[|[|[|b]]]] Ha Hb Hc; try lia; vm_compute; reflexivity.
    + apply (left_inverse 4 2 _ (ex_pinv (fst (centred false n_v n_i)))); vm_compute; reflexivity.
    + intros a Ha j k Hj Hk _. assert (E : meqb a n_y = true).
      { assert (B : match complex_regression_fit ex_pinv (fst (centred false n_v n_i)) (snd (centred false n_v n_i)) with Ok b => meqb b n_y | Err _ => false end = true) by (vm_compute; reflexivity). rewrite Ha in B. exact B. }
      apply meqb_eq in E. subst a. destruct j as [|[|j]], k as [|[|k]]; try lia; split; intro Z; apply (f_equal (fun q : Qc => keqb q 0%K)) in Z; vm_compute in Z; discriminate.
  - assert (B : match n_run n_v n_i with Ok (o, t, l) => meqb o n_y && negb (meqb o l) | Err _ => false end = true) by (vm_compute; reflexivity).
    destruct (n_run n_v n_i) as [[[o t] l]|e]; [|discriminate]. apply andb_true_iff in B. destruct B as [B1 B2]. exists o, t, l. split; [reflexivity|]. split; [exact B1|]. split; [apply negb_true_iff; exact B2|vm_compute; reflexivity].
Qed.
