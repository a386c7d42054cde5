(** Property C108: the order of the samples has no influence on the estimates. *)
From Coq Require Import Arith ZArith Lia List Bool Permutation Qcanon.
From Verif Require Import BasePy BaseFld BaseOrd BaseSum BaseMat BaseNumpy BaseLin BaseEx ModelMatrixOps ModelPrior ModelLS ModelFit SpecMatrix SpecLS SpecFit SpecOrder ProofFitBase ProofFitEIV ProofFitRep ProofOrder5 PropLS PropFit.
Import ListNotations.
Close Scope Qc_scope. Close Scope Q_scope. Open Scope nat_scope.

Theorem C108_ols :
  forall (K : Type) (O : Ops K) (F : Fld K) (O2 : OrdOps K) (OF : OrdFld K) (pinv : mat (cplx K) -> mat (cplx K)) T p n m (x x' z z' : mat (cplx K)),
  new_order T p -> reordered T n p x x' -> reordered T m p z z' -> penrose T n x (pinv x) -> penrose T n x' (pinv x') ->
  complex_regression_fit pinv x' z' = complex_regression_fit pinv x z.
Proof. intros K O F O2 OF pinv T p n m x x' z z' HP. apply (ols_order T p HP). Qed.
Print Assumptions C108_ols.

(** total least squares: the singular values used and the others are apart (otherwise the decomposition and the estimate are a matter of choice) *)
Theorem C108_tls :
  forall (K : Type) (O : Ops K) (F : Fld K) (O2 : OrdOps K) (OF : OrdFld K) (svd : mat (cplx K) -> mat (cplx K) * list K * mat (cplx K)) T p n m (x x' y y' : mat (cplx K)) s,
  new_order T p -> reordered T n p x x' -> reordered T m p y y' ->
  (let '(u, s0, vh) := svd (hstack2 x y) in s0 = s /\ is_svd T (n + m) (hstack2 x y) u s0 vh) ->
  (let '(u, s0, vh) := svd (hstack2 x' y') in is_svd T (n + m) (hstack2 x' y') u s0 vh) -> apart n (n + m) s ->
  tls_fit svd x' (A2 y') = tls_fit svd x (A2 y).
Proof. intros K O F O2 OF svd T p n m x x' y y' s HP. apply (tls_order T p HP). Qed.
Print Assumptions C108_tls.

Theorem C108_tls_single_output :
  forall (K : Type) (O : Ops K) (F : Fld K) (O2 : OrdOps K) (OF : OrdFld K) (svd : mat (cplx K) -> mat (cplx K) * list K * mat (cplx K)) T p n (x x' : mat (cplx K)) (y y' : list (cplx K)) s,
  new_order T p -> reordered T n p x x' -> length y = T -> length y' = T -> (forall t, t < T -> vget y' t = vget y (p t)) ->
  (let '(u, s0, vh) := svd (hstack2 x (colm y)) in s0 = s /\ is_svd T (n + 1) (hstack2 x (colm y)) u s0 vh) ->
  (let '(u, s0, vh) := svd (hstack2 x' (colm y')) in is_svd T (n + 1) (hstack2 x' (colm y')) u s0 vh) -> apart n (n + 1) s ->
  tls_fit svd x' (A1 y') = tls_fit svd x (A1 y).
Proof.
  intros K O F O2 OF svd T p n x x' y y' s HP HX L L' HY. change (tls_fit svd x' (A1 y')) with (tls_fit svd x' (A2 (colm y'))). change (tls_fit svd x (A1 y)) with (tls_fit svd x (A2 (colm y))).
  apply (tls_order T p HP svd n 1 x x' (colm y) (colm y') s HX). split; [rewrite <- L; apply shape_mk|]. split; [rewrite <- L'; apply shape_mk|]. intros t j Ht Hj. unfold colm. pose proof (order_lt T p HP t Ht). rewrite !get_mk by lia. apply HY. exact Ht.
Qed.
Print Assumptions C108_tls_single_output.

(** the Bayesian regression: the whole estimator afterwards, with the records of the iterations, or the same exception *)
Theorem C108_regression :
  forall (K : Type) (O : Ops K) (F : Fld K) (O2 : OrdOps K) (OF : OrdFld K) spsolve (e : estimator K) T p n (x x' z z' : mat (cplx K)) y0,
  new_order T p -> reordered T n p x x' -> reordered T n p z z' ->
  br_fit spsolve e x' z' y0 = br_fit spsolve e x z y0.
Proof. intros K O F O2 OF sv e T p n x x' z z' y0 HP. apply (br_order T p HP). Qed.
Print Assumptions C108_regression.

Theorem C108_eiv_unweighted :
  forall (K : Type) (O : Ops K) (F : Fld K) (O2 : OrdOps K) (OF : OrdFld K) spsolve cabs (e : estimator K) T p n (x x' z z' : mat (cplx K)) zw y0,
  new_order T p -> reordered T n p x x' -> reordered T n p z z' ->
  eiv_fit spsolve cabs e x' z' None zw y0 = eiv_fit spsolve cabs e x z None zw y0.
Proof. intros K O F O2 OF sv ca e T p n x x' z z' zw y0 HP. intros. apply (eiv_order T p HP sv ca e n); assumption. Qed.
Print Assumptions C108_eiv_unweighted.

(** with weights, which follow their samples *)
Theorem C108_eiv_weighted :
  forall (K : Type) (O : Ops K) (F : Fld K) (O2 : OrdOps K) (OF : OrdFld K) spsolve cabs (e : estimator K) T p n (x x' z z' : mat (cplx K)) xw xw' zw zw' y0,
  solver_sound spsolve -> solver_complete spsolve -> new_order T p -> reordered T n p x x' -> reordered T n p z z' -> shape y0 n n ->
  posdef (2 * (n * T)) xw -> reordered_weights T n p xw xw' -> (zw = None <-> zw' = None) ->
  eiv_fit spsolve cabs e x' z' (Some xw') zw' y0 = eiv_fit spsolve cabs e x z (Some xw) zw y0.
Proof. intros K O F O2 OF sv ca e T p n x x' z z' xw xw' zw zw' y0 SS SC HP. intros. apply (eiv_order_weighted T p HP sv ca e n); assumption. Qed.
Print Assumptions C108_eiv_weighted.

(** *** two samples at two nodes in the other order *)
Definition other (t : nat) : nat := 1 - t.
Lemma other_order : new_order 2 other.
Proof. unfold new_order. cbn. apply perm_swap. Qed.
Definition x2' : mat (cplx Qc) := czrows [[(0,0);(1,1)]; [(1,0);(0,1)]]%Z.
Definition z2' : mat (cplx Qc) := czrows [[(5,0);(1,1)]; [(1,2);(3,1)]]%Z.
Definition wt2' : mat Qc := mk 8 8 (fun i j => if (i =? j) then nth i (map zq [2; 1; 4; 3; 6; 5; 8; 7]%Z) (zq 0) else zq 0).
Lemma x2_reordered : reordered 2 2 other x2 x2'.
Proof. split; [apply shapeb_shape; reflexivity|]. split; [apply shapeb_shape; reflexivity|]. intros [|[|t]] [|[|j]] Ht Hj; try lia; reflexivity. Qed.
Lemma z2_reordered : reordered 2 2 other z2 z2'.
Proof. split; [apply shapeb_shape; reflexivity|]. split; [apply shapeb_shape; reflexivity|]. intros [|[|t]] [|[|j]] Ht Hj; try lia; reflexivity. Qed.
Lemma posdef_wt2 : posdef 8 wt2.
Proof.
  replace wt2 with (mdiag (map zq [1; 2; 3; 4; 5; 6; 7; 8]%Z)) by (apply meqb_eq; vm_compute; reflexivity). apply (posdef_diag (K := Qc) (map zq [1; 2; 3; 4; 5; 6; 7; 8]%Z)). repeat constructor.
Qed.
Lemma wt2_reordered : reordered_weights 2 2 other wt2 wt2'.
Proof.
  split; [apply shape_mk|]. intros c c' k k' t t' Hc Hc' Hk Hk' Ht Ht'.
  destruct c as [|[|c]]; [| |lia]; (destruct c' as [|[|c']]; [| |lia]); (destruct k as [|[|k]]; [| |lia]); (destruct k' as [|[|k']]; [| |lia]); (destruct t as [|[|t]]; [| |lia]); (destruct t' as [|[|t']]; [| |lia]); vm_compute; reflexivity.
Qed.
Example C108_ex :
  br_fit ksolve (estl 2) x2' z2' y2 = br_fit ksolve (estl 2) x2 z2 y2 /\ ran (br_fit ksolve (estl 2) x2' z2' y2) = (2, true) /\ final (br_fit ksolve (estl 2) x2' z2' y2) lap_nonzero = true /\
  eiv_fit ksolve c_norm1 (estl 2) x2' z2' None None y2 = eiv_fit ksolve c_norm1 (estl 2) x2 z2 None None y2 /\
  eiv_fit ksolve c_norm1 (estl 1) x2' z2' (Some wt2') (Some wt2') y2 = eiv_fit ksolve c_norm1 (estl 1) x2 z2 (Some wt2) (Some wt2) y2 /\
  (* the weights have to follow their samples *)
  match e_adm (fst (eiv_fit ksolve c_norm1 (estl 1) x2' z2' (Some wt2) (Some wt2) y2)), e_adm (fst (eiv_fit ksolve c_norm1 (estl 1) x2 z2 (Some wt2) (Some wt2) y2)) with
  | Some y, Some y' => meqb y y' = false | _, _ => False end.
Proof.
  split; [apply (C108_regression Qc _ _ _ _ ksolve (estl 2) 2 other 2 _ _ _ _ y2 other_order x2_reordered z2_reordered)|]. split; [vm_compute; reflexivity|]. split; [vm_compute; reflexivity|].
  split; [apply (C108_eiv_unweighted Qc _ _ _ _ ksolve c_norm1 (estl 2) 2 other 2 _ _ _ _ None y2 other_order x2_reordered z2_reordered)|]. split; [|vm_compute; reflexivity].
  apply (C108_eiv_weighted Qc _ _ _ _ ksolve c_norm1 (estl 1) 2 other 2 x2 x2' z2 z2' wt2 wt2' (Some wt2) (Some wt2') y2 ksolve_solver_sound ksolve_solver_complete other_order x2_reordered z2_reordered).
  - apply shape_mk.
  - exact posdef_wt2.
  - exact wt2_reordered.
  - split; discriminate.
Qed.

(** *** total least squares with singular values 2 and 1; the decomposition of the reordered data has another sign *)
Definition tl_x : mat (cplx Qc) := rows [[Cx (qq 6 5) (zq 0)]; [Cx (qq (-4) 5) (zq 0)]].
Definition tl_y : mat (cplx Qc) := rows [[Cx (qq 8 5) (zq 0)]; [Cx (qq 3 5) (zq 0)]].
Definition tl_x' : mat (cplx Qc) := rows [[Cx (qq (-4) 5) (zq 0)]; [Cx (qq 6 5) (zq 0)]].
Definition tl_y' : mat (cplx Qc) := rows [[Cx (qq 3 5) (zq 0)]; [Cx (qq 8 5) (zq 0)]].
Definition tl_vh' : mat (cplx Qc) := rows [[Cx (qq 3 5) (zq 0); Cx (qq 4 5) (zq 0)]; [Cx (qq 4 5) (zq 0); Cx (qq (-3) 5) (zq 0)]].
Definition tl_svd (a : mat (cplx Qc)) : mat (cplx Qc) * list Qc * mat (cplx Qc) :=
  if meqb a (hstack2 tl_x tl_y) then (meye 2, [zq 2; zq 1], ex_vh) else (czrows [[(0,0);(-1,0)]; [(1,0);(0,0)]]%Z, [zq 2; zq 1], tl_vh').
Ltac check_svd := split; [apply shapeb_shape; reflexivity|]; split; [first [apply shape_mk|apply shapeb_shape; reflexivity]|]; split; [apply shapeb_shape; reflexivity|];
  split; [apply meqb_eq; vm_compute; reflexivity|]; split; [apply meqb_eq; vm_compute; reflexivity|]; split; [apply meqb_eq; vm_compute; reflexivity|]; split; [reflexivity|]; split; [|split];
  [intros [|[|i]] Hi; [vm_compute; reflexivity|vm_compute; reflexivity|simpl in Hi; exfalso; lia]|intros [|[|i]] [|[|j]] Hij Hj; simpl in Hj; try lia; vm_compute; reflexivity|apply meqb_eq; vm_compute; reflexivity].
Lemma tl_ok : is_svd 2 (1 + 1) (hstack2 tl_x tl_y) (meye 2) [zq 2; zq 1] ex_vh.
Proof. check_svd. Qed.
Lemma tl_ok' : is_svd 2 (1 + 1) (hstack2 tl_x' tl_y') (czrows [[(0,0);(-1,0)]; [(1,0);(0,0)]]%Z) [zq 2; zq 1] tl_vh'.
Proof. check_svd. Qed.
Example C108_tls_ex :
  tls_fit tl_svd tl_x' (A2 tl_y') = tls_fit tl_svd tl_x (A2 tl_y) /\ match tls_fit tl_svd tl_x' (A2 tl_y') with Ok (A1 [b]) => b = Cx (qq 4 3) (zq 0) | _ => False end.
Proof.
  split; [|apply cplx_eq; vm_compute; reflexivity].
  apply (C108_tls Qc _ _ _ _ tl_svd 2 other 1 1 tl_x tl_x' tl_y tl_y' [zq 2; zq 1] other_order).
  - split; [apply shapeb_shape; reflexivity|]. split; [apply shapeb_shape; reflexivity|]. intros [|[|t]] [|j] Ht Hj; try lia; reflexivity.
  - split; [apply shapeb_shape; reflexivity|]. split; [apply shapeb_shape; reflexivity|]. intros [|[|t]] [|j] Ht Hj; try lia; reflexivity.
  - change (tl_svd (hstack2 tl_x tl_y)) with (if meqb (hstack2 tl_x tl_y) (hstack2 tl_x tl_y) then (meye 2, [zq 2; zq 1], ex_vh) else (czrows [[(0,0);(-1,0)]; [(1,0);(0,0)]]%Z, [zq 2; zq 1], tl_vh')).
    replace (meqb (hstack2 tl_x tl_y) (hstack2 tl_x tl_y)) with true by (vm_compute; reflexivity). split; [reflexivity|exact tl_ok].
  - unfold tl_svd. replace (meqb (hstack2 tl_x' tl_y') (hstack2 tl_x tl_y)) with false by (vm_compute; reflexivity). exact tl_ok'.
  - intros [|i] [|[|j]] Hi Hj HM; try lia. vm_compute. reflexivity.
Qed.
