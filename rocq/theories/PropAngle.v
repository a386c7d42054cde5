(** Property C114: the reference of the angles. *)
From Coq Require Import Arith ZArith Lia List Bool Permutation Qcanon.
From Verif Require Import BasePy BaseFld BaseOrd BaseSum BaseMat BaseNumpy BaseLin BaseEx ModelMatrixOps ModelPrior ModelLS ModelFit SpecMatrix SpecLS SpecFit SpecOrder SpecAngle ProofFitBase ProofFitEIV ProofFitRep ProofAngle ProofAngle2 PropLS PropFit PropOrder PropRenumber.
Import ListNotations.
Close Scope Qc_scope. Close Scope Q_scope. Open Scope nat_scope.

Add Field QcAn : (@k_field Qc _ _).

Theorem C114_ols :
  forall (K : Type) (O : Ops K) (F : Fld K) (O2 : OrdOps K) (OF : OrdFld K) (pinv : mat (cplx K) -> mat (cplx K)) T c n m (x x' z z' : mat (cplx K)),
  angles T c -> turned_phasors T n c x x' -> turned_phasors T m c z z' -> penrose T n x (pinv x) -> penrose T n x' (pinv x') ->
  complex_regression_fit pinv x' z' = complex_regression_fit pinv x z.
Proof. intros K O F O2 OF pinv T c n m x x' z z' HC. apply (ols_turned T c HC). Qed.
Print Assumptions C114_ols.

Theorem C114_tls :
  forall (K : Type) (O : Ops K) (F : Fld K) (O2 : OrdOps K) (OF : OrdFld K) (svd : mat (cplx K) -> mat (cplx K) * list K * mat (cplx K)) T c n m (x x' y y' : mat (cplx K)) s,
  angles T c -> turned_phasors T n c x x' -> turned_phasors T m c y y' ->
  (let '(u, s0, vh) := svd (hstack2 x y) in s0 = s /\ is_svd T (n + m) (hstack2 x y) u s0 vh) ->
  (let '(u, s0, vh) := svd (hstack2 x' y') in is_svd T (n + m) (hstack2 x' y') u s0 vh) -> apart n (n + m) s ->
  tls_fit svd x' (A2 y') = tls_fit svd x (A2 y).
Proof. intros K O F O2 OF svd T c n m x x' y y' s HC. apply (tls_turned T c HC). Qed.
Print Assumptions C114_tls.

Theorem C114_regression :
  forall (K : Type) (O : Ops K) (F : Fld K) (O2 : OrdOps K) (OF : OrdFld K) spsolve (e : estimator K) T c n (x x' z z' : mat (cplx K)) y0,
  angles T c -> turned_phasors T n c x x' -> turned_phasors T n c z z' -> br_fit spsolve e x' z' y0 = br_fit spsolve e x z y0.
Proof. intros K O F O2 OF sv e T c n x x' z z' y0 HC. apply (br_turned T c HC). Qed.
Print Assumptions C114_regression.

Theorem C114_eiv_weighted :
  forall (K : Type) (O : Ops K) (F : Fld K) (O2 : OrdOps K) (OF : OrdFld K) spsolve cabs (e : estimator K) T c n (x x' z z' : mat (cplx K)) xw xw' zw zw' y0,
  solver_sound spsolve -> solver_complete spsolve -> angles T c -> turned_phasors T n c x x' -> turned_phasors T n c z z' -> shape y0 n n ->
  posdef (2 * (n * T)) xw -> turned_weights T n c xw xw' ->
  eiv_fit spsolve cabs e x' z' (Some xw') (Some zw') y0 = eiv_fit spsolve cabs e x z (Some xw) (Some zw) y0.
Proof. intros K O F O2 OF sv ca e T c n x x' z z' xw xw' zw zw' y0 SS SC HC HX HZ HY PW HW. apply (eiv_turned T c HC sv ca e n x x' z z' y0 xw xw' zw zw' SS SC HX HZ HY PW HW). Qed.
Print Assumptions C114_eiv_weighted.

(** Without weights the recorded targets depend on the reference, since the squares of the input terms are not squares of
    moduli (error_in_variable.py:275, [da.dot(da)]); so do the number of iterations and the estimate: the same two samples
    at one node, both turned by a right angle. *)
Definition e1 a mx := new_estimator (log_distribution pr1) (qq 1 2) a (zq 0) mx (eiv_default_builder (K := Qc)) (eiv_default_builder (K := Qc)).
Definition ax : mat (cplx Qc) := czrows [[(2,0)]; [(1,0)]]%Z.
Definition az : mat (cplx Qc) := czrows [[(1,0)]; [(3,0)]]%Z.
Definition ax' : mat (cplx Qc) := czrows [[(0,2)]; [(0,1)]]%Z.
Definition az' : mat (cplx Qc) := czrows [[(0,1)]; [(0,3)]]%Z.
Definition ay0 : mat (cplx Qc) := mzeros 1 1.
Theorem C114_eiv_unweighted_refuted :
  exists spsolve cabs (e : estimator Qc) T (c : cplx Qc) n (x x' z z' : mat (cplx Qc)) y0 y y',
  solver_sound spsolve /\ solver_complete spsolve /\ (forall r : Qc, cabs (Cx r 0%K) = kabs r) /\ (forall r : Qc, cabs (Cx 0%K r) = kabs r) /\
  angles T (fun _ => c) /\ turned_phasors T n (fun _ => c) x x' /\ turned_phasors T n (fun _ => c) z z' /\ shape y0 n n /\
  let r := eiv_fit spsolve cabs e x z None None y0 in let r' := eiv_fit spsolve cabs e x' z' None None y0 in
  length (e_iters (fst r)) = 2 /\ length (e_iters (fst r')) = 3 /\ snd r = None /\ snd r' = None /\
  map (@st_target Qc) (firstn 1 (e_iters (fst r))) = [qq 58 5] /\ map (@st_target Qc) (firstn 1 (e_iters (fst r'))) = [qq 8 5] /\
  e_adm (fst r) = Some y /\ e_adm (fst r') = Some y' /\ get y 0 0 <> get y' 0 0.
Proof.
  exists ksolve, c_norm1, (e1 (zq 1) 10), 2, (Cx (zq 0) (zq 1)), 1, ax, ax', az, az', ay0.
  destruct (e_adm (fst (eiv_fit ksolve c_norm1 (e1 (zq 1) 10) ax az None None ay0))) as [y|] eqn:E; [|vm_compute in E; discriminate].
  destruct (e_adm (fst (eiv_fit ksolve c_norm1 (e1 (zq 1) 10) ax' az' None None ay0))) as [y'|] eqn:E'; [|vm_compute in E'; discriminate].
  exists y, y'. split; [exact ksolve_solver_sound|]. split; [exact ksolve_solver_complete|]. split; [intro r; unfold c_norm1; cbn [re im]; change (kabs (0%K : Qc)) with (0%K : Qc); ring|]. split; [intro r; unfold c_norm1; cbn [re im]; change (kabs (0%K : Qc)) with (0%K : Qc); ring|].
  split; [intros t Ht; vm_compute; reflexivity|]. split; [split; [apply shapeb_shape; reflexivity|]; split; [apply shapeb_shape; reflexivity|]; intros [|[|t]] [|j] Ht Hj; try lia; apply cplx_eq; vm_compute; reflexivity|].
  split; [split; [apply shapeb_shape; reflexivity|]; split; [apply shapeb_shape; reflexivity|]; intros [|[|t]] [|j] Ht Hj; try lia; apply cplx_eq; vm_compute; reflexivity|]. split; [apply shape_mk|].
  cbv zeta. repeat (split; [vm_compute; reflexivity|]). split; [exact E|]. split; [exact E'|].
  intro H. assert (X : match e_adm (fst (eiv_fit ksolve c_norm1 (e1 (zq 1) 10) ax az None None ay0)), e_adm (fst (eiv_fit ksolve c_norm1 (e1 (zq 1) 10) ax' az' None None ay0)) with Some a, Some b => keqb (get a 0 0) (get b 0 0) | _, _ => true end = false) by (vm_compute; reflexivity).
  rewrite E, E', H in X. rewrite keqb_refl in X. discriminate.
Qed.
Print Assumptions C114_eiv_unweighted_refuted.

(** *** samples turned by a right angle, by the angle of 3 + 4i and by half a turn *)
Definition ang (t : nat) : cplx Qc := match t with 0 => Cx (zq 0) (zq 1) | 1 => Cx (qq 3 5) (qq 4 5) | _ => Cx (zq (-1)) (zq 0) end.
Lemma ang_ok : forall T, angles T ang.
Proof. intros T [|[|t]] Ht; apply Qc_is_canon; vm_compute; reflexivity. Qed.
Definition at_angles (T : nat) (x : mat (cplx Qc)) : mat (cplx Qc) := mmul (turn T ang) x.
Lemma penrose_turned : penrose 3 2 (at_angles 3 rx) (ri (at_angles 3 rx)).
Proof. split; [apply shapeb_shape; vm_compute; reflexivity|]; split; [apply shapeb_shape; vm_compute; reflexivity|]; repeat split; apply meqb_eq; vm_compute; reflexivity. Qed.
Definition asvd (a : mat (cplx Qc)) : mat (cplx Qc) * list Qc * mat (cplx Qc) := if meqb a (hstack2 tx ty) then (meye 4, ts, tv) else (turn 4 ang, ts, tv).
Example C114_ex :
  complex_regression_fit ri (at_angles 3 rx) (at_angles 3 rz) = complex_regression_fit ri rx rz /\
  tls_fit asvd (at_angles 4 tx) (A2 (at_angles 4 ty)) = tls_fit asvd tx (A2 ty) /\
  br_fit ksolve (estl 2) (at_angles 2 x2) (at_angles 2 z2) y2 = br_fit ksolve (estl 2) x2 z2 y2 /\
  eiv_fit ksolve c_norm1 (estl 1) (at_angles 2 x2) (at_angles 2 z2) (Some (turned (turn 2 ang) 2 wt2)) (Some wt2) y2 = eiv_fit ksolve c_norm1 (estl 1) x2 z2 (Some wt2) (Some wt2) y2 /\
  meqb (at_angles 2 x2) x2 = false /\ meqb (turned (turn 2 ang) 2 wt2) wt2 = false /\ final (br_fit ksolve (estl 2) x2 z2 y2) lap_nonzero = true /\ ran (eiv_fit ksolve c_norm1 (estl 1) x2 z2 (Some wt2) (Some wt2) y2) = (1, true).
Proof.
  split; [apply (C114_ols Qc _ _ _ _ ri 3 ang 2 2 rx _ rz _ (ang_ok 3)); [apply mmul_turned; apply shapeb_shape; reflexivity|apply mmul_turned; apply shapeb_shape; reflexivity|apply ri_penrose|exact penrose_turned]|]. split.
  { apply (C114_tls Qc _ _ _ _ asvd 4 ang 2 2 tx _ ty _ ts (ang_ok 4)); [apply mmul_turned; apply shapeb_shape; reflexivity|apply mmul_turned; apply shapeb_shape; reflexivity| | |exact ts_apart].
    - unfold asvd. replace (meqb (hstack2 tx ty) (hstack2 tx ty)) with true by (vm_compute; reflexivity). split; [reflexivity|exact tsvd_ok].
    - unfold asvd. replace (meqb _ (hstack2 tx ty)) with false by (vm_compute; reflexivity). check_svd4. }
  split; [apply (C114_regression Qc _ _ _ _ ksolve (estl 2) 2 ang 2 x2 _ z2 _ y2 (ang_ok 2)); apply mmul_turned; apply shapeb_shape; reflexivity|].
  split; [|repeat (split; [vm_compute; reflexivity|]); vm_compute; reflexivity].
  apply (C114_eiv_weighted Qc _ _ _ _ ksolve c_norm1 (estl 1) 2 ang 2 x2 _ z2 _ wt2 _ wt2 wt2 y2 ksolve_solver_sound ksolve_solver_complete (ang_ok 2)); [apply mmul_turned; apply shapeb_shape; reflexivity|apply mmul_turned; apply shapeb_shape; reflexivity|apply shape_mk|exact posdef_wt2|].
  apply (turned_weights_turned 2 ang (ang_ok 2)); [apply shape_mk|apply meqb_eq; vm_compute; reflexivity].
Qed.
