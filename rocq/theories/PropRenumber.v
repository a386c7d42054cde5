(** Properties C112 (numbers of the nodes) and C113 (units): ordinary and total least squares. *)
From Coq Require Import Arith ZArith Lia List Bool Permutation Qcanon.
From Verif Require Import BasePy BaseFld BaseOrd BaseSum BaseMat BaseNumpy BaseLin BaseEx ModelMatrixOps ModelPrior ModelLS ModelFit SpecMatrix SpecLS SpecFit SpecOrder SpecTLS SpecRenumber ProofFitBase ProofOrder5 ProofRenumber ProofRenumber2 PropLS PropFit PropOrder.
Import ListNotations.
Close Scope Qc_scope. Close Scope Q_scope. Open Scope nat_scope.

Theorem C112_ols :
  forall (K : Type) (O : Ops K) (F : Fld K) (O2 : OrdOps K) (OF : OrdFld K) (pinv : mat (cplx K) -> mat (cplx K)) T n p (x x' z z' : mat (cplx K)),
  numbering n p -> columns_renumbered T n p x x' -> columns_renumbered T n p z z' -> penrose T n x (pinv x) -> penrose T n x' (pinv x') ->
  both (renumbered n p) (complex_regression_fit pinv x z) (complex_regression_fit pinv x' z').
Proof. intros K O F O2 OF pinv T n p x x' z z' HP. apply (ols_renumbered n p HP). Qed.
Print Assumptions C112_ols.

Theorem C112_tls :
  forall (K : Type) (O : Ops K) (F : Fld K) (O2 : OrdOps K) (OF : OrdFld K) (svd : mat (cplx K) -> mat (cplx K) * list K * mat (cplx K)) T n p (x x' y y' : mat (cplx K)) s,
  numbering n p -> 0 < n -> columns_renumbered T n p x x' -> columns_renumbered T n p y y' ->
  (let '(u, s0, vh) := svd (hstack2 x y) in s0 = s /\ is_svd T (n + n) (hstack2 x y) u s0 vh) ->
  (let '(u, s0, vh) := svd (hstack2 x' y') in is_svd T (n + n) (hstack2 x' y') u s0 vh) -> apart n (n + n) s ->
  both (coefficients n n (renumbered n p)) (tls_fit svd x (A2 y)) (tls_fit svd x' (A2 y')).
Proof. intros K O F O2 OF svd T n p x x' y y' s HP. apply (tls_renumbered n p HP). Qed.
Print Assumptions C112_tls.

Theorem C113_ols :
  forall (K : Type) (O : Ops K) (F : Fld K) (O2 : OrdOps K) (OF : OrdFld K) (pinv : mat (cplx K) -> mat (cplx K)) T n m (a b : cplx K) (x x' z z' : mat (cplx K)),
  a <> 0%K -> scaled T n a x x' -> scaled T m b z z' -> penrose T n x (pinv x) -> penrose T n x' (pinv x') ->
  both (scaled n m (b / a)%K) (complex_regression_fit pinv x z) (complex_regression_fit pinv x' z').
Proof. intros K O F O2 OF pinv T n m a b x x' z z'. apply ols_units. Qed.
Print Assumptions C113_ols.

(** the same factor for the voltages and the currents *)
Theorem C113_tls :
  forall (K : Type) (O : Ops K) (F : Fld K) (O2 : OrdOps K) (OF : OrdFld K) (svd : mat (cplx K) -> mat (cplx K) * list K * mat (cplx K)) T n m (k : K) (x x' y y' : mat (cplx K)) s,
  (0 <! k)%K -> 0 < m -> scaled T n (Cx k 0%K) x x' -> scaled T m (Cx k 0%K) y y' ->
  (let '(u, s0, vh) := svd (hstack2 x y) in s0 = s /\ is_svd T (n + m) (hstack2 x y) u s0 vh) ->
  (let '(u, s0, vh) := svd (hstack2 x' y') in is_svd T (n + m) (hstack2 x' y') u s0 vh) -> apart n (n + m) s ->
  tls_fit svd x' (A2 y') = tls_fit svd x (A2 y).
Proof. intros K O F O2 OF svd T n m k x x' y y' s. apply tls_units. Qed.
Print Assumptions C113_tls.

(** *** three samples at two nodes *)
Definition swap2 (j : nat) : nat := 1 - j.
Lemma swap2_numbering : numbering 2 swap2.
Proof. unfold numbering, new_order. cbn. apply perm_swap. Qed.
Definition ri : mat (cplx Qc) -> mat (cplx Qc) := fun x => match kinverse (mmul (ctr x) x) with Ok g => mmul g (ctr x) | Err _ => ctr x end.
Definition rx : mat (cplx Qc) := czrows [[(1,0);(0,1)]; [(0,0);(1,1)]; [(2,-1);(1,0)]]%Z.
Definition rz : mat (cplx Qc) := czrows [[(3,1);(1,1)]; [(5,0);(0,-2)]; [(1,2);(4,0)]]%Z.
Definition rx' : mat (cplx Qc) := czrows [[(0,1);(1,0)]; [(1,1);(0,0)]; [(1,0);(2,-1)]]%Z.
Definition rz' : mat (cplx Qc) := czrows [[(1,1);(3,1)]; [(0,-2);(5,0)]; [(4,0);(1,2)]]%Z.
Ltac cells := intros [|[|[|t]]] [|[|j]] Ht Hj; try lia; first [reflexivity|apply cplx_eq; vm_compute; reflexivity].
Ltac table := split; [apply shapeb_shape; reflexivity|split; [apply shapeb_shape; reflexivity|cells]].
Lemma ri_penrose : penrose 3 2 rx (ri rx) /\ penrose 3 2 rx' (ri rx').
Proof. split; (split; [apply shapeb_shape; reflexivity|]; split; [apply shapeb_shape; vm_compute; reflexivity|]; repeat split; apply meqb_eq; vm_compute; reflexivity). Qed.
Example C112_ex :
  both (renumbered 2 swap2) (complex_regression_fit ri rx rz) (complex_regression_fit ri rx' rz') /\
  match complex_regression_fit ri rx rz, complex_regression_fit ri rx' rz' with Ok b, Ok b' => meqb b b' = false /\ (forall i j, i < 2 -> j < 2 -> get b i j <> 0%K) | _, _ => False end.
Proof.
  split.
  - apply (C112_ols Qc _ _ _ _ ri 3 2 swap2 rx rx' rz rz' swap2_numbering); [table|table|apply ri_penrose|apply ri_penrose].
  - vm_compute. split; [reflexivity|]. intros [|[|i]] [|[|j]] Hi Hj; try lia; discriminate.
Qed.
(** voltages in millivolts, currents with the opposite sign *)
Definition rx1 : mat (cplx Qc) := mscal (Cx (zq 1000) (zq 0)) rx.
Definition rz1 : mat (cplx Qc) := mscal (Cx (zq (-1)) (zq 0)) rz.
Example C113_ex : both (scaled 2 2 (Cx (qq (-1) 1000) (zq 0))) (complex_regression_fit ri rx rz) (complex_regression_fit ri rx1 rz1) /\ exists b, complex_regression_fit ri rx rz = Ok b.
Proof.
  split; [|destruct C112_ex as [_ H]; destruct (complex_regression_fit ri rx rz) as [b|]; [exists b; reflexivity|destruct H]]. replace (Cx (qq (-1) 1000) (zq 0)) with (Cx (zq (-1)) (zq 0) / Cx (zq 1000) (zq 0))%K by (apply cplx_eq; vm_compute; reflexivity).
  apply (C113_ols Qc _ _ _ _ ri 3 2 2).
  - intro E. apply (f_equal re) in E. discriminate.
  - table.
  - table.
  - apply ri_penrose.
  - split; [apply shapeb_shape; reflexivity|]; split; [apply shapeb_shape; vm_compute; reflexivity|]; repeat split; apply meqb_eq; vm_compute; reflexivity.
Qed.

(** *** total least squares: four samples at two nodes with the singular values 4, 2, 1 and 1/2 *)
Definition q0 (a : Z) (b : positive) : cplx Qc := Cx (qq a b) (zq 0).
Definition tx : mat (cplx Qc) := rows [[q0 0 1; q0 20 13]; [q0 6 5; q0 0 1]; [q0 (-4) 5; q0 0 1]; [q0 0 1; q0 (-6) 13]].
Definition ty : mat (cplx Qc) := rows [[q0 0 1; q0 48 13]; [q0 8 5; q0 0 1]; [q0 3 5; q0 0 1]; [q0 0 1; q0 5 26]].
Definition tx' : mat (cplx Qc) := rows [[q0 20 13; q0 0 1]; [q0 0 1; q0 6 5]; [q0 0 1; q0 (-4) 5]; [q0 (-6) 13; q0 0 1]].
Definition ty' : mat (cplx Qc) := rows [[q0 48 13; q0 0 1]; [q0 0 1; q0 8 5]; [q0 0 1; q0 3 5]; [q0 5 26; q0 0 1]].
Definition ts : list Qc := [zq 4; zq 2; zq 1; qq 1 2].
Definition tv : mat (cplx Qc) := rows [[q0 0 1; q0 5 13; q0 0 1; q0 12 13]; [q0 3 5; q0 0 1; q0 4 5; q0 0 1]; [q0 (-4) 5; q0 0 1; q0 3 5; q0 0 1]; [q0 0 1; q0 (-12) 13; q0 0 1; q0 5 13]].
Definition tv' : mat (cplx Qc) := rows [[q0 5 13; q0 0 1; q0 12 13; q0 0 1]; [q0 0 1; q0 3 5; q0 0 1; q0 4 5]; [q0 0 1; q0 (-4) 5; q0 0 1; q0 3 5]; [q0 (-12) 13; q0 0 1; q0 5 13; q0 0 1]].
Definition tsvd (a : mat (cplx Qc)) : mat (cplx Qc) * list Qc * mat (cplx Qc) :=
  if meqb a (hstack2 tx ty) then (meye 4, ts, tv) else if meqb a (hstack2 tx' ty') then (meye 4, ts, tv') else (meye 4, map (kmul (zq 1000)) ts, tv).
Ltac check_svd4 := split; [apply shapeb_shape; reflexivity|]; split; [first [apply shape_mk|apply shapeb_shape; reflexivity]|]; split; [apply shapeb_shape; reflexivity|];
  split; [apply meqb_eq; vm_compute; reflexivity|]; split; [apply meqb_eq; vm_compute; reflexivity|]; split; [apply meqb_eq; vm_compute; reflexivity|]; split; [reflexivity|]; split; [|split];
  [intros [|[|[|[|i]]]] Hi; [vm_compute; reflexivity|vm_compute; reflexivity|vm_compute; reflexivity|vm_compute; reflexivity|simpl in Hi; exfalso; lia]
  |intros [|[|[|[|i]]]] [|[|[|[|j]]]] Hij Hj; simpl in Hj; try lia; vm_compute; reflexivity|apply meqb_eq; vm_compute; reflexivity].
Lemma tsvd_ok : is_svd 4 (2 + 2) (hstack2 tx ty) (meye 4) ts tv.
Proof. check_svd4. Qed.
Lemma tsvd_ok' : is_svd 4 (2 + 2) (hstack2 tx' ty') (meye 4) ts tv'.
Proof. check_svd4. Qed.
Lemma ts_apart : apart 2 (2 + 2) ts.
Proof. intros [|[|i]] [|[|[|[|j]]]] Hi Hj HM; try lia; vm_compute; reflexivity. Qed.
Lemma tsvd_at : tsvd (hstack2 tx ty) = (meye 4, ts, tv).
Proof. unfold tsvd. replace (meqb (hstack2 tx ty) (hstack2 tx ty)) with true by (vm_compute; reflexivity). reflexivity. Qed.
Lemma tsvd_at' : tsvd (hstack2 tx' ty') = (meye 4, ts, tv').
Proof. unfold tsvd. replace (meqb (hstack2 tx' ty') (hstack2 tx ty)) with false by (vm_compute; reflexivity). replace (meqb (hstack2 tx' ty') (hstack2 tx' ty')) with true by (vm_compute; reflexivity). reflexivity. Qed.
Ltac cells4 := intros [|[|[|[|t]]]] [|[|j]] Ht Hj; try lia; first [reflexivity|apply cplx_eq; vm_compute; reflexivity].
Ltac table4 := split; [apply shapeb_shape; reflexivity|split; [apply shapeb_shape; reflexivity|cells4]].
Definition matrix_is (r : res (arr (cplx Qc))) (b : mat (cplx Qc)) : bool := match r with Ok (A2 m) => meqb m b | _ => false end.
Example C112_tls_ex :
  both (coefficients 2 2 (renumbered 2 swap2)) (tls_fit tsvd tx (A2 ty)) (tls_fit tsvd tx' (A2 ty')) /\
  matrix_is (tls_fit tsvd tx (A2 ty)) (rows [[q0 4 3; q0 0 1]; [q0 0 1; q0 12 5]]) = true /\ matrix_is (tls_fit tsvd tx' (A2 ty')) (rows [[q0 12 5; q0 0 1]; [q0 0 1; q0 4 3]]) = true.
Proof.
  split; [|split; vm_compute; reflexivity].
  apply (C112_tls Qc _ _ _ _ tsvd 4 2 swap2 tx tx' ty ty' ts swap2_numbering ltac:(lia)); [table4|table4| | |exact ts_apart].
  - rewrite tsvd_at. split; [reflexivity|exact tsvd_ok].
  - rewrite tsvd_at'. exact tsvd_ok'.
Qed.
(** all data in thousandths *)
Definition tx1 : mat (cplx Qc) := mscal (Cx (zq 1000) (zq 0)) tx.
Definition ty1 : mat (cplx Qc) := mscal (Cx (zq 1000) (zq 0)) ty.
Lemma tsvd_at1 : tsvd (hstack2 tx1 ty1) = (meye 4, map (kmul (zq 1000)) ts, tv).
Proof. unfold tsvd. replace (meqb (hstack2 tx1 ty1) (hstack2 tx ty)) with false by (vm_compute; reflexivity). replace (meqb (hstack2 tx1 ty1) (hstack2 tx' ty')) with false by (vm_compute; reflexivity). reflexivity. Qed.
Example C113_tls_ex : tls_fit tsvd tx1 (A2 ty1) = tls_fit tsvd tx (A2 ty).
Proof.
  apply (C113_tls Qc _ _ _ _ tsvd 4 2 2 (zq 1000) tx tx1 ty ty1 ts); [reflexivity|lia|table4|table4| | |exact ts_apart].
  - rewrite tsvd_at. split; [reflexivity|exact tsvd_ok].
  - rewrite tsvd_at1. check_svd4.
Qed.

(** Voltages and currents in units of their own: the two tables are scaled by different factors.  The estimate is not the
    old one in the new unit; here the fit with the voltages in the larger unit even fails. *)
Definition ux : mat (cplx Qc) := czrows [[(2,0)]; [(0,0)]]%Z.
Definition uy : mat (cplx Qc) := czrows [[(0,0)]; [(1,0)]]%Z.
Definition ux' : mat (cplx Qc) := rows [[q0 1 2]; [q0 0 1]].
Definition flip : mat (cplx Qc) := czrows [[(0,0);(1,0)]; [(1,0);(0,0)]]%Z.
Definition usvd (a : mat (cplx Qc)) : mat (cplx Qc) * list Qc * mat (cplx Qc) :=
  if meqb a (hstack2 ux uy) then (meye 2, [zq 2; zq 1], meye 2) else (flip, [zq 1; qq 1 2], flip).
Ltac check_svd2 := split; [apply shapeb_shape; reflexivity|]; split; [first [apply shape_mk|apply shapeb_shape; reflexivity]|]; split; [first [apply shape_mk|apply shapeb_shape; reflexivity]|];
  split; [apply meqb_eq; vm_compute; reflexivity|]; split; [apply meqb_eq; vm_compute; reflexivity|]; split; [apply meqb_eq; vm_compute; reflexivity|]; split; [reflexivity|]; split; [|split];
  [intros [|[|i]] Hi; [vm_compute; reflexivity|vm_compute; reflexivity|simpl in Hi; exfalso; lia]|intros [|[|i]] [|[|j]] Hij Hj; simpl in Hj; try lia; vm_compute; reflexivity|apply meqb_eq; vm_compute; reflexivity].
Theorem C113_tls_own_units_refuted :
  exists (svd : mat (cplx Qc) -> mat (cplx Qc) * list Qc * mat (cplx Qc)) T n m (k : Qc) (x x' y : mat (cplx Qc)),
  (0 <! k)%K /\ scaled T n (Cx k 0%K) x x' /\ shape y T m /\
  (let '(u, s, vh) := svd (hstack2 x y) in is_svd T (n + m) (hstack2 x y) u s vh /\ apart n (n + m) s) /\
  (let '(u, s, vh) := svd (hstack2 x' y) in is_svd T (n + m) (hstack2 x' y) u s vh /\ apart n (n + m) s) /\
  ~ both (coefficients n m (scaled n m (1 / Cx k 0)%K)) (tls_fit svd x (A2 y)) (tls_fit svd x' (A2 y)) /\
  (exists b, tls_fit svd x (A2 y) = Ok b) /\ tls_fit svd x' (A2 y) = Err LinAlgError.
Proof.
  exists usvd, 2, 1, 1, (qq 1 4), ux, ux', uy. split; [reflexivity|]. split; [split; [apply shapeb_shape; reflexivity|]; split; [apply shapeb_shape; reflexivity|]; intros [|[|t]] [|j] Ht Hj; try lia; apply cplx_eq; vm_compute; reflexivity|].
  split; [apply shapeb_shape; reflexivity|]. split.
  - unfold usvd. replace (meqb (hstack2 ux uy) (hstack2 ux uy)) with true by (vm_compute; reflexivity). split; [check_svd2|]. intros [|i] [|[|j]] Hi Hj HM; try lia. vm_compute. reflexivity.
  - split.
    + unfold usvd. replace (meqb (hstack2 ux' uy) (hstack2 ux uy)) with false by (vm_compute; reflexivity). split; [check_svd2|]. intros [|i] [|[|j]] Hi Hj HM; try lia. vm_compute. reflexivity.
    + split; [|split; [eexists; vm_compute; reflexivity|vm_compute; reflexivity]]. replace (tls_fit usvd ux' (A2 uy)) with (Err LinAlgError : res (arr (cplx Qc))) by (vm_compute; reflexivity). destruct (tls_fit usvd ux (A2 uy)) eqn:E; [|vm_compute in E; discriminate]. intro H. exact H.
Qed.
Print Assumptions C113_tls_own_units_refuted.
