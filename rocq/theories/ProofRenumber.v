(** Columns of the data in another basis: ordinary and total least squares. *)
From Coq Require Import Bool Arith List Lia Ring Field Permutation.
From Verif Require Import BasePy BaseFld BaseOrd BaseSum BaseMat BaseNumpy BaseLin ModelMatrixOps ModelFit ModelLS SpecMatrix SpecLS SpecFit SpecOrder SpecTLS SpecRenumber ProofMatrixOps ProofLS ProofTLS ProofFitBase ProofOrder4 ProofOrder5 ProofTLSOpt ProofTLSOpt2 PropTLSOpt.
Import ListNotations.
Local Open Scope nat_scope.

Section Basis.
Context {K : Type} {O : Ops K} {F : Fld K} {O2 : OrdOps K} {OF : OrdFld K}.
Notation CK := (cplx K).
Add Field KfldRn : (@k_field K O F).
Add Field CfldRn : (@k_field CK _ _).
Ltac dm := repeat match goal with
  | |- context [nr (mmul ?a ?b)] => change (nr (mmul a b)) with (nr a)
  | |- context [nc (mmul ?a ?b)] => change (nc (mmul a b)) with (nc b)
  | |- context [nr (ctr ?a)] => change (nr (ctr a)) with (nc a)
  | |- context [nc (ctr ?a)] => change (nc (ctr a)) with (nr a)
  | |- context [nr (mopp ?a)] => change (nr (mopp a)) with (nr a)
  | |- context [nc (mopp ?a)] => change (nc (mopp a)) with (nc a)
  end; first [assumption|congruence|lia].

Lemma unitary_right : forall n (q : mat CK), unitary n q -> mmul q (ctr q) = meye n.
Proof. intros n q [HQ U]. exact (right_inverse_two_sided _ _ n (shape_ctr q n n HQ) HQ U). Qed.

(** ** ordinary least squares *)
Lemma penrose_basis : forall T n (q x p : mat CK), unitary n q -> penrose T n x p -> penrose T n (mmul x q) (mmul (ctr q) p).
Proof.
  intros T n q x p HU (HX & HP & P1 & P2 & P3 & P4). pose proof (unitary_right n q HU) as V. destruct HU as [HQ U].
  pose proof HQ as (WQ & RQ & CQ). pose proof HX as (Wx & Rx & Cx). pose proof HP as (Wp & Rp & Cp). destruct (shape_ctr q n n HQ) as (Wh & Rh & Ch).
  assert (B : forall Z : mat CK, wf Z -> nr Z = n -> mmul q (mmul (ctr q) Z) = Z) by (intros Z W R; rewrite <- mmul_assoc by dm; rewrite V; apply mmul_1_l'; auto).
  assert (X1 : mmul (mmul x q) (mmul (ctr q) p) = mmul x p) by (rewrite (mmul_assoc x) by dm; rewrite B; auto).
  assert (X2 : mmul (mmul (ctr q) p) (mmul x q) = mmul (ctr q) (mmul (mmul p x) q)) by (rewrite (mmul_assoc (ctr q)) by dm; rewrite <- (mmul_assoc p x) by dm; reflexivity).
  split; [apply shape_mmul with (m := n); auto|]. split; [apply shape_mmul with (m := n); auto|]. split; [|split; [|split]].
  - rewrite X1, <- mmul_assoc by dm. rewrite P1. reflexivity.
  - rewrite X2. rewrite (mmul_assoc (ctr q)) by dm. rewrite (mmul_assoc (mmul p x)) by dm. rewrite (B p) by auto. rewrite P2. reflexivity.
  - rewrite X1. exact P3.
  - rewrite X2. rewrite (ctr_mmul (ctr q)) by dm. rewrite (ctr_mmul (mmul p x)) by dm. rewrite P4, ctr_ctr by exact WQ. rewrite mmul_assoc by dm. reflexivity.
Qed.
Lemma ols_basis : forall pinv T n m (p q x z : mat CK), unitary n p -> unitary m q -> shape z T m -> penrose T n x (pinv x) -> penrose T n (mmul x p) (pinv (mmul x p)) ->
  exists b, complex_regression_fit pinv x z = Ok b /\ shape b n m /\ complex_regression_fit pinv (mmul x p) (mmul z q) = Ok (mmul (ctr p) (mmul b q)).
Proof.
  intros pinv T n m p q x z HP HQ HZ P P'. unfold complex_regression_fit. rewrite (penrose_unique T n _ _ _ P' (penrose_basis T n p x _ HP P)).
  destruct P as (_ & (Wp & Rp & Cp) & _). pose proof HZ as (WZ & RZ & CZ). destruct HP as [(Wq & Rq & Cq) _]. destruct HQ as [(Ws & Rs & Cs) _].
  exists (mmul (pinv x) z). unfold matmul. replace (nc (pinv x) =? nr z) with true by (symmetry; apply Nat.eqb_eq; congruence). replace (_ =? _) with true by (symmetry; apply Nat.eqb_eq; dm).
  split; [reflexivity|]. split; [apply shape_mmul with (m := T); auto|]. rewrite (mmul_assoc (ctr p)) by dm. rewrite <- (mmul_assoc (pinv x)) by dm. reflexivity.
Qed.
Lemma penrose_scaled : forall T n (c : CK) (x p : mat CK), c <> 0%K -> penrose T n x p -> penrose T n (mscal c x) (mscal (1 / c)%K p).
Proof.
  intros T n c x p HC (HX & HP & P1 & P2 & P3 & P4). pose proof HX as (Wx & Rx & Cx). pose proof HP as (Wp & Rp & Cp).
  assert (L : forall (a : CK) (A B : mat CK), nc A = nr B -> mmul (mscal a A) B = mscal a (mmul A B)).
  { intros a A B E. apply gmat_ext; try apply wf_mk; auto. intros i j Hi Hj. unfold mscal at 2. rewrite get_mk by assumption. rewrite !get_mmul by assumption. change (nc (mscal a A)) with (nc A). rewrite <- sumn_scal_l. apply sumn_ext. intros k Hk. unfold mscal. rewrite get_mk by assumption. ring. }
  assert (R : forall (a : CK) (A B : mat CK), nc A = nr B -> mmul A (mscal a B) = mscal a (mmul A B)).
  { intros a A B E. apply gmat_ext; try apply wf_mk; auto. intros i j Hi Hj. unfold mscal at 2. rewrite get_mk by assumption. rewrite !get_mmul by assumption. rewrite <- sumn_scal_l. apply sumn_ext. intros k Hk. unfold mscal. rewrite get_mk by (try assumption; rewrite <- E; assumption). ring. }
  assert (I : forall (a b : CK) (A : mat CK), wf A -> (a * b)%K = 1%K -> mscal a (mscal b A) = A).
  { intros a b A W E. apply gmat_ext; try apply wf_mk; auto. intros i j Hi Hj. unfold mscal. change (nr (mk (nr A) (nc A) (fun i0 j0 => b * get A i0 j0)%K)) with (nr A). change (nc (mk (nr A) (nc A) (fun i0 j0 => b * get A i0 j0)%K)) with (nc A). rewrite !get_mk by assumption. transitivity ((a * b) * get A i j)%K; [ring|]. rewrite E. ring. }
  assert (SS : forall (a : CK) A r k, shape A r k -> shape (mscal a A) r k) by (intros a A r k (W & E1 & E2); split; [apply wf_mk|split; assumption]).
  assert (X1 : mmul (mscal c x) (mscal (1 / c)%K p) = mmul x p). { rewrite L by (change (nr (mscal (1 / c)%K p)) with (nr p); congruence). rewrite R by congruence. apply I; [apply wf_mk|]. field. exact HC. }
  assert (X2 : mmul (mscal (1 / c)%K p) (mscal c x) = mmul p x). { rewrite L by (change (nr (mscal c x)) with (nr x); congruence). rewrite R by congruence. apply I; [apply wf_mk|]. field. exact HC. }
  split; [apply SS; exact HX|]. split; [apply SS; exact HP|]. rewrite X1, X2. split; [|split; [|split; assumption]].
  - rewrite R by dm. rewrite P1. reflexivity.
  - rewrite R by dm. rewrite P2. reflexivity.
Qed.

(** ** total least squares *)
Definition blockdiag (n m : nat) (p q : mat CK) : mat CK :=
  mk (n + m) (n + m) (fun i j => if i <? n then (if j <? n then get p i j else 0%K) else if j <? n then 0%K else get q (i - n) (j - n)).
Lemma block_stack : forall T n m (x y p q : mat CK), shape x T n -> shape y T m -> shape p n n -> shape q m m -> hstack2 (mmul x p) (mmul y q) = mmul (hstack2 x y) (blockdiag n m p q).
Proof.
  intros T n m x y p q (WX & RX & CX) (WY & RY & CY) (WP & RP & CP) (WQ & RQ & CQ). apply (gshape_ext _ _ T (n + m)); [split; [apply wf_mk|split; [exact RX|cbn; congruence]]|apply shape_mmul with (m := n + m); [exact RX|reflexivity|cbn; congruence]|].
  intros t j Ht Hj. rewrite get_hstack2 by (cbn; lia). change (nc (mmul x p)) with (nc p). rewrite (get_mmul (hstack2 x y)) by (cbn; lia). change (nc (hstack2 x y)) with (nc x + nc y). rewrite CX, CY, CP.
  rewrite (sumn_ext _ _ (fun k => if k <? n then (if j <? n then get x t k * get p k j else 0%K)%K else if j <? n then 0%K else (get y t (k - n) * get q (k - n) (j - n))%K)).
  2:{ intros k Hk. rewrite get_hstack2 by lia. rewrite CX. unfold blockdiag. rewrite get_mk by assumption. destruct (k <? n); destruct (j <? n); ring. }
  rewrite sumn_plus. destruct (Nat.ltb_spec j n) as [Hj'|Hj'].
  - rewrite (sumn_zero m) by (intros k Hk; replace (n + k <? n) with false by (symmetry; apply Nat.ltb_ge; lia); reflexivity).
    rewrite (sumn_ext n _ (fun k => get x t k * get p k j)%K) by (intros k Hk; rewrite (proj2 (Nat.ltb_lt k n) Hk); reflexivity). rewrite get_mmul by lia. rewrite CX. ring.
  - rewrite (sumn_zero n) by (intros k Hk; rewrite (proj2 (Nat.ltb_lt k n) Hk); reflexivity).
    rewrite (sumn_ext m _ (fun k => get y t k * get q k (j - n))%K); [rewrite get_mmul by lia; rewrite CY; ring|]. intros k Hk. replace (n + k <? n) with false by (symmetry; apply Nat.ltb_ge; lia). replace (n + k - n) with k by lia. reflexivity.
Qed.
Lemma block_unitary : forall n m p q, unitary n p -> unitary m q -> unitary (n + m) (blockdiag n m p q).
Proof.
  intros n m p q [HP UP] [HQ UQ]. split; [apply shape_mk|]. apply (gshape_ext _ _ (n + m) (n + m)); [apply shape_mmul with (m := n + m); reflexivity|apply shape_meye|]. intros i j Hi Hj. rewrite get_mmul by (cbn; lia). change (nc (ctr (blockdiag n m p q))) with (n + m). rewrite get_meye by assumption.
  pose proof HP as (WP & RP & CP). pose proof HQ as (WQ & RQ & CQ).
  rewrite (sumn_ext _ _ (fun k => if k <? n then (if i <? n then (if j <? n then conj (get p k i) * get p k j else 0) else 0)%K else if i <? n then 0%K else if j <? n then 0%K else (conj (get q (k - n) (i - n)) * get q (k - n) (j - n))%K)).
  2:{ intros k Hk. rewrite get_ctr by (cbn; lia). unfold blockdiag. rewrite !get_mk by assumption. destruct (k <? n); destruct (i <? n); destruct (j <? n); rewrite ?conj_0; ring. }
  rewrite sumn_plus. destruct (Nat.ltb_spec i n) as [Hi'|Hi'].
  - rewrite (sumn_zero m) by (intros k Hk; replace (n + k <? n) with false by (symmetry; apply Nat.ltb_ge; lia); reflexivity).
    destruct (Nat.ltb_spec j n) as [Hj'|Hj'].
    + rewrite (sumn_ext n _ (fun k => get (ctr p) i k * get p k j)%K) by (intros k Hk; rewrite (proj2 (Nat.ltb_lt k n) Hk), get_ctr by lia; reflexivity).
      assert (E : get (mmul (ctr p) p) i j = get (meye n) i j) by (rewrite UP; reflexivity). rewrite get_mmul in E by (cbn; lia). change (nc (ctr p)) with (nr p) in E. rewrite RP, get_meye in E by assumption. rewrite E. ring.
    + rewrite (sumn_zero n) by (intros k Hk; rewrite (proj2 (Nat.ltb_lt k n) Hk); reflexivity). replace (i =? j) with false by (symmetry; apply Nat.eqb_neq; lia). ring.
  - rewrite (sumn_zero n) by (intros k Hk; rewrite (proj2 (Nat.ltb_lt k n) Hk); reflexivity). destruct (Nat.ltb_spec j n) as [Hj'|Hj'].
    + rewrite (sumn_zero m) by (intros k Hk; replace (n + k <? n) with false by (symmetry; apply Nat.ltb_ge; lia); reflexivity). replace (i =? j) with false by (symmetry; apply Nat.eqb_neq; lia). ring.
    + rewrite (sumn_ext m _ (fun k => get (ctr q) (i - n) k * get q k (j - n))%K) by (intros k Hk; replace (n + k <? n) with false by (symmetry; apply Nat.ltb_ge; lia); rewrite get_ctr by lia; replace (n + k - n) with k by lia; reflexivity).
      assert (E : get (mmul (ctr q) q) (i - n) (j - n) = get (meye m) (i - n) (j - n)) by (rewrite UQ; reflexivity). rewrite get_mmul in E by (cbn; lia). change (nc (ctr q)) with (nr q) in E. rewrite RQ, get_meye in E by lia. rewrite E.
      replace (i - n =? j - n) with (i =? j); [ring|]. destruct (Nat.eqb_spec i j); symmetry; [apply Nat.eqb_eq|apply Nat.eqb_neq]; lia.
Qed.
Lemma svd_basis : forall T M (a u vh d : mat CK) s, is_svd T M a u s vh -> unitary M d -> is_svd T M (mmul a d) u s (mmul vh d).
Proof.
  intros T M a u vh d s (Sa & Su & Sv & Uu & V1 & V2 & Ls & Sp & Sd & Ea) HU. pose proof (unitary_right M d HU) as R. destruct HU as [HD U]. pose proof HD as (WD & RD & CD). pose proof Sa as (Wa & Ra & Ca). pose proof Sv as (Wv & Rv & Cv). pose proof Su as (Wu & Ru & Cu).
  destruct (shape_ctr d M M HD) as (Wc & Rc & Cc). destruct (shape_ctr vh M M Sv) as (Wcv & Rcv & Ccv).
  split; [apply shape_mmul with (m := M); auto|]. split; [exact Su|]. split; [apply shape_mmul with (m := M); auto|]. split; [exact Uu|]. split; [|split; [|split; [exact Ls|split; [exact Sp|split; [exact Sd|]]]]].
  - rewrite ctr_mmul by dm. rewrite (mmul_assoc (ctr d)) by dm. rewrite <- (mmul_assoc (ctr vh)) by dm. rewrite V1, mmul_1_l' by assumption. exact U.
  - rewrite ctr_mmul by dm. rewrite (mmul_assoc vh) by dm. rewrite <- (mmul_assoc d) by dm. rewrite R, mmul_1_l' by assumption. exact V2.
  - rewrite Ea at 1. assert (RS : nr (sigma T M s) = T) by reflexivity. assert (CS : nc (sigma T M s) = M) by reflexivity. rewrite (mmul_assoc u) by dm. rewrite (mmul_assoc (sigma T M s)) by dm. reflexivity.
Qed.
(** the matrix computed from the right singular vectors *)
Definition tls_matrix (n M : nat) (vh : mat CK) : res (mat CK) := bind (kinverse (mslice (ctr vh) n M n M)) (fun i => matmul (mopp (mslice (ctr vh) 0 n n M)) i).
Definition tls_array (b : mat CK) : arr CK := if 1 <? nc b then A2 b else A1 (concat (dat b)).
Lemma tls_fit_matrix : forall svd T n m (x y : mat CK) u s vh, shape x T n -> shape y T m -> svd (hstack2 x y) = (u, s, vh) -> shape vh (n + m) (n + m) ->
  tls_fit svd x (A2 y) = bind (tls_matrix n (n + m) vh) (fun b => Ok (tls_array b)).
Proof.
  intros svd T n m x y u s vh (WX & RX & CX) (WY & RY & CY) E (Wv & Rv & Cv). unfold tls_fit, np_block2, tls_matrix. rewrite RX, RY, Nat.eqb_refl. cbn [bind]. rewrite E.
  change (mk (nc vh) (nr vh) (fun i j => conj (get vh j i))) with (ctr vh). change (nc (ctr vh)) with (nr vh). change (nr (ctr vh)) with (nc vh). rewrite Rv, Cv, CX.
  destruct (kinverse (mslice (ctr vh) n (n + m) n (n + m))); reflexivity.
Qed.
Lemma conj_mul0 : forall a : CK, conj (a * 0)%K = 0%K.
Proof. intros a. replace (a * 0)%K with (0%K : CK) by ring. apply conj_0. Qed.
Lemma slice_basis : forall n m (d vh : mat CK) r0 r1 (q : mat CK), shape d (n + m) (n + m) -> shape vh (n + m) (n + m) -> r0 <= r1 -> r1 <= n + m -> shape q (r1 - r0) (r1 - r0) ->
  (forall k i, k < n + m -> i < r1 - r0 -> get d k (r0 + i) = if (r0 <=? k) && (k <? r1) then get q (k - r0) i else 0%K) ->
  mslice (ctr (mmul vh d)) r0 r1 n (n + m) = mmul (ctr q) (mslice (ctr vh) r0 r1 n (n + m)).
Proof.
  intros n m d vh r0 r1 q (Wd & Rd & Cd) (Wv & Rv & Cv) H1 H2 (Wq & Rq & Cq) HD.
  apply (gshape_ext _ _ (r1 - r0) (n + m - n)); [apply shape_mk|apply shape_mmul with (m := r1 - r0); [exact Cq|reflexivity|exact Rq]|]. intros i j Hi Hj.
  unfold mslice at 1. rewrite get_mk by assumption. rewrite get_ctr by (cbn; lia). rewrite !get_mmul by (cbn; lia). rewrite conj_sumn. change (nc (ctr q)) with (nr q). rewrite Cv, Rq.
  replace (n + m) with (r0 + ((r1 - r0) + (n + m - r1))) at 1 by lia. rewrite !sumn_plus.
  rewrite (sumn_zero r0), (sumn_zero (n + m - r1)).
  - rewrite (sumn_ext (r1 - r0) _ (fun k => get (ctr q) i k * get (mslice (ctr vh) r0 r1 n (n + m)) k j)%K); [ring|]. intros k Hk. rewrite HD by lia. replace (r0 <=? r0 + k) with true by (symmetry; apply Nat.leb_le; lia). replace (r0 + k <? r1) with true by (symmetry; apply Nat.ltb_lt; lia). cbn [andb]. replace (r0 + k - r0) with k by lia.
    unfold mslice. rewrite get_mk by assumption. rewrite !get_ctr by lia. change (conj (get vh (n + j)%nat (r0 + k) * get q k i)%K) with (conj (cmul (get vh (n + j)%nat (r0 + k)) (get q k i))). rewrite conj_mul. change (cmul (conj (get vh (n + j)%nat (r0 + k))) (conj (get q k i))) with (conj (get vh (n + j)%nat (r0 + k)) * conj (get q k i))%K. ring.
  - intros k Hk. rewrite HD by lia. replace (r0 + (r1 - r0 + k) <? r1) with false by (symmetry; apply Nat.ltb_ge; lia). rewrite andb_false_r. apply conj_mul0.
  - intros k Hk. rewrite HD by lia. replace (r0 <=? k) with false by (symmetry; apply Nat.leb_gt; lia). cbn [andb]. apply conj_mul0.
Qed.
Lemma tls_matrix_basis : forall n m (p q vh : mat CK), unitary n p -> unitary m q -> shape vh (n + m) (n + m) ->
  both (fun b b' => shape b n m /\ b' = mmul (ctr p) (mmul b q)) (tls_matrix n (n + m) vh) (tls_matrix n (n + m) (mmul vh (blockdiag n m p q))).
Proof.
  intros n m p q vh HP HQ HV. pose proof (unitary_right m q HQ) as UR. destruct HP as [SP UP]. destruct HQ as [SQ UQ]. pose proof SP as (WP & RP & CP). pose proof SQ as (WQ & RQ & CQ). unfold tls_matrix.
  assert (HB : shape (blockdiag n m p q) (n + m) (n + m)) by apply shape_mk.
  rewrite (slice_basis n m (blockdiag n m p q) vh 0 n p HB HV ltac:(lia) ltac:(lia)); [|rewrite Nat.sub_0_r; exact SP|].
  2:{ intros k i Hk Hi. unfold blockdiag. rewrite get_mk by lia. cbn [Nat.leb andb Nat.add]. rewrite Nat.sub_0_r. replace (i <? n) with true by (symmetry; apply Nat.ltb_lt; lia). destruct (k <? n); reflexivity. }
  rewrite (slice_basis n m (blockdiag n m p q) vh n (n + m) q HB HV ltac:(lia) ltac:(lia)); [|replace (n + m - n) with m by lia; exact SQ|].
  2:{ intros k i Hk Hi. unfold blockdiag. rewrite get_mk by lia. replace (n + i <? n) with false by (symmetry; apply Nat.ltb_ge; lia). replace (k <? n + m) with true by (symmetry; apply Nat.ltb_lt; lia). rewrite andb_true_r. replace (n + i - n) with i by lia. destruct (Nat.ltb_spec k n); destruct (Nat.leb_spec n k); try lia; reflexivity. }
  set (Vx := mslice (ctr vh) 0 n n (n + m)). set (Vy := mslice (ctr vh) n (n + m) n (n + m)).
  assert (Sx : shape Vx n m) by (unfold Vx, mslice; replace (n + m - n) with m by lia; rewrite Nat.sub_0_r; apply shape_mk). assert (Sy : shape Vy m m) by (unfold Vy, mslice; replace (n + m - n) with m by lia; apply shape_mk). clearbody Vx Vy.
  pose proof Sx as (Wx & Rx & Cx). pose proof Sy as (Wy & Ry & Cy). destruct (shape_ctr q m m SQ) as (Wc & Rc & Cc). destruct (shape_ctr p n n SP) as (Wcp & Rcp & Ccp).
  assert (SV : shape (mmul (ctr q) Vy) m m) by (apply shape_mmul with (m := m); auto).
  destruct (kinverse Vy) as [i|er] eqn:EK; cbn [bind].
  - destruct (kinverse_sound Vy m i Sy EK) as (Si & I1 & I2). pose proof Si as (Wi & Ri & Ci).
    rewrite (kinverse_complete (mmul (ctr q) Vy) (mmul i q) m SV).
    + cbn [bind]. unfold matmul. replace (nc (mopp Vx) =? nr i) with true by (symmetry; apply Nat.eqb_eq; dm). replace (_ =? _) with true by (symmetry; apply Nat.eqb_eq; dm). cbn [both].
      split; [apply shape_mmul with (m := m); dm|]. assert (X : mopp (mmul (ctr p) Vx) = mmul (ctr p) (mopp Vx)).
      { apply (gshape_ext _ _ n m); [split; [apply wf_mk|split; dm]|apply shape_mmul with (m := n); dm|]. intros a b Ha Hb. rewrite get_mopp by dm. rewrite !get_mmul by dm. rewrite <- sumn_opp. apply sumn_ext. intros k Hk. change (nc (ctr p)) with (nr p) in Hk. rewrite get_mopp by lia. ring. }
      rewrite X. rewrite (mmul_assoc (ctr p)) by dm. rewrite (mmul_assoc (mopp Vx)) by dm. reflexivity.
    + apply shape_mmul with (m := m); auto.
    + rewrite (mmul_assoc (ctr q)) by dm. rewrite <- (mmul_assoc Vy) by dm. rewrite I1, mmul_1_l' by assumption. exact UQ.
  - pose proof (kinverse_err Vy er EK Wy) as ->. destruct (kinverse (mmul (ctr q) Vy)) as [i|er'] eqn:EK'; cbn [bind both].
    + exfalso. destruct (kinverse_sound _ m i SV EK') as (Si & I1 & I2). pose proof Si as (Wi & Ri & Ci).
      assert (L : mmul (mmul i (ctr q)) Vy = meye m) by (rewrite (mmul_assoc i) by dm; exact I2).
      rewrite (kinverse_complete Vy (mmul i (ctr q)) m Sy) in EK; [discriminate|apply shape_mmul with (m := m); auto|].
      apply (right_inverse_two_sided (mmul i (ctr q)) Vy m); [apply shape_mmul with (m := m); auto|exact Sy|exact L].
    + symmetry. exact (kinverse_err _ er' EK' ltac:(apply wf_mk)).
Qed.
Lemma array_stands : forall n m (b : mat CK), shape b n m -> 0 < m -> stands_for n m (tls_array b) b.
Proof. intros n m b HB Hm. unfold tls_array. pose proof HB as (W & R & C). rewrite C. destruct (Nat.ltb_spec 1 m); [split; [exact HB|reflexivity]|]. assert (E : m = 1) by lia. rewrite E in *. apply stands_for_list. exact HB. Qed.
Lemma tls_basis : forall svd T n m (p q x y : mat CK) s, unitary n p -> unitary m q -> shape x T n -> shape y T m -> 0 < m ->
  (let '(u, s0, vh) := svd (hstack2 x y) in s0 = s /\ is_svd T (n + m) (hstack2 x y) u s0 vh) ->
  (let '(u, s0, vh) := svd (hstack2 (mmul x p) (mmul y q)) in is_svd T (n + m) (hstack2 (mmul x p) (mmul y q)) u s0 vh) -> apart n (n + m) s ->
  both (coefficients n m (fun b b' => shape b n m /\ b' = mmul (ctr p) (mmul b q))) (tls_fit svd x (A2 y)) (tls_fit svd (mmul x p) (A2 (mmul y q))).
Proof.
  intros svd T n m p q x y s HP HQ HX HY Hm HS HS' SEP. destruct (svd (hstack2 x y)) as [[u s0] vh] eqn:ES. destruct HS as [-> HS]. destruct (svd (hstack2 (mmul x p) (mmul y q))) as [[u' s'] vh'] eqn:ES'.
  pose proof HS as (_ & _ & SV & _). pose proof HS' as (_ & _ & SV' & _). pose proof HP as [(WP & RP & CP) _]. pose proof HQ as [(WQ & RQ & CQ) _]. pose proof HX as (WX & RX & CX). pose proof HY as (WY & RY & CY).
  rewrite (tls_fit_matrix svd T n m x y u s vh HX HY ES SV). rewrite (tls_fit_matrix svd T n m (mmul x p) (mmul y q) u' s' vh'); [|apply shape_mmul with (m := n); dm|apply shape_mmul with (m := m); dm|exact ES'|exact SV'].
  assert (HB : hstack2 (mmul x p) (mmul y q) = mmul (hstack2 x y) (blockdiag n m p q)) by (apply (block_stack T n m); [exact HX|exact HY|apply HP|apply HQ]).
  pose proof (svd_basis T (n + m) _ u vh (blockdiag n m p q) s HS (block_unitary n m p q HP HQ)) as HS2. rewrite HB in HS'.
  pose proof (tls_blocks T T n m _ _ _ _ _ _ _ _ HS2 HS' eq_refl SEP) as B. fold (tls_matrix n (n + m) vh') in B. fold (tls_matrix n (n + m) (mmul vh (blockdiag n m p q))) in B. rewrite B.
  pose proof (tls_matrix_basis n m p q vh HP HQ SV) as G. destruct (tls_matrix n (n + m) vh) as [b|e]; destruct (tls_matrix n (n + m) (mmul vh (blockdiag n m p q))) as [b'|e']; cbn [both bind] in *; try contradiction; [|exact G].
  destruct G as [SB ->]. exists b, (mmul (ctr p) (mmul b q)). split; [apply array_stands; assumption|]. split; [apply array_stands; [|assumption]|split; [exact SB|reflexivity]]. destruct SB as (Wb & Rb & Cb). apply shape_mmul with (m := n); dm.
Qed.
End Basis.
