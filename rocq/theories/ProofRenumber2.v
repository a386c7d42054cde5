(** Renumbered nodes and other units: ordinary and total least squares. *)
From Coq Require Import Bool Arith List Lia Ring Field Permutation.
From Verif Require Import BasePy BaseFld BaseOrd BaseSum BaseMat BaseNumpy BaseLin ModelMatrixOps ModelFit ModelLS SpecMatrix SpecLS SpecFit SpecOrder SpecTLS SpecRenumber ProofMatrixOps ProofLS ProofTLS ProofFitBase ProofOrder4 ProofOrder5 ProofTLSOpt ProofTLSOpt2 ProofRenumber.
Import ListNotations.
Local Open Scope nat_scope.

Section Renumber.
Context {K : Type} {O : Ops K} {F : Fld K} {O2 : OrdOps K} {OF : OrdFld K}.
Notation CK := (cplx K).
Add Field KfldRn2 : (@k_field K O F).
Add Field CfldRn2 : (@k_field CK _ _).

Section Perm.
Variable (n : nat) (p : nat -> nat) (HP : numbering n p).
Definition pcols : mat CK := mk n n (fun k j => if k =? p j then 1%K else 0%K).
Lemma pcols_unitary : unitary n pcols.
Proof.
  split; [apply shape_mk|]. apply (gshape_ext _ _ n n); [apply shape_mmul with (m := n); reflexivity|apply shape_meye|]. intros i j Hi Hj. rewrite get_mmul by assumption. change (nc (ctr pcols)) with n. rewrite get_meye by assumption.
  pose proof (order_lt n p HP i Hi). rewrite (sumn_single n (p i)); [| assumption |].
  - rewrite get_ctr by assumption. unfold pcols. rewrite !get_mk by assumption. rewrite Nat.eqb_refl, conj_1. destruct (Nat.eqb_spec i j) as [-> |Hne]; [rewrite Nat.eqb_refl; ring|]. replace (p i =? p j) with false; [ring|]. symmetry. apply Nat.eqb_neq. intro E. apply Hne. apply (order_inj n p HP); assumption.
  - intros k Hk Hne. rewrite get_ctr by assumption. unfold pcols. rewrite !get_mk by assumption. replace (k =? p i) with false by (symmetry; apply Nat.eqb_neq; congruence). rewrite conj_0. ring.
Qed.
Lemma get_mmul_pcols : forall T (x : mat CK) t j, shape x T n -> t < T -> j < n -> get (mmul x pcols) t j = get x t (p j).
Proof.
  intros T x t j (W & R & C) Ht Hj. rewrite get_mmul by (cbn; congruence). rewrite C. pose proof (order_lt n p HP j Hj). rewrite (sumn_single n (p j)); [| assumption |].
  - unfold pcols. rewrite get_mk, Nat.eqb_refl by assumption. ring.
  - intros k Hk Hne. unfold pcols. rewrite get_mk by assumption. replace (k =? p j) with false by (symmetry; apply Nat.eqb_neq; congruence). ring.
Qed.
Lemma columns_mmul : forall T (x x' : mat CK), columns_renumbered T n p x x' -> x' = mmul x pcols.
Proof.
  intros T x x' (HX & HX' & H). pose proof HX as (W & R & C). apply (gshape_ext _ _ T n HX'); [apply shape_mmul with (m := n); auto|]. intros t j Ht Hj. rewrite (get_mmul_pcols T) by assumption. apply H; assumption.
Qed.
Lemma renumbered_mmul : forall b : mat CK, shape b n n -> renumbered n p b (mmul (ctr pcols) (mmul b pcols)).
Proof.
  intros b HB. pose proof HB as (W & R & C). split; [exact HB|]. split; [apply shape_mmul with (m := n); auto|]. intros i j Hi Hj. rewrite get_mmul by assumption. change (nc (ctr pcols)) with n. pose proof (order_lt n p HP i Hi). rewrite (sumn_single n (p i)); [|assumption|].
  - rewrite (get_mmul_pcols n) by assumption. rewrite get_ctr by assumption. unfold pcols. rewrite get_mk, Nat.eqb_refl, conj_1 by assumption. ring.
  - intros k Hk Hne. rewrite get_ctr by assumption. unfold pcols. rewrite get_mk by assumption. replace (k =? p i) with false by (symmetry; apply Nat.eqb_neq; congruence). rewrite conj_0. ring.
Qed.
Lemma ols_renumbered : forall pinv T (x x' z z' : mat CK), columns_renumbered T n p x x' -> columns_renumbered T n p z z' -> penrose T n x (pinv x) -> penrose T n x' (pinv x') ->
  both (renumbered n p) (complex_regression_fit pinv x z) (complex_regression_fit pinv x' z').
Proof.
  intros pinv T x x' z z' HX HZ P P'. rewrite (columns_mmul T x x' HX) in *. rewrite (columns_mmul T z z' HZ) in *.
  destruct (ols_basis pinv T n n pcols pcols x z pcols_unitary pcols_unitary ltac:(apply HZ) P P') as (b & E & SB & E'). rewrite E, E'. apply renumbered_mmul. exact SB.
Qed.
Lemma tls_renumbered : forall svd T (x x' y y' : mat CK) s, 0 < n -> columns_renumbered T n p x x' -> columns_renumbered T n p y y' ->
  (let '(u, s0, vh) := svd (hstack2 x y) in s0 = s /\ is_svd T (n + n) (hstack2 x y) u s0 vh) -> (let '(u, s0, vh) := svd (hstack2 x' y') in is_svd T (n + n) (hstack2 x' y') u s0 vh) ->
  apart n (n + n) s -> both (coefficients n n (renumbered n p)) (tls_fit svd x (A2 y)) (tls_fit svd x' (A2 y')).
Proof.
  intros svd T x x' y y' s Hn HX HY HS HS' SEP. rewrite (columns_mmul T x x' HX) in *. rewrite (columns_mmul T y y' HY) in *.
  pose proof (tls_basis svd T n n pcols pcols x y s pcols_unitary pcols_unitary ltac:(apply HX) ltac:(apply HY) Hn HS HS' SEP) as B.
  destruct (tls_fit svd x (A2 y)); destruct (tls_fit svd (mmul x pcols) (A2 (mmul y pcols))); cbn [both] in *; try exact B. destruct B as (b & b' & S1 & S2 & SB & ->). exists b, (mmul (ctr pcols) (mmul b pcols)). split; [exact S1|]. split; [exact S2|]. apply renumbered_mmul. exact SB.
Qed.
End Perm.

Lemma scaled_mscal : forall r c (a : CK) (x x' : mat CK), scaled r c a x x' -> x' = mscal a x.
Proof. intros r c a x x' (HX & HX' & H). pose proof HX as (W & R & C). apply (gshape_ext _ _ r c HX'); [rewrite <- R, <- C; apply shape_mk|]. intros t j Ht Hj. rewrite get_mscal by congruence. apply H; assumption. Qed.
Lemma mscal_scaled : forall r c (a : CK) (x : mat CK), shape x r c -> scaled r c a x (mscal a x).
Proof. intros r c a x HX. pose proof HX as (W & R & C). split; [exact HX|]. split; [rewrite <- R, <- C; apply shape_mk|]. intros t j Ht Hj. apply get_mscal; congruence. Qed.
Lemma mscal_mscal : forall (a b : CK) x, mscal a (mscal b x) = mscal (a * b)%K x.
Proof. intros a b x. apply gmat_ext; try apply wf_mk; auto. intros i j Hi Hj. rewrite !get_mscal by assumption. ring. Qed.
Lemma ols_units : forall pinv T n m (a b : CK) (x x' z z' : mat CK), a <> 0%K -> scaled T n a x x' -> scaled T m b z z' -> penrose T n x (pinv x) -> penrose T n x' (pinv x') ->
  both (scaled n m (b / a)%K) (complex_regression_fit pinv x z) (complex_regression_fit pinv x' z').
Proof.
  intros pinv T n m a b x x' z z' Ha HX HZ P P'. rewrite (scaled_mscal T n a x x' HX) in *. rewrite (scaled_mscal T m b z z' HZ) in *. unfold complex_regression_fit.
  rewrite (penrose_unique T n _ _ _ P' (penrose_scaled T n a x _ Ha P)). destruct P as (_ & (Wp & Rp & Cp) & _). destruct HZ as ((WZ & RZ & CZ) & _). unfold matmul.
  change (nc (mscal (1 / a)%K (pinv x))) with (nc (pinv x)). change (nr (mscal b z)) with (nr z). replace (nc (pinv x) =? nr z) with true by (symmetry; apply Nat.eqb_eq; congruence). cbn [both].
  rewrite mmul_mscal_l, mmul_mscal_r, mscal_mscal by congruence. replace (1 / a * b)%K with (b / a)%K by (field; exact Ha). apply mscal_scaled. apply shape_mmul with (m := T); congruence.
Qed.
Lemma hstack_mscal : forall T n m (a : CK) (x y : mat CK), shape x T n -> shape y T m -> hstack2 (mscal a x) (mscal a y) = mscal a (hstack2 x y).
Proof.
  intros T n m a x y (WX & RX & CX) (WY & RY & CY). apply gmat_ext; try apply wf_mk; auto. intros i j Hi Hj. cbn in Hi, Hj. rewrite get_mscal by assumption. rewrite !get_hstack2 by (cbn; lia). change (nc (mscal a x)) with (nc x). destruct (Nat.ltb_spec j (nc x)); rewrite get_mscal by (cbn; lia); reflexivity.
Qed.
(** a common positive factor *)
Lemma svd_scaled : forall T M (k : K) (a u vh : mat CK) s, 0%K <! k -> is_svd T M a u s vh -> is_svd T M (mscal (Cx k 0%K) a) u (map (kmul k) s) vh.
Proof.
  intros T M k a u vh s Hk (Sa & Su & Sv & Uu & V1 & V2 & Ls & Sp & Sd & Ea).
  assert (Hk' : (0 <=! k)%K) by (apply klt_le; exact Hk).
  assert (G : forall i, i < length s -> vget (map (kmul k) s) i = (k * vget s i)%K) by (intros i Hi; unfold vget; rewrite (nth_indep _ _ (k * 0)%K) by (rewrite map_length; exact Hi); apply map_nth).
  split; [destruct Sa as (_ & <- & <-); apply shape_mk|]. split; [exact Su|]. split; [exact Sv|]. split; [exact Uu|]. split; [exact V1|]. split; [exact V2|]. split; [rewrite map_length; exact Ls|]. rewrite map_length. split; [|split].
  - intros i Hi. rewrite G by exact Hi. apply kle_mul; [exact Hk'|apply Sp; exact Hi].
  - intros i j Hij Hj. rewrite !G by lia. apply (proj2 (kle_sub _ _)). replace (k * vget s i - k * vget s j)%K with (k * (vget s i - vget s j))%K by ring. apply kle_mul; [exact Hk'|]. apply (proj1 (kle_sub _ _)). apply Sd; assumption.
  - rewrite Ea at 1. destruct Su as (_ & _ & Cu). rewrite <- mmul_mscal_r by exact Cu. f_equal. rewrite <- mmul_mscal_l. f_equal.
    apply (gshape_ext _ _ T M); [apply shape_mk|apply shape_mk|]. intros i j Hi Hj. rewrite get_mscal by assumption. unfold sigma. rewrite !get_mk by assumption. destruct (Nat.eqb_spec i j); cbn [andb]; [|ring].
    subst j. rewrite G by (rewrite Ls; lia). apply cplx_eq; cbn; ring.
Qed.
Lemma tls_units : forall svd T n m (k : K) (x x' y y' : mat CK) s, 0%K <! k -> 0 < m -> scaled T n (Cx k 0%K) x x' -> scaled T m (Cx k 0%K) y y' ->
  (let '(u, s0, vh) := svd (hstack2 x y) in s0 = s /\ is_svd T (n + m) (hstack2 x y) u s0 vh) -> (let '(u, s0, vh) := svd (hstack2 x' y') in is_svd T (n + m) (hstack2 x' y') u s0 vh) ->
  apart n (n + m) s -> tls_fit svd x' (A2 y') = tls_fit svd x (A2 y).
Proof.
  intros svd T n m k x x' y y' s Hk Hm HX HY HS HS' SEP. rewrite (scaled_mscal T n _ x x' HX) in *. rewrite (scaled_mscal T m _ y y' HY) in *. destruct HX as (HX & _). destruct HY as (HY & _). pose proof (mscal_scaled T n (Cx k 0%K) x HX) as (_ & HX' & _). pose proof (mscal_scaled T m (Cx k 0%K) y HY) as (_ & HY' & _).
  destruct (svd (hstack2 x y)) as [[u s0] vh] eqn:ES. destruct HS as [-> HS]. destruct (svd (hstack2 (mscal (Cx k 0%K) x) (mscal (Cx k 0%K) y))) as [[u' s'] vh'] eqn:ES'. pose proof HS as (_ & _ & SV & _). pose proof HS' as (_ & _ & SV' & _).
  rewrite (tls_fit_matrix svd T n m x y u s vh HX HY ES SV). rewrite (tls_fit_matrix svd T n m _ _ u' s' vh' HX' HY' ES' SV').
  rewrite (hstack_mscal T n m _ x y HX HY) in HS'. pose proof (svd_scaled T (n + m) k _ u vh s Hk HS) as HS2.
  assert (SEP' : apart n (n + m) (map (kmul k) s)).
  { intros i j Hi Hj HM. specialize (SEP i j Hi Hj HM). assert (G : forall l, vget (map (kmul k) s) l = (k * vget s l)%K) by (intros l; unfold vget; replace 0%K with (k * 0)%K at 1 by ring; apply map_nth). rewrite !G.
    apply klt_spec2. apply klt_spec2 in SEP. destruct SEP as [L N]. split; [apply kle_mul_l; [apply klt_le; exact Hk|exact L]|]. intro E. apply N. apply (f_equal (fun v => (1 / k * v)%K)) in E. replace (1 / k * (k * vget s j))%K with (vget s j) in E by (field; apply klt_neq; exact Hk). replace (1 / k * (k * vget s i))%K with (vget s i) in E by (field; apply klt_neq; exact Hk). exact E. }
  pose proof (tls_blocks T T n m _ _ _ _ _ _ _ _ HS2 HS' eq_refl SEP') as B. fold (tls_matrix n (n + m) vh') in B. fold (tls_matrix n (n + m) vh) in B. rewrite B. reflexivity.
Qed.
End Renumber.
