(** Repeated samples: sums, means, ordinary and total least squares, the Lasso. *)
From Coq Require Import Bool Arith List ZArith Lia Ring Field Permutation.
From Verif Require Import BasePy BaseFld BaseOrd BaseSum BaseMat BaseNumpy BaseLin ModelMatrixOps SpecMatrix ModelPrior ModelFit ModelLS ModelIdent ModelRun
  SpecPrior SpecLS SpecFit SpecIdent SpecBayes SpecOrder SpecTLS SpecRenumber SpecFactor SpecRepeat ProofRagged ProofMatrixOps ProofStruct ProofElim ProofMatrixProps ProofPrior ProofLS ProofTLS ProofFitBase ProofFit ProofFitEIV ProofFitOpt ProofFitBR ProofFitRep
  ProofIdent ProofPenalty ProofIdentMain ProofIdentThm ProofFrozen ProofBayes ProofBayesRun ProofRunIO ProofOffset ProofOrder ProofOrder2 ProofOrder3 ProofRenumber ProofRenumber2 ProofOrder4 ProofOrder5 ProofOrderRun ProofEquiv ProofEquiv2 ProofEquiv3 ProofEquiv4 ProofEquiv5 ProofEquiv6 ProofRoutines ProofFactor ProofLoads.
Import ListNotations.
Local Open Scope nat_scope.

Section Sums.
Context {A : Type} {O : Ops A} {F : Fld A}.
Add Field AfldRp : (@k_field A O F).
Lemma sum_counts : forall T (l : list nat) (f : nat -> A), (forall a, In a l -> a < T) -> fold_right (fun a b : A => (a + b)%K) 0%K (map f l) = sumn T (fun t => knat (count_occ Nat.eq_dec l t) * f t)%K.
Proof.
  intros T l f. induction l as [|a l IH]; intro H; cbn [map fold_right].
  - symmetry. apply sumn_zero. intros t Ht. cbn. ring.
  - rewrite IH by (intros b Hb; apply H; right; exact Hb). transitivity (sumn T (fun t => (if Nat.eqb t a then f a else 0) + knat (count_occ Nat.eq_dec l t) * f t)%K).
    + rewrite sumn_add. rewrite (sumn_single T a (fun t => if Nat.eqb t a then f a else 0%K)); [rewrite Nat.eqb_refl; reflexivity|apply H; left; reflexivity|].
      intros t Ht N. replace (t =? a) with false by (symmetry; apply Nat.eqb_neq; congruence). reflexivity.
    + apply sumn_ext. intros t Ht. cbn [count_occ]. destruct (Nat.eq_dec a t) as [->|N]; [rewrite Nat.eqb_refl; cbn [knat]; ring|]. replace (t =? a) with false by (symmetry; apply Nat.eqb_neq; congruence). ring.
Qed.
Lemma sum_list : forall n (g : nat -> A), sumn n g = fold_right (fun a b : A => (a + b)%K) 0%K (map g (seq 0 n)).
Proof. induction n as [|n IH]; intros g; [reflexivity|]. rewrite sumn_S_l. cbn [seq map fold_right]. f_equal. rewrite <- seq_shift, map_map. apply IH. Qed.
Lemma sum_repeats : forall k T T' p (f : nat -> A), repeats k T T' p -> sumn T' (fun t => f (p t)) = (knat k * sumn T f)%K.
Proof.
  intros k T T' p f [H1 H2]. rewrite sum_list. rewrite <- (map_map p f). rewrite (sum_counts T).
  - rewrite <- sumn_scal_l. apply sumn_ext. intros t Ht. rewrite H2 by exact Ht. reflexivity.
  - intros a Ha. apply in_map_iff in Ha. destruct Ha as (t & <- & Ht). apply in_seq in Ht. apply H1. lia.
Qed.
Lemma repeats_number : forall k T T' p, repeats k T T' p -> knat T' = (knat k * knat T)%K.
Proof. intros k T T' p H. pose proof (sum_repeats k T T' p (fun _ => 1%K) H) as E. rewrite !sumn_const in E. transitivity (knat T' * 1)%K; [ring|rewrite E; ring]. Qed.
Lemma knat_mul : forall a b, knat (a * b) = (knat a * knat b)%K.
Proof. induction a as [|a IH]; intros b; [cbn; ring|]. cbn [Nat.mul]. rewrite knat_add. cbn [knat]. rewrite IH. ring. Qed.
End Sums.

Section Repeat.
Context {K : Type} {O : Ops K} {F : Fld K} {O2 : OrdOps K} {OF : OrdFld K}.
Notation CK := (cplx K).
Add Field KfldRp : (@k_field K O F).
Add Field CfldRp : (@k_field CK _ _).

Ltac dm := repeat match goal with
  | |- context [nr (mmul ?a ?b)] => change (nr (mmul a b)) with (nr a)
  | |- context [nc (mmul ?a ?b)] => change (nc (mmul a b)) with (nc b)
  | |- context [nr (ctr ?a)] => change (nr (ctr a)) with (nc a)
  | |- context [nc (ctr ?a)] => change (nc (ctr a)) with (nr a)
  | |- context [nr (squares ?a ?b)] => change (nr (squares a b)) with a
  | |- context [nc (squares ?a ?b)] => change (nc (squares a b)) with a
  | |- context [nr (mopp ?a)] => change (nr (mopp a)) with (nr a)
  | |- context [nc (mopp ?a)] => change (nc (mopp a)) with (nc a)
  end; first [assumption|congruence|lia].
Lemma knat_cre : forall k, (knat k : CK) = cre (knat k).
Proof. induction k as [|k IH]; [reflexivity|]. cbn [knat]. rewrite IH. apply cplx_eq; cbn; ring. Qed.
Lemma mscal_one : forall (a : mat CK), wf a -> mscal 1%K a = a.
Proof. intros a W. apply (gshape_ext _ _ (nr a) (nc a)); [unfold mscal; apply shape_mk|split; auto|]. intros i j Hi Hj. rewrite get_mscal by assumption. ring. Qed.
Lemma sq_mono : forall a b : K, (0 <=! a)%K -> (a <=! b)%K -> (a * a <=! b * b)%K.
Proof.
  intros a b Ha H. apply kle_sub. assert (Hb : (0 <=! b)%K) by (eapply kle_trans; eassumption). apply kle_sub in H. pose proof (kle_mul _ _ H (kle_0_add _ _ Hb Ha)) as P. replace (b * b - a * a)%K with ((b - a) * (b + a))%K by ring. exact P.
Qed.
Lemma sq_le : forall a b : K, (0 <=! a)%K -> (a * a <=! b * b)%K -> (0 <=! b)%K -> (a <=! b)%K.
Proof.
  intros a b Ha H Hb. destruct (kle_total a b) as [L|L]; [exact L|]. pose proof (sq_mono b a Hb L) as P. assert (E : (a * a = b * b)%K) by (apply kle_antisym; assumption). rewrite (sq_inj a b Ha Hb E). apply kle_refl.
Qed.
Section Scaled.
Variable c : K.
Variables (T T' n m : nat) (a u vh a' u' vh' : mat CK) (s s' : list K).
Let M := n + m.
Hypothesis (HS : is_svd T M a u s vh) (HS' : is_svd T' M a' u' s' vh') (Hc : (0 <! c)%K) (G : mmul (ctr a') a' = mscal (cre c) (mmul (ctr a) a)) (SEP : separated n M s).
Let W := mmul vh (ctr vh').
Lemma r_svh : shape vh M M. Proof. apply HS. Qed.
Lemma r_svh' : shape vh' M M. Proof. apply HS'. Qed.
Lemma r_shW : shape W M M. Proof. destruct r_svh as (A & B & C). destruct r_svh' as (A' & B' & C'). apply shape_mmul with (m := M); [exact B|exact B'|exact C]. Qed.
Lemma r_W_unitary : mmul (ctr W) W = meye M.
Proof.
  destruct r_svh as (A & B & C). destruct r_svh' as (A' & B' & C'). destruct HS as (_ & _ & _ & _ & V1 & V2 & _). destruct HS' as (_ & _ & _ & _ & V1' & V2' & _). destruct (shape_ctr vh M M r_svh) as (Wc & Rc & Cc). destruct (shape_ctr vh' M M r_svh') as (Wc' & Rc' & Cc').
  unfold W. rewrite ctr_mmul by dm. rewrite ctr_ctr by exact A'. rewrite mmul_assoc by dm. rewrite <- (mmul_assoc (ctr vh) vh) by dm. rewrite V1, mmul_1_l' by assumption. exact V2'.
Qed.
Lemma r_W_intertwines : forall i j, i < M -> j < M -> get W i j = 0%K \/ (c * (vget s i * vget s i) = vget s' j * vget s' j)%K.
Proof.
  intros i j Hi Hj. pose proof (svd_gram _ _ _ _ _ _ HS) as G1. pose proof (svd_gram _ _ _ _ _ _ HS') as G2. rewrite G, G1 in G2.
  destruct r_svh as (A & B & C). destruct r_svh' as (A' & B' & C'). pose proof HS as (_ & _ & _ & _ & V1 & V2 & _). pose proof HS' as (_ & _ & _ & _ & V1' & V2' & _). destruct (shape_ctr vh M M r_svh) as (Wc & Rc & Cc). destruct (shape_ctr vh' M M r_svh') as (Wc' & Rc' & Cc').
  set (H := mmul (ctr vh) (mmul (squares M s) vh)) in *. assert (RH : nr H = M) by (exact Rc). assert (CH : nc H = M) by exact C.
  assert (E : mscal (cre c) (mmul (squares M s) W) = mmul W (squares M s')).
  { assert (L : mmul (squares M s) W = mmul vh (mmul H (ctr vh'))).
    { rewrite <- (mmul_assoc vh) by congruence. unfold H.
      rewrite <- (mmul_assoc vh (ctr vh)) by (first [congruence|change (nr (mmul (squares M s) vh)) with M; congruence]). rewrite V2, mmul_1_l' by (first [apply wf_mk|reflexivity]).
      rewrite (mmul_assoc (squares M s) vh) by dm. reflexivity. }
    rewrite L. rewrite <- (mmul_mscal_r (cre c) vh) by (change (nr (mmul H (ctr vh'))) with (nr H); congruence). rewrite <- (mmul_mscal_l (cre c) H). rewrite G2.
    rewrite (mmul_assoc (ctr vh')) by (first [change (nr (mmul (squares M s') vh')) with M; congruence|change (nc (mmul (squares M s') vh')) with (nc vh'); congruence]).
    rewrite (mmul_assoc (squares M s') vh') by dm. rewrite V2'. rewrite mmul_1_r' by (first [apply wf_mk|reflexivity]).
    rewrite <- mmul_assoc by (first [congruence|change (nr (squares M s')) with M; congruence]). reflexivity. }
  assert (E1 := f_equal (fun z => get z i j) E). cbv beta in E1. destruct r_shW as (WW & RW & CW).
  rewrite get_mscal in E1 by dm.
  rewrite (get_mmul (squares M s)) in E1 by dm. rewrite (get_mmul W) in E1 by dm. rewrite CW in E1. change (nc (squares M s)) with M in E1.
  rewrite (sumn_single M i) in E1; [|exact Hi|intros k Hk Hne; unfold squares; rewrite get_mk by assumption; replace (i =? k) with false by (symmetry; apply Nat.eqb_neq; congruence); ring].
  rewrite (sumn_single M j) in E1; [|exact Hj|intros k Hk Hne; unfold squares; rewrite get_mk by assumption; replace (k =? j) with false by (symmetry; apply Nat.eqb_neq; congruence); ring].
  unfold squares in E1. rewrite !get_mk, !Nat.eqb_refl in E1 by assumption.
  assert (Z : (cre (c * (vget s i * vget s i) - vget s' j * vget s' j) * get W i j = 0)%K).
  { transitivity (cre c * (cre (vget s i * vget s i) * get W i j) - get W i j * cre (vget s' j * vget s' j))%K; [apply cplx_eq; cbn; ring|rewrite E1; ring]. }
  apply kmul_integral in Z. destruct Z as [Z|Z]; [right|left; exact Z].
  apply cre_zero in Z. transitivity ((c * (vget s i * vget s i) - vget s' j * vget s' j) + vget s' j * vget s' j)%K; [ring|rewrite Z; ring].
Qed.
Lemma r_W_corner : forall i j, i < n -> n <= j -> j < M -> get W i j = 0%K.
Proof.
  intros i j Hi Hj HM. assert (IW : inj W) by (apply (left_inverse_inj W (ctr W) M M r_shW (shape_ctr W M M r_shW) r_W_unitary)). destruct r_shW as (WW & RW & CW).
  destruct (r_W_intertwines i j) as [|E]; [lia|exact HM|assumption|]. exfalso.
  (* the n+1 largest values of the second data set exceed all small ones of the first *)
  assert (B : forall l k, l <= n -> n <= k -> k < M -> get W k l = 0%K).
  { intros l k Hl Hk HkM. destruct (r_W_intertwines k l) as [|E']; [exact HkM|lia|assumption|]. exfalso.
    pose proof (proj1 (klt_spec _ _) (SEP i k Hi Hk HkM)) as L. apply L. apply (sq_le (vget s i) (vget s k)); [apply (sv_nonneg _ _ _ _ _ _ HS)| |apply (sv_nonneg _ _ _ _ _ _ HS)]. apply (le_scale c Hc). rewrite E', E. apply sq_mono; [apply (sv_nonneg _ _ _ _ _ _ HS')|]. apply (sv_sorted _ _ _ _ _ _ HS'). lia. }
  set (H := mk n (S n) (fun k l => get W k l)). destruct (wide_kernel H n (S n) (shape_mk _ _ _) ltac:(lia)) as (w & Lw & Nw & Zw).
  set (w' := pad M w). assert (Lw' : length w' = M) by (apply length_pad; rewrite Lw; lia).
  assert (Z1 : mvmul W w' = vzeros M).
  { apply vec_ext; [rewrite length_mvmul, length_vzeros; exact RW|]. intros k Hk. rewrite length_mvmul, RW in Hk. rewrite vget_vzeros, vget_mvmul by (rewrite RW; exact Hk). rewrite CW.
    replace M with (S n + (M - S n)) by lia. rewrite sumn_plus. rewrite (sumn_zero (M - S n)) by (intros l Hl; unfold w'; rewrite vget_pad, (vget_oob w) by lia; ring).
    destruct (Nat.lt_ge_cases k n) as [Hkn|Hkn].
    - apply (f_equal (fun z => vget z k)) in Zw. rewrite vget_vzeros, vget_mvmul in Zw by exact Hkn. unfold H in Zw. rewrite nc_mk in Zw.
      rewrite (sumn_ext (S n) _ (fun l => get (mk n (S n) (fun k l => get W k l)) k l * vget w l)%K); [rewrite Zw; ring|]. intros l Hl. unfold w'. rewrite vget_pad, get_mk by lia. reflexivity.
    - rewrite sumn_zero; [ring|]. intros l Hl. rewrite B by lia. ring. }
  apply Nw. apply vec_ext; [rewrite length_vzeros; exact Lw|]. intros k Hk. rewrite vget_vzeros. rewrite <- (vget_pad M w k). fold w'. rewrite (IW w') by (rewrite ?CW, ?RW; assumption). apply vget_vzeros.
Qed.
(** the two blocks used by the estimator *)
Let W2 := mk m m (fun i j => get W (n + i) (n + j)).
Lemma r_W2_unitary : mmul (ctr W2) W2 = meye m.
Proof.
  destruct r_shW as (WW & RW & CW). apply (gshape_ext _ _ m m); [apply shape_mmul with (m := m); reflexivity|apply shape_meye|]. intros i j Hi Hj. rewrite get_mmul by assumption. change (nc (ctr W2)) with m. rewrite get_meye by assumption.
  assert (E := f_equal (fun z => get z (n + i) (n + j)) r_W_unitary). cbv beta in E. rewrite get_meye in E by lia. rewrite get_mmul in E by dm. change (nc (ctr W)) with (nr W) in E. rewrite RW in E. unfold M in E. rewrite sumn_plus in E.
  rewrite (sumn_zero n) in E by (intros k Hk; rewrite (r_W_corner k (n + j)) by lia; ring).
  replace (n + i =? n + j) with (i =? j) in E by (destruct (Nat.eqb_spec i j), (Nat.eqb_spec (n + i) (n + j)); auto; lia).
  rewrite <- E. rewrite <- (sumn_ext m (fun k => get (ctr W) (n + i) (n + k) * get W (n + k) (n + j))%K); [ring|]. intros k Hk. rewrite !get_ctr by (rewrite ?RW, ?CW; first [lia|exact Hi|exact Hk]). unfold W2. rewrite !get_mk by assumption. reflexivity.
Qed.
Lemma r_block_mixed : forall r0 r1, r0 <= r1 -> r1 <= M -> mslice (ctr vh') r0 r1 n M = mmul (mslice (ctr vh) r0 r1 n M) W2.
Proof.
  intros r0 r1 H0 H1. destruct r_svh as (A & B & C). destruct r_svh' as (A' & B' & C'). destruct (shape_ctr vh M M r_svh) as (Wc & Rc & Cc). destruct (shape_ctr vh' M M r_svh') as (Wc' & Rc' & Cc'). destruct r_shW as (WW & RW & CW).
  pose proof HS as (_ & _ & _ & _ & V1 & _).
  assert (E : ctr vh' = mmul (ctr vh) W). { unfold W. rewrite <- mmul_assoc by dm. rewrite V1, mmul_1_l' by assumption. reflexivity. }
  apply (gshape_ext _ _ (r1 - r0) m); [unfold mslice; replace (M - n) with m by lia; apply shape_mk|apply shape_mmul with (m := m); [reflexivity|reflexivity|unfold mslice; rewrite nc_mk; lia]|].
  intros i j Hi Hj. rewrite get_mmul by (first [exact Hj|unfold mslice; rewrite nr_mk; exact Hi]). unfold mslice. rewrite nc_mk. rewrite get_mk by lia. rewrite E. rewrite get_mmul by lia. rewrite Cc. unfold M at 1. rewrite sumn_plus.
  rewrite (sumn_zero n) by (intros k Hk; rewrite (r_W_corner k (n + j)) by lia; ring). replace (M - n) with m by lia. transitivity (sumn m (fun k => get (ctr vh) (r0 + i) (n + k) * get W (n + k) (n + j))%K); [ring|].
  apply sumn_ext. intros k Hk. unfold W2. rewrite !get_mk by lia. reflexivity.
Qed.
Lemma r_tls_blocks :
  bind (kinverse (mslice (ctr vh') n M n M)) (fun i => matmul (mopp (mslice (ctr vh') 0 n n M)) i) =
  bind (kinverse (mslice (ctr vh) n M n M)) (fun i => matmul (mopp (mslice (ctr vh) 0 n n M)) i).
Proof.
  rewrite !r_block_mixed by lia. set (Vx := mslice (ctr vh) 0 n n M). set (Vy := mslice (ctr vh) n M n M). assert (Sx : shape Vx n m) by (unfold Vx, mslice; replace (M - n) with m by lia; rewrite Nat.sub_0_r; apply shape_mk). assert (Sy : shape Vy m m) by (unfold Vy, mslice; replace (M - n) with m by lia; apply shape_mk).
  assert (SW : shape W2 m m) by apply shape_mk. destruct (shape_ctr W2 m m SW) as (Wc & Rc & Cc). pose proof r_W2_unitary as U. pose proof (right_inverse_two_sided _ _ m (shape_ctr W2 m m SW) SW U) as U'.
  pose proof Sx as (Wx & Rx & Cx). pose proof Sy as (Wy & Ry & Cy). pose proof SW as (Ww & Rw & Cw).
  assert (SV : shape (mmul Vy W2) m m) by (apply shape_mmul with (m := m); auto).
  destruct (kinverse Vy) as [i|er] eqn:EK; cbn [bind].
  - destruct (kinverse_sound Vy m i Sy EK) as (Si & I1 & I2). pose proof Si as (Wi & Ri & Ci).
    rewrite (kinverse_complete (mmul Vy W2) (mmul (ctr W2) i) m SV).
    + cbn [bind]. unfold matmul. replace (_ =? _) with true by (symmetry; apply Nat.eqb_eq; dm). replace (_ =? _) with true by (symmetry; apply Nat.eqb_eq; dm). f_equal.
      assert (X : forall Z : mat CK, shape Z n m -> mopp (mmul Z W2) = mmul (mopp Z) W2).
      { intros Z (WZ & RZ & CZ). apply (gshape_ext _ _ n m); [split; [apply wf_mk|split; [exact RZ|exact Cw]]|apply shape_mmul with (m := m); auto|]. intros p r Hp Hr. rewrite get_mopp by dm. rewrite !get_mmul by dm.
        change (nc (mopp Z)) with (nc Z). rewrite <- sumn_opp. apply sumn_ext. intros k Hk. rewrite get_mopp by lia. ring. }
      rewrite (X Vx Sx). rewrite mmul_assoc by dm. rewrite <- (mmul_assoc W2 (ctr W2) i) by dm. rewrite U', mmul_1_l' by assumption. reflexivity.
    + apply shape_mmul with (m := m); auto.
    + rewrite (mmul_assoc Vy) by dm. rewrite <- (mmul_assoc W2 (ctr W2) i) by dm. rewrite U', mmul_1_l' by assumption. exact I1.
  - pose proof (kinverse_err Vy er EK Wy) as ->. destruct (kinverse (mmul Vy W2)) as [i|er'] eqn:EK'.
    + exfalso. destruct (kinverse_sound _ m i SV EK') as (Si & I1 & I2). pose proof Si as (Wi & Ri & Ci). rewrite (kinverse_complete Vy (mmul W2 i) m Sy) in EK; [discriminate|apply shape_mmul with (m := m); auto|].
      rewrite <- mmul_assoc by dm. exact I1.
    + cbn [bind]. f_equal. exact (kinverse_err _ er' EK' ltac:(apply wf_mk)).
Qed.
End Scaled.
Section Samples.
Variables (k T T' : nat) (p : nat -> nat).
Hypothesis (HR : repeats k T T' p) (Hk : 0 < k).
Let c : K := knat k.
Lemma rep_lt : forall t, t < T' -> p t < T. Proof. apply HR. Qed.
Lemma c_pos : (0 <! c)%K.
Proof. unfold c. apply ProofLoads.knat_pos. exact Hk. Qed.
Lemma c_neq : (knat k : CK) <> 0%K. Proof. apply knat_neq0. lia. Qed.

Lemma rep_mean : forall n (x x' : mat CK), repeated T T' n p x x' -> repeated T T' n p (minus_mean x) (minus_mean x').
Proof.
  intros n x x' ((W & R & C) & (W' & R' & C') & E). unfold minus_mean. rewrite R, C, R', C'. split; [apply shape_mk|]. split; [apply shape_mk|]. intros t j Ht Hj. pose proof (rep_lt t Ht) as Hp. rewrite !get_mk by assumption. rewrite E by assumption. f_equal. unfold mean_all. rewrite R, C, R', C'.
  rewrite (sumn_ext T' _ (fun s => sumn n (fun j => get x (p s) j))) by (intros s Hs; apply sumn_ext; intros l Hl; apply E; assumption). rewrite (sum_repeats k T T' p (fun t => sumn n (fun j => get x t j)) HR). rewrite !knat_mul, (repeats_number k T T' p HR).
  field. split; [apply knat_neq0; lia|]. split; [apply knat_neq0; lia|apply c_neq].
Qed.
Lemma rep_col_means : forall n (x x' : mat CK), repeated T T' n p x x' -> repeated T T' n p (minus_col_means x) (minus_col_means x').
Proof.
  intros n x x' ((W & R & C) & (W' & R' & C') & E). unfold minus_col_means. rewrite R, C, R', C'. split; [apply shape_mk|]. split; [apply shape_mk|]. intros t j Ht Hj. pose proof (rep_lt t Ht) as Hp. rewrite !get_mk by assumption. rewrite E by assumption. f_equal. unfold mean_col. rewrite R, R'.
  rewrite (sumn_ext T' _ (fun s => get x (p s) j)) by (intros s Hs; apply E; assumption). rewrite (sum_repeats k T T' p (fun t => get x t j) HR). rewrite (repeats_number k T T' p HR).
  field. split; [apply knat_neq0; lia|apply c_neq].
Qed.
Lemma rep_centred : forall lap n (v v' i i' : mat CK), repeated T T' n p v v' -> repeated T T' n p i i' ->
  repeated T T' n p (fst (centred lap v i)) (fst (centred lap v' i')) /\ repeated T T' n p (snd (centred lap v i)) (snd (centred lap v' i')).
Proof. intros [] n v v' i i' HV HI; cbn [centred fst snd]; [split; [apply rep_mean; exact HV|exact HI]|split; apply rep_col_means; assumption]. Qed.
Lemma rep_block : forall n m (x x' y y' : mat CK), repeated T T' n p x x' -> repeated T T' m p y y' -> repeated T T' (n + m) p (hstack2 x y) (hstack2 x' y').
Proof.
  intros n m x x' y y' ((WX & RX & CX) & (WX' & RX' & CX') & H) ((WY & RY & CY) & (WY' & RY' & CY') & H'). split; [|split].
  - unfold hstack2. rewrite RX, CX, CY. apply shape_mk.
  - unfold hstack2. rewrite RX', CX', CY'. apply shape_mk.
  - intros t j Ht Hj. pose proof (rep_lt t Ht) as Hp. unfold hstack2. rewrite RX, CX, CY, RX', CX', CY'. rewrite !get_mk by assumption. destruct (Nat.ltb_spec j n); [apply H; assumption|apply H'; lia].
Qed.
Lemma rep_gram : forall n (a a' : mat CK), repeated T T' n p a a' -> mmul (ctr a') a' = mscal (cre c) (mmul (ctr a) a).
Proof.
  intros n a a' (HA & HA' & E). pose proof HA as (WA & RA & CA). pose proof HA' as (WA' & RA' & CA').
  assert (S1 : shape (mmul (ctr a') a') n n) by (apply shape_mmul with (m := T'); [exact CA'|exact CA'|exact RA']). assert (S2 : shape (mmul (ctr a) a) n n) by (apply shape_mmul with (m := T); [exact CA|exact CA|exact RA]).
  pose proof S2 as (_ & R2 & C2). apply (gshape_ext _ _ n n S1); [unfold mscal; rewrite R2, C2; apply shape_mk|]. intros i j Hi Hj. rewrite get_mscal by (rewrite ?R2, ?C2; assumption).
  rewrite (get_mmul (ctr a') a') by dm. rewrite (get_mmul (ctr a) a) by dm. change (nc (ctr a')) with (nr a'). change (nc (ctr a)) with (nr a). rewrite RA, RA'. unfold c. rewrite <- knat_cre.
  rewrite <- (sum_repeats k T T' p (fun t => get (ctr a) i t * get a t j)%K HR). apply sumn_ext. intros t Ht. pose proof (rep_lt t Ht) as Hp. rewrite !get_ctr by (rewrite ?RA, ?CA, ?RA', ?CA'; assumption). rewrite !E by assumption. reflexivity.
Qed.
Lemma rep_fro2 : forall n (a a' : mat CK), repeated T T' n p a a' -> fro2 a' = (c * fro2 a)%K.
Proof.
  intros n a a' ((WA & RA & CA) & (WA' & RA' & CA') & E). unfold fro2. rewrite RA, CA, RA', CA'. unfold c. rewrite <- (sum_repeats k T T' p (fun t => sumn n (fun j => cnorm2 (get a t j))) HR). apply sumn_ext. intros t Ht. apply sumn_ext. intros j Hj. rewrite E by assumption. reflexivity.
Qed.
Lemma rep_misfit : forall n (x x' z z' M : mat CK), repeated T T' n p x x' -> repeated T T' n p z z' -> shape M n n -> repeated T T' n p (msubt z (mmul x M)) (msubt z' (mmul x' M)).
Proof.
  intros n x x' z z' M ((Wx & Rx & Cx) & (Wx' & Rx' & Cx') & E) ((Wz & Rz & Cz) & (Wz' & Rz' & Cz') & EZ) (WM & RM & CM).
  assert (S : forall r (a b : mat CK), nr a = r -> nc a = n -> shape (msubt a b) r n) by (intros r a b <- <-; apply shape_mk).
  split; [apply S; assumption|]. split; [apply S; assumption|]. intros t j Ht Hj. pose proof (rep_lt t Ht) as Hp. rewrite !get_msubt by congruence. rewrite EZ by assumption. f_equal. rewrite !get_mmul by congruence. rewrite Cx, Cx'. apply sumn_ext. intros l Hl. rewrite E by assumption. reflexivity.
Qed.

(** ** ordinary least squares *)
Let c1 : CK := (1 / knat k)%K.
Definition choice : mat CK := mk T' T (fun t j => if j =? p t then 1%K else 0%K).
Definition back : mat CK := mk T T' (fun j t => if j =? p t then c1 else 0%K).
Lemma choice_back : mmul back choice = meye T.
Proof.
  apply (gshape_ext _ _ T T); [apply shape_mmul with (m := T'); reflexivity|apply shape_meye|]. intros i j Hi Hj. rewrite get_mmul by assumption. change (nc back) with T'. rewrite get_meye by assumption.
  set (g := fun u => (c1 * ((if Nat.eqb i u then 1 else 0) * (if Nat.eqb j u then 1 else 0)))%K). rewrite (sumn_ext T' _ (fun t => g (p t))).
  - rewrite (sum_repeats k T T' p g HR). unfold g. rewrite sumn_scal_l. rewrite (sumn_single T i) by (first [exact Hi|intros u Hu N; replace (i =? u) with false by (symmetry; apply Nat.eqb_neq; congruence); ring]). rewrite Nat.eqb_refl, (Nat.eqb_sym j i). unfold c1. destruct (i =? j); field; apply c_neq.
  - intros t Ht. unfold g, back, choice. rewrite !get_mk by assumption. destruct (i =? p t), (j =? p t); ring.
Qed.
Lemma rep_choice : forall n (x x' : mat CK), repeated T T' n p x x' -> x' = mmul choice x.
Proof.
  intros n x x' (HX & HX' & H). destruct HX as (WX & RX & CX). apply (gshape_ext _ _ T' n HX'); [apply shape_mmul with (m := T); [reflexivity|exact CX|reflexivity]|]. intros t j Ht Hj.
  rewrite H by assumption. rewrite get_mmul by (first [exact Ht|congruence]). change (nc choice) with T. pose proof (rep_lt t Ht) as Hp.
  rewrite (sumn_single T (p t)); [|exact Hp|].
  - unfold choice. rewrite get_mk, Nat.eqb_refl by assumption. ring.
  - intros u Hu Hne. unfold choice. rewrite get_mk by assumption. replace (u =? p t) with false by (symmetry; apply Nat.eqb_neq; congruence). ring.
Qed.
Lemma conj_c1 : conj c1 = c1.
Proof. unfold c1. rewrite knat_cre. assert (E : (1 / cre (knat k))%K = cre (1 / knat k : K)%K :> CK). { apply (kmul_cancel_l (cre (knat k))). - intro Z. apply c_neq. rewrite knat_cre. exact Z. - transitivity (1 : CK)%K; [field; intro Z; apply c_neq; rewrite knat_cre; exact Z|]. apply cplx_eq; cbn; field; apply knat_neq0; lia. } rewrite E. apply cplx_eq; cbn; ring. Qed.
Lemma ctr_choice : ctr choice = mscal (knat k) back.
Proof.
  apply (gshape_ext _ _ T T'); [split; [apply wf_mk|split; reflexivity]|split; [apply wf_mk|split; reflexivity]|]. intros j t Hj Ht. rewrite get_ctr by assumption. rewrite get_mscal by assumption. unfold choice, back. rewrite !get_mk by assumption. unfold c1.
  destruct (j =? p t); [|apply cplx_eq; cbn; ring]. transitivity (1 : CK)%K; [apply cplx_eq; cbn; ring|field; apply c_neq].
Qed.
Lemma ctr_back : ctr back = mscal c1 choice.
Proof.
  apply (gshape_ext _ _ T' T); [split; [apply wf_mk|split; reflexivity]|split; [apply wf_mk|split; reflexivity]|]. intros t j Ht Hj. rewrite get_ctr by assumption. rewrite get_mscal by assumption. unfold choice, back. rewrite !get_mk by assumption.
  destruct (j =? p t); [rewrite conj_c1; ring|apply cplx_eq; cbn; ring].
Qed.
Lemma rep_penrose : forall n (x x' q' : mat CK), repeated T T' n p x x' -> penrose T' n x' q' -> penrose T n x (mmul q' choice).
Proof.
  intros n x x' q' HX (HX' & HQ & P1 & P2 & P3 & P4). pose proof HX as (SX & _). pose proof SX as (Wx & Rx & Cx). pose proof HX' as (Wx' & Rx' & Cx'). pose proof HQ as (Wq & Rq & Cq).
  assert (E' : mmul choice x = x') by (symmetry; apply (rep_choice n); exact HX). assert (RC : nr choice = T') by reflexivity. assert (CC : nc choice = T) by reflexivity. assert (RB : nr back = T) by reflexivity. assert (CB : nc back = T') by reflexivity.
  assert (E : mmul back x' = x). { rewrite <- E'. rewrite <- mmul_assoc by congruence. rewrite choice_back. apply mmul_1_l'; assumption. }
  assert (Q2 : mmul (mmul q' choice) x = mmul q' x') by (rewrite mmul_assoc by congruence; rewrite E'; reflexivity).
  assert (Q3 : mmul x (mmul q' choice) = mmul back (mmul (mmul x' q') choice)). { rewrite <- E at 1. rewrite (mmul_assoc back) by (dm). rewrite <- (mmul_assoc x') by dm. reflexivity. }
  split; [exact SX|]. split; [apply shape_mmul with (m := T'); auto|]. split; [|split; [|split]].
  - rewrite mmul_assoc by dm. rewrite Q2. rewrite <- E at 1. rewrite (mmul_assoc back) by dm. rewrite <- (mmul_assoc x') by dm. rewrite P1. exact E.
  - rewrite Q2. rewrite <- mmul_assoc by dm. rewrite P2. reflexivity.
  - rewrite Q3. rewrite ctr_mmul by dm. rewrite ctr_mmul by dm. rewrite P3, ctr_choice, ctr_back.
    rewrite mmul_mscal_r by dm. rewrite !mmul_mscal_l. rewrite mmul_assoc by dm. rewrite mscal_mscal. replace (c1 * knat k)%K with (1 : CK)%K by (unfold c1; field; apply c_neq). apply mscal_one. apply wf_mk.
  - rewrite Q2. exact P4.
Qed.
Lemma rep_ols : forall pinv n m (x x' z z' : mat CK), repeated T T' n p x x' -> repeated T T' m p z z' -> penrose T n x (pinv x) -> penrose T' n x' (pinv x') ->
  complex_regression_fit pinv x' z' = complex_regression_fit pinv x z.
Proof.
  intros pinv n m x x' z z' HX HZ P P'. pose proof (penrose_unique T n x _ _ P (rep_penrose n x x' _ HX P')) as U. unfold complex_regression_fit. rewrite U.
  assert (E' : mmul choice z = z') by (symmetry; apply (rep_choice m); exact HZ). destruct HZ as ((Wz & Rz & Cz) & (Wz' & Rz' & Cz') & EZ). destruct P' as (_ & (Wq & Rq & Cq) & _).
  unfold matmul. change (nc (mmul (pinv x') choice)) with T. rewrite Rz, Rz', Cq, !Nat.eqb_refl. f_equal. rewrite mmul_assoc by (first [exact Cq|exact (eq_sym Rz)]). rewrite E'. reflexivity.
Qed.
(** ** total least squares *)
Lemma rep_tls : forall svd n m (x x' y y' : mat CK) s, repeated T T' n p x x' -> repeated T T' m p y y' ->
  (let '(u, s0, vh) := svd (hstack2 x y) in s0 = s /\ is_svd T (n + m) (hstack2 x y) u s0 vh) -> (let '(u, s0, vh) := svd (hstack2 x' y') in is_svd T' (n + m) (hstack2 x' y') u s0 vh) ->
  apart n (n + m) s -> tls_fit svd x' (A2 y') = tls_fit svd x (A2 y).
Proof.
  intros svd n m x x' y y' s HX HY HS HS' SEP. pose proof (rep_gram (n + m) _ _ (rep_block n m _ _ _ _ HX HY)) as G. unfold tls_fit, np_block2.
  destruct HX as ((WX & RX & CX) & (WX' & RX' & CX') & _). destruct HY as ((WY & RY & CY) & (WY' & RY' & CY') & _). rewrite RX, RX', RY, RY', !Nat.eqb_refl. cbn [bind].
  destruct (svd (hstack2 x y)) as [[u s0] vh]. destruct HS as [-> HS]. destruct (svd (hstack2 x' y')) as [[u' s'] vh'].
  pose proof HS as (_ & _ & (Wv & Rv & Cv) & _). pose proof HS' as (_ & _ & (Wv' & Rv' & Cv') & _).
  pose proof (r_tls_blocks c T T' n m _ _ _ _ _ _ _ _ HS HS' c_pos G SEP) as B.
  change (mk (nc vh) (nr vh) (fun i j => conj (get vh j i))) with (ctr vh). change (mk (nc vh') (nr vh') (fun i j => conj (get vh' j i))) with (ctr vh').
  change (nc (ctr vh)) with (nr vh). change (nc (ctr vh')) with (nr vh'). change (nr (ctr vh)) with (nc vh). change (nr (ctr vh')) with (nc vh'). rewrite Rv, Rv', Cv, Cv', CX, CX'.
  revert B. destruct (kinverse (mslice (ctr vh') n (n + m) n (n + m))); destruct (kinverse (mslice (ctr vh) n (n + m) n (n + m))); cbn [bind]; intro B; first [rewrite B; reflexivity|rewrite <- B; reflexivity|injection B as ->; reflexivity].
Qed.
(** ** the regression of the Lasso *)
Lemma rep_inj : forall n (x x' : mat CK), repeated T T' n p x x' -> inj x -> inj x'.
Proof.
  intros n x x' HX Ix. pose proof HX as ((Wx & Rx & Cx) & (Wx' & Rx' & Cx') & _). intros v Lv Z. rewrite (rep_choice n x x' HX) in Z. rewrite mvmul_assoc in Z by (symmetry; exact Rx).
  assert (E : mvmul x v = mvmul back (vzeros T')).
  { apply (f_equal (mvmul back)) in Z. rewrite <- mvmul_assoc in Z by reflexivity. rewrite choice_back in Z. rewrite <- Rx in Z at 1. rewrite <- (length_mvmul x v) in Z at 1. rewrite mvmul_1 in Z. exact Z. }
  rewrite Cx' in *. rewrite <- Cx. apply Ix; [congruence|]. rewrite E, Rx. change T' with (nc back) at 1. rewrite mvmul_vzeros. reflexivity.
Qed.
Section Fit.
Variables (n m N : nat) (lap : bool) (al lam at_ rt : K) (prior : spprior K).
Variable pf : (K -> K -> K) -> list K -> list K -> K.
Variable q : (K -> K -> K) -> mat CK -> mat CK -> K.
Hypothesis G : rows_are al (psize lap n + psize lap n) m prior pf.
Hypothesis Hm : 1 < m.
Hypothesis Hal : (0 <! al)%K.
Hypothesis Hlam : (0 <=! lam)%K.
Hypothesis Hq : forall g M0 M, even g -> symmetric n M0 -> symmetric n M -> pf g (parameters lap M0) (parameters lap M) = q g M0 M.
Definition same_place (s s' : lstate K) : Prop := exists M0, at_matrix n lap prior M0 s /\ at_matrix n lap prior M0 s'.
Theorem rep_lasso : forall spsolve (x x' z z' Y0 : mat CK), solver_sound spsolve -> solver_complete spsolve ->
  repeated T T' n p x x' -> repeated T T' n p z z' -> inj x -> symmetric n Y0 ->
  exists y its its', fit_result (br_fit spsolve (object prior lam at_ rt N lap) x z Y0) = Ok (y, its) /\
    fit_result (br_fit spsolve (object prior (c * lam)%K (c * at_)%K rt N lap) x' z' Y0) = Ok (y, its') /\ Forall2 (record_scaled c) its its'.
Proof.
  intros spsolve x x' z z' Y0 Hs Hc HX HZ Ix SY. assert (Ix' := rep_inj n x x' HX Ix). assert (Hlam' : (0 <=! c * lam)%K) by (apply kle_mul; [apply klt_le; apply c_pos|exact Hlam]).
  destruct (dt_is n lap) as (D & ED & HD). destruct (e_is n lap) as (E & EE & HE). assert (ID := dt_inj lap n D ED).
  destruct (start_at n lap m N al lam at_ rt prior pf G Hm Hal E Y0 HE SY) as (M & mu & pen & EM & A0).
  pose proof HX as (SX & SX' & _). pose proof HZ as (SZ & SZ' & _). pose proof SX as (_ & _ & Cx). pose proof SX' as (_ & _ & Cx').
  unfold br_fit. rewrite (begin_ok n lap N lam at_ rt D E prior x Y0 M mu pen ED HD EE HE Cx (proj1 SY) EM). rewrite (begin_ok n lap N (c * lam)%K (c * at_)%K rt D E prior x' Y0 M mu pen ED HD EE HE Cx' (proj1 SY) EM). rewrite Cx, Cx'. cbn [object new_estimator e_abs_tol e_rel_tol e_max e_iters].
  destruct (loop_scale c c_pos same_place at_ rt
    (br_step spsolve (object prior lam at_ rt N lap) D (regressor n x D) (make_real_vector (vectorize_matrix z)) n)
    (br_step spsolve (object prior (c * lam) (c * at_) rt N lap)%K D (regressor n x' D) (make_real_vector (vectorize_matrix z')) n)) with (fuel := N) (it := 0) (iters := @nil (status K)) (iters' := @nil (status K)) (s := (Y0, M, mu)) (s' := (Y0, M, mu))
    as (l & l' & f & f' & L1 & L2 & L3 & L4).
  - intros s s' (A & (E1 & _) & (E2 & _)). congruence.
  - intros s s' (A & AA & AB).
    destruct (br_round n lap m N al lam at_ rt prior pf q G Hm Hal Hlam Hq spsolve x z T D s A Hs Hc SX SZ Ix HD ID AA) as (s1 & Q & E1 & B1 & B2 & B3 & _).
    destruct (br_round n lap m N al (c * lam)%K (c * at_)%K rt prior pf q G Hm Hal Hlam' Hq spsolve x' z' T' D s' A Hs Hc SX' SZ' Ix' HD ID AB) as (s1' & Q' & E1' & B1' & B2' & _ & B4').
    assert (V : forall X, symmetric n X -> value al (c * lam)%K q x' z' A X = (c * value al lam q x z A X)%K).
    { intros X SXX. unfold value. rewrite (rep_fro2 n _ _ (rep_misfit n x x' z z' X HX HZ (proj1 SXX))). ring. }
    assert (SQ := admissible_sym _ _ _ B2). assert (SQ' := admissible_sym _ _ _ B2').
    assert (EQ : Q = Q') by (apply B4'; [exact B2|]; rewrite !V by assumption; apply (le_scale c c_pos); apply B3; exact B2'). subst Q'.
    exists s1, s1'. eexists. split; [exact E1|]. split; [|exists Q; auto]. rewrite E1'. rewrite (rep_fro2 n _ _ (rep_misfit n x x' z z' Q HX HZ (proj1 SQ))). do 2 f_equal. ring.
  - exists Y0. auto.
  - constructor.
  - rewrite L1, L2. unfold finish_fit. cbn [snd fst fit_result e_adm e_iters]. exists (fst (fst f)), l, l'. split; [reflexivity|]. split; [|exact L3].
    destruct L4 as (A & (E1 & _) & (E2 & _)). do 2 f_equal. congruence.
Qed.
End Fit.

(** ** all standard methods *)
Theorem rep_standard : forall pinv svd spsolve (conf conf' : config K) n (v v' i i' : mat CK) lap it,
  solver_sound spsolve -> solver_complete spsolve -> (0 <=! lambda_lasso conf)%K -> 2 <= n -> repeated T T' n p v v' -> repeated T T' n p i i' ->
  lambda_lasso conf' = (knat k * lambda_lasso conf)%K -> abs_tol conf' = (knat k * abs_tol conf)%K -> rel_tol conf' = rel_tol conf ->
  library_right T pinv svd lap n v i -> library_right T' pinv svd lap n v' i' -> table_apart svd lap n v i -> inj (fst (centred lap v i)) ->
  (forall a, complex_regression_fit pinv (fst (centred lap v i)) (snd (centred lap v i)) = Ok a -> Forall (fun y => y <> 0%K) (parameters lap (sym_part n a))) ->
  standard_estimates pinv svd spsolve conf' v' i' lap it = standard_estimates pinv svd spsolve conf v i lap it.
Proof.
  intros pinv svd spsolve conf conf' n v v' i i' lap it Hs Hc Hl Hn HV HI C1 C2 C3 L L' A Ix NZ. unfold standard_estimates, library_right, table_apart in *. destruct (rep_centred lap n v v' i i' HV HI) as [RV RI]. destruct HV as ((_ & _ & C) & (_ & _ & C') & _). rewrite C, C'.
  destruct (centred lap v i) as [x z]. destruct (centred lap v' i') as [x' z']. cbn [fst snd] in *. destruct L as [P S]. destruct L' as [P' S'].
  rewrite (rep_ols pinv n n x x' z z' RV RI P P'). destruct (svd (hstack2 x z)) as [[u s] vh] eqn:E. rewrite (rep_tls svd n n x x' z z' s RV RI); [|rewrite E; split; [reflexivity|exact S]|exact S'|exact A].
  destruct (complex_regression_fit pinv x z) as [a|] eqn:EA; [|reflexivity]. cbn [bind]. destruct (tls_fit svd x (A2 z)); [|reflexivity]. cbn [bind].
  assert (SA : shape a n n).
  { unfold complex_regression_fit, matmul in EA. destruct P as (_ & (_ & RP & CP) & _). destruct RI as ((_ & Rz & Cz) & _). rewrite CP, Rz, Nat.eqb_refl in EA. assert (EA' : mmul (pinv x) z = a) by congruence. rewrite <- EA'. apply shape_mmul with (m := T); assumption. }
  destruct (p_lasso_rows lap n a Hn SA (NZ a eq_refl)) as (pr & m & pf & EP & Hm & G & Hpf). rewrite EP. cbn [bind]. destruct (0 <? it)%Z; [|reflexivity]. rewrite (half_sum_is n a SA). cbn [bind]. rewrite C1, C2, C3.
  change (new_estimator (sp_log_distribution pr) (lambda_lasso conf) (abs_tol conf) (rel_tol conf) (Z.to_nat it) (fun j => dt_of j lap) (fun j => e_of j lap)) with (object pr (lambda_lasso conf) (abs_tol conf) (rel_tol conf) (Z.to_nat it) lap).
  change (new_estimator (sp_log_distribution pr) (knat k * lambda_lasso conf)%K (knat k * abs_tol conf)%K (rel_tol conf) (Z.to_nat it) (fun j => dt_of j lap) (fun j => e_of j lap)) with (object pr (knat k * lambda_lasso conf)%K (knat k * abs_tol conf)%K (rel_tol conf) (Z.to_nat it) lap).
  assert (SS := sym_part_sym CK _ _ n a).
  destruct (rep_lasso n m (Z.to_nat it) lap (tenth 5) (lambda_lasso conf) (abs_tol conf) (rel_tol conf) pr pf (lasso_lines n lap (sym_part n a)) G Hm (tenth_pos 5) Hl) with (spsolve := spsolve) (x := x) (x' := x') (z := z) (z' := z') (Y0 := sym_part n a)
    as (y & its & its' & E1 & E2 & _); try assumption.
  - intros g M0 M Hg H0 H1. rewrite Hpf by (try assumption; apply length_parameters; (apply H0 || apply H1)). apply lasso_is_lines; (assumption || apply H0 || apply H1 || apply SS).
  - unfold c in E2. rewrite E1, E2. reflexivity.
Qed.
Theorem rep_least : forall pinv svd spsolve (conf conf' : config K) n (v v' i i' : mat CK) lap it, (it <= 0)%Z ->
  repeated T T' n p v v' -> repeated T T' n p i i' ->
  library_right T pinv svd lap n v i -> library_right T' pinv svd lap n v' i' -> table_apart svd lap n v i ->
  standard_estimates pinv svd spsolve conf' v' i' lap it = standard_estimates pinv svd spsolve conf v i lap it.
Proof.
  intros pinv svd spsolve conf conf' n v v' i i' lap it Hit HV HI L L' A. unfold standard_estimates, library_right, table_apart in *. destruct (rep_centred lap n v v' i i' HV HI) as [RV RI]. destruct HV as ((_ & _ & C) & (_ & _ & C') & _). rewrite C, C'.
  destruct (centred lap v i) as [x z]. destruct (centred lap v' i') as [x' z']. cbn [fst snd] in *. destruct L as [P S]. destruct L' as [P' S'].
  rewrite (rep_ols pinv n n x x' z z' RV RI P P'). destruct (svd (hstack2 x z)) as [[u s] vh] eqn:E. rewrite (rep_tls svd n n x x' z z' s RV RI); [|rewrite E; split; [reflexivity|exact S]|exact S'|exact A].
  replace (0 <? it)%Z with false by (symmetry; apply Z.ltb_ge; exact Hit). reflexivity.
Qed.
End Samples.
End Repeat.
