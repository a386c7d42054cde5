(** Two data sets with the same products: ordinary and total least squares. *)
From Coq Require Import Bool Arith List Lia Ring Field.
From Verif Require Import BasePy BaseFld BaseOrd BaseSum BaseMat BaseNumpy BaseLin ModelMatrixOps ModelLS SpecMatrix SpecLS ProofMatrixOps ProofLS ProofTLS.
Import ListNotations.
Local Open Scope nat_scope.

Section Order.
Context {K : Type} {O : Ops K} {F : Fld K} {O2 : OrdOps K} {OF : OrdFld K}.
Notation CK := (cplx K).
Add Field KfldO4 : (@k_field K O F).
Add Field CfldO4 : (@k_field CK _ _).

(** the squared values on the diagonal *)
Definition squares (M : nat) (s : list K) : mat CK := mk M M (fun i j => if i =? j then cre (vget s i * vget s i)%K else 0%K).
Ltac dm := repeat match goal with
  | |- context [nr (mmul ?a ?b)] => change (nr (mmul a b)) with (nr a)
  | |- context [nc (mmul ?a ?b)] => change (nc (mmul a b)) with (nc b)
  | |- context [nr (ctr ?a)] => change (nr (ctr a)) with (nc a)
  | |- context [nc (ctr ?a)] => change (nc (ctr a)) with (nr a)
  | |- context [nr (squares ?a ?b)] => change (nr (squares a b)) with a
  | |- context [nc (squares ?a ?b)] => change (nc (squares a b)) with a
  | |- context [nr (mopp ?a)] => change (nr (mopp a)) with (nr a)
  | |- context [nc (mopp ?a)] => change (nc (mopp a)) with (nc a)
  end; first [assumption|congruence|lia].

(** *** the pseudo-inverse is unique *)
Lemma penrose_unique : forall T n (x p q : mat CK), penrose T n x p -> penrose T n x q -> p = q.
Proof.
  intros T n x p q ((Wx & Rx & Cx) & (Wp & Rp & Cp) & P1 & P2 & P3 & P4) (_ & (Wq & Rq & Cq) & Q1 & Q2 & Q3 & Q4).
  assert (E1 : mmul x p = mmul x q).
  { transitivity (mmul (mmul x q) (mmul x p)).
    - rewrite <- (mmul_assoc (mmul x q) x p) by dm. rewrite Q1. reflexivity.
    - rewrite <- Q3, <- P3, <- ctr_mmul by dm.
      rewrite <- (mmul_assoc (mmul x p) x q) by dm. rewrite P1, Q3. reflexivity. }
  assert (E2 : mmul p x = mmul q x).
  { transitivity (mmul (mmul p x) (mmul q x)).
    - rewrite (mmul_assoc p x (mmul q x)) by dm. rewrite <- (mmul_assoc x q x) by dm. rewrite Q1. reflexivity.
    - rewrite <- P4, <- Q4, <- ctr_mmul by dm.
      rewrite (mmul_assoc q x (mmul p x)) by dm. rewrite <- (mmul_assoc x p x) by dm. rewrite P1, Q4. reflexivity. }
  rewrite <- P2, E2, mmul_assoc by dm. rewrite E1, <- mmul_assoc by dm. exact Q2.
Qed.
Lemma penrose_mixed : forall T n (q x p : mat CK), shape q T T -> mmul (ctr q) q = meye T -> penrose T n x p -> penrose T n (mmul q x) (mmul p (ctr q)).
Proof.
  intros T n q x p HQ U (HX & HP & P1 & P2 & P3 & P4). pose proof HQ as (WQ & RQ & CQ). pose proof HX as (Wx & Rx & Cx). pose proof HP as (Wp & Rp & Cp). destruct (shape_ctr q T T HQ) as (Wh & Rh & Ch).
  assert (B : forall Z : mat CK, wf Z -> nr Z = T -> mmul (ctr q) (mmul q Z) = Z) by (intros Z W R; rewrite <- mmul_assoc by congruence; rewrite U; apply mmul_1_l'; auto).
  assert (X1 : mmul (mmul q x) (mmul p (ctr q)) = mmul q (mmul (mmul x p) (ctr q))).
  { rewrite (mmul_assoc q) by dm. rewrite <- (mmul_assoc x p) by dm. reflexivity. }
  assert (X2 : mmul (mmul p (ctr q)) (mmul q x) = mmul p x).
  { rewrite (mmul_assoc p) by dm. rewrite B; auto. }
  split; [apply shape_mmul with (m := T); auto|]. split; [apply shape_mmul with (m := T); auto|]. split; [|split; [|split]].
  - rewrite (mmul_assoc (mmul q x)) by dm.
    rewrite X2, (mmul_assoc q) by dm. rewrite <- (mmul_assoc x p x) by dm. rewrite P1. reflexivity.
  - rewrite X2, <- (mmul_assoc (mmul p x)) by dm. rewrite P2. reflexivity.
  - rewrite X1. rewrite (ctr_mmul q) by dm. rewrite (ctr_mmul (mmul x p)) by dm.
    rewrite P3, ctr_ctr by exact WQ. rewrite mmul_assoc by dm. reflexivity.
  - rewrite X2. exact P4.
Qed.
Lemma ols_mixed : forall pinv T n m (q x z : mat CK), shape q T T -> mmul (ctr q) q = meye T -> shape z T m -> penrose T n x (pinv x) -> penrose T n (mmul q x) (pinv (mmul q x)) ->
  complex_regression_fit pinv (mmul q x) (mmul q z) = complex_regression_fit pinv x z.
Proof.
  intros pinv T n m q x z HQ U HZ P P'. pose proof HQ as (WQ & RQ & CQ). pose proof HZ as (WZ & RZ & CZ). destruct (shape_ctr q T T HQ) as (Wh & Rh & Ch).
  rewrite (ols_fit_ok pinv _ _ T n m P') by (apply shape_mmul with (m := T); auto). rewrite (ols_fit_ok pinv _ _ T n m P HZ). f_equal.
  rewrite (penrose_unique T n _ _ _ P' (penrose_mixed T n q x _ HQ U P)). destruct P as (_ & (Wp & Rp & Cp) & _).
  rewrite mmul_assoc by dm. rewrite <- (mmul_assoc (ctr q) q z) by dm. rewrite U, mmul_1_l' by auto. reflexivity.
Qed.

(** *** the dominated right singular vectors are determined up to a unitary factor *)
Lemma svd_gram : forall T M (a u vh : mat CK) s, is_svd T M a u s vh -> mmul (ctr a) a = mmul (ctr vh) (mmul (squares M s) vh).
Proof.
  intros T M a u vh s (Sa & Su & Sv & Uu & V1 & V2 & Ls & Sp & Sd & Ea). pose proof Su as (Wu & Ru & Cu). pose proof Sv as (Wv & Rv & Cv). rewrite Ea. set (S := sigma T M s). assert (HS : shape S T M) by apply shape_mk. pose proof HS as (WS & RS & CS).
  rewrite (ctr_mmul u) by dm. rewrite (ctr_mmul S) by dm. destruct (shape_ctr S T M HS) as (Wc & Rc & Cc). destruct (shape_ctr u T T Su) as (Wcu & Rcu & Ccu). destruct (shape_ctr vh M M Sv) as (Wcv & Rcv & Ccv).
  rewrite (mmul_assoc (mmul (ctr vh) (ctr S))) by dm.
  rewrite <- (mmul_assoc (ctr u) u) by dm. rewrite Uu, mmul_1_l' by (first [apply wf_mk|exact RS]).
  rewrite (mmul_assoc (ctr vh)) by dm. rewrite <- (mmul_assoc (ctr S) S vh) by dm. f_equal. f_equal.
  apply (gshape_ext _ _ M M); [apply shape_mmul with (m := T); auto|apply shape_mk|]. intros i j Hi Hj. rewrite get_mmul by dm. rewrite Cc. unfold squares. rewrite get_mk by assumption.
  assert (Z : forall k, k < T -> (get (ctr S) i k * get S k j)%K = if (k =? i) && (i =? j) then cre (vget s i * vget s i)%K else 0%K :> CK).
  { intros k Hk. rewrite get_ctr by dm. unfold S, sigma. rewrite !get_mk by assumption. destruct (k =? i) eqn:E1; destruct (k =? j) eqn:E2; destruct (i =? j) eqn:E3; cbn [andb];
      rewrite ?Nat.eqb_eq, ?Nat.eqb_neq in *; try (exfalso; congruence); try subst k; apply cplx_eq; cbn; try ring. }
  rewrite (sumn_ext T _ _ Z). destruct (i =? j).
  - destruct (Nat.lt_ge_cases i T) as [Hl|Hl].
    + rewrite (sumn_single T i); [rewrite Nat.eqb_refl; reflexivity|exact Hl|]. intros k Hk Hne. apply Nat.eqb_neq in Hne. rewrite Nat.eqb_sym in Hne. first [rewrite Hne|rewrite Nat.eqb_sym, Hne]. reflexivity.
    + rewrite sumn_zero; [|intros k Hk; replace (k =? i) with false by (symmetry; apply Nat.eqb_neq; lia); reflexivity].
      rewrite (vget_oob s) by (rewrite Ls; lia). apply cplx_eq; cbn; ring.
  - apply sumn_zero. intros k Hk. rewrite andb_false_r. reflexivity.
Qed.
(** the values in order, zeros included *)
Lemma sv_nonneg : forall T M (a u vh : mat CK) s, is_svd T M a u s vh -> forall i, (0 <=! vget s i)%K.
Proof.
  intros T M a u vh s (_ & _ & _ & _ & _ & _ & _ & Sp & _) i. destruct (Nat.lt_ge_cases i (length s)); [apply Sp; assumption|]. rewrite vget_oob by assumption. apply kle_refl.
Qed.
Lemma sv_sorted : forall T M (a u vh : mat CK) s, is_svd T M a u s vh -> forall i j, i <= j -> vget s j <=! vget s i.
Proof.
  intros T M a u vh s H i j Hij. pose proof (sv_nonneg _ _ _ _ _ _ H) as P. destruct H as (_ & _ & _ & _ & _ & _ & _ & _ & Sd & _).
  destruct (Nat.lt_ge_cases j (length s)); [apply Sd; assumption|]. rewrite (vget_oob s j) by assumption. apply P.
Qed.
Lemma sq_inj : forall p q : K, (0 <=! p)%K -> (0 <=! q)%K -> (p * p = q * q)%K -> p = q.
Proof.
  intros p q Hp Hq E. assert (Z : ((p - q) * (p + q) = 0)%K) by (transitivity (p * p - q * q)%K; [ring|rewrite E; ring]).
  apply kmul_integral in Z. destruct Z as [Z|Z]; [transitivity ((p - q) + q)%K; [ring|rewrite Z; ring]|]. destruct (kle_add_zero p q Hp Hq Z) as [-> ->]. reflexivity.
Qed.
(** the singular values with index below [n] are larger than the others *)
Definition separated (n M : nat) (s : list K) : Prop := forall i j, i < n -> n <= j -> j < M -> vget s j <! vget s i.
Section Two.
Variables (T T' n m : nat) (a u vh a' u' vh' : mat CK) (s s' : list K).
Let M := n + m.
Hypothesis (HS : is_svd T M a u s vh) (HS' : is_svd T' M a' u' s' vh') (G : mmul (ctr a') a' = mmul (ctr a) a) (SEP : separated n M s).
Let W := mmul vh (ctr vh').
Lemma svh : shape vh M M. Proof. apply HS. Qed.
Lemma svh' : shape vh' M M. Proof. apply HS'. Qed.
Lemma shW : shape W M M. Proof. destruct svh as (A & B & C). destruct svh' as (A' & B' & C'). apply shape_mmul with (m := M); [exact B|exact B'|exact C]. Qed.
Lemma W_unitary : mmul (ctr W) W = meye M.
Proof.
  destruct svh as (A & B & C). destruct svh' as (A' & B' & C'). destruct HS as (_ & _ & _ & _ & V1 & V2 & _). destruct HS' as (_ & _ & _ & _ & V1' & V2' & _). destruct (shape_ctr vh M M svh) as (Wc & Rc & Cc). destruct (shape_ctr vh' M M svh') as (Wc' & Rc' & Cc').
  unfold W. rewrite ctr_mmul by dm. rewrite ctr_ctr by exact A'. rewrite mmul_assoc by dm. rewrite <- (mmul_assoc (ctr vh) vh) by dm. rewrite V1, mmul_1_l' by assumption. exact V2'.
Qed.
Lemma W_intertwines : forall i j, i < M -> j < M -> get W i j = 0%K \/ vget s i = vget s' j.
Proof.
  intros i j Hi Hj. pose proof (svd_gram _ _ _ _ _ _ HS) as G1. pose proof (svd_gram _ _ _ _ _ _ HS') as G2. rewrite G, G1 in G2.
  destruct svh as (A & B & C). destruct svh' as (A' & B' & C'). pose proof HS as (_ & _ & _ & _ & V1 & V2 & _). pose proof HS' as (_ & _ & _ & _ & V1' & V2' & _). destruct (shape_ctr vh M M svh) as (Wc & Rc & Cc). destruct (shape_ctr vh' M M svh') as (Wc' & Rc' & Cc').
  assert (E : mmul (squares M s) W = mmul W (squares M s')).
  { assert (L : mmul (squares M s) W = mmul vh (mmul (mmul (ctr vh) (mmul (squares M s) vh)) (ctr vh'))).
    { rewrite <- (mmul_assoc vh) by (first [congruence|change (nr (mmul (ctr vh) (mmul (squares M s) vh))) with (nr (ctr vh)); congruence|change (nc (mmul (ctr vh) (mmul (squares M s) vh))) with (nc vh); congruence]).
      rewrite <- (mmul_assoc vh (ctr vh)) by (first [congruence|change (nr (mmul (squares M s) vh)) with M; congruence]). rewrite V2, mmul_1_l' by (first [apply wf_mk|reflexivity]).
      rewrite (mmul_assoc (squares M s) vh) by dm. reflexivity. }
    rewrite L, G2. rewrite (mmul_assoc (ctr vh')) by (first [change (nr (mmul (squares M s') vh')) with M; congruence|change (nc (mmul (squares M s') vh')) with (nc vh'); congruence]).
    rewrite (mmul_assoc (squares M s') vh') by dm. rewrite V2'. rewrite mmul_1_r' by (first [apply wf_mk|reflexivity]).
    rewrite <- mmul_assoc by (first [congruence|change (nr (squares M s')) with M; congruence]). reflexivity. }
  assert (E1 := f_equal (fun z => get z i j) E). cbv beta in E1. destruct shW as (WW & RW & CW).
  rewrite (get_mmul (squares M s)) in E1 by dm. rewrite (get_mmul W) in E1 by dm. rewrite CW in E1. change (nc (squares M s)) with M in E1.
  rewrite (sumn_single M i) in E1; [|exact Hi|intros k Hk Hne; unfold squares; rewrite get_mk by assumption; replace (i =? k) with false by (symmetry; apply Nat.eqb_neq; congruence); ring].
  rewrite (sumn_single M j) in E1; [|exact Hj|intros k Hk Hne; unfold squares; rewrite get_mk by assumption; replace (k =? j) with false by (symmetry; apply Nat.eqb_neq; congruence); ring].
  unfold squares in E1. rewrite !get_mk, !Nat.eqb_refl in E1 by assumption.
  assert (Z : (cre (vget s i * vget s i - vget s' j * vget s' j) * get W i j = 0)%K).
  { transitivity (cre (vget s i * vget s i) * get W i j - get W i j * cre (vget s' j * vget s' j))%K; [apply cplx_eq; cbn; ring|rewrite E1; ring]. }
  apply kmul_integral in Z. destruct Z as [Z|Z]; [right|left; exact Z]. apply sq_inj; [apply (sv_nonneg _ _ _ _ _ _ HS)|apply (sv_nonneg _ _ _ _ _ _ HS')|].
  apply cre_zero in Z. transitivity ((vget s i * vget s i - vget s' j * vget s' j) + vget s' j * vget s' j)%K; [ring|rewrite Z; ring].
Qed.
Lemma W_corner : forall i j, i < n -> n <= j -> j < M -> get W i j = 0%K.
Proof.
  intros i j Hi Hj HM. assert (IW : inj W) by (apply (left_inverse_inj W (ctr W) M M shW (shape_ctr W M M shW) W_unitary)). destruct shW as (WW & RW & CW).
  destruct (W_intertwines i j) as [|E]; [lia|exact HM|assumption|]. exfalso.
  (* the n+1 largest values of the second data set exceed all small ones of the first *)
  assert (B : forall l k, l <= n -> n <= k -> k < M -> get W k l = 0%K).
  { intros l k Hl Hk HkM. destruct (W_intertwines k l) as [|E']; [exact HkM|lia|assumption|]. exfalso.
    pose proof (proj1 (klt_spec _ _) (SEP i k Hi Hk HkM)) as L. apply L. rewrite E', E. apply (sv_sorted _ _ _ _ _ _ HS'). lia. }
  set (H := mk n (S n) (fun k l => get W k l)). destruct (wide_kernel H n (S n) (shape_mk _ _ _) ltac:(lia)) as (w & Lw & Nw & Zw).
  set (w' := pad M w). assert (Lw' : length w' = M) by (apply length_pad; rewrite Lw; lia).
  assert (Z1 : mvmul W w' = vzeros M).
  { apply vec_ext; [rewrite length_mvmul, length_vzeros; exact RW|]. intros k Hk. rewrite length_mvmul, RW in Hk. rewrite vget_vzeros, vget_mvmul by (rewrite RW; exact Hk). rewrite CW.
    replace M with (S n + (M - S n)) by lia. rewrite sumn_plus. rewrite (sumn_zero (M - S n)) by (intros l Hl; unfold w'; rewrite vget_pad, (vget_oob w) by lia; ring).
    destruct (Nat.lt_ge_cases k n) as [Hkn|Hkn].
    - apply (f_equal (fun z => vget z k)) in Zw. rewrite vget_vzeros, vget_mvmul in Zw by exact Hkn. unfold H in Zw. rewrite nc_mk in Zw.
      rewrite (sumn_ext (S n) _ (fun l => get (mk n (S n) (fun k l => get W k l)) k l * vget w l)%K); [rewrite Zw; ring|]. intros l Hl. unfold w'. rewrite vget_pad, get_mk by lia. reflexivity.
    - rewrite sumn_zero; [ring|]. intros l Hl. rewrite B by lia. ring. }
  apply Nw. apply vec_ext; [rewrite length_vzeros; exact Lw|]. intros k Hk. rewrite vget_vzeros. rewrite <- (vget_pad M w k). fold w'. rewrite (IW w') by (rewrite ?CW, ?RW; assumption). apply vget_vzeros.
Qed.
(** the two blocks used by the estimator *)
Let W2 := mk m m (fun i j => get W (n + i) (n + j)).
Lemma W2_unitary : mmul (ctr W2) W2 = meye m.
Proof.
  destruct shW as (WW & RW & CW). apply (gshape_ext _ _ m m); [apply shape_mmul with (m := m); reflexivity|apply shape_meye|]. intros i j Hi Hj. rewrite get_mmul by assumption. change (nc (ctr W2)) with m. rewrite get_meye by assumption.
  assert (E := f_equal (fun z => get z (n + i) (n + j)) W_unitary). cbv beta in E. rewrite get_meye in E by lia. rewrite get_mmul in E by dm. change (nc (ctr W)) with (nr W) in E. rewrite RW in E. unfold M in E. rewrite sumn_plus in E.
  rewrite (sumn_zero n) in E by (intros k Hk; rewrite (W_corner k (n + j)) by lia; ring).
  replace (n + i =? n + j) with (i =? j) in E by (destruct (Nat.eqb_spec i j), (Nat.eqb_spec (n + i) (n + j)); auto; lia).
  rewrite <- E. rewrite <- (sumn_ext m (fun k => get (ctr W) (n + i) (n + k) * get W (n + k) (n + j))%K); [ring|]. intros k Hk. rewrite !get_ctr by (rewrite ?RW, ?CW; first [lia|exact Hi|exact Hk]). unfold W2. rewrite !get_mk by assumption. reflexivity.
Qed.
Lemma block_mixed : forall r0 r1, r0 <= r1 -> r1 <= M -> mslice (ctr vh') r0 r1 n M = mmul (mslice (ctr vh) r0 r1 n M) W2.
Proof.
  intros r0 r1 H0 H1. destruct svh as (A & B & C). destruct svh' as (A' & B' & C'). destruct (shape_ctr vh M M svh) as (Wc & Rc & Cc). destruct (shape_ctr vh' M M svh') as (Wc' & Rc' & Cc'). destruct shW as (WW & RW & CW).
  pose proof HS as (_ & _ & _ & _ & V1 & _).
  assert (E : ctr vh' = mmul (ctr vh) W). { unfold W. rewrite <- mmul_assoc by dm. rewrite V1, mmul_1_l' by assumption. reflexivity. }
  apply (gshape_ext _ _ (r1 - r0) m); [unfold mslice; replace (M - n) with m by lia; apply shape_mk|apply shape_mmul with (m := m); [reflexivity|reflexivity|unfold mslice; rewrite nc_mk; lia]|].
  intros i j Hi Hj. rewrite get_mmul by (first [exact Hj|unfold mslice; rewrite nr_mk; exact Hi]). unfold mslice. rewrite nc_mk. rewrite get_mk by lia. rewrite E. rewrite get_mmul by lia. rewrite Cc. unfold M at 1. rewrite sumn_plus.
  rewrite (sumn_zero n) by (intros k Hk; rewrite (W_corner k (n + j)) by lia; ring). replace (M - n) with m by lia. transitivity (sumn m (fun k => get (ctr vh) (r0 + i) (n + k) * get W (n + k) (n + j))%K); [ring|].
  apply sumn_ext. intros k Hk. unfold W2. rewrite !get_mk by lia. reflexivity.
Qed.
Lemma tls_blocks :
  bind (kinverse (mslice (ctr vh') n M n M)) (fun i => matmul (mopp (mslice (ctr vh') 0 n n M)) i) =
  bind (kinverse (mslice (ctr vh) n M n M)) (fun i => matmul (mopp (mslice (ctr vh) 0 n n M)) i).
Proof.
  rewrite !block_mixed by lia. set (Vx := mslice (ctr vh) 0 n n M). set (Vy := mslice (ctr vh) n M n M). assert (Sx : shape Vx n m) by (unfold Vx, mslice; replace (M - n) with m by lia; rewrite Nat.sub_0_r; apply shape_mk). assert (Sy : shape Vy m m) by (unfold Vy, mslice; replace (M - n) with m by lia; apply shape_mk).
  assert (SW : shape W2 m m) by apply shape_mk. destruct (shape_ctr W2 m m SW) as (Wc & Rc & Cc). pose proof W2_unitary as U. pose proof (right_inverse_two_sided _ _ m (shape_ctr W2 m m SW) SW U) as U'.
  pose proof Sx as (Wx & Rx & Cx). pose proof Sy as (Wy & Ry & Cy). pose proof SW as (Ww & Rw & Cw).
  assert (SV : shape (mmul Vy W2) m m) by (apply shape_mmul with (m := m); auto).
  destruct (kinverse Vy) as [i|er] eqn:EK; cbn [bind].
  - destruct (kinverse_sound Vy m i Sy EK) as (Si & I1 & I2). pose proof Si as (Wi & Ri & Ci).
    rewrite (kinverse_complete (mmul Vy W2) (mmul (ctr W2) i) m SV).
    + cbn [bind]. unfold matmul. replace (_ =? _) with true by (symmetry; apply Nat.eqb_eq; dm). replace (_ =? _) with true by (symmetry; apply Nat.eqb_eq; dm). f_equal.
      assert (X : forall Z : mat CK, shape Z n m -> mopp (mmul Z W2) = mmul (mopp Z) W2).
      { intros Z (WZ & RZ & CZ). apply (gshape_ext _ _ n m); [split; [apply wf_mk|split; [exact RZ|exact Cw]]|apply shape_mmul with (m := m); auto|]. intros p r Hp Hr. rewrite get_mopp by dm. rewrite !get_mmul by dm.
        change (nc (mopp Z)) with (nc Z). rewrite <- sumn_opp. apply sumn_ext. intros k Hk. rewrite get_mopp by lia. ring. }
      rewrite (X Vx Sx). rewrite mmul_assoc by dm. rewrite <- (mmul_assoc W2 (ctr W2) i) by dm. rewrite U', mmul_1_l' by assumption. reflexivity.
    + apply shape_mmul with (m := m); auto.
    + rewrite (mmul_assoc Vy) by dm. rewrite <- (mmul_assoc W2 (ctr W2) i) by dm. rewrite U', mmul_1_l' by assumption. exact I1.
  - pose proof (kinverse_err Vy er EK Wy) as ->. destruct (kinverse (mmul Vy W2)) as [i|er'] eqn:EK'.
    + exfalso. destruct (kinverse_sound _ m i SV EK') as (Si & I1 & I2). pose proof Si as (Wi & Ri & Ci). rewrite (kinverse_complete Vy (mmul W2 i) m Sy) in EK; [discriminate|apply shape_mmul with (m := m); auto|].
      rewrite <- mmul_assoc by dm. exact I1.
    + cbn [bind]. f_equal. exact (kinverse_err _ er' EK' ltac:(apply wf_mk)).
Qed.
End Two.
End Order.
