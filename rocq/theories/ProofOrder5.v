(** Reordered samples are mixed by a permutation matrix. *)
From Coq Require Import Bool Arith List Lia Ring Field Permutation.
From Verif Require Import BasePy BaseFld BaseOrd BaseSum BaseMat BaseNumpy BaseLin ModelMatrixOps ModelFit ModelLS SpecMatrix SpecLS SpecFit SpecOrder ProofMatrixOps ProofLS ProofTLS ProofFitBase ProofFitEIV ProofOrder ProofOrder2 ProofOrder3 ProofOrder4.
Import ListNotations.
Local Open Scope nat_scope.

Section Order.
Context {K : Type} {O : Ops K} {F : Fld K} {O2 : OrdOps K} {OF : OrdFld K}.
Notation CK := (cplx K).
Add Field KfldO5 : (@k_field K O F).
Add Field CfldO5 : (@k_field CK _ _).
Variables (T : nat) (p : nat -> nat).
Hypothesis (HP : new_order T p).
Lemma order_lt : forall t, t < T -> p t < T.
Proof. intros t Ht. assert (H : In (p t) (seq 0 T)) by (apply (Permutation_in _ HP); apply in_map; apply in_seq; lia). apply in_seq in H. lia. Qed.
Lemma order_inj : forall t t', t < T -> t' < T -> p t = p t' -> t = t'.
Proof.
  intros t t' Ht Ht' E. assert (N : NoDup (map p (seq 0 T))) by (apply (Permutation_NoDup (Permutation_sym HP)); apply seq_NoDup).
  rewrite (NoDup_nth _ (p 0)) in N. rewrite map_length, seq_length in N. apply N; auto. rewrite !map_nth, !seq_nth by assumption. exact E.
Qed.
Definition perm_mat : mat K := mk T T (fun t k => if k =? p t then 1%K else 0%K).
Lemma shape_perm : shape perm_mat T T. Proof. apply shape_mk. Qed.
Lemma perm_orth : mmul (tr perm_mat) perm_mat = meye T.
Proof.
  assert (S' : shape (tr perm_mat) T T) by (split; [apply wf_mk|split; reflexivity]). apply (right_inverse_two_sided perm_mat (tr perm_mat) T shape_perm S').
  apply (gshape_ext _ _ T T); [apply shape_mmul with (m := T); reflexivity|apply shape_meye|]. intros i j Hi Hj. rewrite get_mmul by assumption. change (nc perm_mat) with T. rewrite get_meye by assumption.
  rewrite (sumn_ext T _ (fun k => kmul (if k =? p i then 1%K else 0%K) (if k =? p j then 1%K else 0%K))) by (intros k Hk; rewrite get_tr by assumption; unfold perm_mat; rewrite !get_mk by assumption; reflexivity).
  rewrite (sumn_single T (p i)); [|apply order_lt; exact Hi|intros k Hk Hne; replace (k =? p i) with false by (symmetry; apply Nat.eqb_neq; congruence); ring].
  rewrite Nat.eqb_refl. destruct (Nat.eqb_spec i j) as [-> |Hne]; [rewrite Nat.eqb_refl; ring|]. replace (p i =? p j) with false; [ring|]. symmetry. apply Nat.eqb_neq. intro E. apply Hne. apply order_inj; assumption.
Qed.
Lemma get_cperm : forall t k, t < T -> k < T -> get (cmat perm_mat) t k = if k =? p t then 1%K else 0%K.
Proof. intros t k Ht Hk. rewrite get_cmat by (try apply wf_mk; assumption). unfold perm_mat. rewrite get_mk by assumption. destruct (k =? p t); reflexivity. Qed.
Lemma reorder_mmul : forall n (x x' : mat CK), reordered T n p x x' -> x' = mmul (cmat perm_mat) x.
Proof.
  intros n x x' (HX & HX' & H). destruct HX as (WX & RX & CX). apply (gshape_ext _ _ T n HX'); [apply shape_mmul with (m := T); [reflexivity|exact CX|reflexivity]|]. intros t j Ht Hj.
  rewrite H by assumption. rewrite get_mmul by (first [exact Ht|congruence]). change (nc (cmat perm_mat)) with T. pose proof (order_lt t Ht) as Hp.
  rewrite (sumn_single T (p t)); [|exact Hp|].
  - rewrite get_cperm, Nat.eqb_refl by assumption. ring.
  - intros k Hk Hne. rewrite get_cperm by assumption. replace (k =? p t) with false by (symmetry; apply Nat.eqb_neq; congruence). ring.
Qed.
(** the large matrix moves the entry of a sample to its new place *)
Lemma get_big : forall n c k t l, c < 2 -> k < n -> t < T -> l < 2 * (n * T) -> get (big perm_mat n) ((c * n + k) * T + t) l = if l =? (c * n + k) * T + p t then 1%K else 0%K.
Proof.
  intros n c k t l Hc Hk Ht Hl. pose proof (order_lt t Ht) as Hp. unfold big. set (L := lifted perm_mat n). assert (WL : wf L) by apply wf_mk. assert (RL : nr L = n * T) by reflexivity. assert (CL : nc L = n * T) by reflexivity.
  assert (G : forall l', l' < n * T -> get L (k * T + t) l' = if l' =? k * T + p t then 1%K else 0%K).
  { intros l' Hl'. destruct (divmod_bound l' n T Hl') as (H1 & H2 & E). rewrite E at 1. unfold L, lifted. change T with (nc (cmat perm_mat)) at 4. change T with (nr (cmat perm_mat)) at 2. rewrite get_mkron by assumption. change (nc (cmat perm_mat)) with T. change (nr (cmat perm_mat)) with T.
    rewrite get_meye by assumption. rewrite get_cperm by assumption.
    destruct (Nat.eqb_spec k (l' / T)) as [E1|E1]; destruct (Nat.eqb_spec (l' mod T) (p t)) as [E2|E2]; destruct (Nat.eqb_spec l' (k * T + p t)) as [E3|E3]; try (apply cplx_eq; cbn; ring); exfalso.
    - apply E3. rewrite E, <- E1, E2. reflexivity.
    - apply E2. rewrite E3. destruct (divmod_add k (p t) T Hp) as [_ D]. exact D.
    - apply E1. rewrite E3. destruct (divmod_add k (p t) T Hp) as [D _]. symmetry. exact D.
    - apply E1. rewrite E3. destruct (divmod_add k (p t) T Hp) as [D _]. symmetry. exact D. }
  assert (B1 : k * T + t < n * T) by (apply idx_bound; assumption). assert (B2 : k * T + p t < n * T) by (apply idx_bound; assumption).
  assert (CC : c = 0 \/ c = 1) by lia. destruct CC as [-> | ->].
  - replace ((0 * n + k) * T) with (k * T) by ring. rewrite get_make_real_matrix by (rewrite ?RL, ?CL; first [exact WL|lia]). rewrite RL, CL. replace (k * T + t <? n * T) with true by (symmetry; apply Nat.ltb_lt; exact B1).
    destruct (Nat.ltb_spec l (n * T)) as [H1|H1].
    + rewrite G by exact H1. destruct (_ =? _); reflexivity.
    + rewrite G by lia. replace (l =? k * T + p t) with false by (symmetry; apply Nat.eqb_neq; lia). destruct (_ =? _); cbn; ring.
  - replace ((1 * n + k) * T) with (n * T + k * T) by ring. rewrite get_make_real_matrix by (rewrite ?RL, ?CL; first [exact WL|lia]). rewrite RL, CL. replace (n * T + k * T + t <? n * T) with false by (symmetry; apply Nat.ltb_ge; lia).
    replace (n * T + k * T + t - n * T) with (k * T + t) by lia. destruct (Nat.ltb_spec l (n * T)) as [H1|H1].
    + rewrite G by exact H1. replace (l =? n * T + k * T + p t) with false by (symmetry; apply Nat.eqb_neq; lia). destruct (_ =? _); reflexivity.
    + rewrite G by lia. destruct (Nat.eqb_spec (l - n * T) (k * T + p t)), (Nat.eqb_spec l (n * T + k * T + p t)); try reflexivity; lia.
Qed.
Lemma reorder_weights : forall n (W W' : mat K), shape W (2 * (n * T)) (2 * (n * T)) -> reordered_weights T n p W W' -> W' = turned perm_mat n W.
Proof.
  intros n W W' (WW & RW & CW) (HW' & H). set (N := 2 * (n * T)) in *. pose proof (shape_turned T perm_mat shape_perm n W) as HT. fold N in HT. apply (gshape_ext _ _ N N HW' HT). intros i j Hi Hj.
  assert (D : forall i, i < N -> exists c k t, c < 2 /\ k < n /\ t < T /\ i = (c * n + k) * T + t).
  { clear - T n N. intros i Hi. unfold N in Hi. replace (2 * (n * T)) with ((2 * n) * T) in Hi by ring. destruct (divmod_bound i (2 * n) T Hi) as (H1 & H2 & E). destruct (divmod_bound (i / T) 2 n H1) as (H3 & H4 & E'). exists (i / T / n), ((i / T) mod n), (i mod T). rewrite <- E'. auto. }
  destruct (D i Hi) as (c & k & t & Hc & Hk & Ht & ->). destruct (D j Hj) as (c' & k' & t' & Hc' & Hk' & Ht' & ->). rewrite H by assumption.
  pose proof (shape_big T perm_mat shape_perm n) as (WB & RB & CB). fold N in RB, CB. pose proof (order_lt t Ht) as Hp. pose proof (order_lt t' Ht') as Hp'.
  assert (BD : forall c k u, c < 2 -> k < n -> u < T -> (c * n + k) * T + u < N).
  { clear. intros c k u Hc Hk Hu. unfold N. replace (2 * (n * T)) with ((2 * n) * T) by ring. apply idx_bound; [|exact Hu]. apply idx_bound; assumption. }
  unfold turned. rewrite get_mmul by (first [change (nr (mmul (big perm_mat n) W)) with (nr (big perm_mat n)); rewrite RB; exact Hi|change (nc (tr (big perm_mat n))) with (nr (big perm_mat n)); rewrite RB; exact Hj]).
  change (nc (mmul (big perm_mat n) W)) with (nc W). rewrite CW.
  rewrite (sumn_single N ((c' * n + k') * T + p t')); [|apply BD; assumption|].
  - rewrite get_tr by (rewrite ?RB, ?CB; first [exact Hj|apply BD; assumption]). rewrite get_big by (first [assumption|apply BD; assumption]). rewrite Nat.eqb_refl. rewrite get_mmul by (rewrite ?RB, ?CW; first [exact Hi|apply BD; assumption]). rewrite CB.
    rewrite (sumn_single N ((c * n + k) * T + p t)); [|apply BD; assumption|].
    + rewrite get_big, Nat.eqb_refl by (first [assumption|apply BD; assumption]). ring.
    + intros l Hl Hne. rewrite get_big by assumption. replace (l =? _) with false by (symmetry; apply Nat.eqb_neq; congruence). ring.
  - intros l Hl Hne. rewrite get_tr by (rewrite ?RB, ?CB; first [exact Hj|assumption]). rewrite get_big by assumption. replace (l =? _) with false by (symmetry; apply Nat.eqb_neq; congruence). ring.
Qed.
(** *** the estimators *)
Lemma ols_order : forall pinv n m (x x' z z' : mat CK), reordered T n p x x' -> reordered T m p z z' -> penrose T n x (pinv x) -> penrose T n x' (pinv x') ->
  complex_regression_fit pinv x' z' = complex_regression_fit pinv x z.
Proof.
  intros pinv n m x x' z z' HX HZ P P'. rewrite (reorder_mmul n x x' HX), (reorder_mmul m z z' HZ) in *. apply (ols_mixed pinv T n m); [apply (shape_cQ T perm_mat shape_perm)|apply (unitary_cQ T perm_mat shape_perm perm_orth)|apply HZ|exact P|exact P'].
Qed.
Lemma gram_mixed : forall n (a a' : mat CK), reordered T n p a a' -> mmul (ctr a') a' = mmul (ctr a) a.
Proof.
  intros n a a' HA. rewrite (reorder_mmul n a a' HA). destruct HA as ((WA & RA & CA) & _). destruct (shape_cQ T perm_mat shape_perm) as (WQ & RQ & CQ). set (q := cmat perm_mat) in *.
  rewrite ctr_mmul by congruence. assert (U : mmul (ctr q) q = meye T) by (apply (unitary_cQ T perm_mat shape_perm perm_orth)).
  rewrite mmul_assoc by (first [change (nc (ctr a)) with (nr a); change (nr (ctr q)) with (nc q); congruence|change (nc (ctr q)) with (nr q); change (nr (mmul q a)) with (nr q); congruence]).
  rewrite <- (mmul_assoc (ctr q) q a) by (first [congruence|change (nc (ctr q)) with (nr q); congruence]). rewrite U, mmul_1_l' by assumption. reflexivity.
Qed.
Lemma reordered_block : forall n m (x x' y y' : mat CK), reordered T n p x x' -> reordered T m p y y' -> reordered T (n + m) p (hstack2 x y) (hstack2 x' y').
Proof.
  intros n m x x' y y' ((WX & RX & CX) & (WX' & RX' & CX') & H) ((WY & RY & CY) & (WY' & RY' & CY') & H'). split; [|split].
  - unfold hstack2. rewrite RX, CX, CY. apply shape_mk.
  - unfold hstack2. rewrite RX', CX', CY'. apply shape_mk.
  - intros t j Ht Hj. unfold hstack2. pose proof (order_lt t Ht). rewrite !get_mk by (rewrite ?RX, ?RX', ?CX, ?CX', ?CY, ?CY'; lia). rewrite CX, CX'. destruct (Nat.ltb_spec j n); [apply H; assumption|apply H'; [assumption|lia]].
Qed.
Lemma tls_order : forall svd n m (x x' y y' : mat CK) s, reordered T n p x x' -> reordered T m p y y' ->
  (let '(u, s0, vh) := svd (hstack2 x y) in s0 = s /\ is_svd T (n + m) (hstack2 x y) u s0 vh) -> (let '(u, s0, vh) := svd (hstack2 x' y') in is_svd T (n + m) (hstack2 x' y') u s0 vh) ->
  apart n (n + m) s -> tls_fit svd x' (A2 y') = tls_fit svd x (A2 y).
Proof.
  intros svd n m x x' y y' s HX HY HS HS' SEP. pose proof (gram_mixed (n + m) _ _ (reordered_block n m _ _ _ _ HX HY)) as G. unfold tls_fit, np_block2.
  destruct HX as ((WX & RX & CX) & (WX' & RX' & CX') & _). destruct HY as ((WY & RY & CY) & (WY' & RY' & CY') & _). rewrite RX, RX', RY, RY', Nat.eqb_refl. cbn [bind].
  destruct (svd (hstack2 x y)) as [[u s0] vh]. destruct HS as [-> HS]. destruct (svd (hstack2 x' y')) as [[u' s'] vh'].
  pose proof HS as (_ & _ & (Wv & Rv & Cv) & _). pose proof HS' as (_ & _ & (Wv' & Rv' & Cv') & _).
  pose proof (tls_blocks T T n m _ _ _ _ _ _ _ _ HS HS' G SEP) as B.
  change (mk (nc vh) (nr vh) (fun i j => conj (get vh j i))) with (ctr vh). change (mk (nc vh') (nr vh') (fun i j => conj (get vh' j i))) with (ctr vh').
  change (nc (ctr vh)) with (nr vh). change (nc (ctr vh')) with (nr vh'). change (nr (ctr vh)) with (nc vh). change (nr (ctr vh')) with (nc vh'). rewrite Rv, Rv', Cv, Cv', CX, CX'.
  revert B. destruct (kinverse (mslice (ctr vh') n (n + m) n (n + m))); destruct (kinverse (mslice (ctr vh) n (n + m) n (n + m))); cbn [bind]; intro B; first [rewrite B; reflexivity|rewrite <- B; reflexivity|injection B as ->; reflexivity].
Qed.
Lemma br_order : forall sv (e : estimator K) n (x x' z z' : mat CK) y0, reordered T n p x x' -> reordered T n p z z' -> br_fit sv e x' z' y0 = br_fit sv e x z y0.
Proof. intros sv e n x x' z z' y0 HX HZ. rewrite (reorder_mmul n x x' HX), (reorder_mmul n z z' HZ). apply (br_mixed T perm_mat shape_perm perm_orth sv e n); [apply HX|apply HZ]. Qed.
Lemma eiv_order : forall sv ca (e : estimator K) n (x x' z z' : mat CK) y0 wz, reordered T n p x x' -> reordered T n p z z' -> eiv_fit sv ca e x' z' None wz y0 = eiv_fit sv ca e x z None wz y0.
Proof. intros sv ca e n x x' z z' y0 wz HX HZ. rewrite (reorder_mmul n x x' HX), (reorder_mmul n z z' HZ). apply (eiv_mixed_unweighted T perm_mat shape_perm perm_orth sv ca e n); [apply HX|apply HZ]. Qed.
Lemma eiv_order_weighted : forall sv ca (e : estimator K) n (x x' z z' : mat CK) y0 W W' wz wz', solver_sound sv -> solver_complete sv -> reordered T n p x x' -> reordered T n p z z' -> shape y0 n n ->
  posdef (2 * (n * T)) W -> reordered_weights T n p W W' -> (wz = None <-> wz' = None) -> eiv_fit sv ca e x' z' (Some W') wz' y0 = eiv_fit sv ca e x z (Some W) wz y0.
Proof.
  intros sv ca e n x x' z z' y0 W W' wz wz' SS SC HX HZ HY PW RW HN. rewrite (reorder_mmul n x x' HX), (reorder_mmul n z z' HZ). pose proof PW as ((HW & _) & _). rewrite (reorder_weights n W W' HW RW).
  apply (eiv_mixed_weighted T perm_mat shape_perm perm_orth sv ca e n x z y0 W wz wz' SS SC); [apply HX|apply HZ|exact HY|exact PW|exact HN].
Qed.
End Order.
