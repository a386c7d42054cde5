(** The order of the samples in the functions of run.py and run3ph.py and in the program identify_network.py. *)
From Coq Require Import String.
From Coq Require Import Bool ZArith Arith List Lia Ring Field Permutation.
From Verif Require Import BasePy BaseFld BaseOrd BaseSum BaseMat BaseNumpy BaseLin ModelMatrixOps ModelPrior ModelLS ModelFit ModelIdent ModelRun SpecMatrix SpecLS SpecFit SpecOrder SpecOffset ProofMatrixOps ProofLS ProofRunIO ProofIdentify ProofOrder4 ProofOrder5 ProofOffset.
Import ListNotations.
Close Scope string_scope.
Local Open Scope nat_scope.

Section Order.
Context {K : Type} {O : Ops K} {F : Fld K} {O2 : OrdOps K} {OF : OrdFld K}.
Notation CK := (cplx K).
Add Field KfldOR : (@k_field K O F).
Add Field CfldOR : (@k_field CK _ _).
Variables (T : nat) (p : nat -> nat).
Hypothesis HP : new_order T p.
Lemma sum_order : forall f : nat -> CK, sumn T (fun t => f (p t)) = sumn T f.
Proof.
  intro f. assert (G : forall l n (g : nat -> CK), l = map g (seq 0 n) -> sumn n g = fold_right (fun a b : CK => (a + b)%K) 0%K l).
  { intros l n. revert l. induction n as [|n IH]; intros l g ->; [reflexivity|]. rewrite sumn_S_l. cbn [seq map fold_right]. f_equal. apply IH. rewrite <- seq_shift, map_map. reflexivity. }
  rewrite (G (map (fun t => f (p t)) (seq 0 T)) T (fun t => f (p t)) eq_refl), (G (map f (seq 0 T)) T f eq_refl).
  assert (P : Permutation (map (fun t => f (p t)) (seq 0 T)) (map f (seq 0 T))) by (rewrite <- (map_map p f); apply Permutation_map; exact HP).
  induction P as [|x l l' P IH|x y l|l l' l'' P1 I1 P2 I2]; cbn [fold_right]; [reflexivity|rewrite IH; reflexivity|ring|congruence].
Qed.
Lemma reordered_mean : forall n (x x' : mat CK), reordered T n p x x' -> reordered T n p (minus_mean x) (minus_mean x').
Proof.
  intros n x x' ((W & R & C) & (W' & R' & C') & E). unfold minus_mean. rewrite R, C, R', C'. split; [apply shape_mk|]. split; [apply shape_mk|]. intros t j Ht Hj. pose proof (order_lt T p HP t Ht). rewrite !get_mk by assumption. rewrite E by assumption. f_equal. unfold mean_all. rewrite R, C, R', C'. f_equal.
  rewrite <- (sum_order (fun t => sumn n (fun j => get x t j))). apply sumn_ext. intros s Hs. apply sumn_ext. intros k Hk. apply E; assumption.
Qed.
Lemma reordered_col_means : forall n (x x' : mat CK), reordered T n p x x' -> reordered T n p (minus_col_means x) (minus_col_means x').
Proof.
  intros n x x' ((W & R & C) & (W' & R' & C') & E). unfold minus_col_means. rewrite R, C, R', C'. split; [apply shape_mk|]. split; [apply shape_mk|]. intros t j Ht Hj. pose proof (order_lt T p HP t Ht). rewrite !get_mk by assumption. rewrite E by assumption. f_equal. unfold mean_col. rewrite R, R'. f_equal.
  rewrite <- (sum_order (fun t => get x t j)). apply sumn_ext. intros s Hs. apply E; assumption.
Qed.
Lemma reordered_centred : forall lap n (v v' i i' : mat CK), reordered T n p v v' -> reordered T n p i i' ->
  reordered T n p (fst (centred lap v i)) (fst (centred lap v' i')) /\ reordered T n p (snd (centred lap v i)) (snd (centred lap v' i')).
Proof. intros [] n v v' i i' HV HI; cbn [centred fst snd]; [split; [apply reordered_mean; exact HV|exact HI]|split; apply reordered_col_means; assumption]. Qed.
Lemma reordered_mcols : forall n (x x' : mat CK) idx, reordered T n p x x' -> (forall k, In k idx -> k < n) -> reordered T (length idx) p (mcols x idx) (mcols x' idx).
Proof.
  intros n x x' idx ((W & R & C) & (W' & R' & C') & E) H. unfold mcols. rewrite R, R'. split; [apply shape_mk|]. split; [apply shape_mk|]. intros t j Ht Hj. pose proof (order_lt T p HP t Ht). rewrite !get_mk by assumption. apply E; [exact Ht|]. apply H. apply nth_In. exact Hj.
Qed.
Section Run.
Variables (pinv : mat CK -> mat CK) (svd : mat CK -> mat CK * list K * mat CK) (spsolve : mat K -> list K -> res (list K)) (cabs : CK -> K) (ksqrt : K -> K).
Variables true_cov naive_cov : mat CK -> arg K -> K -> bool -> res (mat K).
Variable conf : config K.
(** pinv and svd do what they should for the centred tables, and the singular values of the first table are apart *)
Definition library_right (lap : bool) (n : nat) (v i : mat CK) : Prop :=
  let '(x, y) := centred lap v i in penrose T n x (pinv x) /\ let '(u, s, vh) := svd (hstack2 x y) in is_svd T (n + n) (hstack2 x y) u s vh.
Definition table_apart (lap : bool) (n : nat) (v i : mat CK) : Prop :=
  let '(x, y) := centred lap v i in let '(_, s, _) := svd (hstack2 x y) in apart n (n + n) s.
Lemma standard_order : forall lap n v v' i i' it, reordered T n p v v' -> reordered T n p i i' -> library_right lap n v i -> library_right lap n v' i' -> table_apart lap n v i ->
  standard_estimates pinv svd spsolve conf v' i' lap it = standard_estimates pinv svd spsolve conf v i lap it.
Proof.
  intros lap n v v' i i' it HV HI L L' A. unfold standard_estimates, library_right, table_apart in *. destruct (reordered_centred lap n v v' i i' HV HI) as [RV RI]. destruct HV as ((_ & _ & C) & (_ & _ & C') & _). rewrite C, C'.
  destruct (centred lap v i) as [x y]. destruct (centred lap v' i') as [x' y']. cbn [fst snd] in RV, RI. destruct L as [P S]. destruct L' as [P' S'].
  rewrite (ols_order T p HP pinv n n x x' y y' RV RI P P'). destruct (svd (hstack2 x y)) as [[u s] vh] eqn:E. rewrite (tls_order T p HP svd n n x x' y y' s RV RI); [|rewrite E; split; [reflexivity|exact S]|exact S'|exact A].
  destruct (complex_regression_fit pinv x y) as [yo|]; [|reflexivity]. cbn [bind]. destruct (tls_fit svd x (A2 y)); [|reflexivity]. cbn [bind]. destruct (build_lasso_prior n yo lap); [|reflexivity]. cbn [bind]. destruct (0 <? it)%Z; [|reflexivity]. destruct (half_sum yo); [|reflexivity]. cbn [bind].
  rewrite (br_order T p HP spsolve _ n x x' y y' _ RV RI). reflexivity.
Qed.
Lemma bayesian_order : forall lap n v v' i i' name sv sc r y ye it u s, reordered T n p v v' -> reordered T n p i i' ->
  bayesian_eiv spsolve cabs true_cov naive_cov conf name v' i' sv sc r y ye lap false it u s = bayesian_eiv spsolve cabs true_cov naive_cov conf name v i sv sc r y ye lap false it u s.
Proof.
  intros lap n v v' i i' name sv sc r y ye it u s HV HI. unfold bayesian_eiv. destruct (reordered_centred lap n v v' i i' HV HI) as [RV RI]. destruct HV as ((_ & _ & C) & (_ & _ & C') & _). rewrite C, C'. apply bind_same; [reflexivity|]. intros e s1. destruct (0 <? it)%Z; [|reflexivity]. unfold eiv_data. cbn [andb].
  change (bind_io (lift (Ok (v', i', None, None))) ?f s1) with (f (v', i', @None (mat K), @None (mat K)) s1). change (bind_io (lift (Ok (v, i, None, None))) ?f s1) with (f (v, i, @None (mat K), @None (mat K)) s1). cbv beta iota.
  destruct (centred lap v i) as [a b]. destruct (centred lap v' i') as [a' b']. cbn [fst snd] in RV, RI. rewrite (eiv_order T p HP spsolve cabs e n a a' b b' y None RV RI). reflexivity.
Qed.
Lemma order_alike : forall lap n v v' i i', reordered T n p v v' -> reordered T n p i i' -> library_right lap n v i -> library_right lap n v' i' -> table_apart lap n v i ->
  alike pinv svd spsolve cabs true_cov naive_cov conf lap v v' i i'.
Proof.
  intros lap n v v' i i' HV HI L L' A. pose proof HV as ((_ & _ & C) & (_ & _ & C') & _). pose proof HI as ((_ & _ & D) & (_ & _ & D') & _). split; [congruence|]. split; [congruence|]. split.
  - intro it. apply (standard_order lap n); assumption.
  - intros. apply (bayesian_order lap n); assumption.
Qed.
Lemma empty_alike : forall lap v v' i i', reordered T 0 p v v' -> reordered T 0 p i i' -> alike pinv svd spsolve cabs true_cov naive_cov conf lap v v' i i'.
Proof.
  intros lap v v' i i' (S & S' & _) (I & I' & _). assert (E : v' = v) by (apply (gshape_ext _ _ T 0 S' S); intros a b Ha Hb; inversion Hb). assert (E' : i' = i) by (apply (gshape_ext _ _ T 0 I' I); intros a b Ha Hb; inversion Hb).
  rewrite E, E'. split; [reflexivity|]. split; [reflexivity|]. split; reflexivity.
Qed.
End Run.
End Order.
