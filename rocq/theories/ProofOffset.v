(** Constant offsets and the order of the samples in the functions of run.py and run3ph.py. *)
From Coq Require Import String.
From Coq Require Import Bool ZArith Arith List Lia Ring Field Permutation.
From Verif Require Import BasePy BaseFld BaseOrd BaseSum BaseMat BaseNumpy BaseLin ModelMatrixOps ModelPrior ModelLS ModelFit ModelIdent ModelRun SpecMatrix SpecLS SpecFit SpecOrder SpecOffset ProofMatrixOps ProofLS ProofRunIO ProofIdentify ProofOrder4 ProofOrder5.
Import ListNotations.
Close Scope string_scope.
Local Open Scope nat_scope.

Section Offset.
Context {K : Type} {O : Ops K} {F : Fld K} {O2 : OrdOps K} {OF : OrdFld K}.
Notation CK := (cplx K).
Add Field KfldOf : (@k_field K O F).
Add Field CfldOf : (@k_field CK _ _).
Lemma offset_col_means : forall T n c (x x' : mat CK), offset T n c x x' -> minus_col_means x' = minus_col_means x.
Proof.
  intros T n c x x' ((W & R & C) & (W' & R' & C') & E). unfold minus_col_means. rewrite R, C, R', C'. apply mk_ext. intros t j Ht Hj. rewrite E by assumption. unfold mean_col. rewrite R, R'.
  rewrite (sumn_ext T (fun t => get x' t j) (fun t => (get x t j + c j)%K)) by (intros; apply E; assumption). rewrite sumn_add, sumn_const. assert (N : (knat T : CK) <> 0%K) by (apply knat_neq0; lia). field. exact N.
Qed.
Lemma knat_mul_c : forall a b, (knat (a * b) : CK) = (knat a * knat b)%K.
Proof.
  assert (A : forall a b, (knat (a + b) : CK) = (knat a + knat b)%K) by (induction a as [|a IH]; intro b; cbn [Nat.add knat]; [ring|rewrite IH; ring]).
  induction a as [|a IH]; intro b; cbn [Nat.mul knat]; [ring|rewrite A, IH; ring].
Qed.
Lemma offset_mean : forall T n (c : CK) (x x' : mat CK), offset T n (fun _ => c) x x' -> minus_mean x' = minus_mean x.
Proof.
  intros T n c x x' ((W & R & C) & (W' & R' & C') & E). unfold minus_mean. rewrite R, C, R', C'. apply mk_ext. intros t j Ht Hj. rewrite E by assumption. unfold mean_all. rewrite R, R', C, C'.
  rewrite (sumn_ext T (fun t => sumn n (fun j => get x' t j)) (fun t => (sumn n (fun j => get x t j) + knat n * c)%K)).
  2: { intros i Hi. rewrite <- sumn_const, <- sumn_add. apply sumn_ext. intros; apply E; assumption. }
  rewrite sumn_add, sumn_const, knat_mul_c. assert (N : (knat T : CK) <> 0%K) by (apply knat_neq0; lia). assert (N' : (knat n : CK) <> 0%K) by (apply knat_neq0; lia). field. split; assumption.
Qed.
Lemma offset_nc : forall T n c (x x' : mat CK), offset T n c x x' -> nc x' = nc x.
Proof. intros T n c x x' ((W & R & C) & (W' & R' & C') & E). congruence. Qed.
Notation harmless := (@only_offsets CK _).
Lemma harmless_centred : forall lap T n v v' i i', harmless lap T n v v' i i' -> centred lap v' i' = centred lap v i.
Proof.
  intros [] T n v v' i i' H; unfold centred.
  - destruct H as [[c H] ->]. rewrite (offset_mean T n c v v' H). reflexivity.
  - destruct H as (c & d & H & H'). rewrite (offset_col_means T n c v v' H), (offset_col_means T n d i i' H'). reflexivity.
Qed.
Lemma harmless_nc : forall lap T n v v' i i', harmless lap T n v v' i i' -> nc v' = nc v /\ nc i' = nc i.
Proof. intros [] T n v v' i i' H; [destruct H as [[c H] ->]; split; [apply (offset_nc _ _ _ _ _ H)|reflexivity]|destruct H as (c & d & H & H'); split; [apply (offset_nc _ _ _ _ _ H)|apply (offset_nc _ _ _ _ _ H')]]. Qed.
Lemma offset_mcols : forall T n c (x x' : mat CK) idx, offset T n c x x' -> (forall k, In k idx -> k < n) -> offset T (length idx) (fun j => c (nth j idx 0)) (mcols x idx) (mcols x' idx).
Proof.
  intros T n c x x' idx ((W & R & C) & (W' & R' & C') & E) H. unfold mcols. rewrite R, R'. split; [apply shape_mk|]. split; [apply shape_mk|]. intros t j Ht Hj. rewrite !get_mk by assumption. apply E; [exact Ht|]. apply H. apply nth_In. exact Hj.
Qed.
Lemma selected_lt : forall mask k, In k (selected mask) -> k < length mask.
Proof. intros mask k H. unfold selected in H. apply filter_In in H. destruct H as [H _]. unfold range in H. apply in_seq in H. lia. Qed.
(** of a part of the columns *)
Lemma harmless_mask : forall lap T n v v' i i' mask, harmless lap T n v v' i i' -> length mask = n -> nc i = n \/ lap = true ->
  harmless lap T (length (selected mask)) (mcols v (selected mask)) (mcols v' (selected mask)) (mcols i (selected mask)) (mcols i' (selected mask)).
Proof.
  intros lap T n v v' i i' mask H L HI. assert (B : forall k, In k (selected mask) -> k < n) by (intros k Hk; apply selected_lt in Hk; lia). destruct lap; [destruct H as [[c H] ->]|destruct H as (c & d & H & H')].
  - split; [|reflexivity]. exists c. apply (offset_mcols T n (fun _ => c) v v' _ H B).
  - exists (fun j => c (nth j (selected mask) 0)), (fun j => d (nth j (selected mask) 0)). split; [apply (offset_mcols T n c v v' _ H B)|apply (offset_mcols T n d i i' _ H' B)].
Qed.
Section Run.
Variables (pinv : mat CK -> mat CK) (svd : mat CK -> mat CK * list K * mat CK) (spsolve : mat K -> list K -> res (list K)) (cabs : CK -> K) (ksqrt : K -> K).
Variables true_cov naive_cov : mat CK -> arg K -> K -> bool -> res (mat K).
Variable conf : config K.
Notation standard_methods := (standard_methods pinv svd spsolve conf).
Notation standard_methods_3ph := (standard_methods_3ph pinv svd spsolve conf).
Notation bayesian_eiv := (bayesian_eiv spsolve cabs true_cov naive_cov conf).
Notation bayesian_eiv_3ph := (bayesian_eiv_3ph spsolve cabs true_cov naive_cov conf).
Notation identify := (identify pinv svd spsolve cabs ksqrt true_cov naive_cov conf).
(** data for which the estimators do the same *)
Definition alike (lap : bool) (v v' i i' : mat CK) : Prop :=
  nc v' = nc v /\ nc i' = nc i /\ (forall it, standard_estimates pinv svd spsolve conf v' i' lap it = standard_estimates pinv svd spsolve conf v i lap it) /\
  forall name sv sc r y ye it u s, bayesian_eiv name v' i' sv sc r y ye lap false it u s = bayesian_eiv name v i sv sc r y ye lap false it u s.
Definition phases_alike (lap : bool) (ids : list Z) (v v' i i' : mat CK) : Prop :=
  alike lap v v' i i' /\ forall p, length ids = nc v -> length ids = nc i -> let k := selected (is_phase ids p) in alike lap (mcols v k) (mcols v' k) (mcols i k) (mcols i' k).
Lemma bind_same : forall A B (m m' : io K A) (f f' : A -> io K B) s, m s = m' s -> (forall a s, f a s = f' a s) -> bind_io m f s = bind_io m' f' s.
Proof. intros A B m m' f f' s H1 H2. unfold bind_io. rewrite H1. destruct (m' s) as [s1 [a|]]; [apply H2|reflexivity]. Qed.
Lemma alike_standard : forall lap v v' i i' name it s, alike lap v v' i i' -> standard_methods name (Some v') i' lap it s = standard_methods name (Some v) i lap it s.
Proof. intros lap v v' i i' name it s (_ & _ & H & _). unfold ModelRun.standard_methods. rewrite H. reflexivity. Qed.
Lemma phases_mask : forall lap ids v v' i i' p, phases_alike lap ids v v' i i' ->
  (exists e, mask_cols v' (is_phase ids p) = Err e /\ mask_cols v (is_phase ids p) = Err e) \/
  (exists e, (mask_cols v' (is_phase ids p) = Ok (mcols v' (selected (is_phase ids p))) /\ mask_cols v (is_phase ids p) = Ok (mcols v (selected (is_phase ids p)))) /\ mask_cols i' (is_phase ids p) = Err e /\ mask_cols i (is_phase ids p) = Err e) \/
  exists v1 v1' i1 i1', mask_cols v (is_phase ids p) = Ok v1 /\ mask_cols v' (is_phase ids p) = Ok v1' /\ mask_cols i (is_phase ids p) = Ok i1 /\ mask_cols i' (is_phase ids p) = Ok i1' /\ alike lap v1 v1' i1 i1'.
Proof.
  intros lap ids v v' i i' p ((N1 & N2 & _) & H). unfold mask_cols. rewrite N1, N2. assert (L : length (is_phase ids p) = length ids) by (unfold is_phase; apply map_length). rewrite L.
  destruct (Nat.eqb_spec (nc v) (length ids)) as [E1|E1]; [|left; eauto]. destruct (Nat.eqb_spec (nc i) (length ids)) as [E2|E2]; [|right; left; eauto 6]. right. right.
  exists (mcols v (selected (is_phase ids p))), (mcols v' (selected (is_phase ids p))), (mcols i (selected (is_phase ids p))), (mcols i' (selected (is_phase ids p))). do 4 (split; [reflexivity|]). apply H; congruence.
Qed.
Lemma alike_standard_phase : forall lap ids v v' i i' name it y p s, phases_alike lap ids v v' i i' ->
  standard_phase pinv svd spsolve conf name v' i' ids lap it y p s = standard_phase pinv svd spsolve conf name v i ids lap it y p s.
Proof.
  intros lap ids v v' i i' name it [[yo yt] yl] p s H. unfold standard_phase. destruct (phases_mask lap ids v v' i i' p H) as [(e & E1 & E2)|[(e & (E0 & E0') & E1 & E2)|(v1 & v1' & i1 & i1' & E1 & E2 & E3 & E4 & A)]].
  - rewrite E1, E2. reflexivity.
  - rewrite E0, E0', E1, E2. reflexivity.
  - rewrite E1, E2, E3, E4. unfold bind_io at 1 2 5 6, lift at 1 3. cbn. apply bind_same; [|reflexivity]. apply alike_standard. exact A.
Qed.
Lemma alike_standard3 : forall lap ids v v' i i' name o it s, phases_alike lap ids v v' i i' -> (o = None \/ o = Some ids) ->
  standard_methods_3ph name (Some v') i' o lap it s = standard_methods_3ph name (Some v) i o lap it s.
Proof.
  intros lap ids v v' i i' name o it s H HO. unfold ModelRun.standard_methods_3ph. pose proof H as ((N1 & N2 & E & _) & _). apply bind_same; [|reflexivity]. destruct HO as [->| ->]; [rewrite E; reflexivity|]. rewrite N1.
  apply bind_same; [apply alike_standard_phase; exact H|]. intros y s1. apply bind_same; [apply alike_standard_phase; exact H|]. intros y1 s2. apply alike_standard_phase. exact H.
Qed.
Lemma alike_bayesian_phase : forall lap ids v v' i i' name sv sc r y ye it u yf p s, phases_alike lap ids v v' i i' ->
  bayesian_phase spsolve cabs true_cov naive_cov conf name v' i' ids sv sc r y ye lap false it u yf p s = bayesian_phase spsolve cabs true_cov naive_cov conf name v i ids sv sc r y ye lap false it u yf p s.
Proof.
  intros lap ids v v' i i' name sv sc r y ye it u yf p s H. unfold bayesian_phase. destruct (phases_mask lap ids v v' i i' p H) as [(e & E1 & E2)|[(e & (E0 & E0') & E1 & E2)|(v1 & v1' & i1 & i1' & E1 & E2 & E3 & E4 & A)]].
  - rewrite E1, E2. reflexivity.
  - rewrite E0, E0', E1, E2. reflexivity.
  - rewrite E1, E2, E3, E4. do 2 (match goal with |- bind_io (lift (Ok ?a)) ?f s = bind_io (lift (Ok ?b)) ?g s => change (f a s = g b s) end; cbv beta). apply bind_same; [reflexivity|]. intros r1 s1. apply bind_same; [reflexivity|]. intros y1 s2. apply bind_same; [reflexivity|]. intros y2 s3. apply bind_same; [|reflexivity]. apply A.
Qed.
Lemma alike_bayesian3 : forall lap ids v v' i i' name sv sc r y ye it u s, phases_alike lap ids v v' i i' ->
  bayesian_eiv_3ph name v' i' ids sv sc r y ye lap false it u s = bayesian_eiv_3ph name v i ids sv sc r y ye lap false it u s.
Proof.
  intros lap ids v v' i i' name sv sc r y ye it u s H. unfold ModelRun.bayesian_eiv_3ph. destruct (existsb _ _); [|reflexivity].
  apply bind_same; [apply alike_bayesian_phase; exact H|]. intros [y0 i0] s0. apply bind_same; [apply alike_bayesian_phase; exact H|]. intros [y1 i1] s1. apply bind_same; [apply alike_bayesian_phase; exact H|]. intros [y2 i2] s2. reflexivity.
Qed.
Lemma alike_rest : forall o f h i v j w y r i' v' j' w' s, ModelRun.weighted o = false -> phases_alike (ModelRun.laplacian o) h v v' i i' ->
  after pinv svd spsolve cabs ksqrt true_cov naive_cov conf o f h (i', v', j', w', y, r) s = after pinv svd spsolve cabs ksqrt true_cov naive_cov conf o f h (i, v, j, w, y, r) s.
Proof.
  intros o f h i v j w y r i' v' j' w' s HW H. unfold after. cbn [fst snd]. apply bind_same; [reflexivity|]. intros _ s1. unfold rest. rewrite HW. apply bind_same.
  - destruct (standard o || (negb (standard o) && negb (bayesian o))).
    + destruct (three_phased (phases o)); [apply (alike_standard3 _ h); [exact H|destruct (phases o =? "012")%string; auto]|apply alike_standard; apply H].
    + destruct (three_phased (phases o)); reflexivity.
  - intros [[yo yt] yl] s2. apply bind_same; [reflexivity|]. intros y0 s3. apply bind_same; [|reflexivity]. destruct (three_phased (phases o)); [apply alike_bayesian3; exact H|apply H].
Qed.
(** the labels only matter in three-phase runs; otherwise the columns of one phase have been taken already *)
Lemma keep_alike : forall p h i v j w y r i' v' j' w' lap, nc j' = nc j -> nc w' = nc w -> phases_alike lap h v v' i i' ->
  match keep_phase p i v j w y r h, keep_phase p i' v' j' w' y r h with
  | Ok (i1, v1, j1, w1, y1, r1), Ok (i2, v2, j2, w2, y2, r2) => y1 = y2 /\ r1 = r2 /\ (if three_phased p then phases_alike lap h v1 v2 i1 i2 else alike lap v1 v2 i1 i2)
  | Err e, Err e' => e = e'
  | _, _ => False
  end.
Proof.
  intros p h i v j w y r i' v' j' w' lap NJ NW H. unfold keep_phase. destruct (three_phased p) eqn:E3; cbn [negb andb].
  { split; [reflexivity|]. split; [reflexivity|exact H]. }
  destruct (existsb (fun x : Z => negb (x =? 1)%Z) h); [|split; [reflexivity|]; split; [reflexivity|apply H]]. destruct (negb _); [reflexivity|].
  destruct (mask_square y _); [|reflexivity]. cbn [bind]. destruct (mask_list r _); [|reflexivity]. cbn [bind].
  destruct (phases_mask lap h v v' i i' (int_of p) H) as [(e & E1 & E2)|[(e & (E0 & E0') & E1 & E2)|(v1 & v1' & i1 & i1' & E1 & E2 & E4 & E5 & A)]].
  - rewrite E1, E2. reflexivity.
  - rewrite E0, E0', E1, E2. reflexivity.
  - rewrite E1, E2, E4, E5. cbn [bind]. unfold mask_cols. rewrite NJ, NW. destruct (nc w =? _); [|reflexivity]. cbn [bind]. destruct (nc j =? _); [|reflexivity]. cbn [bind]. split; [reflexivity|]. split; [reflexivity|exact A].
Qed.
Lemma alike_after1 : forall o f h i v j w y r i' v' j' w' s, three_phased (phases o) = false -> ModelRun.weighted o = false -> alike (ModelRun.laplacian o) v v' i i' ->
  after pinv svd spsolve cabs ksqrt true_cov naive_cov conf o f h (i', v', j', w', y, r) s = after pinv svd spsolve cabs ksqrt true_cov naive_cov conf o f h (i, v, j, w, y, r) s.
Proof.
  intros o f h i v j w y r i' v' j' w' s H3 HW H. unfold after. cbn [fst snd]. apply bind_same; [reflexivity|]. intros _ s1. unfold rest. rewrite HW, H3. apply bind_same.
  - destruct (standard o || (negb (standard o) && negb (bayesian o))); [apply alike_standard; exact H|reflexivity].
  - intros [[yo yt] yl] s2. apply bind_same; [reflexivity|]. intros y0 s3. apply bind_same; [|reflexivity]. apply H.
Qed.
(** the whole program *)
Lemma alike_identify : forall o (s s' : files K) i v j w y r f h i' v' j' w', ModelRun.weighted o = false ->
  s (simulation_path (network o)) = Some (Simulation i v j w y r f h) -> s' (simulation_path (network o)) = Some (Simulation i' v' j' w' y r f h) ->
  (forall p, p <> simulation_path (network o) -> s p = s' p) -> nc j' = nc j -> nc w' = nc w -> phases_alike (ModelRun.laplacian o) h v v' i i' ->
  snd (identify o s') = snd (identify o s) /\ forall p, p <> simulation_path (network o) -> fst (identify o s') p = fst (identify o s) p.
Proof.
  intros o s s' i v j w y r f h i' v' j' w' HW S S' AG NJ NW H. destruct (phases_refused (phases o) (sequence o)) eqn:R.
  { unfold ModelRun.identify. rewrite R. cbn [fst snd lift]. split; [reflexivity|]. intros p Hp. symmetry. apply AG. exact Hp. }
  rewrite (identify_after pinv svd spsolve cabs ksqrt true_cov naive_cov conf o s i v j w y r f h R S), (identify_after pinv svd spsolve cabs ksqrt true_cov naive_cov conf o s' i' v' j' w' y r f h R S').
  pose proof (keep_alike (phases o) h i v j w y r i' v' j' w' (ModelRun.laplacian o) NJ NW H) as KA.
  destruct (keep_phase (phases o) i v j w y r h) as [[[[[[i1 v1] j1] w1] y1] r1]|e]; destruct (keep_phase (phases o) i' v' j' w' y r h) as [[[[[[i2 v2] j2] w2] y2] r2]|e']; try contradiction.
  2: { rewrite KA. split; [reflexivity|]. intros p Hp. symmetry. apply AG. exact Hp. }
  destruct KA as (<- & <- & A). assert (E : after pinv svd spsolve cabs ksqrt true_cov naive_cov conf o f h (i2, v2, j2, w2, y1, r1) s' = after pinv svd spsolve cabs ksqrt true_cov naive_cov conf o f h (i1, v1, j1, w1, y1, r1) s').
  { destruct (three_phased (phases o)) eqn:E3; [apply alike_rest; assumption|apply alike_after1; assumption]. }
  rewrite E. destruct (ig_after pinv svd spsolve cabs ksqrt true_cov naive_cov conf o f h (i1, v1, j1, w1, y1, r1) s s' AG) as [R1 R2]. split; [congruence|]. intros p Hp. symmetry. apply R2. exact Hp.
Qed.
Lemma harmless_alike : forall lap T n v v' i i', harmless lap T n v v' i i' -> alike lap v v' i i'.
Proof.
  intros lap T n v v' i i' H. destruct (harmless_nc lap T n v v' i i' H) as [N1 N2]. split; [exact N1|]. split; [exact N2|]. split.
  - intro it. unfold standard_estimates. rewrite (harmless_centred lap T n v v' i i' H), N1. reflexivity.
  - intros name sv sc r y ye it u s. unfold ModelRun.bayesian_eiv. rewrite N1. apply bind_same; [reflexivity|]. intros e s1. destruct (0 <? it)%Z; [|reflexivity]. unfold eiv_data. cbn [andb].
    change (bind_io (lift (Ok (v', i', None, None))) ?f s1) with (f (v', i', @None (mat K), @None (mat K)) s1). cbv beta iota. rewrite (harmless_centred lap T n v v' i i' H). reflexivity.
Qed.
Lemma harmless_phases : forall lap T n ids v v' i i', harmless lap T n v v' i i' -> phases_alike lap ids v v' i i'.
Proof.
  intros lap T n ids v v' i i' H. split; [apply (harmless_alike lap T n); exact H|]. intros p L1 L2 k. apply (harmless_alike lap T (length k)).
  assert (N : nc v = n). { destruct lap; [destruct H as [[c ((_ & _ & C) & _)] _]|destruct H as (c & d & ((_ & _ & C) & _) & _)]; exact C. }
  apply (harmless_mask lap T n); [exact H|unfold is_phase; rewrite map_length; congruence|]. left. congruence.
Qed.
End Run.
End Offset.
