(** Consequences of the penalties of the priors of identification. *)
From Coq Require Import String.
From Coq Require Import Bool Arith List ZArith Lia Ring Field.
From Verif Require Import BasePy BaseFld BaseOrd BaseSum BaseMat BaseNumpy BaseLin ModelMatrixOps SpecMatrix ModelPrior ModelFit
  ModelIdent SpecPrior SpecIdent ProofRagged ProofMatrixOps ProofStruct ProofElim ProofMatrixProps ProofFitBase ProofFitRep ProofPrior
  ProofIdent ProofPenalty ProofIdentMain ProofIdentThm ProofKnown.
Import ListNotations.
Close Scope string_scope.
Local Open Scope K_scope.

Section End_.
Context {K : Type} {O : Ops K} {F : Fld K} {O2 : OrdOps K} {OF : OrdFld K}.
Notation CK := (cplx K).
Add Field Kfld : (@k_field K O F).

Lemma columns_psize : forall lap n, columns lap n = (psize lap n + psize lap n)%nat.
Proof.
  intros [|] n; unfold columns, psize; [generalize (off_slen_full n)|generalize (off_hlen n n (le_n n))]; nia.
Qed.

(** ** the weights of the Lasso *)
Lemma kabs_inv : forall y : K, y <> 0 -> kabs (1 / kabs y) = 1 / kabs y.
Proof.
  intros y H. apply kabs_pos_id. apply kle_inv. apply klt_spec2. split; [apply kabs_nonneg|]. intros E. apply (kabs_neq0 y H). congruence.
Qed.
Definition unit_at (n k : nat) : list K := mkv n (fun i => if (i =? k)%nat then 1 else 0).
Lemma weighted_unit : forall al (w : K -> K) y k, (k < length y)%nat ->
  weighted_penalty al w y (unit_at (length y) k) = kabs (w (vget y k)) + sumn (length y) (fun _ => al).
Proof.
  intros al w y k Hk. unfold weighted_penalty, cost. rewrite sumn_add. f_equal.
  rewrite (sumn_single _ k).
  - unfold unit_at. rewrite vget_mkv by assumption. rewrite Nat.eqb_refl. f_equal. ring.
  - assumption.
  - intros i Hi Hne. unfold unit_at. rewrite vget_mkv by assumption. apply Nat.eqb_neq in Hne. rewrite Hne.
    replace (w (vget y i) * 0) with (0 : K) by ring. apply kabs_0.
Qed.
Lemma weighted_iff : forall al (y : list K), Forall (fun z => z <> 0) y ->
  ((forall x, length x = length y -> weighted_penalty al kabs y x = weighted_penalty al (fun z => 1 / kabs z) y x) <->
   Forall (fun z => z * z = 1) y).
Proof.
  intros al y Hz. rewrite Forall_forall in *. split.
  - intros H z Hin. destruct (In_nth _ _ 0 Hin) as (k & Hk & Ek). specialize (H (unit_at (length y) k)).
    rewrite !weighted_unit in H by assumption. unfold unit_at in H. rewrite length_mkv in H. specialize (H eq_refl).
    change (vget y k = z) in Ek. rewrite Ek in H. specialize (Hz z Hin). rewrite kabs_kabs, kabs_inv in H by assumption.
    assert (E : kabs z = 1 / kabs z) by (replace (kabs z) with (kabs z + sumn (length y) (fun _ => al) - sumn (length y) (fun _ => al)) at 1 by ring; rewrite H; ring).
    rewrite <- kabs_sqr. rewrite E at 1. apply kdiv_mul. apply kabs_neq0. assumption.
  - intros H x Hx. unfold weighted_penalty. apply sumn_ext. intros k Hk. f_equal. f_equal.
    assert (E : vget y k * vget y k = 1) by (apply H, nth_In; assumption).
    assert (N : vget y k <> 0) by (intros N; rewrite N in E; apply (k1_neq0 (K := K)); rewrite <- E; ring).
    rewrite <- kabs_sqr in E. rewrite <- E. field. apply kabs_neq0. assumption.
Qed.
Theorem p_lasso_documented : forall lap n (Y : mat CK), (2 <= n)%nat -> shape Y n n ->
  Forall (fun y => y <> 0) (parameters lap (sym_part n Y)) ->
  exists p, build_lasso_prior n Y lap = Ok p /\
    ((forall x, length x = length (parameters lap (sym_part n Y)) ->
        penalty_at p x (weighted_penalty (tenth 5) (fun y => 1 / kabs y) (parameters lap (sym_part n Y)) x)) <->
     Forall (fun y => y * y = 1) (parameters lap (sym_part n Y))).
Proof.
  intros lap n Y Hn HY Hz. destruct (p_lasso lap n Y Hn HY Hz) as (p & E & H). exists p. split; [exact E|].
  rewrite <- (weighted_iff (tenth 5)) by exact Hz. split.
  - intros G x Hx. apply (penalty_unique p x); [apply H|apply G]; assumption.
  - intros G x Hx. rewrite <- G by assumption. apply H. assumption.
Qed.

(** ** the penalty at the estimate *)
Lemma node_sum_same : forall n (M Y : mat CK) i, (i < n)%nat -> same_lines n M Y -> node_sum n M i = node_sum n (sym_part n Y) i.
Proof.
  intros n M Y i Hi H. apply sumn_ext. intros j Hj. destruct (Nat.eqb_spec j i); [reflexivity|]. apply H; auto.
Qed.
Lemma line_pen_same : forall al n (M Y : mat CK), no_zero_line n Y -> same_lines n M Y -> line_pen al n Y M = line_pen_unit al n.
Proof.
  intros al n M Y Hz H. apply line_sum_ext. intros i j Hj Hi. rewrite H by lia. destruct (Hz i j ltac:(lia) ltac:(lia) ltac:(lia)) as [A B].
  unfold parts. f_equal; f_equal; apply kdiv_same; assumption.
Qed.
Lemma node_pen_same : forall al lam tls n (M Y : mat CK), (forall i, (i < n)%nat -> nonzero_parts (reference tls n Y i)) ->
  (forall i, (i < n)%nat -> node_sum n M i = reference tls n Y i) -> node_pen al lam tls n Y M = no_residual al n.
Proof.
  intros al lam tls n M Y Hz H. apply sumn_ext. intros i Hi. rewrite H by assumption. destruct (Hz i Hi) as [A B].
  unfold parts. f_equal; f_equal; rewrite kdiv_same by assumption; ring.
Qed.
Theorem p_at_estimate : forall lap tls n lam (Y : mat CK), (2 <= n)%nat -> shape Y n n -> no_zero_line n Y ->
  (forall i, (i < n)%nat -> nonzero_parts (reference tls n Y i)) ->
  exists p, build_complex_prior n lam Y lap tls true false = Ok p /\ forall M, admissible lap n M -> same_lines n M Y ->
    (forall i, (i < n)%nat -> node_sum n M i = reference tls n Y i) ->
    penalty_at p (parameters lap M) (line_pen_unit (tenth 8) n + no_residual (tenth 8) n).
Proof.
  intros lap tls n lam Y Hn HY Hz Hr. destruct (p_complex lap tls n lam Y Hn HY Hz Hr) as (p & E & H). exists p. split; [exact E|].
  intros M HM Hs HR. rewrite <- (line_pen_same _ n M Y Hz Hs), <- (node_pen_same _ lam tls n M Y Hr HR). apply H. assumption.
Qed.
(** the sums of the estimate itself as references: no further condition *)
Theorem p_at_estimate_sums : forall lap n lam (Y : mat CK), (2 <= n)%nat -> shape Y n n -> no_zero_line n Y ->
  (forall i, (i < n)%nat -> nonzero_parts (node_sum n (sym_part n Y) i)) ->
  exists p, build_complex_prior n lam Y lap false true false = Ok p /\ forall M, admissible lap n M -> same_lines n M Y ->
    penalty_at p (parameters lap M) (line_pen_unit (tenth 8) n + no_residual (tenth 8) n).
Proof.
  intros lap n lam Y Hn HY Hz Hr. destruct (p_at_estimate lap false n lam Y Hn HY Hz Hr) as (p & E & H). exists p. split; [exact E|].
  intros M HM Hs. apply H; [assumption|assumption|]. intros i Hi. apply node_sum_same; assumption.
Qed.
(** the residuals of the nodes are smallest where every node is balanced *)
Theorem p_nodes_least : forall lam tls n (Y M : mat CK), kle (no_residual (tenth 8) n) (node_pen (tenth 8) lam tls n Y M).
Proof.
  intros lam tls n Y M. apply sumn_le. intros i Hi. unfold parts, cost. rewrite kabs_0.
  apply kle_add2; apply kle_add2; try apply kle_refl; apply kabs_nonneg.
Qed.
(** and only there *)
Theorem p_nodes_balanced : forall lam tls n (Y M : mat CK), lam <> 0 -> (forall i, (i < n)%nat -> nonzero_parts (reference tls n Y i)) ->
  node_pen (tenth 8) lam tls n Y M = no_residual (tenth 8) n -> forall i, (i < n)%nat -> node_sum n M i = reference tls n Y i.
Proof.
  intros lam tls n Y M Hl Hr E i Hi.
  set (d := fun i => kabs (lam * (re (node_sum n M i) / re (reference tls n Y i) - 1)) + kabs (lam * (im (node_sum n M i) / im (reference tls n Y i) - 1))).
  assert (D : sumn n d = 0).
  { transitivity (node_pen (tenth 8) lam tls n Y M - no_residual (tenth 8) n); [|rewrite E; ring].
    unfold node_pen, no_residual. rewrite <- sumn_sub. apply sumn_ext. intros j _. unfold parts, cost, d. rewrite kabs_0. ring. }
  assert (Di := sumn_nonneg_zero n d (fun j _ => kle_0_add _ _ (kabs_nonneg _) (kabs_nonneg _)) D i Hi).
  destruct (kle_add_zero _ _ (kabs_nonneg _) (kabs_nonneg _) Di) as [D1 D2].
  apply kabs_zero in D1. apply kabs_zero in D2.
  destruct (kmul_integral _ _ D1) as [H|H1]; [contradiction|]. destruct (kmul_integral _ _ D2) as [H|H2]; [contradiction|].
  destruct (Hr i Hi) as [N1 N2]. apply ksub_eq0 in H1. apply ksub_eq0 in H2.
  apply cplx_eq.
  - rewrite <- (kdiv_mul (re (node_sum n M i)) _ N1), H1. ring.
  - rewrite <- (kdiv_mul (im (node_sum n M i)) _ N2), H2. ring.
Qed.

(** ** one contrast for all lines *)
Lemma sum_nodes : forall n (M : mat CK), symmetric n M -> sumn n (node_sum n M) = total n M + total n M.
Proof.
  intros n M [HM HS]. unfold node_sum, total.
  assert (G : forall m, (m <= n)%nat -> sumn m (fun i => sumn m (fun j => if (j =? i)%nat then 0 else get M i j)) =
    sumn m (fun i => sumn i (fun j => get M i j)) + sumn m (fun i => sumn i (fun j => get M i j))).
  { induction m as [|m IH]; intros Hm; [apply cplx_eq; cbn; ring|]. cbn [sumn].
    rewrite Nat.eqb_refl.
    rewrite (sumn_ext m (fun i => sumn m (fun j => if (j =? i)%nat then 0 else get M i j) + (if (m =? i)%nat then 0 else get M i m))
      (fun i => sumn m (fun j => if (j =? i)%nat then 0 else get M i j) + get M m i)).
    2:{ intros i Hi. destruct (Nat.eqb_spec m i); [lia|]. rewrite (HS i m) by lia. reflexivity. }
    rewrite sumn_add, IH by lia.
    rewrite (sumn_ext m (fun j => if (j =? m)%nat then 0 else get M m j) (fun j => get M m j)).
    2:{ intros j Hj. destruct (Nat.eqb_spec j m); [lia|reflexivity]. }
    set (r := sumn m (fun j => get M m j)). change (sumn m (get M m)) with r. clearbody r.
    generalize (sumn m (fun i => sumn i (fun j => get M i j))). intro t. apply cplx_eq; cbn; ring. }
  apply G. lia.
Qed.
Lemma total_same : forall n (M Y : mat CK), same_lines n M Y -> total n M = total n (sym_part n Y).
Proof. intros n M Y H. apply sumn_ext. intros i Hi. apply sumn_ext. intros j Hj. apply H; lia. Qed.
Lemma half_ratio : forall z : K, z <> 0 -> z / (z + z) + 1 = knat 3 / knat 2.
Proof.
  intros z Hz. cbn [knat]. assert (N := k2_neq0 (K := K)).
  replace (z + z) with ((1 + 1) * z) by ring. field. repeat split; try assumption; intros H; apply N; rewrite <- H; ring.
Qed.
Lemma double_zero : forall z : K, z + z = 0 -> z = 0.
Proof.
  intros z H. assert (H2 : (1 + 1) * z = 0) by (rewrite <- H; ring). destruct (kmul_integral _ _ H2) as [A|A]; [|assumption].
  destruct (k2_neq0 (K := K) A).
Qed.
Theorem p_single_estimate : forall lap n lam (Y : mat CK), (2 <= n)%nat -> shape Y n n -> no_zero_line n Y ->
  nonzero_parts (total n (sym_part n Y)) ->
  exists p, build_complex_prior n lam Y lap false false false = Ok p /\ forall M, admissible lap n M -> same_lines n M Y ->
    penalty_at p (parameters lap M) (line_pen_unit (tenth 8) n + parts (fun _ => cost (tenth 8) (lam * (knat 3 / knat 2)))).
Proof.
  intros lap n lam Y Hn HY Hz [T1 T2].
  assert (E : sumn n (fun i => reference false n Y i) = total n (sym_part n Y) + total n (sym_part n Y)) by (apply sum_nodes; apply sym_part_sym; exact _).
  assert (N := k2_neq0 (K := K)).
  destruct (p_single lap false n lam Y Hn HY Hz) as (p & Ep & H).
  { rewrite E. split; cbn [re im kadd cplx_ops cadd]; intros H; [apply T1|apply T2]; apply double_zero; assumption. }
  exists p. split; [exact Ep|]. intros M HM Hs.
  rewrite <- (line_pen_same _ n M Y Hz Hs).
  refine (eq_ind _ (penalty_at p (parameters lap M)) (H M HM) _ _). f_equal.
  unfold single_pen. rewrite E, (total_same n M Y Hs). unfold parts. cbn [re im kadd cplx_ops cadd].
  rewrite !half_ratio by assumption. reflexivity.
Qed.

(** ** exact knowledge of every line *)
Lemma mask_off_plain : forall n, is_mask false n (map (fun x => 1 * x) (pv false (off_diagonal n : mat K))) (fun a b => negb (a =? b)%nat).
Proof.
  intros n. apply (mask_of false n _ _ (fun x => kltb 0 x)); [reflexivity| |].
  - intros x. f_equal. simpl. ring.
  - intros a b Hb Ha. unfold off_diagonal. rewrite get_mk by lia. destruct (a =? b)%nat; cbn [negb].
    + replace ((1 : K) - 1) with (0 : K) by ring. destruct (kltb 0 (0 : K)) eqn:E; [|reflexivity]. exfalso.
      apply klt_spec in E. apply E. apply kle_refl.
    + replace ((1 : K) - 0) with (1 : K) by ring. apply klt_01.
Qed.
Theorem p_loads : forall n (Y : mat CK), (2 <= n)%nat -> shape Y n n ->
  exists p, build_loads_id_prior n Y = Ok p /\ forall M, shape M n n ->
    penalty_at p (parameters false M) (exact_lines (tenth 10) n Y M).
Proof.
  intros n Y Hn HY. destruct (e_is n false) as (E & EE & HE).
  unfold build_loads_id_prior. rewrite EE. cbn [bind].
  erewrite eliminated_real_ok by (eassumption || apply off_diagonal_sym); cbn [bind]. cbv zeta.
  erewrite eliminated_ok by eassumption; cbn [bind].
  rewrite length_pv. cbn [nr sym_part mk]. rewrite times2, real_times. cbn [re im].
  assert (Mu := mask_off_plain n). set (u := map (fun x => 1 * x) (pv false (off_diagonal n))) in *.
  set (c := make_real_vector (pv false (sym_part n Y))).
  destruct (good_exact (tenth 10) _ 0 _ _ (where_pos (u ++ u)) (pick c (where_pos (u ++ u))) ANone 1 (good_init (tenth 10) (psize false n + psize false n)))
    as (q & Eq & G).
  - apply where_pos_lt. rewrite app_length, (proj1 Mu). reflexivity.
  - unfold pick. rewrite map_length. reflexivity.
  - left. auto.
  - exists q. split; [exact Eq|]. intros M HM.
    refine (eq_ind _ (penalty_at q (parameters false M)) (good_penalty _ _ _ _ _ _ G _ _ _) _ _).
    + lia.
    + rewrite where_pos_app, app_length, map_length. lia.
    + apply length_parameters. assumption.
    + cbn beta. transitivity (lsum (map (fun k => cost (tenth 10) (1 * (vget (parameters false M) k - vget c k))) (where_pos (u ++ u)))).
      { rewrite <- sum_list. match goal with |- 0 + ?a = _ => replace (0 + a) with a by ring end.
        apply sumn_ext. intros i Hi. rewrite vget_pick by assumption. reflexivity. }
      assert (Sc := shape_sym_part n Y).
      rewrite (sum_where_params false n _ _ _ _ _
        (fun a b => cost (tenth 10) (re (get M a b) - re (get (sym_part n Y) a b)))
        (fun a b => cost (tenth 10) (im (get M a b) - im (get (sym_part n Y) a b))) (fun _ => 0) (fun _ => 0) Mu Mu).
      * rewrite sum_off, sum_off_diag. unfold exact_lines, parts. ring.
      * intros a b0 Hb0 Ha _. change c with (parameters false (sym_part n Y)). rewrite !(param_re false n) by assumption. cbn [psign]. f_equal. ring.
      * intros a b0 Hb0 Ha _. change c with (parameters false (sym_part n Y)). rewrite !(param_im false n) by assumption. cbn [psign]. f_equal. ring.
      * intros _ a Ha H. rewrite Nat.eqb_refl in H. discriminate.
      * intros _ a Ha H. rewrite Nat.eqb_refl in H. discriminate.
Qed.

Lemma suboptimal_same : forall lap n p lam (Y : mat CK) s, contains "suboptimal" s = true ->
  add_known_lines n p lam Y lap s = add_known_lines n p lam Y lap (if contains "wrong" s then "optimal wrong" else "optimal").
Proof.
  intros lap n p lam Y s H. unfold add_known_lines. rewrite (suboptimal_contains_optimal s H).
  destruct (contains "wrong" s); reflexivity.
Qed.

(** ** knowledge within the prior of bayesian_eiv *)
Theorem p_bayesian_known : forall tls n lam (Y X : mat CK), (29 <= n)%nat -> shape Y n n -> shape X n n -> no_zero_line n Y ->
  (forall i, (i < n)%nat -> nonzero_parts (reference tls n Y i)) ->
  exists q, bayesian_prior n lam Y (Some X) false tls true false = Ok q /\ forall M, symmetric n M ->
    penalty_at q (parameters false M) (line_pen (tenth 8) n Y M + node_pen (tenth 8) lam tls n Y M +
      knowledge (tenth 8) lam 1 opt_nodes opt_lines n X M).
Proof.
  intros tls n lam Y X Hn HY HX Hz Hr.
  destruct (p_complex_full false tls n lam Y ltac:(lia) HY Hz Hr) as (p & Ep & (Sp & Wp & Ap) & H).
  destruct (p_known false n p lam X "optimal" Sp Wp HX Hn eq_refl) as (q & Eq & _ & _ & Hq).
  exists q. unfold bayesian_prior. rewrite Ep. cbn [bind]. split; [exact Eq|]. intros M HM.
  specialize (Hq M _ (proj1 HM) (H M HM)). rewrite Ap in Hq.
  assert (S1 : scaled "optimal" lam = lam) by (unfold scaled; change (contains "wrong" "optimal") with false; cbv iota; ring).
  rewrite S1 in Hq. exact Hq.
Qed.
Theorem p_bayesian_unknown : forall lap tls n lam (Y : mat CK), (2 <= n)%nat -> shape Y n n -> no_zero_line n Y ->
  (forall i, (i < n)%nat -> nonzero_parts (reference tls n Y i)) ->
  exists q, bayesian_prior n lam Y None lap tls true false = Ok q /\ forall M, admissible lap n M ->
    penalty_at q (parameters lap M) (line_pen (tenth 8) n Y M + node_pen (tenth 8) lam tls n Y M).
Proof.
  intros lap tls n lam Y Hn HY Hz Hr. destruct (p_complex lap tls n lam Y Hn HY Hz Hr) as (p & Ep & H).
  exists p. unfold bayesian_prior. rewrite Ep. cbn [bind]. auto.
Qed.

(** ** known lines for a Laplacian *)
Lemma build_rows_range : forall c idx (entry : nat -> res K) k, (forall i, (i < length idx)%nat -> exists x, entry i = Ok x) ->
  In k idx -> (c <= k)%nat -> build_rows c (map Z.of_nat idx) entry = Err IndexError.
Proof.
  intros c idx entry k He Hin Hk. unfold build_rows. rewrite map_length.
  assert (G : forall l m, (forall i, In i l -> (i < length idx)%nat) -> nr m = length idx -> nc m = c ->
    (exists i, In i l /\ (c <= nth i idx 0)%nat) ->
    for_each l m (fun m i => x <- entry i ;; k <- pyget (map Z.of_nat idx) i ;; set_at m (Z.of_nat i) k x) = Err IndexError).
  { induction l as [|i l IH]; intros m Hl Hr Hc (j & Hj & Hkj); [destruct Hj|]. cbn [for_each].
    assert (Hi : (i < length idx)%nat) by (apply Hl; left; reflexivity).
    destruct (He i Hi) as (x & ->). cbn [bind].
    assert (Ek : pyget (map Z.of_nat idx) i = Ok (Z.of_nat (nth i idx 0%nat))).
    { unfold pyget. rewrite nth_error_map, (nth_error_nth' idx 0%nat Hi). reflexivity. }
    rewrite Ek. cbn [bind]. unfold set_at. rewrite Hr, Hc.
    assert (A : norm_idx (length idx) (Z.of_nat i) = Ok i).
    { unfold norm_idx. destruct (Z.leb_spec 0 (Z.of_nat i)); [|lia]. destruct (Z.ltb_spec (Z.of_nat i) (Z.of_nat (length idx))); [|lia]. cbn [andb]. rewrite Nat2Z.id. reflexivity. }
    rewrite A. cbn [bind].
    destruct (le_lt_dec c (nth i idx 0%nat)) as [Hb|Hb].
    - unfold norm_idx. destruct (Z.ltb_spec (Z.of_nat (nth i idx 0%nat)) (Z.of_nat c)); [lia|]. rewrite andb_false_r.
      destruct (Z.ltb_spec (Z.of_nat (nth i idx 0%nat)) 0); [lia|]. rewrite andb_false_r. reflexivity.
    - assert (B : norm_idx c (Z.of_nat (nth i idx 0%nat)) = Ok (nth i idx 0%nat)).
      { unfold norm_idx. destruct (Z.leb_spec 0 (Z.of_nat (nth i idx 0%nat))); [|lia].
        destruct (Z.ltb_spec (Z.of_nat (nth i idx 0%nat)) (Z.of_nat c)); [|lia]. cbn [andb]. rewrite Nat2Z.id. reflexivity. }
      rewrite B. cbn [bind]. apply IH.
      + intros a Ha. apply Hl. right. assumption.
      + cbn. assumption.
      + cbn. assumption.
      + exists j. destruct Hj as [->|Hj]; [lia|auto]. }
  apply G.
  - intros i Hi. apply in_range in Hi. assumption.
  - reflexivity.
  - reflexivity.
  - destruct (In_nth _ _ 0%nat Hin) as (i & Hi & Ei). exists i. split; [apply in_range; assumption|lia].
Qed.
Lemma exact_out_of_range : forall p c idx (v : list K) lam k, is_sparse p = true -> bn (base (dense p)) = c -> length v = length idx ->
  In k idx -> (c <= k)%nat ->
  added p (AddExact (map Z.of_nat idx) v (AScalar lam) (AScalar LAPLACE)) = Err IndexError.
Proof.
  intros p c idx v lam k Hs Hc Hl Hin Hk. unfold added, via_dense. rewrite Hs. cbn [apply_addition]. unfold s_add_exact, add_exact_prior.
  destruct (broadcast1 kmul (std_weights 1 (AScalar lam) (length v)) v) as [m|e] eqn:Eb.
  - rewrite Hc. unfold with_mu. rewrite (build_rows_range c idx _ k); try assumption; [reflexivity|].
    intros i Hi. unfold pyget. cbn [std_weights]. exists lam. rewrite nth_error_repeat by lia. reflexivity.
  - exfalso. cbn [std_weights] in Eb. unfold broadcast1 in Eb. rewrite repeat_length, Nat.eqb_refl in Eb. discriminate.
Qed.

Lemma known_rows : forall lap n p lam (X : mat CK) s, shape X n n -> (29 <= n)%nat -> contains "optimal" s = true ->
  exists u v, is_mask lap n u (fun a b => touches opt_nodes a b && negb (a =? b)%nat) /\ length v = length (where_pos (u ++ u)) /\
    add_known_lines n p lam X lap s = added p (AddExact (map Z.of_nat (where_pos (u ++ u))) v (AScalar (scaled s lam)) (AScalar LAPLACE)).
Proof.
  intros lap n p lam X s HX Hn Hs. destruct (e_is n lap) as (E & EE & HE).
  set (u := map kabs (pv lap (real_weights opt_nodes n))). exists u.
  exists (map (fun x => x * factor s) (pick (make_real_vector (pv lap (sym_part n (line_centers opt_lines n X)))) (where_pos (u ++ u)))).
  split; [apply mask_weights|]. split; [unfold pick; rewrite !map_length; reflexivity|].
  assert (Ew : map kabs (make_real_vector (pv lap (line_weights opt_nodes n))) = u ++ u).
  { unfold make_real_vector. rewrite map_app. rewrite (re_pv lap n), (im_pv lap n) by apply shape_mk. rewrite re_weights, im_weights. reflexivity. }
  unfold add_known_lines. rewrite EE. cbn [bind]. rewrite Hs. rewrite (optimal_lines_ok n X HX Hn). cbn [bind].
  rewrite (eliminated_ok lap n) by (assumption || apply shape_mk). cbn [bind].
  rewrite sym_part_symmetric by apply weights_sym.
  rewrite (eliminated_ok lap n) by (assumption || apply shape_mk). cbn [bind]. cbv zeta. rewrite Ew, added_adaptive. reflexivity.
Qed.
Lemma touch_low : forall n a b, (b < a)%nat -> (a < n)%nat -> touches opt_nodes a b = true -> (hidx n a b < off (hlen n) 27)%nat /\ (0 < hidx n a b)%nat.
Proof.
  intros n a b Hb Ha H. assert (Hl : (b <= 26)%nat).
  { unfold touches, opt_nodes in H. cbn [existsb] in H. repeat rewrite orb_true_iff in H. rewrite !Nat.eqb_eq in H. lia. }
  assert (Hm := off_mono (hlen n) (S b) 27 ltac:(lia)). change (off (hlen n) (S b)) with (off (hlen n) b + (n - b))%nat in Hm. unfold hidx. lia.
Qed.
Lemma last_position : forall n, (29 <= n)%nat -> (n <= 38)%nat -> (psize true n + psize true n <= psize false n + hidx n (n - 1) 26)%nat.
Proof.
  intros n H1 H2.
  assert (G : forallb (fun m => (psize true m + psize true m <=? psize false m + hidx m (m - 1) 26)%nat) (seq 29 10) = true) by (vm_compute; reflexivity).
  rewrite forallb_forall in G. apply Nat.leb_le, G, in_seq. lia.
Qed.
Lemma position_room : forall n, (39 <= n)%nat -> (psize false n + off (hlen n) 27 <= psize true n + psize true n)%nat.
Proof.
  intros n H. unfold psize. generalize (off_hlen n n ltac:(lia)) (off_slen n n ltac:(lia)) (off_hlen n 27 ltac:(lia)).
  generalize (off (hlen n) n) (off (slen n) n) (off (hlen n) 27). intros x y z A B C. replace n with (39 + (n - 39))%nat in * by lia.
  clear H. revert A B C. generalize (n - 39)%nat. intros k A B C. nia.
Qed.
Theorem p_laplacian_range : forall tls n lam (Y X : mat CK), (29 <= n)%nat -> (n <= 38)%nat -> shape Y n n -> shape X n n -> no_zero_line n Y ->
  (forall i, (i < n)%nat -> nonzero_parts (reference tls n Y i)) ->
  bayesian_prior n lam Y (Some X) true tls true false = Err IndexError.
Proof.
  intros tls n lam Y X Hn Hm HY HX Hz Hr.
  destruct (p_complex_full true tls n lam Y ltac:(lia) HY Hz Hr) as (p & Ep & (Sp & Wp & Ap) & H).
  unfold bayesian_prior. rewrite Ep. cbn [bind].
  destruct (known_rows false n p lam X "optimal" HX Hn eq_refl) as (u & v & (HL & Hu & Hd) & Hv & ->).
  apply (exact_out_of_range p (psize true n + psize true n) (where_pos (u ++ u)) v (scaled "optimal" lam) (psize false n + hidx n (n - 1) 26)).
  - exact Sp.
  - apply Wp.
  - exact Hv.
  - rewrite where_pos_app, HL. apply in_or_app. right. apply in_map. apply where_pos_in. rewrite HL. split.
    + apply (pidx_lt false); lia.
    + change (hidx n (n - 1) 26) with (pidx false n (n - 1) 26). rewrite Hu by lia.
      destruct (Nat.eqb_spec (n - 1) 26); [lia|]. unfold touches, opt_nodes. cbn [existsb Nat.eqb]. rewrite !orb_true_r. reflexivity.
  - apply last_position; assumption.
Qed.

Lemma same_but_first : forall n (M L : mat CK) k, (2 <= n)%nat -> shape M n n -> shape L n n -> differ_in_conductance n 1 0 M L ->
  (k < psize true n + psize true n)%nat -> (0 < k)%nat -> vget (parameters true M) k = vget (parameters true L) k.
Proof.
  intros n M L k Hn HM HL Hd Hk H0. destruct (lt_dec k (psize true n)) as [H|H].
  - destruct (pidx_surj true n k H) as [(a & b & Hb & Ha & ->)|(Hf & _)]; [|discriminate].
    rewrite !(param_re true n) by assumption. f_equal. apply Hd; [assumption|assumption|].
    intros Eab. injection Eab as -> ->. cbn in H0. unfold sidx in H0. cbn in H0. lia.
  - replace k with (psize true n + (k - psize true n))%nat by lia.
    destruct (pidx_surj true n (k - psize true n) ltac:(lia)) as [(a & b & Hb & Ha & ->)|(Hf & _)]; [|discriminate].
    rewrite !(param_im true n) by assumption. f_equal. apply Hd; assumption.
Qed.
Theorem p_laplacian_wrong : forall tls n lam (Y X : mat CK), (39 <= n)%nat -> shape Y n n -> shape X n n -> no_zero_line n Y ->
  (forall i, (i < n)%nat -> nonzero_parts (reference tls n Y i)) ->
  exists q, bayesian_prior n lam Y (Some X) true tls true false = Ok q /\
    forall M L, laplacian n M -> laplacian n L -> differ_in_conductance n 1 0 M L -> exists d,
      penalty_at q (parameters true M) (line_pen (tenth 8) n Y M + node_pen (tenth 8) lam tls n Y M + d) /\
      penalty_at q (parameters true L) (line_pen (tenth 8) n Y L + node_pen (tenth 8) lam tls n Y L + d).
Proof.
  intros tls n lam Y X Hn HY HX Hz Hr.
  destruct (p_complex_full true tls n lam Y ltac:(lia) HY Hz Hr) as (p & Ep & (Sp & Wp & Ap) & H).
  unfold bayesian_prior. rewrite Ep. cbn [bind].
  destruct (known_rows false n p lam X "optimal" HX ltac:(lia) eq_refl) as (u & v & Mu & Hv & ->).
  assert (Hidx : Forall (fun k => (k < psize true n + psize true n)%nat /\ (0 < k)%nat) (where_pos (u ++ u))).
  { assert (Hp := position_room n Hn). apply (where_forall false n _ _ _ _ _ Mu Mu).
    - intros a b Hb Ha Ht. apply andb_true_iff in Ht. destruct (touch_low n a b Hb Ha (proj1 Ht)). cbn [pidx]. lia.
    - intros a b Hb Ha Ht. apply andb_true_iff in Ht. destruct (touch_low n a b Hb Ha (proj1 Ht)). cbn [pidx]. lia.
    - intros _ a Ha Ht. rewrite Nat.eqb_refl, andb_false_r in Ht. discriminate.
    - intros _ a Ha Ht. rewrite Nat.eqb_refl, andb_false_r in Ht. discriminate. }
  assert (Hodd : forall x : list K, (length (bmu (base (dense p))) = 1)%nat -> forall c, penalty_at p x c -> False).
  { intros x H1 c (A & b & Eb). destruct (sp_log_one_row p x H1) as (e & Ee). congruence. }
  destruct (exact_any p (psize true n + psize true n) (where_pos (u ++ u)) v (scaled "optimal" lam) Sp Wp ltac:(lia)) as (q & Eq & _ & _ & Hq).
  - eapply Forall_impl; [|exact Hidx]. cbn. tauto.
  - exact Hv.
  - exists q. split; [exact Eq|]. intros M L HM HL Hd.
    assert (SM : shape M n n) by apply HM. assert (SL : shape L n n) by apply HL.
    exists (sumn (length (where_pos (u ++ u))) (fun i => cost (alpha (dense p)) (scaled "optimal" lam * (vget (parameters true M) (nth i (where_pos (u ++ u)) 0%nat) - vget v i)))).
    assert (Hone : forall x c, penalty_at p x c -> (length (bmu (base (dense p))) + length (where_pos (u ++ u)) <> 1)%nat).
    { intros x c Hc E1. rewrite where_pos_app, app_length, map_length in E1. apply (Hodd x ltac:(lia) c Hc). }
    split.
    + apply Hq; [apply length_parameters; assumption|apply H; assumption|]. eapply Hone. apply (H M HM).
    + rewrite (sumn_ext _ _ (fun i => cost (alpha (dense p)) (scaled "optimal" lam * (vget (parameters true L) (nth i (where_pos (u ++ u)) 0%nat) - vget v i)))).
      * apply Hq; [apply length_parameters; assumption|apply H; assumption|]. eapply Hone. apply (H M HM).
      * intros i Hi. rewrite Forall_forall in Hidx. destruct (Hidx _ (nth_In _ 0%nat Hi)) as [B1 B2].
        rewrite (same_but_first n M L) by (assumption || lia). reflexivity.
Qed.
End End_.
