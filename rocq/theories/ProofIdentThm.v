(** The penalties of the priors of identification. *)
From Coq Require Import String.
From Coq Require Import Bool Arith List ZArith Sorted Lia Ring Field.
From Verif Require Import BasePy BaseFld BaseOrd BaseSum BaseMat BaseNumpy BaseLin ModelMatrixOps SpecMatrix ModelPrior ModelFit
  ModelIdent SpecPrior SpecIdent ProofRagged ProofMatrixOps ProofStruct ProofElim ProofMatrixProps ProofFitBase ProofFitRep ProofPrior
  ProofSet ProofIdent ProofPenalty ProofIdentMain.
Import ListNotations.
Close Scope string_scope.
Local Open Scope K_scope.

Section Thm.
Context {K : Type} {O : Ops K} {F : Fld K} {O2 : OrdOps K} {OF : OrdFld K}.
Notation CK := (cplx K).
Add Field Kfld : (@k_field K O F).

(** ** complex prior *)
Ltac start HY ED EE :=
  unfold build_complex_prior; rewrite ED; cbn [bind]; rewrite EE; cbn [bind];
  erewrite symmetrised_ok by eassumption; cbn [bind]; cbv zeta;
  erewrite eliminated_ok by eassumption; cbn [bind];
  erewrite eliminated_real_ok by (eassumption || apply off_diagonal_sym); cbn [bind];
  erewrite eliminated_completed by eassumption; cbn [bind];
  rewrite length_pv; cbn [nr sym_part mk].

Lemma times2 : forall m, (m * 2 = m + m)%nat.
Proof. intros. lia. Qed.

Theorem p_complex_full : forall lap tls n lam (Y : mat CK), (2 <= n)%nat -> shape Y n n -> no_zero_line n Y ->
  (forall i, (i < n)%nat -> nonzero_parts (reference tls n Y i)) ->
  exists p, build_complex_prior n lam Y lap tls true false = Ok p /\
    (is_sparse p = true /\ well_formed (dense p) (psize lap n + psize lap n) /\ alpha (dense p) = tenth 8) /\ forall M, admissible lap n M ->
    penalty_at p (parameters lap M) (line_pen (tenth 8) n Y M + node_pen (tenth 8) lam tls n Y M).
Proof.
  intros lap tls n lam Y Hn HY Hz Hr.
  destruct (dt_is n lap) as (D & ED & HD). destruct (e_is n lap) as (E & EE & HE).
  start HY ED EE. rewrite times2.
  destruct (sparsity_stage lap n (tenth 8) Y _ HY Hz eq_refl) as (q & E1 & pf & G & Hpf).
  rewrite E1. cbn [bind].
  erewrite (contrast_rows lap n E (Cx 1 0)), (contrast_rows lap n E (Cx 0 1)) by assumption. cbn [bind].
  destruct (contrast_stage lap tls n (tenth 8) lam Y _ q pf ltac:(lia) G Hr) as (idx & q2 & E2 & E3 & pf2 & G2 & Hpf2).
  rewrite E2. cbn [bind]. rewrite (values_ok lap tls n Y _ HY eq_refl). rewrite E3. cbn [bind].
  exists q2. split; [reflexivity|]. split; [destruct G2; auto|]. intros M HM. assert (HS := admissible_sym _ _ _ HM).
  rewrite <- Hpf, <- Hpf2 by (assumption || apply HS). eapply good_penalty; [exact G2|lia|lia|].
  apply length_parameters. apply HS.
Qed.

Theorem p_complex : forall lap tls n lam (Y : mat CK), (2 <= n)%nat -> shape Y n n -> no_zero_line n Y ->
  (forall i, (i < n)%nat -> nonzero_parts (reference tls n Y i)) ->
  exists p, build_complex_prior n lam Y lap tls true false = Ok p /\ forall M, admissible lap n M ->
    penalty_at p (parameters lap M) (line_pen (tenth 8) n Y M + node_pen (tenth 8) lam tls n Y M).
Proof.
  intros lap tls n lam Y Hn HY Hz Hr. destruct (p_complex_full lap tls n lam Y Hn HY Hz Hr) as (p & E & _ & H). exists p. auto.
Qed.

(** with a penalty on the diagonal *)
Lemma mask_eye : forall n, is_mask false n (map (fun x => kabs (1 * x)) (pv false (meye n : mat K))) (fun a b => (a =? b)%nat).
Proof. intros n. apply mask_one; [reflexivity|intros a b; apply eye_entry]. Qed.

Lemma off_lt : forall n i j, (i < j)%nat -> (j <= n)%nat -> (off (hlen n) i < off (hlen n) j)%nat.
Proof.
  intros n i j Hij Hj. induction j as [|j IH]; [lia|]. destruct (Nat.eq_dec i j) as [->|Hne].
  - simpl. unfold hlen at 3. lia.
  - simpl. specialize (IH ltac:(lia) ltac:(lia)). lia.
Qed.
Lemma sorted_diag : forall n m, (m <= n)%nat -> StronglySorted lt (map (fun i => hidx n i i) (range m)).
Proof.
  intros n m Hm. unfold range.
  assert (G : forall k s, (s + k <= n)%nat -> StronglySorted lt (map (fun i => hidx n i i) (seq s k)) /\ Forall (fun x => forall i, (i < s)%nat -> (hidx n i i < x)%nat) (map (fun i => hidx n i i) (seq s k))).
  { induction k as [|k IH]; intros s Hs; [split; constructor|]. destruct (IH (S s) ltac:(lia)) as [I1 I2].
    cbn [seq map]. split; constructor; auto.
    - eapply Forall_impl; [|exact I2]. cbn. intros x Hx. apply Hx. lia.
    - intros i Hi. unfold hidx. rewrite !Nat.sub_diag, !Nat.add_0_r. apply off_lt; lia.
    - eapply Forall_impl; [|exact I2]. cbn. intros x Hx i Hi. apply Hx. lia. }
  apply (G m 0%nat). lia.
Qed.
Lemma where_diag : forall n, where_pos (map (fun x => kabs (1 * x)) (pv false (meye n : mat K))) = map (fun i => hidx n i i) (range n).
Proof.
  intros n. destruct (mask_eye n) as (HL & H1 & H2). apply sorted_unique.
  - apply sorted_filter. apply sorted_seq.
  - apply sorted_diag. lia.
  - intros k. rewrite where_pos_in, HL, in_map_iff. split.
    + intros [Hk Hp]. destruct (pidx_surj _ _ _ Hk) as [(a & b & Hb & Ha & ->)|(_ & a & Ha & ->)].
      * rewrite H1 in Hp by assumption. apply Nat.eqb_eq in Hp. lia.
      * exists a. split; [reflexivity|apply in_range; assumption].
    + intros (a & <- & Ha). apply in_range in Ha. split; [apply (hidx_lt n a a); lia|].
      rewrite H2 by auto. apply Nat.eqb_refl.
Qed.

Theorem p_complex_diag : forall tls n lam (Y : mat CK), (2 <= n)%nat -> shape Y n n -> no_zero_line n Y ->
  (forall i, (i < n)%nat -> nonzero_parts (reference tls n Y i)) ->
  exists p, build_complex_prior n lam Y false tls true true = Ok p /\ forall M, symmetric n M ->
    penalty_at p (parameters false M) (line_pen (tenth 8) n Y M + node_pen (tenth 8) lam tls n Y M + diag_pen (tenth 8) lam n Y M).
Proof.
  intros tls n lam Y Hn HY Hz Hr. set (lap := false).
  destruct (dt_is n lap) as (D & ED & HD). destruct (e_is n lap) as (E & EE & HE).
  start HY ED EE. rewrite times2.
  destruct (sparsity_stage lap n (tenth 8) Y _ HY Hz eq_refl) as (q & E1 & pf & G & Hpf).
  rewrite E1. cbn [bind].
  erewrite (contrast_rows lap n E (Cx 1 0)), (contrast_rows lap n E (Cx 0 1)) by assumption. cbn [bind].
  destruct (contrast_stage lap tls n (tenth 8) lam Y _ q pf ltac:(lia) G Hr) as (idx & q2 & E2 & E3 & pf2 & G2 & Hpf2).
  rewrite E2. cbn [bind]. rewrite (values_ok lap tls n Y _ HY eq_refl). rewrite E3. cbn [bind].
  erewrite eliminated_real_ok by (eassumption || apply meye_sym). cbn [bind]. rewrite added_adaptive.
  rewrite real_times, map_app, !map_map, where_pos_app, map_length, length_pv. cbn [re im].
  change (pv lap (meye n : mat K)) with (pv false (meye n : mat K)). rewrite !where_diag. cbn [nr meye mk].
  set (dg := map (fun i => hidx n i i) (range n)).
  assert (Ldg : length dg = n) by (unfold dg; rewrite map_length, length_range; reflexivity).
  assert (Hdg : forall i, (i < n)%nat -> nth i dg 0%nat = hidx n i i) by (intros i Hi; unfold dg; apply (nth_map_range _ (fun i => hidx n i i)); assumption).
  assert (EM : mdiagonal Y = mkv n (fun i => get Y i i)) by (destruct HY as (_ & H1 & H2); unfold mdiagonal; rewrite H1, H2, Nat.min_id; reflexivity).
  destruct (good_exact (tenth 8) _ _ q2 pf2 (dg ++ map (Nat.add (psize lap n)) dg) (map re (mdiagonal Y) ++ map im (mdiagonal Y)) (AScalar lam) lam G2)
    as (q3 & E4 & G3).
  - apply Forall_app. split.
    + apply Forall_map, Forall_forall. intros i Hi. apply in_range in Hi. assert (H := hidx_lt n i i (le_n i) Hi).
      change (off (hlen n) n) with (psize lap n) in H. lia.
    + apply Forall_map, Forall_forall. intros k Hk. unfold dg in Hk. apply in_map_iff in Hk. destruct Hk as (i & <- & Hi). apply in_range in Hi.
      assert (H := hidx_lt n i i (le_n i) Hi). change (off (hlen n) n) with (psize lap n) in H. lia.
  - rewrite !app_length, !map_length, EM, length_mkv, Ldg. reflexivity.
  - right. reflexivity.
  - rewrite E4. exists q3. split; [reflexivity|]. intros M HM.
    refine (eq_ind _ (penalty_at q3 (parameters lap M)) (good_penalty _ _ _ _ _ _ G3 _ _ _) _ _); [lia|lia|apply length_parameters; apply HM|].
    cbn beta. rewrite Hpf2, Hpf by (assumption || apply HM). f_equal. rewrite app_length, map_length, Ldg, sumn_plus. unfold diag_pen, parts. rewrite sumn_add.
    f_equal; apply sumn_ext; intros i Hi; f_equal; f_equal; f_equal.
    + rewrite app_nth1 by lia. rewrite Hdg by assumption. apply param_dre; [apply HM|assumption].
    + rewrite EM, map_mkv. rewrite vget_app_left by (rewrite length_mkv; assumption). rewrite vget_mkv by assumption. reflexivity.
    + rewrite app_nth2 by lia. rewrite Ldg. replace (n + i - n)%nat with i by lia.
        rewrite (nth_indep _ 0%nat (psize lap n + 0)%nat) by (rewrite map_length; lia). rewrite map_nth, Hdg by assumption. apply param_dim; [apply HM|assumption].
    + rewrite EM, !map_mkv. rewrite (vget_app_off (mkv n _) _ n) by apply length_mkv. rewrite vget_mkv by assumption. reflexivity.
Qed.

(** in Laplacian form the diagonal is no parameter: values without rows *)
Lemma where_none : forall n, where_pos (map (fun x => kabs (1 * x)) (pv true (meye n : mat K))) = [].
Proof.
  intros n. assert (M : is_mask true n (map (fun x => kabs (1 * x)) (pv true (meye n : mat K))) (fun a b => (a =? b)%nat))
    by (apply mask_one; [reflexivity|intros a b; apply eye_entry]).
  destruct M as (HL & H1 & _). destruct (where_pos _) as [|k l] eqn:Ew; [reflexivity|].
  assert (Hk : In k (where_pos (map (fun x => kabs (1 * x)) (pv true (meye n : mat K))))) by (rewrite Ew; left; reflexivity).
  apply where_pos_in in Hk. rewrite HL in Hk. destruct Hk as [Hk Hp].
  destruct (pidx_surj _ _ _ Hk) as [(a & b & Hb & Ha & ->)|(H & _)]; [|discriminate].
  rewrite H1 in Hp by assumption. apply Nat.eqb_eq in Hp. lia.
Qed.
Lemma values_without_rows : forall al n m p pf v lam, good al n m p pf -> (1 < length v)%nat ->
  exists q, added p (AddExact [] v (AScalar lam) (AScalar LAPLACE)) = Ok q /\ forall x, exists e, sp_log_distribution q x = Err e.
Proof.
  intros al n m p pf v lam [Gs Gw G1 Ga Gm Gp] Hv. destruct Gw as (Hn & (W & Hr & Hc) & Hg).
  unfold added, via_dense. rewrite Gs. unfold apply_addition, s_add_exact, add_exact_prior. cbn [std_weights].
  rewrite broadcast1_same by apply repeat_length.
  set (mu := map _ _).
  assert (Lmu : length mu = length v) by (unfold mu; rewrite map_length, combine_length, repeat_length; apply Nat.min_id).
  change (build_rows (bn (base (dense p))) [] _) with (Ok (mzeros 0 (bn (base (dense p)))) : res (mat K)).
  assert (Sz : shape (mzeros 0 (bn (base (dense p))) : mat K) 0 (bn (base (dense p)))) by apply shape_mk.
  rewrite (stack_rows_ok _ _ _ 0%nat) by (congruence || assumption). unfold then_gamma. cbn [snd fst].
  eexists. split; [reflexivity|]. intros x.
  match goal with |- exists e, sp_log_distribution ?q x = Err e => destruct (sp_log_distribution q x) as [r|e] eqn:El; [exfalso|exists e; reflexivity] end.
  rewrite p_sparse_log in El.
  - apply log_needs_shape in El. cbn [base bL bmu dense nr vstack2 mk] in El. rewrite app_length, Lmu in El. rewrite Hr in El. simpl in El. lia.
  - cbn [dense base bmu]. rewrite app_length, Lmu, Gm. lia.
Qed.
Theorem p_complex_diag_lap : forall tls n lam (Y : mat CK), (2 <= n)%nat -> shape Y n n -> no_zero_line n Y ->
  (forall i, (i < n)%nat -> nonzero_parts (reference tls n Y i)) ->
  exists p, build_complex_prior n lam Y true tls true true = Ok p /\ forall x, exists e, sp_log_distribution p x = Err e.
Proof.
  intros tls n lam Y Hn HY Hz Hr. set (lap := true).
  destruct (dt_is n lap) as (D & ED & HD). destruct (e_is n lap) as (E & EE & HE).
  start HY ED EE. rewrite times2.
  destruct (sparsity_stage lap n (tenth 8) Y _ HY Hz eq_refl) as (q & E1 & pf & G & Hpf).
  rewrite E1. cbn [bind].
  erewrite (contrast_rows lap n E (Cx 1 0)), (contrast_rows lap n E (Cx 0 1)) by assumption. cbn [bind].
  destruct (contrast_stage lap tls n (tenth 8) lam Y _ q pf ltac:(lia) G Hr) as (idx & q2 & E2 & E3 & pf2 & G2 & Hpf2).
  rewrite E2. cbn [bind]. rewrite (values_ok lap tls n Y _ HY eq_refl). rewrite E3. cbn [bind].
  erewrite eliminated_real_ok by (eassumption || apply meye_sym). cbn [bind]. rewrite added_adaptive.
  rewrite real_times, map_app, !map_map, where_pos_app, map_length, length_pv. cbn [re im].
  change (pv lap (meye n : mat K)) with (pv true (meye n : mat K)). rewrite !where_none. cbn [app map].
  assert (EM : mdiagonal Y = mkv n (fun i => get Y i i)) by (destruct HY as (_ & H1 & H2); unfold mdiagonal; rewrite H1, H2, Nat.min_id; reflexivity).
  eapply values_without_rows; [exact G2|]. rewrite app_length, !map_length, EM, length_mkv. lia.
Qed.

(** ** one contrast for all lines *)
Lemma re_total : forall n (M : mat CK), re (total n M) = line_sum n (fun i j => re (get M i j)).
Proof. intros n M. unfold total, line_sum. rewrite re_sumn. apply sumn_ext. intros i _. apply re_sumn. Qed.
Lemma im_total : forall n (M : mat CK), im (total n M) = line_sum n (fun i j => im (get M i j)).
Proof. intros n M. unfold total, line_sum. rewrite im_sumn. apply sumn_ext. intros i _. apply im_sumn. Qed.
Lemma line_sum_psign : forall lap n (f : nat -> nat -> K), line_sum n (fun i j => psign lap (f i j)) = psign lap (line_sum n f).
Proof.
  intros [|] n f; [|reflexivity]. unfold line_sum. simpl. rewrite <- sumn_opp. apply sumn_ext. intros i _. apply sumn_opp.
Qed.
Lemma lsum_mkv : forall n (f : nat -> K), lsum (mkv n f) = sumn n f.
Proof. intros. apply lsum_map_range. Qed.
Lemma split2_app : forall A (u v : list A), length u = length v -> split2 (u ++ v) = Ok (u, v).
Proof.
  intros A u v H. unfold split2. rewrite app_length, <- H. replace (length u + length u)%nat with (length u * 2)%nat by lia.
  rewrite Nat.mod_mul, Nat.div_mul by discriminate. rewrite Nat.eqb_refl, firstn_app, skipn_app, firstn_all, skipn_all, Nat.sub_diag.
  rewrite app_nil_r. reflexivity.
Qed.
Lemma psign_opp_ratio : forall lap (x y : K), y <> 0 -> psign lap x / - psign lap y - 1 = - (x / y + 1).
Proof.
  intros lap x y Hy. assert (H2 : - y <> 0) by (intros H; apply Hy; replace y with (- - y) by ring; rewrite H; ring).
  destruct lap; simpl.
  - replace (- - y) with y by ring. field. assumption.
  - field. repeat split; assumption.
Qed.

Theorem p_single : forall lap tls n lam (Y : mat CK), (2 <= n)%nat -> shape Y n n -> no_zero_line n Y ->
  nonzero_parts (sumn n (fun i => reference tls n Y i)) ->
  exists p, build_complex_prior n lam Y lap tls false false = Ok p /\ forall M, admissible lap n M ->
    penalty_at p (parameters lap M) (line_pen (tenth 8) n Y M + single_pen (tenth 8) lam tls n Y M).
Proof.
  intros lap tls n lam Y Hn HY Hz (Hr & Hi).
  destruct (dt_is n lap) as (D & ED & HD). destruct (e_is n lap) as (E & EE & HE).
  start HY ED EE. rewrite times2.
  destruct (sparsity_stage lap n (tenth 8) Y _ HY Hz eq_refl) as (q & E1 & pf & G & Hpf).
  rewrite E1. cbn [bind]. clear E1.
  set (u := map (fun x => 1 * x) (map kabs (pv lap (off_diagonal n)))).
  assert (Ew : where_pos (make_real_vector (times (Cx 1 1) (map kabs (pv lap (off_diagonal n))))) = where_pos u ++ map (Nat.add (psize lap n)) (where_pos u)).
  { rewrite real_times. cbn [re im]. fold u. rewrite where_pos_app. unfold u at 2. rewrite !map_length, length_pv. reflexivity. }
  rewrite Ew in *. rewrite split2_app by (rewrite map_length; reflexivity). cbn [bind].
  set (W := where_pos u) in *.
  assert (Mu : is_mask lap n u (fun a b => negb (a =? b)%nat)) by (apply mask_off_abs; reflexivity).
  rewrite (index_array_ok [W; map (Nat.add (psize lap n)) W] (length W)); [|discriminate|repeat constructor; apply map_length]. cbn [bind].
  rewrite (values_ok lap tls n Y _ HY eq_refl). unfold contrast_values. rewrite split2_app by (rewrite !length_mkv; reflexivity). cbn [bind].
  rewrite !lsum_mkv, !sumn_psign. rewrite re_sumn in Hr. rewrite im_sumn in Hi.
  assert (HW : Forall (fun k => (k < psize lap n)%nat) W) by (apply where_pos_lt; apply Mu).
  destruct (good_contrast (tenth 8) (psize lap n + psize lap n) _ q pf [W; map (Nat.add (psize lap n)) W] (length W)
    [- psign lap (sumn n (fun i => re (reference tls n Y i))); - psign lap (sumn n (fun i => im (reference tls n Y i)))]
    [lam * 1; lam * - (1)] G) as (q2 & E2 & G2).
  - constructor; [|constructor; [|constructor]].
    + split; [reflexivity|]. split; [apply where_pos_nodup|]. eapply Forall_impl; [|exact HW]. cbn. intros. lia.
    + split; [apply map_length|]. split; [apply FinFun.Injective_map_NoDup; [intros a b H; lia|apply where_pos_nodup]|].
      apply Forall_map. eapply Forall_impl; [|exact HW]. cbn. intros. lia.
  - reflexivity.
  - reflexivity.
  - assert (G0 : forall x : K, x <> 0 -> - psign lap x <> 0).
    { intros x Hx H. apply (psign_neq0 lap x Hx). replace (psign lap x) with (- - psign lap x) by ring. rewrite H. ring. }
    repeat constructor; apply G0; assumption.
  - rewrite E2. exists q2. split; [reflexivity|]. intros M HM. assert (HS := admissible_sym _ _ _ HM).
    refine (eq_ind _ (penalty_at q2 (parameters lap M)) (good_penalty _ _ _ _ _ _ G2 _ _ _) _ _); [lia|cbn [length]; lia|apply length_parameters; apply HS|].
    cbn beta. rewrite Hpf by apply HS. f_equal. unfold single_pen, parts. cbn [length sumn vget nth].
    assert (S1 : lsum (map (vget (parameters lap M)) W) = psign lap (re (total n M))).
    { unfold W. rewrite lsum_where, (proj1 Mu), (sum_mask lap n u _ _ Mu), re_total, <- line_sum_psign.
      transitivity (line_sum n (fun i j => psign lap (re (get M i j))) + 0); [f_equal|ring].
      - apply line_sum_ext. intros a b Hb Ha. destruct (Nat.eqb_spec a b); [lia|]. cbn [negb]. apply param_re; [apply HS|assumption|assumption].
      - destruct lap; [reflexivity|]. apply sumn_zero. intros a Ha. rewrite Nat.eqb_refl. reflexivity. }
    assert (S2 : lsum (map (vget (parameters lap M)) (map (Nat.add (psize lap n)) W)) = psign lap (im (total n M))).
    { unfold W. rewrite map_map, lsum_where, (proj1 Mu), (sum_mask lap n u _ _ Mu), im_total, <- line_sum_psign.
      transitivity (line_sum n (fun i j => psign lap (im (get M i j))) + 0); [f_equal|ring].
      - apply line_sum_ext. intros a b Hb Ha. destruct (Nat.eqb_spec a b); [lia|]. cbn [negb]. apply param_im; [apply HS|assumption|assumption].
      - destruct lap; [reflexivity|]. apply sumn_zero. intros a Ha. rewrite Nat.eqb_refl. reflexivity. }
    rewrite S1, S2. rewrite !psign_opp_ratio by assumption. rewrite re_sumn, im_sumn.
    match goal with |- 0 + ?a + ?b = ?c + ?d => replace (0 + a + b) with (a + b) by ring end.
    f_equal; [rewrite <- cost_opp|]; f_equal; ring.
Qed.

(** ** adaptive Lasso *)
Theorem p_lasso : forall lap n (Y : mat CK), (2 <= n)%nat -> shape Y n n ->
  Forall (fun y => y <> 0) (parameters lap (sym_part n Y)) ->
  exists p, build_lasso_prior n Y lap = Ok p /\ forall x, length x = length (parameters lap (sym_part n Y)) ->
    penalty_at p x (weighted_penalty (tenth 5) kabs (parameters lap (sym_part n Y)) x).
Proof.
  intros lap n Y Hn HY Hz.
  destruct (dt_is n lap) as (D & ED & HD). destruct (e_is n lap) as (E & EE & HE).
  unfold build_lasso_prior. rewrite ED; cbn [bind]; rewrite EE; cbn [bind].
  erewrite symmetrised_ok by eassumption; cbn [bind]; cbv zeta.
  erewrite eliminated_completed by eassumption; cbn [bind].
  erewrite eliminated_ok by eassumption; cbn [bind].
  change (make_real_vector (pv lap (sym_part n Y))) with (parameters lap (sym_part n Y)).
  rewrite length_pv. cbn [nr sym_part mk]. rewrite times2.
  assert (Ly := length_parameters lap n (sym_part n Y) (shape_sym_part n Y)).
  set (y := parameters lap (sym_part n Y)) in *.
  set (v := map (fun x => 1 / kabs x) y).
  assert (Hv : forall k, (k < length y)%nat -> vget v k = 1 / kabs (vget y k)) by (intros; unfold v; apply (vget_map_in (fun x => 1 / kabs x)); assumption).
  assert (Hy : forall k, (k < length y)%nat -> kabs (vget y k) <> 0).
  { intros k Hk. apply kabs_neq0. rewrite Forall_forall in Hz. apply Hz. apply nth_In. assumption. }
  assert (Epick : pick v (range (psize lap n + psize lap n)) = v).
  { apply vec_ext; unfold pick; rewrite map_length, length_range, <- Ly; [unfold v; rewrite map_length; reflexivity|].
      intros k Hk. unfold vget at 1. rewrite (nth_map_range _ (vget v)) by assumption. reflexivity. }
  destruct (good_adaptive_sparsity (tenth 5) _ 0 _ _ (range (psize lap n + psize lap n)) v (good_init (tenth 5) (psize lap n + psize lap n)))
    as (q & Eq & G).
  - apply Forall_forall. intros k Hk. apply in_range in Hk. assumption.
  - apply Forall_forall. intros k Hk. apply in_range in Hk. rewrite <- Ly in Hk. rewrite Hv by assumption. specialize (Hy k Hk).
    intros H. apply (k1_neq0 (K := K)). rewrite <- (kdiv_mul 1 (kabs (vget y k))), H by assumption. ring.
  - exists q. split; [rewrite Epick in Eq; exact Eq|]. intros x Hx.
    refine (eq_ind _ (penalty_at q x) (good_penalty _ _ _ _ _ x G _ _ _) _ _); [lia|rewrite length_range, Nat.add_0_l; lia|congruence|].
    cbn beta. rewrite lsum_map_range. unfold weighted_penalty. rewrite Ly.
    match goal with |- 0 + ?a = _ => replace (0 + a) with a by ring end. apply sumn_ext. intros k Hk. rewrite <- Ly in Hk.
    rewrite Hv by assumption. unfold cost. f_equal. f_equal. specialize (Hy k Hk). field. repeat split; (exact Hy || apply k1_neq0).
Qed.
End Thm.
