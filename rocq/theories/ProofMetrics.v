(** Proofs about the error metrics. *)
From Coq Require Import Arith Lia List Reals Lra Psatz Bool.
From Verif Require Import BasePy BaseFld BaseSum BaseMat BaseReal ModelErrorMetrics.
Import ListNotations.
Local Open Scope R_scope.

Definition dflt0 : C := Cx 0 0.

Lemma cabs_nonneg : forall z, 0 <= cabs z.
Proof. intros; apply sqrt_pos. Qed.
Lemma cabs_sqr : forall z, cabs z * cabs z = re z * re z + im z * im z.
Proof. intros. apply sqrt_sqrt. nra. Qed.
Lemma cabs_zero : forall z, cabs z = 0 -> z = dflt0.
Proof. intros [x y] H. generalize (cabs_sqr (Cx x y)). rewrite H. simpl. intro E. apply cplx_eq; simpl; nra. Qed.
Lemma cabs_0 : cabs dflt0 = 0.
Proof. unfold cabs, dflt0; simpl. replace (0 * 0 + 0 * 0) with 0 by ring. apply sqrt_0. Qed.
Lemma cabs_opp : forall a b, cabs (csub a b) = cabs (csub b a).
Proof. intros. unfold cabs; simpl. f_equal. ring. Qed.
Lemma cabs_mul : forall a b, cabs (cmul a b) = cabs a * cabs b.
Proof. intros [a b] [c d]. unfold cabs; simpl. rewrite <- sqrt_mult by nra. f_equal. ring. Qed.

Lemma cabs_triangle : forall a b, cabs (cadd a b) <= cabs a + cabs b.
Proof.
  intros a b.
  assert (E : forall z, cabs z = norm2 2 (fun i => match i with 0%nat => re z | _ => im z end)).
  { intro z. unfold cabs, norm2. rewrite !sumR_S, sumR_0. unfold Rsqr. f_equal. ring. }
  rewrite !E. eapply Rle_trans; [|apply minkowski].
  right. apply norm2_ext. intros [|i] _; reflexivity.
Qed.

Lemma nth_map_lt : forall {A B} (f : A -> B) l i d d', (i < length l)%nat -> nth i (map f l) d' = f (nth i l d).
Proof. intros A B f l i d d' H. rewrite (nth_indep _ _ (f d)) by (rewrite map_length; lia). apply map_nth. Qed.

Lemma lsum_list_sumn : forall {A} (d : A) (f : A -> R) l, lsum (map f l) = sumn (length l) (fun i => f (nth i l d)).
Proof.
  intros A d f l. rewrite lsum_nth, map_length. apply sumn_ext. intros i Hi. apply nth_map_lt; auto.
Qed.

(** the norm as a sum over positions *)
Lemma np_norm_norm2 : forall l, np_norm l = norm2 (length l) (fun i => cabs (nth i l dflt0)).
Proof.
  intro l. unfold np_norm, norm2. f_equal.
  rewrite (lsum_list_sumn dflt0). reflexivity.
Qed.

Lemma np_sub_ok : forall y h, length y = length h ->
  exists d, np_sub y h = Ok d /\ length d = length y /\ forall i, (i < length y)%nat -> nth i d dflt0 = csub (nth i y dflt0) (nth i h dflt0).
Proof.
  intros y h E. unfold np_sub. rewrite (proj2 (Nat.eqb_eq _ _) E).
  eexists; split; [reflexivity|]. split; [rewrite map_length, combine_length; lia|].
  intros i Hi.
  rewrite (nth_map_lt _ _ _ (dflt0, dflt0)) by (rewrite combine_length; lia).
  rewrite combine_nth by auto. reflexivity.
Qed.

Lemma np_sub_err : forall y h, length y <> length h -> np_sub y h = Err ValueError.
Proof. intros y h E. unfold np_sub. apply Nat.eqb_neq in E. rewrite E. reflexivity. Qed.

(** distance between two arrays of the same size, entry by entry *)
Definition gap (y h : list C) (i : nat) : R := cabs (csub (nth i y dflt0) (nth i h dflt0)).

Lemma fro_error_ok : forall y h, length y = length h -> fro_error y h = Ok (norm2 (length y) (gap y h)).
Proof.
  intros y h E. destruct (np_sub_ok y h E) as (d & Ed & Ld & Hd). unfold fro_error. rewrite Ed. cbn [bind].
  f_equal. rewrite np_norm_norm2, Ld. apply norm2_ext. intros i Hi. rewrite Hd by auto. reflexivity.
Qed.

Lemma rmax_list_ge : forall l x, x <= rmax_list x l /\ forall z, In z l -> z <= rmax_list x l.
Proof.
  induction l as [|y l IH]; intros x; simpl; [split; [lra|tauto]|].
  destruct (IH (Rmax x y)) as [A B]. generalize (Rmax_l x y) (Rmax_r x y). intros P Q. split; [lra|].
  intros z [->|H]; [lra|auto].
Qed.
Lemma rmax_list_in : forall l x, rmax_list x l = x \/ In (rmax_list x l) l.
Proof.
  induction l as [|y l IH]; intros x; simpl; [auto|].
  destruct (IH (Rmax x y)) as [E|E]; [|auto].
  rewrite E. unfold Rmax. destruct (Rle_dec x y); auto.
Qed.

Lemma np_max_ok : forall l, l <> [] -> exists m, np_max l = Ok m /\ In m l /\ forall z, In z l -> z <= m.
Proof.
  intros [|x l] H; [congruence|]. simpl. eexists; split; [reflexivity|].
  destruct (rmax_list_ge l x) as [A B]. split.
  - destruct (rmax_list_in l x) as [->|E]; auto.
  - intros z [->|Hz]; auto.
Qed.

Lemma max_error_ok : forall y h, length y = length h -> y <> [] ->
  exists m, max_error y h = Ok m /\ (exists i, (i < length y)%nat /\ m = gap y h i) /\
            forall i, (i < length y)%nat -> gap y h i <= m.
Proof.
  intros y h E Hy. destruct (np_sub_ok y h E) as (d & Ed & Ld & Hd).
  assert (Ey : length y <> 0%nat) by (destruct y; simpl; congruence).
  unfold max_error. rewrite Ed. cbn [bind].
  destruct (np_max_ok (map cabs d)) as (m & Em & Im & Um).
  { intro Z. apply (f_equal (@length R)) in Z. rewrite map_length in Z. simpl in Z. lia. }
  exists m. split; [auto|]. split.
  - apply in_map_iff in Im. destruct Im as (z & <- & Iz). destruct (In_nth _ _ dflt0 Iz) as (i & Hi & <-).
    exists i. split; [lia|]. rewrite Hd by lia. reflexivity.
  - intros i Hi. apply Um. apply in_map_iff. exists (nth i d dflt0). split; [rewrite Hd by auto; reflexivity|].
    apply nth_In. lia.
Qed.

Lemma gap_nonneg : forall y h i, 0 <= gap y h i.
Proof. intros; apply cabs_nonneg. Qed.
Lemma gap_sym : forall y h i, gap y h i = gap h y i.
Proof. intros; apply cabs_opp. Qed.
Lemma gap_triangle : forall x y z i, gap x z i <= gap x y i + gap y z i.
Proof.
  intros. unfold gap. eapply Rle_trans; [|apply cabs_triangle]. right. f_equal. apply cplx_eq; simpl; ring.
Qed.
Lemma gap_zero : forall y h, length y = length h -> (forall i, (i < length y)%nat -> gap y h i = 0) -> y = h.
Proof.
  intros y h E H. apply nth_ext with (d := dflt0) (d' := dflt0); auto. intros i Hi.
  specialize (H i Hi). apply cabs_zero in H. apply cplx_eq.
  - apply (f_equal re) in H. simpl in H. lra.
  - apply (f_equal im) in H. simpl in H. lra.
Qed.
Lemma gap_same : forall y i, gap y y i = 0.
Proof. intros. unfold gap. rewrite <- cabs_0. f_equal. apply cplx_eq; simpl; ring. Qed.

Lemma norm2_zero : forall n f, norm2 n f = 0 -> forall i, (i < n)%nat -> f i = 0.
Proof.
  intros n f H i Hi. assert (E : sumn n (fun i => Rsqr (f i)) = 0) by (rewrite <- norm2_sqr, H; unfold Rsqr; ring).
  apply Rsqr_0_uniq. apply (sumR_zero n (fun i => Rsqr (f i))); auto. intros; apply Rle_0_sqr.
Qed.
Lemma norm2_all0 : forall n f, (forall i, (i < n)%nat -> f i = 0) -> norm2 n f = 0.
Proof.
  intros n f H. unfold norm2. replace (sumn n (fun i => Rsqr (f i))) with 0; [apply sqrt_0|].
  symmetry. apply sumR_all0. intros i Hi. rewrite H by auto. unfold Rsqr. simpl. ring.
Qed.
Lemma norm2_mono : forall n f g, (forall i, (i < n)%nat -> 0 <= f i <= g i) -> norm2 n f <= norm2 n g.
Proof.
  intros n f g H. apply sqrt_le_1_alt. apply sumR_le. intros i Hi. apply Rsqr_incr_1; destruct (H i Hi); lra.
Qed.
Lemma norm2_term : forall n f i, (i < n)%nat -> Rabs (f i) <= norm2 n f.
Proof.
  intros n f i Hi. rewrite <- sqrt_Rsqr_abs. apply sqrt_le_1_alt.
  apply (sumR_term n (fun i => Rsqr (f i))); auto. intros; apply Rle_0_sqr.
Qed.
Lemma norm2_bound : forall n f m, 0 <= m -> (forall i, (i < n)%nat -> Rabs (f i) <= m) -> norm2 n f <= sqrt (INR n) * m.
Proof.
  intros n f m Hm H. rewrite <- (sqrt_Rsqr m Hm), <- sqrt_mult by (try apply pos_INR; apply Rle_0_sqr).
  apply sqrt_le_1_alt. rewrite <- sumR_const. apply sumR_le. intros i Hi.
  rewrite (Rsqr_abs (f i)). apply Rsqr_incr_1; auto using Rabs_pos.
Qed.
Lemma norm2_scal : forall n a f, 0 <= a -> norm2 n (fun i => a * f i) = a * norm2 n f.
Proof.
  intros n a f Ha. unfold norm2.
  replace (sumn n (fun i => Rsqr (a * f i))) with (Rsqr a * sumn n (fun i => Rsqr (f i))).
  - rewrite sqrt_mult; [|apply Rle_0_sqr|apply sumR_nonneg; intros; apply Rle_0_sqr].
    rewrite sqrt_Rsqr; auto.
  - rewrite <- sumR_scal. apply sumn_ext. intros; unfold Rsqr; ring.
Qed.

(** C10 *)
Lemma p_fro_metric : forall y h, length y = length h ->
  exists d, fro_error y h = Ok d /\ fro_error h y = Ok d /\ 0 <= d /\ (d = 0 <-> y = h).
Proof.
  intros y h E. exists (norm2 (length y) (gap y h)). rewrite (fro_error_ok y h E), (fro_error_ok h y (eq_sym E)).
  split; [auto|]. split; [|split].
  - f_equal. rewrite E. apply norm2_ext. intros; apply gap_sym.
  - apply norm2_nonneg.
  - split; intro H.
    + apply gap_zero; auto. apply norm2_zero. auto.
    + subst. apply norm2_all0. intros; apply gap_same.
Qed.

Lemma p_fro_triangle : forall x y z, length x = length y -> length y = length z ->
  exists a b c, fro_error x y = Ok a /\ fro_error y z = Ok b /\ fro_error x z = Ok c /\ c <= a + b.
Proof.
  intros x y z E1 E2. rewrite (fro_error_ok x y), (fro_error_ok y z), (fro_error_ok x z) by congruence.
  do 3 eexists; repeat (split; [reflexivity|]). rewrite <- E1.
  eapply Rle_trans; [|apply minkowski]. apply norm2_mono. intros i Hi. split; [apply gap_nonneg|apply gap_triangle].
Qed.

Lemma p_max_metric : forall y h, length y = length h -> y <> [] ->
  exists d, max_error y h = Ok d /\ max_error h y = Ok d /\ 0 <= d /\ (d = 0 <-> y = h).
Proof.
  intros y h E Hy. destruct (max_error_ok y h E Hy) as (m & Em & (i & Hi & Ei) & Um).
  assert (Hh : h <> []) by (intro; subst; destruct y; simpl in *; congruence).
  destruct (max_error_ok h y (eq_sym E) Hh) as (m' & Em' & (i' & Hi' & Ei') & Um').
  assert (Emm : m = m').
  { apply Rle_antisym.
    - rewrite Ei, gap_sym. apply Um'. lia.
    - rewrite Ei', gap_sym. apply Um. lia. }
  rewrite <- Emm in Em'. clear Emm Ei' Um'. exists m. split; [auto|]. split; [auto|]. split; [rewrite Ei; apply gap_nonneg|].
  split; intro Z.
  - apply gap_zero; auto. intros j Hj. generalize (Um j Hj) (gap_nonneg y h j). lra.
  - subst h. rewrite Ei. apply gap_same.
Qed.

Lemma p_max_triangle : forall x y z, length x = length y -> length y = length z -> x <> [] ->
  exists a b c, max_error x y = Ok a /\ max_error y z = Ok b /\ max_error x z = Ok c /\ c <= a + b.
Proof.
  intros x y z E1 E2 Hx.
  assert (Hy : y <> []) by (intro; subst; destruct x; simpl in *; congruence).
  destruct (max_error_ok x y E1 Hx) as (a & Ea & _ & Ua).
  destruct (max_error_ok y z E2 Hy) as (b & Eb & _ & Ub).
  destruct (max_error_ok x z) as (c & Ec & (i & Hi & Ei) & _); [congruence|auto|].
  exists a, b, c. repeat (split; [assumption|]). rewrite Ei.
  generalize (gap_triangle x y z i) (Ua i Hi) (Ub i ltac:(lia)). lra.
Qed.

Lemma p_max_fro : forall y h, length y = length h -> y <> [] ->
  exists m f, max_error y h = Ok m /\ fro_error y h = Ok f /\ m <= f /\ f <= sqrt (INR (length y)) * m.
Proof.
  intros y h E Hy. destruct (max_error_ok y h E Hy) as (m & Em & (i & Hi & Ei) & Um).
  exists m, (norm2 (length y) (gap y h)). rewrite (fro_error_ok y h E). split; [auto|]. split; [auto|]. split.
  - rewrite Ei. eapply Rle_trans; [apply Rle_abs|]. apply norm2_term; auto.
  - apply norm2_bound; [rewrite Ei; apply gap_nonneg|]. intros j Hj. rewrite Rabs_pos_eq by apply gap_nonneg. auto.
Qed.

Lemma p_metrics_shapes : forall y h,
  (length y <> length h -> fro_error y h = Err ValueError /\ max_error y h = Err ValueError) /\
  max_error [] [] = Err ValueError.
Proof.
  intros y h. split; [|reflexivity]. intro E. unfold fro_error, max_error. rewrite np_sub_err by auto. split; reflexivity.
Qed.

(** C11 *)
Definition cscale (k : C) (l : list C) : list C := map (cmul k) l.
Definition czero (n : nat) : list C := repeat dflt0 n.

Lemma nth_cscale : forall k l i, nth i (cscale k l) dflt0 = cmul k (nth i l dflt0).
Proof.
  intros k l i. unfold cscale. rewrite <- (map_nth (cmul k)). f_equal. apply cplx_eq; simpl; ring.
Qed.

Lemma gap_scale : forall k y h i, gap (cscale k y) (cscale k h) i = cabs k * gap y h i.
Proof. intros. unfold gap. rewrite !nth_cscale, <- cabs_mul. f_equal. apply cplx_eq; simpl; ring. Qed.

Lemma np_norm_scale : forall k l, np_norm (cscale k l) = cabs k * np_norm l.
Proof.
  intros k l. rewrite !np_norm_norm2, <- norm2_scal by apply cabs_nonneg. unfold cscale at 1. rewrite map_length.
  apply norm2_ext. intros i Hi. rewrite nth_cscale, cabs_mul. reflexivity.
Qed.

Lemma np_norm_zero : forall l, np_norm l = 0 <-> l = czero (length l).
Proof.
  intro l. rewrite np_norm_norm2. split; intro H.
  - apply nth_ext with (d := dflt0) (d' := dflt0); [unfold czero; rewrite repeat_length; auto|].
    intros i Hi. unfold czero. rewrite nth_repeat. apply cabs_zero. apply (norm2_zero _ _ H). auto.
  - apply norm2_all0. intros i Hi. rewrite H. unfold czero. rewrite nth_repeat. apply cabs_0.
Qed.

Lemma rrms_value : forall y h, length y = length h -> y <> czero (length y) ->
  rrms_error y h = Ok (Fin (100 * norm2 (length y) (gap y h) / np_norm y)).
Proof.
  intros y h E Hy. unfold rrms_error. rewrite (fro_error_ok y h E). cbn [bind]. unfold fdiv.
  destruct (Req_EM_T (np_norm y) 0) as [Z|Z]; [apply np_norm_zero in Z; contradiction|].
  simpl. do 2 f_equal. field. auto.
Qed.

Lemma np_norm_pos : forall l, l <> czero (length l) -> 0 < np_norm l.
Proof.
  intros l H. assert (0 <= np_norm l) by apply sqrt_pos.
  assert (np_norm l <> 0) by (intro Z; apply np_norm_zero in Z; contradiction). lra.
Qed.

Lemma cscale_nonzero : forall k l, k <> dflt0 -> l <> czero (length l) -> cscale k l <> czero (length (cscale k l)).
Proof.
  intros k l Hk Hl H. apply Hl. apply np_norm_zero. apply np_norm_zero in H. rewrite np_norm_scale in H.
  apply Rmult_integral in H. destruct H as [H|H]; [apply cabs_zero in H; contradiction|auto].
Qed.

Lemma p_rrms_scale : forall k y h, length y = length h -> y <> czero (length y) -> k <> dflt0 ->
  rrms_error (cscale k y) (cscale k h) = rrms_error y h.
Proof.
  intros k y h E Hy Hk. rewrite (rrms_value y h E Hy).
  rewrite rrms_value; [|unfold cscale; rewrite !map_length; auto|apply cscale_nonzero; auto].
  do 2 f_equal. rewrite np_norm_scale. unfold cscale at 1. rewrite map_length.
  rewrite (norm2_ext _ _ (fun i => cabs k * gap y h i)) by (intros; apply gap_scale).
  rewrite norm2_scal by apply cabs_nonneg. field.
  generalize (np_norm_pos y Hy). intro. split; [lra|]. intro Z. apply cabs_zero in Z. contradiction.
Qed.

Lemma p_rrms_zero : forall y h, length y = length h -> y <> czero (length y) ->
  exists r, rrms_error y h = Ok (Fin r) /\ 0 <= r /\ (r = 0 <-> y = h).
Proof.
  intros y h E Hy. eexists. split; [apply rrms_value; auto|]. generalize (np_norm_pos y Hy). intro Hp.
  assert (N : 0 <= norm2 (length y) (gap y h)) by apply norm2_nonneg.
  split.
  { unfold Rdiv. apply Rmult_le_pos; [lra|]. left. apply Rinv_0_lt_compat; auto. }
  split; intro H.
  - apply gap_zero; auto. apply norm2_zero. unfold Rdiv in H.
    apply Rmult_integral in H. destruct H as [H|H]; [lra|]. exfalso. revert H. apply Rinv_neq_0_compat. lra.
  - subst. rewrite norm2_all0 by (intros; apply gap_same). field. lra.
Qed.

Lemma p_rrms_zero_estimate : forall y, y <> czero (length y) -> rrms_error y (czero (length y)) = Ok (Fin 100).
Proof.
  intros y Hy. rewrite rrms_value; [|unfold czero; rewrite repeat_length; auto|auto].
  do 2 f_equal. replace (norm2 (length y) (gap y (czero (length y)))) with (np_norm y).
  - field. generalize (np_norm_pos y Hy). lra.
  - rewrite np_norm_norm2. apply norm2_ext. intros i Hi. unfold gap, czero. rewrite nth_repeat. f_equal. apply cplx_eq; simpl; ring.
Qed.

Lemma p_rrms_zero_truth : forall h, rrms_error (czero (length h)) h = Ok NonFinite.
Proof.
  intro h. unfold rrms_error. rewrite fro_error_ok by (unfold czero; apply repeat_length). cbn [bind]. unfold fdiv.
  destruct (Req_EM_T _ 0) as [Z|Z]; [reflexivity|]. exfalso. apply Z. apply np_norm_zero. unfold czero. rewrite repeat_length. reflexivity.
Qed.

(** map error: sums restricted to the non-zero entries of the truth *)
Definition nzmask (y : list C) := map (fun z => negb (z =? 0)%K) y.

Lemma nz_spec : forall z : C, negb (z =? 0)%K = true <-> z <> dflt0.
Proof.
  intro z. rewrite negb_true_iff. split; intro H.
  - intros ->. assert (E : (dflt0 =? 0)%K = true) by (apply keqb_eq; reflexivity). congruence.
  - destruct (z =? 0)%K eqn:E; auto. apply keqb_eq in E. contradiction.
Qed.

Lemma select_combine : forall {A B} m (a : list A) (b : list B), combine (select m a) (select m b) = select m (combine a b).
Proof.
  induction m as [|x m IH]; intros a b; simpl; auto.
  destruct a as [|u a], b as [|v b]; destruct x; simpl; auto; try (destruct (select m a); reflexivity).
  rewrite IH. reflexivity.
Qed.

Lemma select_length : forall {A B} m (a : list A) (b : list B), length a = length b -> length (select m a) = length (select m b).
Proof.
  induction m as [|x m IH]; intros [|u a] [|v b] E; simpl in *; auto; try discriminate. destruct x; simpl; auto.
Qed.

Definition sel1 (f : (C * C)%type -> R) (p : (bool * (C * C))%type) : R := if fst p then f (snd p) else 0.
Lemma sqrt_sum_cons : forall (f : (C * C)%type -> R) m l,
  lsum (map f (select m l)) = lsum (map (sel1 f) (combine m l)).
Proof.
  induction m as [|b m IH]; intros [|x l]; auto. cbn [select combine map]. destruct b; cbn [map].
  - change (f x + lsum (map f (select m l)) = f x + lsum (map (sel1 f) (combine m l))). rewrite IH. auto.
  - rewrite IH. change (lsum (map (sel1 f) (combine m l)) = 0 + lsum (map (sel1 f) (combine m l))). lra.
Qed.

Definition rgap (y h : list C) (i : nat) : R := if (nth i y dflt0 =? 0)%K then 0 else gap y h i.

Lemma map_num : forall y h, length y = length h ->
  rnorm (map cabs (map (fun p => csub (fst p) (snd p)) (combine (select (nzmask y) y) (select (nzmask y) h))))
  = norm2 (length y) (rgap y h).
Proof.
  intros y h E. unfold rnorm, norm2. f_equal. rewrite select_combine, !map_map, sqrt_sum_cons.
  rewrite (lsum_list_sumn (false, (dflt0, dflt0))).
  assert (L : length (combine (nzmask y) (combine y h)) = length y).
  { rewrite !combine_length. unfold nzmask. rewrite map_length. lia. }
  rewrite L. apply sumn_ext. intros i Hi.
  rewrite combine_nth by (unfold nzmask; rewrite combine_length, map_length; lia).
  rewrite combine_nth by auto. unfold sel1. cbn [fst snd]. unfold nzmask.
  rewrite (nth_map_lt _ _ _ dflt0) by lia. unfold rgap.
  destruct (nth i y dflt0 =? 0)%K; simpl; unfold Rsqr; [ring|]. reflexivity.
Qed.

Lemma rnorm_select : forall y, rnorm (map cabs (select (nzmask y) y)) = np_norm y.
Proof.
  intro y. unfold rnorm, np_norm. f_equal. rewrite !map_map. unfold nzmask.
  induction y as [|z y IH]; auto. cbn [map select].
  destruct (negb (z =? 0)%K) eqn:E; cbn [map].
  - change (cabs z * cabs z + lsum (map (fun x => cabs x * cabs x) (select (map (fun z => negb (z =? 0)%K) y) y)) = cabs z * cabs z + lsum (map (fun z => cabs z * cabs z) y)).
    rewrite IH. auto.
  - assert (z = dflt0) as ->.
    { apply negb_false_iff in E. apply keqb_eq in E. exact E. }
    rewrite IH. change (lsum (map (fun z => cabs z * cabs z) y) = cabs dflt0 * cabs dflt0 + lsum (map (fun z => cabs z * cabs z) y)).
    rewrite cabs_0. lra.
Qed.

Lemma map_value : forall y h, length y = length h -> y <> czero (length y) ->
  map_error y h = Ok (Fin (100 * norm2 (length y) (rgap y h) / np_norm y)).
Proof.
  intros y h E Hy. unfold map_error. fold (nzmask y). unfold np_mask, nzmask. rewrite !map_length, <- E, Nat.eqb_refl. cbn [bind].
  fold (nzmask y). unfold np_sub. rewrite (select_length (nzmask y) y h E), Nat.eqb_refl. cbn [bind].
  rewrite map_num by auto. rewrite rnorm_select. unfold fdiv.
  destruct (Req_EM_T (np_norm y) 0) as [Z|Z]; [apply np_norm_zero in Z; contradiction|].
  simpl. do 2 f_equal. field. auto.
Qed.

Lemma p_map_le_rrms : forall y h, length y = length h -> y <> czero (length y) ->
  exists m r, map_error y h = Ok (Fin m) /\ rrms_error y h = Ok (Fin r) /\ 0 <= m <= r /\
    ((forall i, (i < length y)%nat -> nth i y dflt0 = dflt0 -> nth i h dflt0 = dflt0) <-> m = r).
Proof.
  intros y h E Hy. do 2 eexists. rewrite (map_value y h E Hy), (rrms_value y h E Hy).
  split; [reflexivity|]. split; [reflexivity|]. generalize (np_norm_pos y Hy). intro Hp.
  assert (Hi : 0 < / np_norm y) by (apply Rinv_0_lt_compat; auto).
  assert (L : norm2 (length y) (rgap y h) <= norm2 (length y) (gap y h)).
  { apply norm2_mono. intros i _. unfold rgap. generalize (gap_nonneg y h i). destruct (nth i y dflt0 =? 0)%K; lra. }
  generalize (norm2_nonneg (length y) (rgap y h)). intro N. unfold Rdiv. split; [nra|]. split.
  - intro H. do 2 f_equal. apply norm2_ext. intros i Li. unfold rgap. destruct (nth i y dflt0 =? 0)%K eqn:Ez; auto.
    apply keqb_eq in Ez. change (nth i y dflt0 = dflt0) in Ez. unfold gap. rewrite (H i Li Ez), Ez. rewrite <- cabs_0. f_equal. apply cplx_eq; simpl; ring.
  - intros H i Li Ez.
    assert (Q : norm2 (length y) (rgap y h) = norm2 (length y) (gap y h)) by nra.
    assert (Q2 : sumn (length y) (fun i => Rsqr (gap y h i) - Rsqr (rgap y h i)) = 0).
    { rewrite sumR_sub, <- !norm2_sqr, Q. ring. }
    assert (Z := sumR_zero (length y) (fun i => Rsqr (gap y h i) - Rsqr (rgap y h i))).
    specialize (Z ltac:(intros j Hj; simpl; unfold rgap, Rsqr; destruct (nth j y dflt0 =? 0)%K; nra) Q2 i Li). cbn beta in Z.
    unfold rgap in Z. assert (T : (nth i y dflt0 =? 0)%K = true) by (apply keqb_eq; exact Ez). rewrite T in Z.
    assert (G : gap y h i = 0) by (apply Rsqr_0_uniq; unfold Rsqr in *; lra).
    unfold gap in G. rewrite Ez in G. apply cabs_zero in G. injection G. intros. apply cplx_eq; simpl; lra.
Qed.

Lemma p_fro_value : forall y h, length y = length h ->
  exists d, fro_error y h = Ok d /\ 0 <= d /\
    d * d = sumn (length y) (fun i => let z := csub (nth i y dflt0) (nth i h dflt0) in re z * re z + im z * im z).
Proof.
  intros y h E. eexists. split; [apply fro_error_ok; auto|]. split; [apply norm2_nonneg|].
  change (Rsqr (norm2 (length y) (gap y h)) = sumn (length y) (fun i => let z := csub (nth i y dflt0) (nth i h dflt0) in re z * re z + im z * im z)).
  rewrite norm2_sqr. apply sumn_ext. intros i Hi. unfold Rsqr, gap. apply cabs_sqr.
Qed.

Lemma p_max_value : forall y h, length y = length h -> y <> [] ->
  exists m, max_error y h = Ok m /\ (exists i, (i < length y)%nat /\ m = cabs (csub (nth i y dflt0) (nth i h dflt0))) /\
            forall i, (i < length y)%nat -> cabs (csub (nth i y dflt0) (nth i h dflt0)) <= m.
Proof. exact max_error_ok. Qed.

Lemma p_rrms_value : forall y h, length y = length h -> y <> czero (length y) ->
  exists f w r, fro_error y h = Ok f /\ fro_error y (czero (length y)) = Ok w /\ rrms_error y h = Ok (Fin r) /\
    0 < w /\ r * w = 100 * f.
Proof.
  intros y h E Hy. generalize (np_norm_pos y Hy). intro Hp.
  exists (norm2 (length y) (gap y h)), (np_norm y), (100 * norm2 (length y) (gap y h) / np_norm y).
  split; [apply fro_error_ok; auto|]. split.
  - rewrite fro_error_ok by (unfold czero; rewrite repeat_length; auto). f_equal. rewrite np_norm_norm2. apply norm2_ext. intros i Hi.
    unfold gap, czero. rewrite nth_repeat. f_equal. apply cplx_eq; simpl; ring.
  - split; [apply rrms_value; auto|]. split; [auto|]. field. lra.
Qed.

Lemma cabs_345 : cabs (Cx 3 4) = 5.
Proof. unfold cabs; simpl. replace (3 * 3 + 4 * 4) with (5 * 5) by ring. apply sqrt_square. lra. Qed.

Lemma ex_fro : fro_error [Cx 3 4; Cx 1 0] [Cx 0 0; Cx 1 0] = Ok 5.
Proof.
  rewrite fro_error_ok by reflexivity. f_equal. unfold norm2. cbn [length]. rewrite !sumR_S, sumR_0. unfold gap. cbn [nth].
  replace (csub (Cx 3 4) (Cx 0 0)) with (Cx 3 4) by (apply cplx_eq; simpl; ring).
  replace (csub (Cx 1 0) (Cx 1 0)) with dflt0 by (apply cplx_eq; simpl; ring).
  rewrite cabs_345, cabs_0. unfold Rsqr. replace (0 + 5 * 5 + 0 * 0) with (5 * 5) by ring. apply sqrt_square. lra.
Qed.
Lemma ex_nonzero : [Cx 3 4; Cx 1 0] <> czero 2.
Proof. unfold czero, dflt0. simpl. intro H. injection H. lra. Qed.
