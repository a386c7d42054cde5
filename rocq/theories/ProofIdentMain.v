(** The priors built for identification, as penalties on lines and nodes. *)
From Coq Require Import String.
From Coq Require Import Bool Arith List ZArith Lia Ring Field.
From Verif Require Import BasePy BaseFld BaseOrd BaseSum BaseMat BaseNumpy BaseLin ModelMatrixOps SpecMatrix ModelPrior ModelFit
  ModelIdent SpecPrior SpecIdent ProofRagged ProofMatrixOps ProofStruct ProofElim ProofMatrixProps ProofFitBase ProofFitRep ProofPrior
  ProofIdent ProofPenalty.
Import ListNotations.
Close Scope string_scope.
Local Open Scope K_scope.

Section Main.
Context {K : Type} {O : Ops K} {F : Fld K} {O2 : OrdOps K} {OF : OrdFld K}.
Notation CK := (cplx K).
Add Field Kfld : (@k_field K O F).

(** ** masks *)
Definition is_mask (lap : bool) (n : nat) (u : list K) (B : nat -> nat -> bool) : Prop := length u = psize lap n /\
  (forall a b, (b < a)%nat -> (a < n)%nat -> kltb 0 (vget u (pidx lap n a b)) = B a b) /\
  (lap = false -> forall a, (a < n)%nat -> kltb 0 (vget u (hidx n a a)) = B a a).

Lemma vget_map_in : forall (f : K -> K) l k, (k < length l)%nat -> vget (map f l) k = f (vget l k).
Proof. intros f l k H. unfold vget. rewrite (nth_indep _ 0 (f 0)) by (rewrite map_length; assumption). apply map_nth. Qed.
Lemma mask_of : forall lap n (A : mat K) (f : K -> K) (g : K -> bool) B, nr A = n ->
  (forall x, kltb 0 (f (psign lap x)) = g x) ->
  (forall a b, (b <= a)%nat -> (a < n)%nat -> g (get A a b) = B a b) -> is_mask lap n (map f (pv lap A)) B.
Proof.
  intros lap n A f g B Hr Hf Hg. subst n. split; [rewrite map_length; apply length_pv|]. split.
  - intros a b H1 H2. rewrite vget_map_in by (rewrite length_pv; apply pidx_lt; assumption).
    rewrite vget_pv by assumption. rewrite Hf. apply Hg; lia.
  - intros -> a Ha. rewrite vget_map_in by (rewrite length_pv; apply hidx_lt; lia).
    simpl pv. rewrite vget_vech by lia. rewrite <- (Hg a a) by lia. apply (Hf (get A a a)).
Qed.
Lemma sum_mask : forall lap n u B (h : nat -> K), is_mask lap n u B ->
  sumn (psize lap n) (fun k => if kltb 0 (vget u k) then h k else 0)
  = line_sum n (fun a b => if B a b then h (pidx lap n a b) else 0)
    + (if lap then 0 else sumn n (fun a => if B a a then h (hidx n a a) else 0)).
Proof.
  intros lap n u B h (_ & H1 & H2). rewrite sum_params. f_equal.
  - apply line_sum_ext. intros a b Hb Ha. rewrite H1 by assumption. reflexivity.
  - destruct lap; [reflexivity|]. apply sumn_ext. intros a Ha. rewrite H2 by auto. reflexivity.
Qed.
Lemma kltb_abs : forall x : K, kltb 0 (kabs x) = negb (x =? 0).
Proof.
  intros x. destruct (x =? 0) eqn:E; cbn [negb].
  - apply keqb_eq in E. subst x. rewrite kabs_0. apply negb_false_iff. apply kle_refl.
  - apply keqb_neq in E. apply klt_spec2. split; [apply kabs_nonneg|]. intros H. symmetry in H. apply E. apply kabs_zero. assumption.
Qed.

(** ** positions *)
Lemma where_pos_lt : forall (v : list K) n, length v = n -> Forall (fun k => (k < n)%nat) (where_pos v).
Proof.
  intros v n <-. apply Forall_forall. intros k Hk. apply filter_In in Hk. destruct Hk as [Hk _]. apply in_range in Hk. assumption.
Qed.
Lemma where_pos_nodup : forall v : list K, NoDup (where_pos v).
Proof. intros v. apply NoDup_filter. apply seq_NoDup. Qed.
Lemma where_pos_in : forall (v : list K) k, In k (where_pos v) <-> (k < length v)%nat /\ kltb 0 (vget v k) = true.
Proof. intros v k. unfold where_pos. rewrite filter_In, in_range. reflexivity. Qed.
Lemma lsum_where : forall (v : list K) g, lsum (map g (where_pos v)) = sumn (length v) (fun k => if kltb 0 (vget v k) then g k else 0).
Proof. intros v g. apply lsum_filter. Qed.
Lemma vget_app_left : forall (u v : list K) k, (k < length u)%nat -> vget (u ++ v) k = vget u k.
Proof. intros u v k H. apply app_nth1. assumption. Qed.
Lemma vget_app_right : forall (u v : list K) k, vget (u ++ v) (length u + k) = vget v k.
Proof. intros u v k. unfold vget. rewrite app_nth2 by lia. f_equal. lia. Qed.
Lemma where_pos_app : forall u v : list K, where_pos (u ++ v) = where_pos u ++ map (Nat.add (length u)) (where_pos v).
Proof.
  intros u v. unfold where_pos. rewrite app_length. unfold range. rewrite seq_app, filter_app. f_equal.
  - apply filter_ext_in. intros k Hk. apply in_seq in Hk. rewrite vget_app_left by lia. reflexivity.
  - rewrite Nat.add_0_l. replace (seq (length u) (length v)) with (map (Nat.add (length u)) (seq 0 (length v))).
    + generalize (seq 0 (length v)) as l. induction l as [|k l IH]; [reflexivity|]. cbn [map filter]. rewrite vget_app_right.
      destruct (kltb 0 (vget v k)); cbn [map]; rewrite IH; reflexivity.
    + rewrite <- (Nat.add_0_r (length u)) at 2. generalize 0%nat as s. generalize (length v) as m. induction m as [|m IH]; intros s; [reflexivity|].
      cbn [seq map]. rewrite IH. f_equal. f_equal. lia.
Qed.
Lemma sum_where2 : forall lap n u v B B2 (g : nat -> K), is_mask lap n u B -> is_mask lap n v B2 ->
  lsum (map g (where_pos (u ++ v))) =
  line_sum n (fun a b => (if B a b then g (pidx lap n a b) else 0) + (if B2 a b then g (psize lap n + pidx lap n a b)%nat else 0))
  + (if lap then 0 else sumn n (fun a => (if B a a then g (hidx n a a) else 0) + (if B2 a a then g (psize lap n + hidx n a a)%nat else 0))).
Proof.
  intros lap n u v B B2 g Hu Hv. rewrite where_pos_app, map_app, lsum_app, map_map, !lsum_where.
  rewrite (proj1 Hu), (proj1 Hv). rewrite (sum_mask lap n u B) by assumption. rewrite (sum_mask lap n v B2) by assumption.
  rewrite line_sum_add. destruct lap; [ring|]. rewrite sumn_add. ring.
Qed.

(** ** parameters *)
Lemma length_parameters : forall lap n (M : mat CK), shape M n n -> length (parameters lap M) = (psize lap n + psize lap n)%nat.
Proof.
  intros lap n M (_ & Hr & _). unfold parameters, make_real_vector. change (if lap then ve M else vech M) with (pv lap M).
  rewrite app_length, !map_length, length_pv, Hr. reflexivity.
Qed.
Lemma vget_params_re : forall lap (M : mat CK) k, (k < length (pv lap M))%nat -> vget (make_real_vector (pv lap M)) k = re (vget (pv lap M) k).
Proof. intros lap M k H. unfold make_real_vector. rewrite vget_app_left by (rewrite map_length; assumption). apply vget_map_re. Qed.
Lemma vget_params_im : forall lap (M : mat CK) k, vget (make_real_vector (pv lap M)) (length (pv lap M) + k) = im (vget (pv lap M) k).
Proof.
  intros lap M k. unfold make_real_vector. replace (length (pv lap M)) with (length (map re (pv lap M))) by apply map_length.
  rewrite vget_app_right. apply vget_map_im.
Qed.
Lemma re_psign : forall lap (z : CK), re (psign lap z) = psign lap (re z).
Proof. intros [|] z; reflexivity. Qed.
Lemma im_psign : forall lap (z : CK), im (psign lap z) = psign lap (im z).
Proof. intros [|] z; reflexivity. Qed.
Lemma param_re : forall lap n (M : mat CK) a b, shape M n n -> (b < a)%nat -> (a < n)%nat ->
  vget (parameters lap M) (pidx lap n a b) = psign lap (re (get M a b)).
Proof.
  intros lap n M a b (_ & Hr & _) Hb Ha. subst n. rewrite <- re_psign, <- vget_pv by assumption. apply vget_params_re.
  rewrite length_pv. apply pidx_lt; assumption.
Qed.
Lemma param_im : forall lap n (M : mat CK) a b, shape M n n -> (b < a)%nat -> (a < n)%nat ->
  vget (parameters lap M) (psize lap n + pidx lap n a b) = psign lap (im (get M a b)).
Proof.
  intros lap n M a b (_ & Hr & _) Hb Ha. subst n. rewrite <- im_psign, <- vget_pv by assumption. rewrite <- (length_pv _ _ lap M). apply vget_params_im.
Qed.
Lemma param_dre : forall n (M : mat CK) a, shape M n n -> (a < n)%nat -> vget (parameters false M) (hidx n a a) = re (get M a a).
Proof.
  intros n M a (_ & Hr & _) Ha. subst n. rewrite <- (vget_vech M a a) by lia. apply (vget_params_re false).
  rewrite length_pv. apply hidx_lt; lia.
Qed.
Lemma param_dim : forall n (M : mat CK) a, shape M n n -> (a < n)%nat ->
  vget (parameters false M) (psize false n + hidx n a a) = im (get M a a).
Proof.
  intros n M a (_ & Hr & _) Ha. subst n. rewrite <- (vget_vech M a a) by lia. rewrite <- (length_pv _ _ false M). apply (vget_params_im false).
Qed.

(** sums over selected parameters of M *)
Lemma sum_where_params : forall lap n u v B B2 (g : nat -> K) (fr fi : nat -> nat -> K) (dr di : nat -> K),
  is_mask lap n u B -> is_mask lap n v B2 ->
  (forall a b, (b < a)%nat -> (a < n)%nat -> B a b = true -> g (pidx lap n a b) = fr a b) ->
  (forall a b, (b < a)%nat -> (a < n)%nat -> B2 a b = true -> g (psize lap n + pidx lap n a b)%nat = fi a b) ->
  (lap = false -> forall a, (a < n)%nat -> B a a = true -> g (hidx n a a) = dr a) ->
  (lap = false -> forall a, (a < n)%nat -> B2 a a = true -> g (psize lap n + hidx n a a)%nat = di a) ->
  lsum (map g (where_pos (u ++ v))) =
  line_sum n (fun a b => (if B a b then fr a b else 0) + (if B2 a b then fi a b else 0))
  + (if lap then 0 else sumn n (fun a => (if B a a then dr a else 0) + (if B2 a a then di a else 0))).
Proof.
  intros lap n u v B B2 g fr fi dr di Hu Hv H1 H2 H3 H4. rewrite (sum_where2 lap n u v B B2) by assumption. f_equal.
  - apply line_sum_ext. intros a b Hb Ha. f_equal.
    + destruct (B a b) eqn:E; [apply H1; assumption|reflexivity].
    + destruct (B2 a b) eqn:E; [apply H2; assumption|reflexivity].
  - destruct lap; [reflexivity|]. apply sumn_ext. intros a Ha. f_equal.
    + destruct (B a a) eqn:E; [apply H3; auto|reflexivity].
    + destruct (B2 a a) eqn:E; [apply H4; auto|reflexivity].
Qed.
Lemma sum_off : forall n (f : nat -> nat -> K) g, line_sum n (fun a b => (if negb (a =? b)%nat then f a b else 0) + (if negb (a =? b)%nat then g a b else 0))
  = line_sum n (fun a b => f a b + g a b).
Proof. intros n f g. apply line_sum_ext. intros a b Hb Ha. destruct (Nat.eqb_spec a b); [lia|reflexivity]. Qed.
Lemma sum_off_diag : forall n (f : nat -> K) g, sumn n (fun a => (if negb (a =? a)%nat then f a else 0) + (if negb (a =? a)%nat then g a else 0)) = 0.
Proof. intros n f g. apply sumn_zero. intros a Ha. rewrite Nat.eqb_refl. cbn [negb]. ring. Qed.

(** ** the matrices used *)
Lemma e_is : forall n lap, exists E : mat K, e_of n lap = Ok E /\ is_e lap n E.
Proof. intros n lap. destruct (e_of_ok lap n) as (E & H1 & H2 & H3). exists E. repeat split; try apply H2; assumption. Qed.
Lemma dt_is : forall n lap, exists D : mat K, dt_of n lap = Ok D /\ is_dt lap n D.
Proof. intros n lap. destruct (dt_of_ok lap n) as (D & H1 & H2 & H3). exists D. repeat split; try apply H2; assumption. Qed.

Lemma off_diagonal_sym : forall n, symmetric n (off_diagonal n : mat K).
Proof.
  intros n. split; [apply shape_mk|]. intros i j Hi Hj. unfold off_diagonal. rewrite !get_mk by assumption.
  rewrite (Nat.eqb_sym j i). reflexivity.
Qed.
Lemma cross_sym : forall n i, symmetric n (cross n i : mat K).
Proof. intros n i. split; [apply shape_mk|]. intros a b Ha Hb. unfold cross. rewrite !get_mk by assumption. ring. Qed.
Lemma meye_sym : forall n, symmetric n (meye n : mat K).
Proof. intros n. split; [apply shape_mk|]. intros i j Hi Hj. rewrite !get_meye by assumption. rewrite (Nat.eqb_sym j i). reflexivity. Qed.

Lemma real_times : forall z v, make_real_vector (times z v : list CK) = map (fun x => re z * x) v ++ map (fun x => im z * x) v.
Proof.
  intros z v. unfold make_real_vector, times. rewrite !map_map. f_equal; apply map_ext; intros x; cbn; ring.
Qed.
Lemma psign_zero : forall lap (x : K), (psign lap x =? 0) = (x =? 0).
Proof.
  intros [|] x; [|reflexivity]. simpl. destruct (x =? 0) eqn:E.
  - apply keqb_eq in E. subst x. apply keqb_eq. ring.
  - apply keqb_neq in E. apply keqb_neq. intros H. apply E. replace x with (- - x) by ring. rewrite H. ring.
Qed.
Lemma mul1_zero : forall x : K, (1 * x =? 0) = (x =? 0).
Proof. intros x. replace (1 * x) with x by ring. reflexivity. Qed.
Lemma mul0_zero : forall x : K, (0 * x =? 0) = true.
Proof. intros x. apply keqb_eq. ring. Qed.
Lemma off_entry : forall n a b, (b <= a)%nat -> (a < n)%nat -> negb (get (off_diagonal n : mat K) a b =? 0) = negb (a =? b)%nat.
Proof.
  intros n a b Hb Ha. unfold off_diagonal. rewrite get_mk by lia. f_equal. destruct (a =? b)%nat.
  - apply keqb_eq. ring.
  - apply keqb_neq. replace (1 - 0 : K) with (1 : K) by ring. apply k1_neq0.
Qed.
Lemma cross_entry : forall n i a b, (b <= a)%nat -> (a < n)%nat -> negb (get (cross n i : mat K) a b =? 0) = xorb (a =? i)%nat (b =? i)%nat.
Proof.
  intros n i a b Hb Ha. unfold cross. rewrite get_mk by lia. destruct (a =? i)%nat, (b =? i)%nat; cbn [xorb]; rewrite ?negb_true_iff, ?negb_false_iff;
  try (apply keqb_eq; ring); apply keqb_neq.
  - replace (1 + 0 - (1 + 1) * (1 * 0) : K) with (1 : K) by ring. apply k1_neq0.
  - replace (0 + 1 - (1 + 1) * (0 * 1) : K) with (1 : K) by ring. apply k1_neq0.
Qed.
Lemma eye_entry : forall n a b, (b <= a)%nat -> (a < n)%nat -> negb (get (meye n : mat K) a b =? 0) = (a =? b)%nat.
Proof.
  intros n a b Hb Ha. rewrite get_meye by lia. destruct (a =? b)%nat; [apply negb_true_iff, keqb_neq, k1_neq0|apply negb_false_iff, keqb_eq; reflexivity].
Qed.

(** masks of the builders *)
Lemma mask_off_abs : forall lap n c, c = 1 ->
  is_mask lap n (map (fun x => c * x) (map kabs (pv lap (off_diagonal n)))) (fun a b => negb (a =? b)%nat).
Proof.
  intros lap n c ->. rewrite map_map. apply (mask_of lap n _ _ (fun x => negb (x =? 0))); [reflexivity| |].
  - intros x. replace (1 * kabs (psign lap x)) with (kabs (psign lap x)) by ring. rewrite kltb_abs, psign_zero. reflexivity.
  - intros a b. apply off_entry.
Qed.
Lemma mask_one : forall lap n A B, nr A = n ->
  (forall a b, (b <= a)%nat -> (a < n)%nat -> negb (get (A : mat K) a b =? 0) = B a b) ->
  is_mask lap n (map (fun x => kabs (1 * x)) (pv lap A)) B.
Proof.
  intros lap n A B Hr H. apply (mask_of lap n _ _ (fun x => negb (x =? 0))); [assumption| |assumption].
  intros x. rewrite kltb_abs, mul1_zero, psign_zero. reflexivity.
Qed.
Lemma mask_none : forall lap n A, nr A = n -> is_mask lap n (map (fun x => kabs (0 * x)) (pv lap (A : mat K))) (fun _ _ => false).
Proof.
  intros lap n A Hr. apply (mask_of lap n _ _ (fun x => false)); [assumption| |reflexivity].
  intros x. rewrite kltb_abs, mul0_zero. reflexivity.
Qed.

(** every line costs the same thing twice: once with its real, once with its imaginary part *)
Lemma psign_div : forall lap (x y : K), y <> 0 -> kabs (psign lap x / kabs (psign lap y)) = kabs (x / y).
Proof.
  intros [|] x y Hy; simpl; [|apply kabs_div_abs; assumption].
  rewrite kabs_opp. replace (- x / kabs y) with (- (x / kabs y)) by (field; apply kabs_neq0; assumption).
  rewrite kabs_opp. apply kabs_div_abs; assumption.
Qed.
Lemma psign_ratio : forall lap (x y : K), y <> 0 -> psign lap x / psign lap y = x / y.
Proof.
  intros [|] x y Hy; simpl; [|reflexivity].
  assert (H : - y <> 0) by (intros H; apply Hy; replace y with (- - y) by ring; rewrite H; ring).
  field. repeat split; assumption.
Qed.
Lemma psign_neq0 : forall lap (x : K), x <> 0 -> psign lap x <> 0.
Proof. intros [|] x H; simpl; [|assumption]. intros E. apply H. replace x with (- - x) by ring. rewrite E. ring. Qed.

Lemma pidx_surj : forall lap n k, (k < psize lap n)%nat ->
  (exists a b, (b < a)%nat /\ (a < n)%nat /\ k = pidx lap n a b) \/ (lap = false /\ exists a, (a < n)%nat /\ k = hidx n a a).
Proof.
  intros [|] n k H; simpl in *.
  - left. destruct (sidx_surj _ _ H) as (a & b & H1 & H2 & ->). exists a, b. auto.
  - destruct (hidx_surj _ _ H) as (a & b & H1 & H2 & ->). destruct (Nat.eq_dec a b) as [->|Hne].
    + right. split; [reflexivity|]. exists b. auto.
    + left. exists a, b. repeat split; auto. lia.
Qed.
Lemma where_forall : forall lap n u v B B2 (Q : nat -> Prop), is_mask lap n u B -> is_mask lap n v B2 ->
  (forall a b, (b < a)%nat -> (a < n)%nat -> B a b = true -> Q (pidx lap n a b)) ->
  (forall a b, (b < a)%nat -> (a < n)%nat -> B2 a b = true -> Q (psize lap n + pidx lap n a b)%nat) ->
  (lap = false -> forall a, (a < n)%nat -> B a a = true -> Q (hidx n a a)) ->
  (lap = false -> forall a, (a < n)%nat -> B2 a a = true -> Q (psize lap n + hidx n a a)%nat) ->
  Forall Q (where_pos (u ++ v)).
Proof.
  intros lap n u v B B2 Q (Lu & U1 & U2) (Lv & V1 & V2) H1 H2 H3 H4. rewrite where_pos_app. apply Forall_forall. intros k Hk.
  apply in_app_or in Hk. destruct Hk as [Hk|Hk].
  - apply where_pos_in in Hk. destruct Hk as [Hk Hp]. rewrite Lu in Hk.
    destruct (pidx_surj _ _ _ Hk) as [(a & b & Hb & Ha & ->)|(El & a & Ha & ->)].
    + apply H1; auto. rewrite <- U1; auto.
    + apply H3; auto. rewrite <- U2; auto.
  - apply in_map_iff in Hk. destruct Hk as (j & <- & Hj). apply where_pos_in in Hj. destruct Hj as [Hk Hp].
    rewrite Lv in Hk. rewrite Lu.
    destruct (pidx_surj _ _ _ Hk) as [(a & b & Hb & Ha & ->)|(El & a & Ha & ->)].
    + apply H2; auto. rewrite <- V1; auto.
    + apply H4; auto. rewrite <- V2; auto.
Qed.

(** ** the values of the estimate *)
Lemma eliminated_completed : forall lap n E (Y : mat CK), is_e lap n E -> shape Y n n ->
  eliminated E (completed lap n Y) = Ok (pv lap (sym_part n Y)).
Proof.
  intros lap n E Y HE HY. assert (HA := completed_admissible lap n Y). assert (HS := admissible_sym lap n _ HA).
  rewrite (eliminated_ok lap n) by (assumption || apply HS). rewrite sym_part_symmetric by assumption.
  rewrite pv_completed. reflexivity.
Qed.
Lemma params_sym : forall lap n (Y : mat CK), parameters lap (completed lap n Y) = make_real_vector (pv lap (sym_part n Y)).
Proof. intros lap n Y. rewrite <- pv_completed. reflexivity. Qed.
Lemma shape_sym_part : forall n (Y : mat CK), shape (sym_part n Y) n n.
Proof. intros. apply shape_mk. Qed.
Lemma shape_completed : forall lap n (Y : mat CK), shape (completed lap n Y) n n.
Proof. intros [|] n Y; apply shape_mk. Qed.
Lemma vget_abs_map : forall (l : list K) k, vget (map kabs l) k = kabs (vget l k).
Proof.
  intros l k. destruct (Nat.lt_ge_cases k (length l)) as [H|H]; [apply vget_map_in; assumption|].
  unfold vget. rewrite !nth_overflow by (try rewrite map_length; assumption). symmetry. apply kabs_0.
Qed.

(** penalties *)

Lemma sparsity_stage : forall lap n al (Y : mat CK) idx, shape Y n n -> no_zero_line n Y ->
  idx = where_pos (make_real_vector (times (Cx 1 1) (map kabs (pv lap (off_diagonal n))))) ->
  exists q, added (spprior_init al (psize lap n + psize lap n) None) (AddAdaptiveSparsity (map Z.of_nat idx)
      (pick (map kabs (make_real_vector (pv lap (sym_part n Y)))) idx) (AScalar LAPLACE)) = Ok q /\
    exists pf, good al (psize lap n + psize lap n) (length idx) q pf /\
      forall M, shape M n n -> pf (parameters lap M) = line_pen al n Y M.
Proof.
  intros lap n al Y idx HY Hz Ei.
  rewrite real_times in Ei. cbn [re im] in Ei.
  assert (M1 := mask_off_abs lap n 1 eq_refl).
  set (vv := map kabs (make_real_vector (pv lap (sym_part n Y)))).
  assert (V1 : forall a b, (b < a)%nat -> (a < n)%nat -> vget vv (pidx lap n a b) = kabs (psign lap (re (get (sym_part n Y) a b)))).
  { intros a b Hb Ha. unfold vv. rewrite vget_abs_map. f_equal. apply (param_re lap n (sym_part n Y)); auto. apply shape_mk. }
  assert (V2 : forall a b, (b < a)%nat -> (a < n)%nat -> vget vv (psize lap n + pidx lap n a b) = kabs (psign lap (im (get (sym_part n Y) a b)))).
  { intros a b Hb Ha. unfold vv. rewrite vget_abs_map. f_equal. apply (param_im lap n (sym_part n Y)); auto. apply shape_mk. }
  assert (Hdiag : forall a : nat, negb (a =? a)%nat = true -> False) by (intros a; rewrite Nat.eqb_refl; discriminate).
  destruct (good_adaptive_sparsity al (psize lap n + psize lap n) 0 (spprior_init al (psize lap n + psize lap n) None) (fun _ => 0) idx vv)
    as (q & E & G).
  - apply good_init.
  - subst idx. apply where_pos_lt. rewrite app_length, !map_length, length_pv. reflexivity.
  - subst idx. apply (where_forall lap n _ _ _ _ _ M1 M1).
    + intros a b Hb Ha _. rewrite V1 by assumption. apply kabs_neq0, psign_neq0. apply Hz; lia.
    + intros a b Hb Ha _. rewrite V2 by assumption. apply kabs_neq0, psign_neq0. apply Hz; lia.
    + intros _ a Ha H. destruct (Hdiag _ H).
    + intros _ a Ha H. destruct (Hdiag _ H).
  - exists q. split; [exact E|]. eexists. split; [exact G|]. intros M HM. cbn beta.
    rewrite Ei.
    rewrite (sum_where_params lap n _ _ _ _ _
      (fun a b => cost al (re (get M a b) / re (get (sym_part n Y) a b))) (fun a b => cost al (im (get M a b) / im (get (sym_part n Y) a b)))
      (fun _ => 0) (fun _ => 0) M1 M1).
    + rewrite sum_off, sum_off_diag. unfold line_pen, parts. destruct lap; ring.
    + intros a b Hb Ha _. rewrite V1, (param_re lap n) by assumption. unfold cost. rewrite psign_div; [reflexivity|]. apply Hz; lia.
    + intros a b Hb Ha _. rewrite V2, (param_im lap n) by assumption. unfold cost. rewrite psign_div; [reflexivity|]. apply Hz; lia.
    + intros _ a Ha H. destruct (Hdiag _ H).
    + intros _ a Ha H. destruct (Hdiag _ H).
Qed.

(** ** contrasts *)
Definition row_of (lap : bool) (n : nat) (z : CK) (i : nat) : list nat :=
  where_pos (map kabs (make_real_vector (times z (pv lap (cross n i))))).
Lemma row_re : forall lap n i, row_of lap n (Cx 1 0) i =
  where_pos (map (fun x => kabs (1 * x)) (pv lap (cross n i)) ++ map (fun x => kabs (0 * x)) (pv lap (cross n i))).
Proof. intros. unfold row_of. rewrite real_times, map_app, !map_map. reflexivity. Qed.
Lemma row_im : forall lap n i, row_of lap n (Cx 0 1) i =
  where_pos (map (fun x => kabs (0 * x)) (pv lap (cross n i)) ++ map (fun x => kabs (1 * x)) (pv lap (cross n i))).
Proof. intros. unfold row_of. rewrite real_times, map_app, !map_map. reflexivity. Qed.
Lemma row_masks : forall lap n i,
  is_mask lap n (map (fun x => kabs (1 * x)) (pv lap (cross n i))) (fun a b => xorb (a =? i)%nat (b =? i)%nat) /\
  is_mask lap n (map (fun x => kabs (0 * x)) (pv lap (cross n i))) (fun _ _ => false).
Proof. intros lap n i. split; [apply mask_one; [reflexivity|intros a b; apply cross_entry]|apply mask_none; reflexivity]. Qed.

Lemma row_sum_any : forall lap n i (g : nat -> K) (f : nat -> nat -> K) (z : CK), (i < n)%nat -> z = Cx 1 0 \/ z = Cx 0 1 ->
  (forall a b, (a < n)%nat -> (b < n)%nat -> f a b = f b a) ->
  (forall a b, (b < a)%nat -> (a < n)%nat -> g ((if (re z =? 0)%K then psize lap n else 0) + pidx lap n a b)%nat = f a b) ->
  lsum (map g (row_of lap n z i)) = sumn n (fun j => if (j =? i)%nat then 0 else f i j).
Proof.
  intros lap n i g f z Hi Hz Sy Hg. destruct (row_masks lap n i) as [M1 M0].
  assert (T0 : ((0 : K) =? 0) = true) by (apply keqb_eq; reflexivity).
  assert (T1 : ((1 : K) =? 0) = false) by (apply keqb_neq; apply k1_neq0).
  assert (D : forall (h k : nat -> K), sumn n (fun a => (if xorb (a =? i)%nat (a =? i)%nat then h a else 0) + (if false then k a else 0)) = 0).
  { intros h k. apply sumn_zero. intros a Ha. rewrite xorb_nilpotent. ring. }
  assert (D2 : forall (h k : nat -> K), sumn n (fun a => (if false then k a else 0) + (if xorb (a =? i)%nat (a =? i)%nat then h a else 0)) = 0).
  { intros h k. apply sumn_zero. intros a Ha. rewrite xorb_nilpotent. ring. }
  assert (L : forall h : nat -> nat -> K, line_sum n h = line_sum n (fun a b => if xorb (a =? i)%nat (b =? i)%nat then f a b else 0) ->
     forall d, d = 0 -> line_sum n h + d = sumn n (fun j => if (j =? i)%nat then 0 else f i j)).
  { intros h -> d ->. rewrite line_sum_node by assumption. ring. }
  destruct Hz as [-> | ->]; [rewrite row_re|rewrite row_im].
  - cbn [re] in Hg. rewrite T1 in Hg. rewrite (sum_where_params lap n _ _ _ _ g f (fun _ _ => 0) (fun a => g (hidx n a a)) (fun _ => 0) M1 M0); try discriminate.
    + apply L; [apply line_sum_ext; intros; ring|]. destruct lap; [reflexivity|apply (D _ (fun _ => 0))].
    + intros a b Hb Ha _. apply Hg; assumption.
    + intros _ a Ha _. reflexivity.
  - cbn [re] in Hg. rewrite T0 in Hg. rewrite (sum_where_params lap n _ _ _ _ g (fun _ _ => 0) f (fun _ => 0) (fun a => g (psize lap n + hidx n a a)%nat) M0 M1); try discriminate.
    + apply L; [apply line_sum_ext; intros; ring|]. destruct lap; [reflexivity|apply (D2 _ (fun _ => 0))].
    + intros a b Hb Ha _. apply Hg; assumption.
    + intros _ a Ha _. reflexivity.
Qed.
Lemma sumn_psign : forall lap n (f : nat -> K), sumn n (fun j => psign lap (f j)) = psign lap (sumn n f).
Proof. intros [|] n f; [apply sumn_opp|reflexivity]. Qed.
Lemma row_length : forall lap n i (z : CK), (i < n)%nat -> z = Cx 1 0 \/ z = Cx 0 1 -> length (row_of lap n z i) = (n - 1)%nat.
Proof.
  intros lap n i z Hi Hz. apply (knat_inj (K := K)).
  assert (E : forall l : list nat, knat (length l) = lsum (map (fun _ => (1 : K)) l)).
  { intros l. rewrite <- (sum_list l (fun _ => 1)), sumn_const. ring. }
  rewrite E, (row_sum_any lap n i (fun _ => 1) (fun _ _ => 1) z) by auto.
  assert (S1 : sumn n (fun j => if (j =? i)%nat then 0 else (1 : K)) + sumn n (fun j => if (j =? i)%nat then 1 else 0) = knat n).
  { rewrite <- sumn_add. transitivity (sumn n (fun _ => (1 : K))); [apply sumn_ext; intros j _; destruct (j =? i)%nat; ring|].
    rewrite sumn_const. ring. }
  rewrite (sumn_single n i (fun j => if (j =? i)%nat then 1 else 0)) in S1; [|assumption|intros j _ Hne; destruct (Nat.eqb_spec j i); [contradiction|reflexivity]].
  rewrite Nat.eqb_refl in S1.
  assert (S2 : knat (n - 1) + 1 = (knat n : K)).
  { transitivity (knat (n - 1) + knat 1 : K); [simpl; ring|]. rewrite <- knat_add. f_equal. lia. }
  replace (knat (n - 1) : K) with (knat (n - 1) + 1 - 1 : K) by ring. rewrite S2, <- S1. ring.
Qed.
Lemma row_ok : forall lap n i (z : CK), (i < n)%nat -> z = Cx 1 0 \/ z = Cx 0 1 ->
  length (row_of lap n z i) = (n - 1)%nat /\ NoDup (row_of lap n z i) /\
  Forall (fun k => (k < psize lap n + psize lap n)%nat) (row_of lap n z i).
Proof.
  intros lap n i z Hi Hz. split; [apply row_length; assumption|]. split; [apply where_pos_nodup|].
  apply where_pos_lt. rewrite map_length, real_times, app_length, !map_length, length_pv. reflexivity.
Qed.
Lemma re_node_sum : forall n (M : mat CK) i, re (node_sum n M i) = sumn n (fun j => if (j =? i)%nat then 0 else re (get M i j)).
Proof. intros. unfold node_sum. rewrite re_sumn. apply sumn_ext. intros j _. destruct (j =? i)%nat; reflexivity. Qed.
Lemma im_node_sum : forall n (M : mat CK) i, im (node_sum n M i) = sumn n (fun j => if (j =? i)%nat then 0 else im (get M i j)).
Proof. intros. unfold node_sum. rewrite im_sumn. apply sumn_ext. intros j _. destruct (j =? i)%nat; reflexivity. Qed.
Lemma row_sum_re : forall lap n (M : mat CK) i, symmetric n M -> (i < n)%nat ->
  lsum (map (vget (parameters lap M)) (row_of lap n (Cx 1 0) i)) = psign lap (re (node_sum n M i)).
Proof.
  intros lap n M i (HM & Sy) Hi. rewrite (row_sum_any lap n i _ (fun a b => psign lap (re (get M a b)))); auto.
  - rewrite re_node_sum, <- sumn_psign. apply sumn_ext. intros j _. destruct (j =? i)%nat; [|reflexivity]. destruct lap; simpl; ring.
  - intros a b Ha Hb. rewrite Sy by assumption. reflexivity.
  - intros a b Hb Ha. cbn [re]. replace ((1 : K) =? 0) with false by (symmetry; apply keqb_neq, k1_neq0). apply param_re; assumption.
Qed.
Lemma row_sum_im : forall lap n (M : mat CK) i, symmetric n M -> (i < n)%nat ->
  lsum (map (vget (parameters lap M)) (row_of lap n (Cx 0 1) i)) = psign lap (im (node_sum n M i)).
Proof.
  intros lap n M i (HM & Sy) Hi. rewrite (row_sum_any lap n i _ (fun a b => psign lap (im (get M a b)))); auto.
  - rewrite im_node_sum, <- sumn_psign. apply sumn_ext. intros j _. destruct (j =? i)%nat; [|reflexivity]. destruct lap; simpl; ring.
  - intros a b Ha Hb. rewrite Sy by assumption. reflexivity.
  - intros a b Hb Ha. cbn [re]. replace ((0 : K) =? 0) with true by (symmetry; apply keqb_eq; reflexivity). apply param_im; assumption.
Qed.

Lemma mapM_map : forall A B (f : A -> res B) (g : A -> B) l, (forall x, In x l -> f x = Ok (g x)) -> mapM f l = Ok (map g l).
Proof.
  intros A B f g l H. induction l as [|x l IH]; [reflexivity|]. simpl. rewrite (H x) by (left; reflexivity). cbn [bind].
  rewrite IH by (intros y Hy; apply H; right; assumption). reflexivity.
Qed.
Lemma contrast_rows : forall lap n E (z : CK), is_e lap n E ->
  mapM (fun i => c <- eliminated_real E (cross n i) ;; Ok (where_pos (map kabs (make_real_vector (times z c))))) (range n)
  = Ok (map (row_of lap n z) (range n)).
Proof.
  intros lap n E z HE. apply mapM_map. intros i Hi. rewrite (eliminated_real_ok lap n) by (assumption || apply cross_sym). reflexivity.
Qed.
Lemma index_array_ok : forall rows w, rows <> [] -> Forall (fun r => length r = w) rows ->
  index_array rows = Ok (Mat (length rows) w (map (map Z.of_nat) rows)).
Proof.
  intros rows w Hne H. unfold index_array. destruct rows as [|r rows]; [contradiction|].
  assert (Hr : length r = w) by (inversion H; assumption). rewrite Hr.
  replace (forallb (fun r0 => (length r0 =? w)%nat) (r :: rows)) with true; [reflexivity|]. symmetry. apply forallb_forall.
  intros x Hx. apply Nat.eqb_eq. rewrite Forall_forall in H. apply H. assumption.
Qed.

Lemma nth_repeat_lt : forall A (x d : A) n i, (i < n)%nat -> nth i (repeat x n) d = x.
Proof. intros A x d n i H. rewrite (nth_indep _ d x) by (rewrite repeat_length; assumption). apply nth_repeat. Qed.
Lemma vget_app_off : forall (u v : list K) n i, length u = n -> vget (u ++ v) (n + i) = vget v i.
Proof. intros u v n i <-. apply vget_app_right. Qed.
Lemma map_mkv : forall A B (f : A -> B) n (g : nat -> A), map f (mkv n g) = mkv n (fun i => f (g i)).
Proof. intros. unfold mkv. apply map_map. Qed.
Lemma mkv_ext : forall A n (f g : nat -> A), (forall i, (i < n)%nat -> f i = g i) -> mkv n f = mkv n g.
Proof. intros A n f g H. unfold mkv. apply map_ext_in. intros i Hi. apply H. apply in_range. assumption. Qed.

Lemma row_total : forall lap n (Y : mat CK) i, (i < n)%nat ->
  sumn n (fun j => get (msubt (completed lap n Y) (mdiag (mdiagonal (completed lap n Y)))) i j) = node_sum n (sym_part n Y) i.
Proof.
  intros lap n Y i Hi. assert (Sh := shape_completed lap n Y). destruct Sh as (W & Hr & Hc). unfold node_sum. apply sumn_ext. intros j Hj.
  assert (Hl : length (mdiagonal (completed lap n Y)) = n) by (unfold mdiagonal; rewrite length_mkv, Hr, Hc; apply Nat.min_id).
  rewrite get_msubt by (rewrite ?Hr, ?Hc; assumption). unfold mdiag. rewrite get_mk by (rewrite Hl; assumption).
  destruct (Nat.eqb_spec i j) as [->|Hne].
  - rewrite Nat.eqb_refl. unfold mdiagonal. rewrite vget_mkv by (rewrite Hr, Hc, Nat.min_id; assumption). apply cplx_eq; cbn; ring.
  - destruct (Nat.eqb_spec j i) as [->|_]; [contradiction|]. rewrite completed_off by assumption. apply cplx_eq; cbn; ring.
Qed.
Definition contrast_values (lap tls : bool) (n : nat) (Y : mat CK) : list K :=
  mkv n (fun i => psign lap (re (reference tls n Y i))) ++ mkv n (fun i => psign lap (im (reference tls n Y i))).
Lemma values_ok : forall (lap tls : bool) n (Y : mat CK) (v : list K), shape Y n n ->
  v = (if tls then map re (mdiagonal Y) ++ map im (mdiagonal Y)
       else map kopp (map re (mkv n (fun i => sumn n (fun j => get (msubt (completed lap n Y) (mdiag (mdiagonal (completed lap n Y)))) i j)))
              ++ map im (mkv n (fun i => sumn n (fun j => get (msubt (completed lap n Y) (mdiag (mdiagonal (completed lap n Y)))) i j))))) ->
  (if lap then v else map kopp v) = contrast_values lap tls n Y.
Proof.
  intros lap tls n Y v HY ->. destruct HY as (W & Hr & Hc). unfold contrast_values, reference.
  assert (ED : mdiagonal Y = mkv n (fun i => get Y i i)) by (unfold mdiagonal; rewrite Hr, Hc, Nat.min_id; reflexivity).
  destruct lap, tls; rewrite ?ED; rewrite ?map_app, ?map_mkv; f_equal; apply mkv_ext; intros i Hi; simpl psign;
  try rewrite (row_total true) by assumption; try rewrite (row_total false) by assumption; cbn [re im kopp cplx_ops copp]; try ring; reflexivity.
Qed.

(** penalty of the nodes *)

Lemma contrast_stage : forall lap tls n al lam (Y : mat CK) m p pf, (0 < n)%nat -> good al (psize lap n + psize lap n) m p pf ->
  (forall i, (i < n)%nat -> nonzero_parts (reference tls n Y i)) ->
  exists idx q, index_array (map (row_of lap n (Cx 1 0)) (range n) ++ map (row_of lap n (Cx 0 1)) (range n)) = Ok idx /\
    added p (AddContrast idx (contrast_values lap tls n Y) (AList (map (fun s => lam * s) (repeat (- (1)) n ++ repeat 1 n))) (AScalar LAPLACE)) = Ok q /\
    exists pf2, good al (psize lap n + psize lap n) (m + (n + n)) q pf2 /\
      forall M, symmetric n M -> pf2 (parameters lap M) = pf (parameters lap M) + node_pen al lam tls n Y M.
Proof.
  intros lap tls n al lam Y m p pf Hn G Hz.
  set (rows := map (row_of lap n (Cx 1 0)) (range n) ++ map (row_of lap n (Cx 0 1)) (range n)).
  assert (Hlen : length rows = (n + n)%nat) by (unfold rows; rewrite app_length, !map_length, length_range; reflexivity).
  assert (Hrows : Forall (fun r => length r = (n - 1)%nat /\ NoDup r /\ Forall (fun k => (k < psize lap n + psize lap n)%nat) r) rows).
  { unfold rows. apply Forall_app. split; apply Forall_map; apply Forall_forall; intros i Hi; apply in_range in Hi; apply row_ok; auto. }
  exists (Mat (length rows) (n - 1) (map (map Z.of_nat) rows)).
  destruct (good_contrast al _ m p pf rows (n - 1) (contrast_values lap tls n Y) (map (fun s => lam * s) (repeat (- (1)) n ++ repeat 1 n)) G Hrows)
    as (q & E & Gq).
  - rewrite Hlen. unfold contrast_values. rewrite app_length, !length_mkv. reflexivity.
  - rewrite Hlen, map_length, app_length, !repeat_length. reflexivity.
  - unfold contrast_values. apply Forall_app. unfold mkv.
    split; apply Forall_map; apply Forall_forall; intros i Hi; apply in_range in Hi; apply psign_neq0; apply Hz; assumption.
  - exists q. split; [|split; [exact E|]].
    + apply index_array_ok.
      * intros H. rewrite H in Hlen. simpl in Hlen. lia.
      * eapply Forall_impl; [|exact Hrows]. intros r (H & _). exact H.
    + rewrite Hlen in Gq. eexists. split; [exact Gq|]. intros M HM. cbn beta. f_equal. rewrite sumn_plus. unfold node_pen, parts. rewrite sumn_add.
      f_equal; apply sumn_ext; intros i Hi.
      * rewrite map_app.
        rewrite (vget_app_left (map _ (repeat (- (1)) n))) by (rewrite map_length, repeat_length; assumption).
        rewrite vget_map_in by (rewrite repeat_length; assumption).
        unfold contrast_values. rewrite (vget_app_left (mkv n _)) by (rewrite length_mkv; assumption). rewrite vget_mkv by assumption.
        unfold rows. rewrite app_nth1 by (rewrite map_length, length_range; assumption).
        rewrite (nth_map_range _ (row_of lap n (Cx 1 0))) by assumption.
        rewrite row_sum_re by assumption. rewrite psign_ratio by (apply Hz; assumption).
        unfold vget. rewrite nth_repeat_lt by assumption.
        rewrite <- cost_opp. f_equal. ring.
      * rewrite map_app.
        rewrite (vget_app_off (map _ (repeat (- (1)) n)) _ n) by (rewrite map_length, repeat_length; reflexivity).
        rewrite vget_map_in by (rewrite repeat_length; assumption).
        unfold contrast_values. rewrite (vget_app_off (mkv n _) _ n) by apply length_mkv. rewrite vget_mkv by assumption.
        unfold rows. rewrite app_nth2 by (rewrite map_length, length_range; lia). rewrite map_length, length_range.
        replace (n + i - n)%nat with i by lia.
        rewrite (nth_map_range _ (row_of lap n (Cx 0 1))) by assumption.
        rewrite row_sum_im by assumption. rewrite psign_ratio by (apply Hz; assumption).
        unfold vget. rewrite nth_repeat_lt by assumption. f_equal. ring.
Qed.
End Main.
