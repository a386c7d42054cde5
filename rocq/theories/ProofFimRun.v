(** Proofs about the uncertainty analysis: the whole function. *)
From Coq Require Import Arith ZArith Lia List Bool Reals Lra Psatz.
From Verif Require Import BasePy BaseFld BaseSum BaseMat BaseNumpy BaseOrd BaseReal BaseLin ModelMatrixOps ProofMatrixOps ModelErrorMetrics ModelNoiseCov SpecNoise ProofNoiseCov
  SpecFit ModelFisher SpecFisher ProofFisher ModelRun ModelFim SpecFim ProofFim.
Import ListNotations.
Local Open Scope R_scope.

(** ** Statistics *)
Lemma lsum_map_nth : forall A (d : A) (f : A -> R) (l : list A), lsum (map f l) = sumn (length l) (fun k => f (nth k l d)).
Proof.
  intros A d f l. rewrite lsum_nth, map_length. apply sumn_ext. intros i Hi. rewrite (nth_indep _ _ (f d)) by (rewrite map_length; auto). apply map_nth.
Qed.
Lemma mean_fin : forall l : list R, l <> [] -> np_mean l = Fin (lsum l / INR (length l)).
Proof.
  intros l N. unfold np_mean, fdiv. destruct (Req_EM_T (INR (length l)) 0) as [E|]; [|reflexivity]. exfalso. apply (not_0_INR (length l)); [destruct l; [congruence|discriminate]|exact E].
Qed.
Lemma rnorm_size : forall y, rnorm y = size y.
Proof. intros y. unfold rnorm, size. rewrite (lsum_map_nth R 0 (fun x => x * x)). reflexivity. Qed.
Lemma rnorm_distance : forall s y, length s = length y -> rnorm (vsubt s y) = distance s y.
Proof.
  intros s y E. unfold rnorm, distance. rewrite (lsum_map_nth R 0 (fun x => x * x)). rewrite length_vsubt, E. f_equal. apply sumn_ext. intros k Hk.
  change (nth k (vsubt s y) 0) with (vget (vsubt s y) k). rewrite vget_vsubt by lia. reflexivity.
Qed.
Lemma sq_nonneg : forall x : R, 0 <= x * x.
Proof. exact Rle_0_sqr. Qed.
Lemma sq_zero : forall x : R, x * x = 0 -> x = 0.
Proof. exact Rsqr_0_uniq. Qed.
Lemma distance_0 : forall s y, length s = length y -> distance s y = 0 -> s = y.
Proof.
  intros s y E H. unfold distance in H. apply sqrt_eq_0 in H; [|apply sumR_nonneg; intros; apply sq_nonneg].
  apply vec_ext; [auto|]. intros i Hi. apply Rminus_diag_uniq. apply sq_zero.
  apply (sumR_zero (length y) (fun k => (vget s k - vget y k) * (vget s k - vget y k))); [intros; apply sq_nonneg|exact H|lia].
Qed.
Lemma distance_self : forall y, distance y y = 0.
Proof. intros y. unfold distance. rewrite (sumn_zero (length y)); [apply sqrt_0|]. intros. unfold Rminus. rewrite Rplus_opp_r. apply Rmult_0_l. Qed.
Theorem p_reported : forall samples y, samples <> [] -> size y <> 0 -> (forall s, In s samples -> length s = length y) ->
  exists e, err_std samples y = Fin e /\ 0 <= e /\ e * e = rms_error samples y * rms_error samples y - mean_error samples y * mean_error samples y /\
    e <= rms_error samples y /\ (e = rms_error samples y <-> forall s, In s samples -> s = y).
Proof.
  intros samples y N Sy Hs. set (n := length samples). set (r := fun k => distance (nth k samples []) y).
  assert (Hn : 0 < INR n) by (apply lt_0_INR; unfold n; destruct samples; [congruence|cbn; lia]).
  assert (Sp : 0 < size y) by (assert (0 <= size y) by (unfold size; apply sqrt_pos); lra).
  assert (Rl : map (fun s => rnorm (vsubt s y)) samples = map (fun s => distance s y) samples) by (apply map_ext_in; intros s Hi; apply rnorm_distance; auto).
  assert (Rp : forall k, 0 <= r k) by (intros; unfold r, distance; apply sqrt_pos).
  set (m := sumn n r / INR n). set (q := sumn n (fun k => r k * r k) / INR n).
  assert (V : sumn n (fun k => (r k - m) * (r k - m)) / INR n = q - m * m).
  { assert (Q : sumn n (fun k => (r k - m) * (r k - m)) = sumn n (fun k => r k * r k) - 2 * m * sumn n r + INR n * (m * m)).
    { transitivity (sumn n (fun k => (r k * r k - 2 * m * r k) + m * m)); [apply sumn_ext; intros; unfold ksub; cbn; ring|].
      rewrite sumR_add, sumR_sub, sumR_scal, sumR_const. reflexivity. }
    rewrite Q. unfold q, m. field. lra. }
  assert (V0 : 0 <= q - m * m) by (rewrite <- V; apply Rmult_le_pos; [apply sumR_nonneg; intros; apply sq_nonneg|left; apply Rinv_0_lt_compat; exact Hn]).
  assert (E : err_std samples y = Fin (sqrt (q - m * m) / size y)).
  { unfold err_std. rewrite Rl, rnorm_size. unfold np_std. rewrite mean_fin by (destruct samples; [congruence|discriminate]).
    rewrite map_length. rewrite (lsum_map_nth _ []). fold n. fold r. fold m.
    rewrite mean_fin by (destruct samples; [congruence|discriminate]). rewrite !map_length. fold n. rewrite map_map. rewrite (lsum_map_nth _ []). fold n.
    change (fun k : nat => (distance (nth k samples []) y - m) * (distance (nth k samples []) y - m)) with (fun k => (r k - m) * (r k - m)). rewrite V.
    unfold fdiv. destruct (Req_EM_T (size y) 0); [contradiction|reflexivity]. }
  assert (M : mean_error samples y = m / size y).
  { unfold mean_error, m. fold n. transitivity (sumn n (fun k => (/ size y) * r k) / INR n); [f_equal; apply sumn_ext; intros; unfold r, Rdiv; ring|]. rewrite sumR_scal. field. lra. }
  assert (Q0 : 0 <= q) by (apply Rmult_le_pos; [apply sumR_nonneg; intros; apply sq_nonneg|left; apply Rinv_0_lt_compat; exact Hn]).
  assert (S : rms_error samples y = sqrt q / size y).
  { unfold rms_error. fold n. replace (sumn n _ / INR n) with (q * (/ size y * / size y)).
    - rewrite sqrt_mult by (try lra; left; apply Rmult_lt_0_compat; apply Rinv_0_lt_compat; auto). rewrite sqrt_square by (left; apply Rinv_0_lt_compat; auto). reflexivity.
    - unfold q. transitivity (sumn n (fun k => (/ size y * / size y) * (r k * r k)) / INR n); [rewrite sumR_scal; field; lra|].
      f_equal. apply sumn_ext. intros k Hk. unfold r, Rdiv. cbn. ring. }
  exists (sqrt (q - m * m) / size y). rewrite M, S. split; [exact E|].
  pose proof (sqrt_sqrt _ V0) as X1. pose proof (sqrt_sqrt _ Q0) as X2. pose proof (sqrt_pos (q - m * m)) as X3. pose proof (sqrt_pos q) as X4.
  assert (IS : 0 < / size y) by (apply Rinv_0_lt_compat; auto).
  assert (L : sqrt (q - m * m) <= sqrt q) by (apply sqrt_le_1_alt; pose proof (sq_nonneg m); lra).
  split; [apply Rmult_le_pos; lra|]. split.
  { replace (sqrt (q - m * m) / size y * (sqrt (q - m * m) / size y)) with ((sqrt (q - m * m) * sqrt (q - m * m)) / (size y * size y)) by (field; lra).
    replace (sqrt q / size y * (sqrt q / size y)) with ((sqrt q * sqrt q) / (size y * size y)) by (field; lra). rewrite X1, X2. field. lra. }
  split; [apply Rmult_le_compat_r; lra|]. split.
  - intros H. assert (H1 : sqrt (q - m * m) = sqrt q) by (apply (Rmult_eq_reg_r (/ size y)); [exact H|lra]).
    assert (Zm : m = 0) by (apply sq_zero; rewrite H1 in X1; lra).
    assert (Zs : sumn n r = 0) by (unfold m in Zm; apply (Rmult_eq_reg_r (/ INR n)); [unfold Rdiv in Zm; rewrite Zm; ring|apply Rinv_neq_0_compat; lra]).
    intros s Hi. apply (In_nth _ _ []) in Hi. destruct Hi as (k & Hk & <-). apply distance_0; [apply Hs; apply nth_In; auto|]. exact (sumR_zero n r (fun i _ => Rp i) Zs k Hk).
  - intros H. assert (Z : forall k, (k < n)%nat -> r k = 0) by (intros k Hk; unfold r; rewrite (H (nth k samples [])) by (apply nth_In; auto); apply distance_self).
    assert (Zm : m = 0) by (unfold m; rewrite (@sumn_zero R R_ops R_fld n r Z); unfold Rdiv; apply Rmult_0_l). rewrite Zm. f_equal. f_equal. ring.
Qed.

(** ** Centred data *)
Lemma knat_mul_C : forall a b, (knat (a * b) : C) = (knat a * knat b)%K.
Proof.
  induction a; intros b; [apply cplx_eq; cbn; ring|]. change (S a * b)%nat with (b + a * b)%nat. rewrite knat_add, IHa.
  change (knat (S a) : C) with (knat a + 1 : C)%K. generalize (knat a : C) (knat b : C). intros [x x'] [y y']. apply cplx_eq; cbn; ring.
Qed.
Lemma minus_mean_spec : forall v : mat C, (0 < nr v * nc v)%nat -> minus_one_mean v (minus_mean v).
Proof.
  intros v Hp. unfold minus_mean. split; [apply shape_mk|]. exists (mean_all v). split; [intros t k Ht Hk; rewrite get_mk by auto; reflexivity|].
  transitivity (sumn (nr v) (fun t => sumn (nc v) (fun k => get v t k)) - knat (nr v * nc v) * mean_all v)%K.
  - transitivity (sumn (nr v) (fun t => (sumn (nc v) (fun k => get v t k) - knat (nc v) * mean_all v)%K)).
    + apply sumn_ext. intros t Ht. rewrite <- sumn_const, <- sumn_sub. apply sumn_ext. intros k Hk. rewrite get_mk by auto. reflexivity.
    + rewrite sumn_sub. f_equal. rewrite sumn_const. rewrite knat_mul_C. 
      generalize (knat (nr v) : C) (knat (nc v) : C) (mean_all v). intros a b c. change ((a * (b * c))%K = (a * b * c)%K). destruct a, b, c. apply cplx_eq; cbn; ring.
  - unfold mean_all. set (s := sumn _ _). assert (N : (knat (nr v * nc v) : C) <> 0%K) by (apply knat_neq0; lia).
    rewrite <- (kdiv_mul s (knat (nr v * nc v)) N) at 1. generalize (s / knat (nr v * nc v))%K (knat (nr v * nc v) : C). intros a b. destruct a, b. apply cplx_eq; cbn; ring.
Qed.
Lemma minus_col_spec : forall v : mat C, (0 < nr v * nc v)%nat -> minus_means v (minus_col_means v).
Proof.
  intros v Hp. unfold minus_col_means. split; [apply shape_mk|]. exists (mean_col v). split; [intros t k Ht Hk; rewrite get_mk by auto; reflexivity|].
  intros k Hk. transitivity (sumn (nr v) (fun t => get v t k) - knat (nr v) * mean_col v k)%K.
  - rewrite <- sumn_const, <- sumn_sub. apply sumn_ext. intros t Ht. rewrite get_mk by auto. reflexivity.
  - unfold mean_col. set (s := sumn _ _). assert (N : (knat (nr v) : C) <> 0%K) by (apply knat_neq0; nia).
    rewrite <- (kdiv_mul s (knat (nr v)) N) at 1. generalize (s / knat (nr v))%K (knat (nr v) : C). intros a b. destruct a, b. apply cplx_eq; cbn; ring.
Qed.

(** ** Covariances *)
Lemma unflt_fin : forall S Q, finite S Q -> unflt S = Q.
Proof.
  intros S Q [W ->]. unfold unflt. destruct Q as [r c d]. unfold mmap. cbn [nr nc dat]. f_equal. rewrite map_map. erewrite map_ext; [apply map_id|]. intros l. cbn. rewrite map_map. apply map_id.
Qed.
Lemma average_voltage : forall M sd sp s, sd_means (nc M) sd s ->
  exists S Q, average_true_noise_covariance M sd sp false = Ok S /\ finite S Q /\ psd (2 * (nc M * nr M)) Q /\
    ((forall i, (i < nc M)%nat -> s i <> 0) -> sp <> 0 -> pdef (2 * (nc M * nr M)) Q).
Proof.
  intros M sd sp s Hs. unfold average_true_noise_covariance. rewrite (cov_false _ _ _ _ _ s average_same Hs). eexists. eexists. split; [reflexivity|].
  set (N := (nr M * nc M)%nat). replace (2 * (nc M * nr M))%nat with (2 * N)%nat by (unfold N; lia).
  assert (Sh : shape (rbmat N (vget (entries (k_real average_kernel) M s sp)) (vget (entries (k_imag average_kernel) M s sp)) (vget (entries (k_cov average_kernel) M s sp))) (2 * N) (2 * N)).
  { replace (2 * N)%nat with (N + N)%nat by lia. apply shape_rbmat. }
  split; [split; [apply Sh|reflexivity]|]. destruct (cov_psd average_kernel M sp s average_psd) as [A B]. fold N in A.
  split.
  - split; [exact Sh|]. split; [apply rb_sym|]. intros v Hv. apply R_leb_le. apply A. exact Hv.
  - intros Hz Hp. split; [exact Sh|]. split; [apply rb_sym|]. intros v Hv Hne. apply (proj2 (klt_spec _ _)). rewrite R_leb_le. apply Rlt_not_le.
    apply (cov_posdef average_kernel M sp s); [|exact Hv|exact Hne]. intros t j Ht Hj. apply average_pd; auto.
Qed.
Lemma C_cancel : forall (k a m : C), k <> 0%K -> (a - k * m = 0)%K -> m = (a / k)%K.
Proof.
  intros k a m Hk E. apply (kmul_cancel_l k); [exact Hk|]. transitivity a.
  - apply ksub_eq0 in E. symmetry. exact E.
  - transitivity ((a / k) * k)%K; [symmetry; apply kdiv_mul; exact Hk|]. generalize (a / k)%K. intros b. destruct b, k. apply cplx_eq; cbn; ring.
Qed.
Lemma centred_unique : forall laplacian (v x : mat C), (0 < nr v * nc v)%nat -> centred_data laplacian v x -> x = if laplacian then minus_mean v else minus_col_means v.
Proof.
  intros [|] v x Hp (Sx & m & E & Z).
  - apply (gshape_ext _ _ (nr v) (nc v)); [exact Sx|apply shape_mk|]. intros t k Ht Hk. rewrite E by auto. unfold minus_mean. rewrite get_mk by auto. f_equal.
    unfold mean_all. apply C_cancel; [apply knat_neq0; lia|]. rewrite <- Z. rewrite knat_mul_C. symmetry.
    transitivity (sumn (nr v) (fun t => (sumn (nc v) (fun k => get v t k) - knat (nc v) * m)%K)).
    + apply sumn_ext. intros t' Ht'. rewrite <- sumn_const, <- sumn_sub. apply sumn_ext. intros k' Hk'. apply E; auto.
    + rewrite sumn_sub. f_equal. rewrite sumn_const. generalize (knat (nr v) : C) (knat (nc v) : C). intros a b. destruct a, b, m. apply cplx_eq; cbn; ring.
  - apply (gshape_ext _ _ (nr v) (nc v)); [exact Sx|apply shape_mk|]. intros t k Ht Hk. rewrite E by auto. unfold minus_col_means. rewrite get_mk by auto. f_equal.
    unfold mean_col. apply C_cancel; [apply knat_neq0; lia|]. rewrite <- (Z k Hk). symmetry.
    rewrite <- sumn_const, <- sumn_sub. apply sumn_ext. intros t' Ht'. apply E; auto.
Qed.
Lemma centred_exists : forall laplacian (v : mat C), (0 < nr v * nc v)%nat -> centred_data laplacian v (if laplacian then minus_mean v else minus_col_means v).
Proof. intros [|] v H; [apply minus_mean_spec|apply minus_col_spec]; exact H. Qed.

Section Run.
Context {St : Type} (seeded : St) (mvn : list R -> mat R -> nat -> St -> res (list (list R)) * St).
Theorem p_analysis : forall file v i vsd csd ratings Y ns laplacian T n x,
  (0 < n * T)%nat -> shape v T n -> shape i T n -> shape Y n n -> length ratings = n -> re csd <> 0 -> im csd <> 0 -> (forall k, (k < n)%nat -> vget ratings k <> 0) ->
  centred_data laplacian v x ->
  exists Xs X Zs Z W y,
    average_true_noise_covariance v (SdFloat (re vsd)) (im vsd) false = Ok Xs /\ finite Xs X /\
    average_true_noise_covariance i (SdArray (map (fun r => re csd * r) ratings)) (im csd) false = Ok Zs /\ finite Zs Z /\
    swapped_inverse (n * T) (used_cov T n Y X Z) W /\ psd (2 * (n * T)) W /\
    length y = (2 * (n * n))%nat /\ (forall k, (k < 2 * (n * n))%nat -> vget y k = y_real n Y k) /\
    let G := mmul (tr (split_regressor x)) (mmul W (split_regressor x)) in
    let samples := match ns with None => (100 * 100)%nat | Some k => k end in
    psd (2 * (n * n)) G /\
    (informative T n x -> exists V, shape V (2 * (n * n)) (2 * (n * n)) /\ mmul G V = meye (2 * (n * n)) /\
      match mvn y V samples seeded with
      | (Ok s, g) => eiv_fim seeded mvn file (Some v) (Some i) vsd csd ratings Y ns laplacian = Some (g, Some (mkFim Y v i G V (err_std s y)), Ok (G, V, err_std s y))
      | (Err e, g) => eiv_fim seeded mvn file (Some v) (Some i) vsd csd ratings Y ns laplacian = Some (g, file, Err e)
      end) /\
    (~ informative T n x -> eiv_fim seeded mvn file (Some v) (Some i) vsd csd ratings Y ns laplacian = Some (seeded, file, Err LinAlgError)).
Proof.
  intros file v i vsd csd ratings Y ns laplacian T n x Hp Hv Hi HY HR Hm Hf Hr Hx. pose proof Hv as (_ & Vr & Vc). pose proof Hi as (_ & Ir & Ic).
  assert (Hp' : (0 < nr v * nc v)%nat) by (rewrite Vr, Vc; lia).
  destruct (average_voltage v (SdFloat (re vsd)) (im vsd) (fun _ => re vsd) (sd_float _ _)) as (Xs & X & EX & FX & PX & _). rewrite Vr, Vc in PX.
  assert (HM : sd_means (nc i) (SdArray (map (fun r => re csd * r) ratings)) (vget (map (fun r => re csd * r) ratings))) by (constructor; rewrite map_length; lia).
  destruct (average_voltage i _ (im csd) _ HM) as (Zs & Z & EZ & FZ & _ & PZ). rewrite Ir, Ic in PZ.
  assert (PZ' : pdef (2 * (n * T)) Z).
  { apply PZ; [|exact Hf]. intros k Hk. unfold vget. rewrite (nth_indep _ _ (re csd * 0)) by (rewrite map_length; lia). rewrite (map_nth (fun r => re csd * r)).
    apply Rmult_integral_contrapositive_currified; [exact Hm|apply Hr; exact Hk]. }
  assert (Sx : shape x T n) by (destruct laplacian; destruct Hx as (Sx & _); rewrite <- Vr, <- Vc; exact Sx).
  set (z := if laplacian then i else minus_col_means i).
  destruct (p_fisher_regular T n x z Y X Z Hp Sx HY PX PZ') as (W & PW & SW & PG & G1 & G2).
  exists Xs, X, Zs, Z, W, (make_real_vector (vectorize_matrix Y)).
  split; [exact EX|]. split; [exact FX|]. split; [exact EZ|]. split; [exact FZ|]. split; [exact SW|]. split; [exact PW|].
  split; [rewrite length_make_real_vector, length_vectorize; destruct HY as (_ & -> & ->); lia|]. split; [intros k Hk; apply y_real_vec; auto|].
  cbv zeta. split; [exact PG|].
  assert (E : eiv_fim seeded mvn file (Some v) (Some i) vsd csd ratings Y ns laplacian =
    match fisher_info x z (Some X) (Some Z) Y with
    | Err e => Some (seeded, file, Err e)
    | Ok DivZero => None
    | Ok (Info fim cov) =>
        match mvn (make_real_vector (vectorize_matrix Y)) cov match ns with None => (100 * 100)%nat | Some k => k end seeded with
        | (Err e, g) => Some (g, file, Err e)
        | (Ok samples, g) => Some (g, Some (mkFim Y v i fim cov (err_std samples (make_real_vector (vectorize_matrix Y)))), Ok (fim, cov, err_std samples (make_real_vector (vectorize_matrix Y))))
        end
    end).
  { rewrite (centred_unique laplacian v x Hp' Hx). unfold eiv_fim. rewrite EX. cbn [bind]. rewrite EZ. cbn [bind]. rewrite (unflt_fin _ _ FX), (unflt_fin _ _ FZ). unfold z. destruct laplacian; reflexivity. }
  rewrite E. split; intros D.
  - destruct (G1 D) as (V & EV & SV & IV). exists V. split; [exact SV|]. split; [exact IV|]. rewrite EV. destruct (mvn _ V _ seeded) as [[s|e] g]; reflexivity.
  - rewrite (G2 D). reflexivity.
Qed.
End Run.
