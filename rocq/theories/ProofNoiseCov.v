(** Proofs about the noise covariances. *)
From Coq Require Import Arith Lia List Bool ZArith Reals Lra Psatz.
From Verif Require Import BasePy BaseFld BaseSum BaseMat BaseNumpy BaseReal BaseLin ModelMatrixOps ProofMatrixOps
  ModelErrorMetrics ModelNoiseCov SpecNoise.
Import ListNotations.
Local Open Scope R_scope.

(** ** Polar coordinates *)
Lemma cabs_nonneg : forall z, 0 <= cabs z.
Proof. intros. apply sqrt_pos. Qed.
Lemma cabs_sqr : forall z, cabs z ^ 2 = re z * re z + im z * im z.
Proof. intros z. unfold cabs. simpl. rewrite Rmult_1_r. apply sqrt_sqrt. nra. Qed.

Lemma cos_pos_atan : forall x, 0 < cos (atan x).
Proof. intros. apply cos_gt_0; generalize (atan_bound x); lra. Qed.
Lemma atan_tan' : forall x, sin (atan x) = x * cos (atan x).
Proof.
  intros. generalize (tan_atan x) (cos_pos_atan x). unfold tan. intros H P.
  apply (f_equal (fun u => u * cos (atan x))) in H. field_simplify in H; lra.
Qed.

Lemma half_line : forall a b m c s, 0 <= m -> 0 < c -> c * c + s * s = 1 -> m * m = a * a + b * b ->
  0 < a -> b * c = a * s -> a = m * c /\ b = m * s.
Proof.
  intros a b m c s Hm Hc H1 H2 Ha H3.
  assert (E : (m * c) * (m * c) = a * a).
  { replace ((m * c) * (m * c)) with ((m * m) * (c * c)) by ring. rewrite H2.
    replace ((a * a + b * b) * (c * c)) with (a * a * (c * c) + (b * c) * (b * c)) by ring. rewrite H3.
    replace (a * a * (c * c) + a * s * (a * s)) with (a * a * (c * c + s * s)) by ring. rewrite H1. ring. }
  assert (0 <= m * c) by nra.
  assert (Hac : a = m * c) by nra. split; auto.
  assert (b * c = m * s * c) by (rewrite H3, Hac; ring). nra.
Qed.

Lemma polar_angle : forall z, re z = cabs z * cos (angle z) /\ im z = cabs z * sin (angle z).
Proof.
  intros z. generalize (cabs_nonneg z) (cabs_sqr z). unfold angle. generalize (cabs z) (re z) (im z).
  intros m a b Hm H. simpl in H. rewrite Rmult_1_r in H.
  destruct (Rlt_dec 0 a) as [Ha|Ha].
  - apply half_line; auto using cos_pos_atan.
    + generalize (sin2_cos2 (atan (b / a))). unfold Rsqr. lra.
    + rewrite atan_tan'. field. lra.
  - destruct (Rlt_dec a 0) as [Hn|Hn].
    + assert (P : - a = m * cos (atan (b / a)) /\ - b = m * sin (atan (b / a))).
      { apply half_line; auto using cos_pos_atan; try lra.
        - generalize (sin2_cos2 (atan (b / a))). unfold Rsqr. lra.
        - rewrite atan_tan'. field. lra. }
      destruct P as [P1 P2].
      destruct (Rle_dec 0 b).
      * rewrite cos_plus, sin_plus, cos_PI, sin_PI. split; nra.
      * rewrite cos_minus, sin_minus, cos_PI, sin_PI. split; nra.
    + assert (a = 0) by lra. subst a. rewrite Rmult_0_l, Rplus_0_l in H.
      destruct (Rlt_dec 0 b); [|destruct (Rlt_dec b 0)].
      * rewrite cos_PI2, sin_PI2. split; nra.
      * rewrite cos_neg, sin_neg, cos_PI2, sin_PI2. split; nra.
      * assert (b = 0) by lra. subst b. rewrite cos_0, sin_0. split; nra.
Qed.

Lemma polar_same : forall z m f, polar z m f ->
  m ^ 2 = cabs z ^ 2 /\ cos f ^ 2 = cos (angle z) ^ 2 /\ sin f ^ 2 = sin (angle z) ^ 2 /\
  sin f * cos f = sin (angle z) * cos (angle z).
Proof.
  intros z m f (H1 & H2 & H3). generalize (sin2_cos2 f) (sin2_cos2 (angle z)). unfold Rsqr. intros T1 T2.
  destruct (polar_angle z) as [A1 A2].
  assert (M : m ^ 2 = cabs z ^ 2).
  { rewrite cabs_sqr, H1, H2. simpl. replace (m * cos f * (m * cos f) + m * sin f * (m * sin f)) with (m * m * (sin f * sin f + cos f * cos f)) by ring.
    rewrite T1. ring. }
  split; auto.
  destruct (Req_dec m 0) as [E|E].
  - subst m. destruct H3 as [H3|H3]; [lra|]. subst f.
    assert (Ang : angle z = 0).
    { unfold angle. rewrite H1, H2, !Rmult_0_l.
      destruct (Rlt_dec 0 0); [lra|]. destruct (Rlt_dec 0 0); [lra|]. reflexivity. }
    rewrite Ang. auto.
  - assert (S : m = cabs z \/ m = - cabs z).
    { assert ((m - cabs z) * (m + cabs z) = 0) by (simpl in M; nra).
      apply Rmult_integral in H. lra. }
    rewrite H1 in A1. rewrite H2 in A2.
    assert (Q : (cos f = cos (angle z) /\ sin f = sin (angle z)) \/ (cos f = - cos (angle z) /\ sin f = - sin (angle z))).
    { destruct S as [S|S]; [left|right]; split; apply (Rmult_eq_reg_l m); auto; rewrite ?A1, ?A2, S; ring. }
    destruct Q as [[-> ->]|[-> ->]]; repeat split; ring.
Qed.

Lemma polar_self : forall z, polar z (cabs z) (angle z).
Proof.
  intros z. destruct (polar_angle z) as [A B]. repeat split; auto.
  destruct (Req_dec (cabs z) 0) as [E|E]; auto. right.
  unfold angle. rewrite A, B, E, !Rmult_0_l.
  destruct (Rlt_dec 0 0); [lra|]. destruct (Rlt_dec 0 0); [lra|]. reflexivity.
Qed.

(** ** The kernels in their eigenbasis *)
(** [rotated C S R T r i c]: (r c; c i) = Rot diag(R,T) Rot^T for the rotation with cosine C, sine S *)
Definition rotated (c2 s2 sc Rr Tt r i c : R) : Prop :=
  r = c2 * Rr + s2 * Tt /\ i = s2 * Rr + c2 * Tt /\ c = sc * (Rr - Tt).

Lemma exp_sq : forall s, exp (- s / 2) * exp (- s / 2) = exp (- s).
Proof. intros. rewrite <- exp_plus. f_equal. field. Qed.
Lemma exp_2 : forall s, exp (- 2 * s) = exp (- s) * exp (- s).
Proof. intros. rewrite <- exp_plus. f_equal. ring. Qed.
Lemma exp_2' : forall s, exp (- (2 * s)) = exp (- s) * exp (- s).
Proof. intros. rewrite <- exp_plus. f_equal. ring. Qed.
Lemma exp_4 : forall s, exp (- 4 * s) = exp (- s) * exp (- s) * (exp (- s) * exp (- s)).
Proof. intros. rewrite <- !exp_plus. f_equal. ring. Qed.
Lemma exp_1 : forall s, exp s = / exp (- s).
Proof. intros. rewrite exp_Ropp, Rinv_inv. reflexivity. Qed.
Lemma exp_p2 : forall s, exp (2 * s) = / (exp (- s) * exp (- s)).
Proof. intros. rewrite <- exp_plus, <- exp_Ropp. f_equal. ring. Qed.
Lemma exp_q : forall s, 0 <= s -> 0 < exp (- s) <= 1.
Proof.
  intros s H. split; [apply exp_pos|]. destruct (Rle_lt_or_eq_dec _ _ H) as [L|E].
  - left. assert (X : exp (- s) < exp 0) by (apply exp_increasing; lra). rewrite exp_0 in X. lra.
  - subst. rewrite Ropp_0, exp_0. lra.
Qed.
Lemma exp_q1 : forall s, 0 < s -> exp (- s) < 1.
Proof. intros s H. assert (X : exp (- s) < exp 0) by (apply exp_increasing; lra). rewrite exp_0 in X. lra. Qed.

Definition exact_R m2 v q := (m2 + v) * (1 + q * q) / 2 - m2 * q.
Definition exact_T m2 v q := (m2 + v) * (1 - q * q) / 2.
Definition avg_R m2 v q := (m2 + 2 * v) * (1 + q * q * (q * q)) / 2 - (m2 + v) * (q + q * q * q) / 2.
Definition avg_T m2 v q := (m2 + 2 * v) * (1 - q * q * (q * q)) / 2 - (m2 + v) * (q - q * q * q) / 2.

Section Kernels.
Variables (z : C) (sm sp : R).
Let m2 := cabs z ^ 2.
Let v := sm ^ 2.
Let q := exp (- sp ^ 2).
Let c2 := cos (angle z) ^ 2.
Let s2 := sin (angle z) ^ 2.
Let sc := sin (angle z) * cos (angle z).

Lemma q_pos : 0 < q.
Proof. apply exp_pos. Qed.

Ltac kern := unfold rotated, c2, s2, sc, exact_column, exact_all, naive_column, naive_all, average_kernel, average_true_var_real,
  average_true_var_imag, average_true_cov, exact_R, exact_T, avg_R, avg_T; cbn [k_real k_imag k_cov]; cbv zeta; unfold cosh, sinh;
  rewrite ?exp_2, ?exp_4, ?exp_2', ?exp_p2, ?(exp_1 (sp ^ 2)); fold q; fold v; fold m2; assert (q <> 0) by (generalize q_pos; lra);
  split; [|split]; field; auto.

Lemma exact_column_rot : rotated c2 s2 sc (exact_R m2 v q) (exact_T m2 v q)
  (k_real exact_column z sm sp) (k_imag exact_column z sm sp) (k_cov exact_column z sm sp).
Proof. kern. Qed.
Lemma exact_all_rot : rotated c2 s2 sc (exact_R m2 v q) (exact_T m2 v q)
  (k_real exact_all z sm sp) (k_imag exact_all z sm sp) (k_cov exact_all z sm sp).
Proof. kern. Qed.
Lemma naive_column_rot : rotated c2 s2 sc v (m2 * sp ^ 2)
  (k_real naive_column z sm sp) (k_imag naive_column z sm sp) (k_cov naive_column z sm sp).
Proof. kern. Qed.
Lemma naive_all_rot : rotated c2 s2 sc v (m2 * sp ^ 2)
  (k_real naive_all z sm sp) (k_imag naive_all z sm sp) (k_cov naive_all z sm sp).
Proof. kern. Qed.
Lemma average_rot : rotated c2 s2 sc (avg_R m2 v q) (avg_T m2 v q)
  (k_real average_kernel z sm sp) (k_imag average_kernel z sm sp) (k_cov average_kernel z sm sp).
Proof. kern. Qed.
End Kernels.

(** ** Block matrices with diagonal blocks *)
Definition rbmat (N : nat) (r i c : nat -> R) : mat R :=
  mk (N + N) (N + N) (fun a b =>
    if Nat.ltb a N
    then (if Nat.ltb b N then (if Nat.eqb a b then r a else 0)
          else (if Nat.eqb a (b - N) then c a else 0))
    else (if Nat.ltb b N then (if Nat.eqb (a - N) b then c b else 0)
          else (if Nat.eqb a b then i (a - N)%nat else 0))).

Lemma shape_rbmat : forall N r i c, shape (rbmat N r i c) (N + N) (N + N).
Proof. intros. apply shape_mk. Qed.

Ltac nats := repeat match goal with
  | |- context [Nat.ltb ?a ?b] => destruct (Nat.ltb_spec a b); try lia
  | |- context [Nat.eqb ?a ?b] => destruct (Nat.eqb_spec a b); try lia
  end.

Section RB.
Variables (N : nat) (r i c : nat -> R).
Let M := rbmat N r i c.
Lemma rb_rr : forall k k', (k < N)%nat -> (k' < N)%nat -> get M k k' = if Nat.eqb k k' then r k else 0.
Proof. intros. unfold M, rbmat. rewrite get_mk by lia. nats; reflexivity. Qed.
Lemma rb_ii : forall k k', (k < N)%nat -> (k' < N)%nat -> get M (N + k) (N + k') = if Nat.eqb k k' then i k else 0.
Proof. intros. unfold M, rbmat. rewrite get_mk by lia. nats; auto. f_equal. lia. Qed.
Lemma rb_ri : forall k k', (k < N)%nat -> (k' < N)%nat -> get M k (N + k') = if Nat.eqb k k' then c k else 0.
Proof. intros. unfold M, rbmat. rewrite get_mk by lia. nats; auto. Qed.
Lemma rb_ir : forall k k', (k < N)%nat -> (k' < N)%nat -> get M (N + k) k' = if Nat.eqb k k' then c k' else 0.
Proof. intros. unfold M, rbmat. rewrite get_mk by lia. nats; auto. Qed.

(** rows of products *)
Lemma sum_block : forall f : nat -> R, sumn (N + N) f = sumn N f + sumn N (fun k => f (N + k)%nat).
Proof. intros f. exact (sumn_plus N N f). Qed.

Lemma rb_row : forall k (f : nat -> R), (k < N)%nat ->
  sumn (N + N) (fun b => get M k b * f b) = r k * f k + c k * f (N + k)%nat.
Proof.
  intros k f Hk. rewrite sum_block. f_equal.
  - rewrite (sumn_single N k) by (auto; intros; rewrite rb_rr by auto; nats; runfold; try congruence; ring).
    rewrite rb_rr, Nat.eqb_refl by auto. reflexivity.
  - rewrite (sumn_single N k) by (auto; intros; rewrite rb_ri by auto; nats; runfold; try congruence; ring).
    rewrite rb_ri, Nat.eqb_refl by auto. reflexivity.
Qed.
Lemma rb_row' : forall k (f : nat -> R), (k < N)%nat ->
  sumn (N + N) (fun b => get M (N + k) b * f b) = c k * f k + i k * f (N + k)%nat.
Proof.
  intros k f Hk. rewrite sum_block. f_equal.
  - rewrite (sumn_single N k) by (auto; intros; rewrite rb_ir by auto; nats; runfold; try congruence; ring).
    rewrite rb_ir, Nat.eqb_refl by auto. reflexivity.
  - rewrite (sumn_single N k) by (auto; intros; rewrite rb_ii by auto; nats; runfold; try congruence; ring).
    rewrite rb_ii, Nat.eqb_refl by auto. reflexivity.
Qed.

Lemma rb_sym : tr M = M.
Proof.
  apply (gshape_ext _ _ (N + N) (N + N)); [apply shape_mk|apply shape_rbmat|].
  intros a b Ha Hb. rewrite get_tr by (cbn; lia). unfold M, rbmat. rewrite !get_mk by lia.
  nats; subst; auto; f_equal; lia.
Qed.

Lemma rb_quad : forall v, length v = (N + N)%nat ->
  quad M v = sumn N (fun k => r k * vget v k ^ 2 + 2 * c k * (vget v k * vget v (N + k)) + i k * vget v (N + k) ^ 2).
Proof.
  intros v Hv. unfold quad, vdot. rewrite Hv, sum_block, <- sumR_add.
  apply sumn_ext. intros k Hk. rewrite !vget_mvmul by (cbn; lia).
  change (nc M) with (N + N)%nat. rewrite rb_row, rb_row' by auto. runfold. ring.
Qed.

(** A right inverse forces every 2x2 block to be non-singular *)
Lemma rb_det : forall T, shape T (N + N) (N + N) -> mmul M T = meye (N + N) ->
  forall k, (k < N)%nat -> r k * i k - c k * c k <> 0.
Proof.
  intros T HT E k Hk D.
  assert (G : forall a b, (a < N + N)%nat -> (b < N + N)%nat ->
    sumn (N + N) (fun x => get M a x * get T x b) = if Nat.eqb a b then 1 else 0).
  { intros a b Ha Hb. destruct HT as (_ & _ & HT). generalize (f_equal (fun X => get X a b) E).
    rewrite get_mmul, get_meye by (cbn; lia). auto. }
  generalize (G k k ltac:(lia) ltac:(lia)) (G (N + k)%nat k ltac:(lia) ltac:(lia))
             (G k (N + k)%nat ltac:(lia) ltac:(lia)) (G (N + k)%nat (N + k)%nat ltac:(lia) ltac:(lia)).
  rewrite !rb_row, !rb_row' by auto. nats. intros E1 E2 E3 E4.
  set (x := get T k k) in *. set (y := get T (N + k) k) in *. set (u := get T k (N + k)) in *. set (w := get T (N + k) (N + k)) in *.
  assert (I : i k = 0).
  { assert (A : i k * (r k * x + c k * y) - c k * (c k * x + i k * y) = (r k * i k - c k * c k) * x) by ring.
    rewrite E1, E2, D in A. lra. }
  rewrite I in *. assert (c k = 0) by nra. rewrite H in *. lra.
Qed.

End RB.

Lemma rb_inverse : forall N r i c, (forall k, (k < N)%nat -> r k * i k - c k * c k <> 0) ->
  mmul (rbmat N r i c) (rbmat N (fun k => i k / (r k * i k - c k * c k)) (fun k => r k / (r k * i k - c k * c k))
                  (fun k => - c k / (r k * i k - c k * c k))) = meye (N + N).
Proof.
  intros N r i c D. apply (gshape_ext _ _ (N + N) (N + N)); [apply shape_mk|apply shape_meye|].
  intros a b Ha Hb. rewrite get_mmul, get_meye by (cbn; lia). change (nc (rbmat N r i c)) with (N + N)%nat.
  assert (CA : exists k, (k < N)%nat /\ (a = k \/ a = N + k)%nat).
  { destruct (lt_dec a N); [exists a|exists (a - N)%nat]; lia. }
  assert (CB : exists k, (k < N)%nat /\ (b = k \/ b = N + k)%nat).
  { destruct (lt_dec b N); [exists b|exists (b - N)%nat]; lia. }
  destruct CA as (k & Hk & [->| ->]); destruct CB as (l & Hl & [->| ->]);
    rewrite ?(rb_row N r i c), ?(rb_row' N r i c) by auto; rewrite ?rb_rr, ?rb_ri, ?rb_ir, ?rb_ii by auto;
    generalize (D k Hk) (D l Hl); intros D1 D2; nats; subst; runfold; try ring; field; auto.
Qed.

(** ** The matrices returned *)
Lemma fnth_map : forall N (g : nat -> flt) k, (k < N)%nat -> fnth (map g (range N)) k = g k.
Proof. intros. unfold fnth. apply nth_map_range; auto. Qed.

Lemma mmap_mk : forall T U (f : T -> U) a b (g : nat -> nat -> T), mmap f (mk a b g) = mk a b (fun i j => f (g i j)).
Proof.
  intros. unfold mmap, mk. cbn [nr nc dat]. f_equal. rewrite map_map. apply map_ext. intros. rewrite map_map. reflexivity.
Qed.

Lemma sparse_bmat_fin : forall N r i c,
  sparse_bmat (map (fun k => Fin (r k)) (range N)) (map (fun k => Fin (i k)) (range N)) (map (fun k => Fin (c k)) (range N)) =
  mmap Fin (rbmat N r i c).
Proof.
  intros. unfold sparse_bmat, rbmat. rewrite mmap_mk, map_length, length_range.
  apply mk_ext. intros a b Ha Hb. nats; rewrite ?fnth_map by lia; try reflexivity.
Qed.

Lemma finish_false : forall r i c,
  finish_covariance false r i c = mmap Fin (rbmat (length r) (vget r) (vget i) (vget c)).
Proof.
  intros. unfold finish_covariance. rewrite !map_map. cbn [fst snd].
  exact (sparse_bmat_fin (length r) (vget r) (vget i) (vget c)).
Qed.

Lemma invert_entry_fin : forall r i c, r <> 0 -> i <> 0 -> r * i - c * c <> 0 ->
  invert_entry (Fin r) (Fin i) (Fin c) =
  (Fin (i / (r * i - c * c)), Fin (r / (r * i - c * c)), Fin (- c / (r * i - c * c))).
Proof.
  intros r i c Hr Hi Hd. unfold invert_entry, fquot, fdiv.
  destruct (Req_EM_T i 0); [contradiction|]. destruct (Req_EM_T r 0); [contradiction|]. cbn [f2].
  assert (A : r - c * (c / i) = (r * i - c * c) / i) by (field; auto).
  assert (B : i - c * (c / r) = (r * i - c * c) / r) by (field; auto).
  destruct (Req_EM_T (r - c * (c / i)) 0) as [E|E].
  { exfalso. rewrite A in E. apply (Rmult_integral_contrapositive (r * i - c * c) (/ i)); auto. split; auto. apply Rinv_neq_0_compat; auto. }
  destruct (Req_EM_T (i - c * (c / r)) 0) as [E'|E'].
  { exfalso. rewrite B in E'. apply (Rmult_integral_contrapositive (r * i - c * c) (/ r)); auto. split; auto. apply Rinv_neq_0_compat; auto. }
  cbn [f2 fneg]. rewrite A, B. f_equal; [f_equal|]; f_equal; field; auto.
Qed.

Lemma finish_true : forall r i c,
  (forall k, (k < length r)%nat -> vget r k <> 0 /\ vget i k <> 0 /\ vget r k * vget i k - vget c k * vget c k <> 0) ->
  finish_covariance true r i c = mmap Fin (rbmat (length r)
    (fun k => vget i k / (vget r k * vget i k - vget c k * vget c k))
    (fun k => vget r k / (vget r k * vget i k - vget c k * vget c k))
    (fun k => - vget c k / (vget r k * vget i k - vget c k * vget c k))).
Proof.
  intros r i c H. unfold finish_covariance. rewrite !map_map. cbn [fst snd].
  rewrite <- sparse_bmat_fin. f_equal; apply map_range_ext; intros k Hk; destruct (H k Hk) as (H1 & H2 & H3);
    rewrite invert_entry_fin by auto; reflexivity.
Qed.

Definition kernel_eq (k1 k2 : kernel) : Prop :=
  forall z sm sp, k_real k1 z sm sp = k_real k2 z sm sp /\ k_imag k1 z sm sp = k_imag k2 z sm sp /\ k_cov k1 z sm sp = k_cov k2 z sm sp.

Definition entries (g : C -> R -> R -> R) (M : mat C) (s : nat -> R) (sp : R) : list R :=
  vectorize_matrix (mk (nr M) (nc M) (fun t i => g (get M t i) (s i) sp)).

Lemma length_entries : forall g M s sp, length (entries g M s sp) = (nr M * nc M)%nat.
Proof. intros. unfold entries. rewrite length_vectorize. reflexivity. Qed.

Lemma vget_entries : forall g M s sp t i, (t < nr M)%nat -> (i < nc M)%nat ->
  vget (entries g M s sp) (i * nr M + t) = g (get M t i) (s i) sp.
Proof.
  intros g M s sp t i Ht Hi. unfold entries.
  generalize (vget_vectorize (mk (nr M) (nc M) (fun t i => g (get M t i) (s i) sp)) t i Ht Hi).
  cbn [nr mk]. intros ->. rewrite get_mk by auto. reflexivity.
Qed.

Lemma idx_split : forall T n k, (k < T * n)%nat -> exists t i, (t < T)%nat /\ (i < n)%nat /\ k = (i * T + t)%nat.
Proof.
  intros T n k H. rewrite Nat.mul_comm in H. destruct (divmod_bound k n T H) as (A & B & E).
  exists (k mod T)%nat, (k / T)%nat. auto.
Qed.

Lemma broadcast_single : forall A B (f : C -> A -> B) (v : list C) x, broadcast1 f v [x] = Ok (map (fun z => f z x) v).
Proof.
  intros A B f v x. unfold broadcast1. destruct v as [|a [|b v]]; reflexivity.
Qed.

Lemma map_vectorize_entries : forall g M x sp,
  map (fun z => g z x sp) (vectorize_matrix M) = entries g M (fun _ => x) sp.
Proof.
  intros. unfold entries, vectorize_matrix. cbn [nr nc mk].
  rewrite (flat_map_concat_map _ (range (nc M))), concat_map, map_map, flat_map_concat_map. f_equal.
  apply map_range_ext. intros j Hj. rewrite map_map. apply map_range_ext. intros a Ha. rewrite get_mk by auto. reflexivity.
Qed.

Lemma covariance_eq : forall column all M sd sp inv s, kernel_eq column all -> sd_means (nc M) sd s ->
  covariance column all M sd sp inv =
  Ok (finish_covariance inv (entries (k_real column) M s sp) (entries (k_imag column) M s sp) (entries (k_cov column) M s sp)).
Proof.
  intros column all M sd sp inv s HK Hs.
  assert (EQ : forall x, (map (fun z => k_real all z x sp) (vectorize_matrix M) = entries (k_real column) M (fun _ => x) sp) /\
     (map (fun z => k_imag all z x sp) (vectorize_matrix M) = entries (k_imag column) M (fun _ => x) sp) /\
     (map (fun z => k_cov all z x sp) (vectorize_matrix M) = entries (k_cov column) M (fun _ => x) sp)).
  { intros x. rewrite <- !map_vectorize_entries. repeat split; apply map_ext; intros z; destruct (HK z x sp) as (A & B & D); auto. }
  destruct Hs as [x|x Hn|l Hl]; unfold covariance.
  - rewrite !broadcast_single. cbn [bind]. destruct (EQ x) as (-> & -> & ->). reflexivity.
  - destruct (Nat.eqb_spec 1 (nc M)); [lia|]. rewrite !broadcast_single. cbn [bind]. destruct (EQ x) as (-> & -> & ->). reflexivity.
  - rewrite Hl, Nat.eqb_refl. reflexivity.
Qed.

Lemma exact_same : kernel_eq exact_column exact_all.
Proof. intros z sm sp. repeat split. Qed.
Lemma naive_same : kernel_eq naive_column naive_all.
Proof. intros z sm sp. repeat split. Qed.
Lemma average_same : kernel_eq average_kernel average_kernel.
Proof. intros z sm sp. repeat split. Qed.

Lemma stacked_rbmat : forall M s sp g1 g2 g3 N, N = (nr M * nc M)%nat ->
  stacked (nr M) (nc M) (rbmat N (vget (entries g1 M s sp)) (vget (entries g2 M s sp)) (vget (entries g3 M s sp)))
    (fun t i => g1 (get M t i) (s i) sp) (fun t i => g2 (get M t i) (s i) sp) (fun t i => g3 (get M t i) (s i) sp).
Proof.
  intros M s sp g1 g2 g3 N ->. set (N := (nr M * nc M)%nat). split.
  - replace (2 * (nr M * nc M))%nat with (N + N)%nat by (unfold N; lia). apply shape_rbmat.
  - intros t i t' i' Ht Hi Ht' Hi' k k' N' same.
    assert (Hk : (k < N)%nat) by (unfold k, N; nia).
    assert (Hk' : (k' < N)%nat) by (unfold k', N; nia).
    assert (ES : Nat.eqb k k' = same).
    { unfold same, k, k'. destruct (Nat.eqb_spec t t') as [->|Nt]; destruct (Nat.eqb_spec i i') as [->|Ni]; cbn.
      - apply Nat.eqb_refl.
      - apply Nat.eqb_neq. nia.
      - apply Nat.eqb_neq. lia.
      - apply Nat.eqb_neq. nia. }
    change N' with N. rewrite rb_rr, rb_ii, rb_ri, rb_ir by auto. rewrite ES.
    destruct same eqn:Es; [|auto].
    assert (t = t' /\ i = i') as [<- <-].
    { unfold same in Es. apply andb_true_iff in Es. destruct Es as [A B]. apply Nat.eqb_eq in A, B. auto. }
    unfold k, k'. rewrite !vget_entries by auto. auto.
Qed.

Theorem covariance_stacked : forall column all M sd sp s, kernel_eq column all -> sd_means (nc M) sd s ->
  exists S Q, covariance column all M sd sp false = Ok S /\ finite S Q /\
  stacked (nr M) (nc M) Q (fun t i => k_real column (get M t i) (s i) sp)
    (fun t i => k_imag column (get M t i) (s i) sp) (fun t i => k_cov column (get M t i) (s i) sp).
Proof.
  intros column all M sd sp s HK Hs. rewrite (covariance_eq _ _ _ _ _ _ s HK Hs). rewrite finish_false.
  eexists. eexists. split; [reflexivity|]. split; [split; [|reflexivity]|].
  - apply shape_rbmat.
  - rewrite length_entries. apply stacked_rbmat. reflexivity.
Qed.

(** ** Validity of the covariances *)
Definition psd_kernel (k : kernel) : Prop := forall z sm sp, exists Rr Tt, 0 <= Rr /\ 0 <= Tt /\
  rotated (cos (angle z) ^ 2) (sin (angle z) ^ 2) (sin (angle z) * cos (angle z)) Rr Tt
    (k_real k z sm sp) (k_imag k z sm sp) (k_cov k z sm sp).
Definition pd_at (k : kernel) (z : C) (sm sp : R) : Prop := exists Rr Tt, 0 < Rr /\ 0 < Tt /\
  rotated (cos (angle z) ^ 2) (sin (angle z) ^ 2) (sin (angle z) * cos (angle z)) Rr Tt
    (k_real k z sm sp) (k_imag k z sm sp) (k_cov k z sm sp).

Lemma pow2_nonneg : forall x, 0 <= x ^ 2.
Proof. intros. simpl. nra. Qed.
Lemma pow2_pos : forall x, x <> 0 -> 0 < x ^ 2.
Proof. intros. simpl. nra. Qed.

Lemma q_bounds : forall sp, 0 < exp (- sp ^ 2) <= 1.
Proof. intros. apply exp_q. apply pow2_nonneg. Qed.
Lemma q_lt1 : forall sp, sp <> 0 -> exp (- sp ^ 2) < 1.
Proof. intros. apply exp_q1. apply pow2_pos; auto. Qed.

Section Signs.
Variables m2 v q : R.
Hypothesis Hm : 0 <= m2.
Hypothesis Hv : 0 <= v.
Hypothesis Hq : 0 < q <= 1.
Let q2 : 0 <= q * q <= 1. Proof. nra. Qed.
Let q3 : 0 <= q * q * q <= 1. Proof. split; [nra|]. assert (q * q * q <= 1 * q) by nra. lra. Qed.
Let q4 : 0 <= q * q * (q * q) <= 1. Proof. generalize q2. intros. split; nra. Qed.

Lemma exact_R_eq : exact_R m2 v q = m2 * ((1 - q) * (1 - q)) / 2 + v * (1 + q * q) / 2.
Proof. unfold exact_R. field. Qed.
Lemma avg_R_eq : avg_R m2 v q = (m2 * ((1 - q) * (1 - q * q * q)) + v * ((1 - q) * (1 - q * q * q) + 1 + q * q * (q * q))) / 2.
Proof. unfold avg_R. field. Qed.
Lemma avg_T_eq : avg_T m2 v q = (m2 * ((1 - q) * (1 + q * q * q)) + v * ((1 - q) * (1 + q * q * q) + (1 - q * q * (q * q)))) / 2.
Proof. unfold avg_T. field. Qed.

Lemma exact_R_nonneg : 0 <= exact_R m2 v q.
Proof. rewrite exact_R_eq. assert (0 <= m2 * ((1 - q) * (1 - q))) by (apply Rmult_le_pos; nra). assert (0 <= v * (1 + q * q)) by (apply Rmult_le_pos; nra). lra. Qed.
Lemma exact_T_nonneg : 0 <= exact_T m2 v q.
Proof. unfold exact_T. assert (0 <= (m2 + v) * (1 - q * q)) by (apply Rmult_le_pos; lra). lra. Qed.
Lemma avg_R_nonneg : 0 <= avg_R m2 v q.
Proof.
  rewrite avg_R_eq. assert (A : 0 <= (1 - q) * (1 - q * q * q)) by (apply Rmult_le_pos; lra).
  assert (0 <= m2 * ((1 - q) * (1 - q * q * q))) by (apply Rmult_le_pos; lra).
  assert (0 <= v * ((1 - q) * (1 - q * q * q) + 1 + q * q * (q * q))) by (apply Rmult_le_pos; lra). lra.
Qed.
Lemma avg_T_nonneg : 0 <= avg_T m2 v q.
Proof.
  rewrite avg_T_eq. assert (A : 0 <= (1 - q) * (1 + q * q * q)) by (apply Rmult_le_pos; lra).
  assert (0 <= m2 * ((1 - q) * (1 + q * q * q))) by (apply Rmult_le_pos; lra).
  assert (0 <= v * ((1 - q) * (1 + q * q * q) + (1 - q * q * (q * q)))) by (apply Rmult_le_pos; lra). lra.
Qed.
Hypothesis Hv' : 0 < v.
Lemma exact_R_pos : 0 < exact_R m2 v q.
Proof. rewrite exact_R_eq. assert (0 <= m2 * ((1 - q) * (1 - q))) by (apply Rmult_le_pos; nra). assert (0 < v * (1 + q * q)) by (apply Rmult_lt_0_compat; lra). lra. Qed.
Lemma avg_R_pos : 0 < avg_R m2 v q.
Proof.
  rewrite avg_R_eq. assert (A : 0 <= (1 - q) * (1 - q * q * q)) by (apply Rmult_le_pos; lra).
  assert (0 <= m2 * ((1 - q) * (1 - q * q * q))) by (apply Rmult_le_pos; lra).
  assert (0 < v * ((1 - q) * (1 - q * q * q) + 1 + q * q * (q * q))) by (apply Rmult_lt_0_compat; lra). lra.
Qed.
Hypothesis Hq' : q < 1.
Lemma exact_T_pos : 0 < exact_T m2 v q.
Proof. unfold exact_T. assert (0 < (m2 + v) * (1 - q * q)) by (apply Rmult_lt_0_compat; nra). lra. Qed.
Lemma avg_T_pos : 0 < avg_T m2 v q.
Proof.
  rewrite avg_T_eq. assert (A : 0 < (1 - q) * (1 + q * q * q)) by (apply Rmult_lt_0_compat; lra).
  assert (0 <= m2 * ((1 - q) * (1 + q * q * q))) by (apply Rmult_le_pos; lra).
  assert (0 < v * ((1 - q) * (1 + q * q * q) + (1 - q * q * (q * q)))) by (apply Rmult_lt_0_compat; lra). lra.
Qed.
End Signs.

Lemma exact_psd : psd_kernel exact_column.
Proof.
  intros z sm sp. exists (exact_R (cabs z ^ 2) (sm ^ 2) (exp (- sp ^ 2))), (exact_T (cabs z ^ 2) (sm ^ 2) (exp (- sp ^ 2))).
  split; [apply exact_R_nonneg|split; [apply exact_T_nonneg|apply exact_column_rot]]; auto using pow2_nonneg, q_bounds.
Qed.
Lemma naive_psd : psd_kernel naive_column.
Proof.
  intros z sm sp. exists (sm ^ 2), (cabs z ^ 2 * sp ^ 2).
  split; [apply pow2_nonneg|split; [apply Rmult_le_pos; apply pow2_nonneg|apply naive_column_rot]].
Qed.
Lemma average_psd : psd_kernel average_kernel.
Proof.
  intros z sm sp. exists (avg_R (cabs z ^ 2) (sm ^ 2) (exp (- sp ^ 2))), (avg_T (cabs z ^ 2) (sm ^ 2) (exp (- sp ^ 2))).
  split; [apply avg_R_nonneg|split; [apply avg_T_nonneg|apply average_rot]]; auto using pow2_nonneg, q_bounds.
Qed.

Lemma exact_pd : forall z sm sp, sm <> 0 -> sp <> 0 -> pd_at exact_column z sm sp.
Proof.
  intros z sm sp Hm Hp. exists (exact_R (cabs z ^ 2) (sm ^ 2) (exp (- sp ^ 2))), (exact_T (cabs z ^ 2) (sm ^ 2) (exp (- sp ^ 2))).
  split; [apply exact_R_pos|split; [apply exact_T_pos|apply exact_column_rot]]; auto using pow2_nonneg, q_bounds, pow2_pos, q_lt1.
Qed.
Lemma cabs_nz : forall z : C, z <> 0%K -> cabs z <> 0.
Proof.
  intros z Hz E. apply Hz. generalize (cabs_sqr z). rewrite E. intro H.
  assert (re z = 0 /\ im z = 0) as [A B] by nra. destruct z as [a b]. cbn in A, B. subst. reflexivity.
Qed.
Lemma naive_pd : forall z sm sp, sm <> 0 -> sp <> 0 -> z <> 0%K -> pd_at naive_column z sm sp.
Proof.
  intros z sm sp Hm Hp Hz. exists (sm ^ 2), (cabs z ^ 2 * sp ^ 2).
  split; [apply pow2_pos; auto|split; [|apply naive_column_rot]].
  apply Rmult_lt_0_compat; apply pow2_pos; auto using cabs_nz.
Qed.
Lemma average_pd : forall z sm sp, sm <> 0 -> sp <> 0 -> pd_at average_kernel z sm sp.
Proof.
  intros z sm sp Hm Hp. exists (avg_R (cabs z ^ 2) (sm ^ 2) (exp (- sp ^ 2))), (avg_T (cabs z ^ 2) (sm ^ 2) (exp (- sp ^ 2))).
  split; [apply avg_R_pos|split; [apply avg_T_pos|apply average_rot]]; auto using pow2_nonneg, q_bounds, pow2_pos, q_lt1.
Qed.

Lemma trig2 : forall f, cos f ^ 2 + sin f ^ 2 = 1.
Proof. intros. generalize (sin2_cos2 f). unfold Rsqr. simpl. lra. Qed.

Lemma rotated_det : forall f Rr Tt r i c, rotated (cos f ^ 2) (sin f ^ 2) (sin f * cos f) Rr Tt r i c ->
  r * i - c * c = Rr * Tt.
Proof.
  intros f Rr Tt r i c (-> & -> & ->). generalize (trig2 f). simpl. generalize (cos f) (sin f). intros a b E.
  transitivity (Rr * Tt * ((a * (a * 1) + b * (b * 1)) * (a * (a * 1) + b * (b * 1)))); [ring|]. rewrite E. ring.
Qed.

Lemma rotated_form : forall f Rr Tt r i c x y, rotated (cos f ^ 2) (sin f ^ 2) (sin f * cos f) Rr Tt r i c ->
  r * x ^ 2 + 2 * c * (x * y) + i * y ^ 2 = Rr * (cos f * x + sin f * y) ^ 2 + Tt * (sin f * x - cos f * y) ^ 2.
Proof. intros f Rr Tt r i c x y (-> & -> & ->). ring. Qed.

Lemma rotated_nonneg : forall f Rr Tt r i c, 0 <= Rr -> 0 <= Tt -> rotated (cos f ^ 2) (sin f ^ 2) (sin f * cos f) Rr Tt r i c ->
  0 <= r /\ 0 <= i /\ 0 <= r * i - c * c.
Proof.
  intros f Rr Tt r i c HR HT H. rewrite (rotated_det _ _ _ _ _ _ H). destruct H as (-> & -> & ->).
  generalize (pow2_nonneg (cos f)) (pow2_nonneg (sin f)). intros. repeat split; nra.
Qed.

(** a zero variance comes with a zero covariance *)
Lemma kernel_zero_cov : forall k z sm sp, psd_kernel k -> k_real k z sm sp = 0 \/ k_imag k z sm sp = 0 -> k_cov k z sm sp = 0.
Proof.
  intros k z sm sp H E. destruct (H z sm sp) as (Rr & Tt & HR & HT & Hr).
  destruct (rotated_nonneg _ _ _ _ _ _ HR HT Hr) as (_ & _ & D). destruct E as [E|E]; rewrite E in D; nra.
Qed.

Lemma rotated_pos : forall f Rr Tt r i c x y, 0 < Rr -> 0 < Tt -> rotated (cos f ^ 2) (sin f ^ 2) (sin f * cos f) Rr Tt r i c ->
  x <> 0 \/ y <> 0 -> 0 < r * x ^ 2 + 2 * c * (x * y) + i * y ^ 2.
Proof.
  intros f Rr Tt r i c x y HR HT H Hxy. rewrite (rotated_form _ _ _ _ _ _ x y H).
  set (u := cos f * x + sin f * y). set (w := sin f * x - cos f * y).
  assert (N : u ^ 2 + w ^ 2 = x ^ 2 + y ^ 2).
  { unfold u, w. generalize (trig2 f). intros T. transitivity ((cos f ^ 2 + sin f ^ 2) * (x ^ 2 + y ^ 2)); [ring|]. rewrite T. ring. }
  assert (0 < x ^ 2 + y ^ 2).
  { generalize (pow2_nonneg x) (pow2_nonneg y). destruct Hxy as [P|P]; generalize (pow2_pos _ P); lra. }
  generalize (pow2_nonneg u) (pow2_nonneg w). intros. 
  assert (0 <= Rr * u ^ 2) by (apply Rmult_le_pos; lra). assert (0 <= Tt * w ^ 2) by (apply Rmult_le_pos; lra).
  destruct (Rle_lt_dec (u ^ 2) 0).
  - assert (0 < Tt * w ^ 2) by (apply Rmult_lt_0_compat; lra). lra.
  - assert (0 < Rr * u ^ 2) by (apply Rmult_lt_0_compat; lra). lra.
Qed.

Lemma bounded_dec : forall N (P : nat -> Prop), (forall k, P k \/ ~ P k) ->
  (exists k, (k < N)%nat /\ P k) \/ (forall k, (k < N)%nat -> ~ P k).
Proof.
  intros N P D. induction N as [|N [(k & Hk & H)|H]].
  - right. intros; lia.
  - left. exists k. auto.
  - destruct (D N) as [HN|HN]; [left; exists N; auto|right].
    intros k Hk. destruct (Nat.eq_dec k N) as [->|]; auto. apply H. lia.
Qed.

Section Cov.
Variables (column all : kernel) (M : mat C) (sd : sdarg) (sp : R) (s : nat -> R).
Hypothesis HK : kernel_eq column all.
Hypothesis Hs : sd_means (nc M) sd s.
Let N := (nr M * nc M)%nat.
Let r := entries (k_real column) M s sp.
Let i := entries (k_imag column) M s sp.
Let c := entries (k_cov column) M s sp.
Let Q := rbmat N (vget r) (vget i) (vget c).

Lemma cov_false : covariance column all M sd sp false = Ok (mmap Fin Q).
Proof.
  rewrite (covariance_eq _ _ _ _ _ _ s HK Hs), finish_false. unfold Q, N, r. rewrite length_entries. reflexivity.
Qed.

Lemma entry_at : forall k, (k < N)%nat -> exists t j, (t < nr M)%nat /\ (j < nc M)%nat /\
  vget r k = k_real column (get M t j) (s j) sp /\ vget i k = k_imag column (get M t j) (s j) sp /\
  vget c k = k_cov column (get M t j) (s j) sp.
Proof.
  intros k Hk. destruct (idx_split _ _ _ Hk) as (t & j & Ht & Hj & ->). exists t, j.
  unfold r, i, c. rewrite !vget_entries by auto. auto.
Qed.

Lemma cov_psd : psd_kernel column -> pos_semidef (2 * N) Q /\ forall k, (k < 2 * N)%nat -> 0 <= get Q k k.
Proof.
  intros HP. split.
  - intros v Hv. unfold Q. rewrite rb_quad by lia. apply sumR_nonneg. intros k Hk.
    destruct (entry_at k Hk) as (t & j & Ht & Hj & -> & -> & ->).
    destruct (HP (get M t j) (s j) sp) as (Rr & Tt & HR & HT & Hr).
    rewrite (rotated_form _ _ _ _ _ _ _ _ Hr). generalize (pow2_nonneg (cos (angle (get M t j)) * vget v k + sin (angle (get M t j)) * vget v (N + k))).
    generalize (pow2_nonneg (sin (angle (get M t j)) * vget v k - cos (angle (get M t j)) * vget v (N + k))). nra.
  - intros k Hk. unfold Q. destruct (lt_dec k N) as [L|L].
    + rewrite rb_rr, Nat.eqb_refl by auto. destruct (entry_at k L) as (t & j & Ht & Hj & -> & _).
      destruct (HP (get M t j) (s j) sp) as (Rr & Tt & HR & HT & Hr). apply (rotated_nonneg _ _ _ _ _ _ HR HT Hr).
    + replace k with (N + (k - N))%nat by lia. assert (L' : (k - N < N)%nat) by lia.
      rewrite rb_ii, Nat.eqb_refl by auto. destruct (entry_at _ L') as (t & j & Ht & Hj & _ & -> & _).
      destruct (HP (get M t j) (s j) sp) as (Rr & Tt & HR & HT & Hr). apply (rotated_nonneg _ _ _ _ _ _ HR HT Hr).
Qed.

Lemma cov_posdef : (forall t j, (t < nr M)%nat -> (j < nc M)%nat -> pd_at column (get M t j) (s j) sp) -> pos_def (2 * N) Q.
Proof.
  intros HP v Hv Hz. unfold Q. rewrite rb_quad by lia.
  assert (EX : exists k, (k < N)%nat /\ (vget v k <> 0 \/ vget v (N + k) <> 0)).
  { destruct (bounded_dec N (fun k => vget v k <> 0 \/ vget v (N + k) <> 0)) as [|NE]; auto.
    { intros k. destruct (Req_dec (vget v k) 0); destruct (Req_dec (vget v (N + k)) 0); tauto. }
    exfalso. apply Hz. apply vec_ext; [rewrite length_vzeros; auto|].
    intros a Ha. rewrite vget_vzeros. destruct (Req_dec (vget v a) 0) as [|X]; auto. exfalso.
    destruct (lt_dec a N); [apply (NE a)|apply (NE (a - N)%nat)]; try lia; auto.
    right. replace (N + (a - N))%nat with a by lia. auto. }
  destruct EX as (k & Hk & Hne).
  assert (P : forall k, (k < N)%nat -> exists f Rr Tt, 0 < Rr /\ 0 < Tt /\ rotated (cos f ^ 2) (sin f ^ 2) (sin f * cos f) Rr Tt (vget r k) (vget i k) (vget c k)).
  { intros l Hl. destruct (entry_at l Hl) as (t & j & Ht & Hj & -> & -> & ->).
    destruct (HP t j Ht Hj) as (Rr & Tt & HH). eauto. }
  apply (sumR_pos _ _ k); auto.
  - intros l Hl. destruct (P l Hl) as (f & Rr & Tt & HR & HT & Hr). rewrite (rotated_form _ _ _ _ _ _ _ _ Hr).
    generalize (pow2_nonneg (cos f * vget v l + sin f * vget v (N + l))) (pow2_nonneg (sin f * vget v l - cos f * vget v (N + l))). nra.
  - destruct (P k Hk) as (f & Rr & Tt & HR & HT & Hr). apply (rotated_pos f Rr Tt); auto.
Qed.

Lemma cov_inverse : psd_kernel column -> forall T, shape T (2 * N) (2 * N) -> mmul Q T = meye (2 * N) ->
  covariance column all M sd sp true = Ok (mmap Fin T).
Proof.
  intros HP T HT E. replace (2 * N)%nat with (N + N)%nat in * by lia.
  assert (D : forall k, (k < N)%nat -> vget r k * vget i k - vget c k * vget c k <> 0) by (apply (rb_det N _ _ _ T); auto).
  assert (NZ : forall k, (k < N)%nat -> vget r k <> 0 /\ vget i k <> 0).
  { intros k Hk. generalize (D k Hk). destruct (entry_at k Hk) as (t & j & Ht & Hj & -> & -> & ->).
    destruct (HP (get M t j) (s j) sp) as (Rr & Tt & HR & HT' & Hr).
    destruct (rotated_nonneg _ _ _ _ _ _ HR HT' Hr) as (A & B & Dn). intro Dz. split; intro Z; rewrite Z in *; nra. }
  rewrite (covariance_eq _ _ _ _ _ _ s HK Hs). fold r i c.
  assert (LN : length r = N) by (unfold r; apply length_entries).
  rewrite finish_true by (rewrite LN; intros k Hk; split; [|split]; [apply NZ|apply NZ|apply D]; auto).
  rewrite LN. do 2 f_equal.
  set (T' := rbmat N _ _ _). assert (E' : mmul Q T' = meye (N + N)) by (apply rb_inverse; auto).
  assert (SQ : shape Q (N + N) (N + N)) by apply shape_rbmat. assert (ST' : shape T' (N + N) (N + N)) by apply shape_rbmat.
  generalize (right_inverse_two_sided Q T (N + N) SQ HT E). intro L.
  destruct SQ as (Q1 & Q2 & Q3). destruct HT as (T1 & T2 & T3). destruct ST' as (P1 & P2 & P3).
  rewrite <- (mmul_1_l' (N + N) T' P1 P2), <- L, mmul_assoc by congruence. rewrite E'. apply mmul_1_r'; auto.
Qed.
End Cov.

(** ** The three functions *)
Definition kernel_of (f : mat C -> sdarg -> R -> bool -> res (mat flt)) (k : kernel) : Prop :=
  exists all, f = covariance k all /\ kernel_eq k all /\ psd_kernel k.

Lemma variants_kernel : forall f, In f variants -> exists k, kernel_of f k /\
  (forall z sm sp, sm <> 0 -> sp <> 0 -> z <> 0%K -> pd_at k z sm sp) /\
  (exists RR TT : R -> R -> R -> R, forall z sm sp,
     rotated (cos (angle z) ^ 2) (sin (angle z) ^ 2) (sin (angle z) * cos (angle z))
       (RR (cabs z ^ 2) sm sp) (TT (cabs z ^ 2) sm sp) (k_real k z sm sp) (k_imag k z sm sp) (k_cov k z sm sp)).
Proof.
  intros f [<-|[<-|[<-|[]]]].
  - exists exact_column. split; [exists exact_all; auto using exact_same, exact_psd|]. split; [intros; apply exact_pd; auto|].
    exists (fun m2 sm sp => exact_R m2 (sm ^ 2) (exp (- sp ^ 2))), (fun m2 sm sp => exact_T m2 (sm ^ 2) (exp (- sp ^ 2))).
    apply exact_column_rot.
  - exists naive_column. split; [exists naive_all; auto using naive_same, naive_psd|]. split; [intros; apply naive_pd; auto|].
    exists (fun m2 sm sp => sm ^ 2), (fun m2 sm sp => m2 * sp ^ 2). apply naive_column_rot.
  - exists average_kernel. split; [exists average_kernel; auto using average_same, average_psd|]. split; [intros; apply average_pd; auto|].
    exists (fun m2 sm sp => avg_R m2 (sm ^ 2) (exp (- sp ^ 2))), (fun m2 sm sp => avg_T m2 (sm ^ 2) (exp (- sp ^ 2))).
    apply average_rot.
Qed.

Theorem mmap_fin_inj : forall A B : mat R, mmap Fin A = mmap Fin B -> A = B.
Proof.
  intros [a b l] [a' b' l'] H. unfold mmap in H. cbn [nr nc dat] in H. injection H as -> -> H. f_equal.
  revert l' H. induction l as [|x l IH]; intros [|y l'] H; try discriminate; auto. injection H as H1 H2. f_equal; auto.
  clear - H1. revert y H1. induction x as [|u x IH]; intros [|w y] H; try discriminate; auto. injection H as -> H. f_equal. auto.
Qed.

Theorem variants_inverse : forall f M sd sp s S Q T, In f variants -> sd_means (nc M) sd s ->
  f M sd sp false = Ok S -> finite S Q -> shape T (nr Q) (nr Q) -> mmul Q T = meye (nr Q) ->
  exists S', f M sd sp true = Ok S' /\ finite S' T.
Proof.
  intros f M sd sp s S Q T Hf Hs HS [WQ HQ] HT E.
  destruct (variants_kernel f Hf) as (k & (all & -> & HK & HP) & _).
  rewrite (cov_false _ _ _ _ _ s HK Hs) in HS. injection HS as HS.
  rewrite HQ in HS. apply mmap_fin_inj in HS. subst Q.
  replace (nr (rbmat _ _ _ _)) with (2 * (nr M * nc M))%nat in * by (cbn [nr rbmat mk]; lia).
  exists (mmap Fin T). split; [|split; [apply HT|reflexivity]].
  apply (cov_inverse _ _ _ _ _ s HK Hs HP T); auto.
Qed.

Theorem variants_psd : forall f M sd sp s, In f variants -> sd_means (nc M) sd s ->
  exists S Q, f M sd sp false = Ok S /\ finite S Q /\ tr Q = Q /\ pos_semidef (2 * (nr M * nc M)) Q /\
    (forall k, (k < 2 * (nr M * nc M))%nat -> 0 <= get Q k k) /\
    ((forall t i, (t < nr M)%nat -> (i < nc M)%nat -> get M t i <> 0%K /\ s i <> 0) -> sp <> 0 -> pos_def (2 * (nr M * nc M)) Q).
Proof.
  intros f M sd sp s Hf Hs. destruct (variants_kernel f Hf) as (k & (all & -> & HK & HP) & HD & _).
  rewrite (cov_false _ _ _ _ _ s HK Hs). eexists. eexists. split; [reflexivity|].
  split; [split; [apply shape_rbmat|reflexivity]|]. split; [apply rb_sym|].
  destruct (cov_psd k M sp s HP) as [A B].
  split; auto. split; auto. intros HM Hp. apply cov_posdef. intros t j Ht Hj. destruct (HM t j Ht Hj). apply HD; auto.
Qed.

Lemma invert_entry_singular : forall r i c a b d, r * i - c * c = 0 -> invert_entry (Fin r) (Fin i) (Fin c) = (Fin a, b, d) -> False.
Proof.
  intros r i c a b d D H. unfold invert_entry, fquot, fdiv in H.
  destruct (Req_EM_T i 0) as [Ei|Ei]; [discriminate|]. cbn [f2] in H.
  destruct (Req_EM_T (r - c * (c / i)) 0) as [E|E].
  - discriminate.
  - apply E. replace (r - c * (c / i)) with ((r * i - c * c) / i) by (field; auto). rewrite D. field. auto.
Qed.

Theorem variants_inverse_only : forall f M sd sp s S Q S' T, In f variants -> sd_means (nc M) sd s ->
  f M sd sp false = Ok S -> finite S Q -> f M sd sp true = Ok S' -> finite S' T ->
  shape T (nr Q) (nr Q) /\ mmul Q T = meye (nr Q).
Proof.
  intros f M sd sp s S Q S' T Hf Hs HS [WQ HQ] HS' [WT HT].
  destruct (variants_kernel f Hf) as (k & (all & -> & HK & HP) & _).
  rewrite (cov_false _ _ _ _ _ s HK Hs) in HS. injection HS as HS.
  rewrite HQ in HS. apply mmap_fin_inj in HS. subst Q.
  set (r := entries (k_real k) M s sp) in *. set (i := entries (k_imag k) M s sp) in *. set (c := entries (k_cov k) M s sp) in *.
  set (N := (nr M * nc M)%nat) in *.
  assert (LN : length r = N) by apply length_entries.
  rewrite (covariance_eq _ _ _ _ _ _ s HK Hs) in HS'. fold r i c in HS'. injection HS' as HS'.
  assert (D : forall l, (l < N)%nat -> vget r l * vget i l - vget c l * vget c l <> 0).
  { intros l Hl Z.
    assert (G : gget (Fin 0) S' l l = fst (fst (invert_entry (Fin (vget r l)) (Fin (vget i l)) (Fin (vget c l))))).
    { rewrite <- HS'. unfold finish_covariance. rewrite !map_map. cbn [fst snd]. rewrite LN. unfold sparse_bmat.
      rewrite map_length, length_range, gget_mk by lia. destruct (Nat.ltb_spec l N); [|lia]. rewrite Nat.eqb_refl.
      rewrite fnth_map by auto. reflexivity. }
    assert (LT : (l < nr T)%nat /\ (l < nc T)%nat).
    { assert (E1 : nr S' = (N + N)%nat /\ nc S' = (N + N)%nat).
      { rewrite <- HS'. unfold finish_covariance, sparse_bmat. cbn [nr nc mk]. rewrite !map_length, length_range, LN. auto. }
      rewrite HT in E1. cbn [nr nc mmap] in E1. lia. }
    rewrite HT, (gget_mmap _ _ Fin 0) in G by tauto.
    destruct (invert_entry (Fin (vget r l)) (Fin (vget i l)) (Fin (vget c l))) as [[a b] e] eqn:EE. cbn [fst] in G. subst a.
    exact (invert_entry_singular _ _ _ _ _ _ Z EE). }
  set (Q := rbmat N (vget r) (vget i) (vget c)) in *.
  set (T' := rbmat N (fun l => vget i l / (vget r l * vget i l - vget c l * vget c l)) (fun l => vget r l / (vget r l * vget i l - vget c l * vget c l))
                  (fun l => - vget c l / (vget r l * vget i l - vget c l * vget c l))).
  assert (E' : mmul Q T' = meye (N + N)) by (apply rb_inverse; auto).
  assert (CT : covariance k all M sd sp true = Ok (mmap Fin T')).
  { apply (cov_inverse _ _ _ _ _ s HK Hs HP T'); fold N; replace (2 * N)%nat with (N + N)%nat by lia; auto. apply shape_rbmat. }
  assert (T = T') as ->.
  { apply mmap_fin_inj. rewrite <- HT. rewrite (covariance_eq _ _ _ _ _ _ s HK Hs) in CT. fold r i c in CT. congruence. }
  change (nr Q) with (N + N)%nat. split; auto. apply shape_rbmat.
Qed.

(** ** Kernels in arbitrary polar coordinates, turning *)
Lemma variants_polar : forall f, In f variants -> exists k RR TT, kernel_of f k /\ forall z sm sp m phi, polar z m phi ->
  rotated (cos phi ^ 2) (sin phi ^ 2) (sin phi * cos phi) (RR (m ^ 2) sm sp) (TT (m ^ 2) sm sp)
    (k_real k z sm sp) (k_imag k z sm sp) (k_cov k z sm sp).
Proof.
  intros f Hf. destruct (variants_kernel f Hf) as (k & HK & _ & RR & TT & HR). exists k, RR, TT. split; auto.
  intros z sm sp m phi Hp. destruct (polar_same z m phi Hp) as (-> & -> & -> & ->). apply HR.
Qed.

Lemma polar_turned : forall z theta, z <> 0%K ->
  polar (cmul z (Cx (cos theta) (sin theta))) (cabs z) (angle z + theta).
Proof.
  intros z theta Hz. destruct (polar_angle z) as [A B]. unfold polar, cmul. cbn [re im]. unfold kadd, ksub, kmul; cbn [R_ops].
  rewrite cos_plus, sin_plus. split; [|split; [|left; apply cabs_nz; auto]].
  - change (re z * cos theta - im z * sin theta = cabs z * (cos (angle z) * cos theta - sin (angle z) * sin theta)).
    generalize (cabs z) A B. intros m A' B'. rewrite A' at 1. rewrite B' at 1. ring.
  - change (re z * sin theta + im z * cos theta = cabs z * (sin (angle z) * cos theta + cos (angle z) * sin theta)).
    generalize (cabs z) A B. intros m A' B'. rewrite A' at 1. rewrite B' at 1. ring.
Qed.

Theorem variants_turn : forall f M sd sp s theta, In f variants -> sd_means (nc M) sd s ->
  (forall t i, (t < nr M)%nat -> (i < nc M)%nat -> get M t i <> 0%K) ->
  exists S Q S' Q' vr vi cri, f M sd sp false = Ok S /\ finite S Q /\ stacked (nr M) (nc M) Q vr vi cri /\
    f (turned theta M) sd sp false = Ok S' /\ finite S' Q' /\
    exists vr' vi' cri', stacked (nr M) (nc M) Q' vr' vi' cri' /\
    forall t i, (t < nr M)%nat -> (i < nc M)%nat ->
      vr' t i = rot_r theta (vr t i) (vi t i) (cri t i) /\ vi' t i = rot_i theta (vr t i) (vi t i) (cri t i) /\
      cri' t i = rot_c theta (vr t i) (vi t i) (cri t i).
Proof.
  intros f M sd sp s theta Hf Hs HM. destruct (variants_polar f Hf) as (k & RR & TT & (all & -> & HK & _) & HR).
  destruct (covariance_stacked k all M sd sp s HK Hs) as (S1 & Q & E1 & F1 & T1).
  destruct (covariance_stacked k all (turned theta M) sd sp s HK Hs) as (S2 & Q' & E2 & F2 & T2).
  exists S1, Q, S2, Q'. do 3 eexists. split; [exact E1|]. split; [exact F1|]. split; [exact T1|]. split; [exact E2|]. split; [exact F2|].
  do 3 eexists. split; [exact T2|]. intros t i Ht Hi. unfold turned. rewrite get_mk by auto.
  generalize (HM t i Ht Hi). generalize (get M t i). intros z Hz.
  destruct (HR z (s i) sp _ _ (polar_self z)) as (-> & -> & ->).
  destruct (HR _ (s i) sp _ _ (polar_turned z theta Hz)) as (-> & -> & ->).
  generalize (RR (cabs z ^ 2) (s i) sp) (TT (cabs z ^ 2) (s i) sp). intros a b.
  unfold rot_r, rot_i, rot_c. rewrite cos_plus, sin_plus. repeat split; ring.
Qed.

(** ** Arguments *)
Theorem variants_uniform : forall f M x sp inv, In f variants ->
  f M (SdArray (repeat x (nc M))) sp inv = f M (SdFloat x) sp inv.
Proof.
  intros f M x sp inv Hf. destruct (variants_kernel f Hf) as (k & (all & -> & HK & _) & _).
  rewrite (covariance_eq k all M (SdArray (repeat x (nc M))) sp inv _ HK (sd_array _ _ (repeat_length _ _))).
  rewrite (covariance_eq k all M (SdFloat x) sp inv _ HK (sd_float _ x)).
  assert (E : forall g, entries g M (vget (repeat x (nc M))) sp = entries g M (fun _ => x) sp).
  { intros g. unfold entries. f_equal. apply mk_ext. intros t i Ht Hi. unfold vget.
    rewrite (nth_indep _ _ x) by (rewrite repeat_length; auto). rewrite nth_repeat. reflexivity. }
  rewrite !E. reflexivity.
Qed.
Theorem variants_scalar : forall f M x sp inv, In f variants -> nc M <> 1%nat -> f M (SdScalar x) sp inv = f M (SdFloat x) sp inv.
Proof.
  intros f M x sp inv Hf H. destruct (variants_kernel f Hf) as (k & (all & -> & HK & _) & _).
  unfold covariance. destruct (Nat.eqb_spec 1 (nc M)); [lia|]. reflexivity.
Qed.
Theorem variants_truncate : forall f M l sp inv, In f variants -> length l <> nc M -> (1 < length l)%nat ->
  f M (SdArray l) sp inv = f M (SdFloat (vget l 0)) sp inv /\ is_ok (f M (SdArray l) sp inv).
Proof.
  intros f M l sp inv Hf H1 H2. destruct (variants_kernel f Hf) as (k & (all & -> & HK & _) & _).
  assert (E : covariance k all M (SdArray l) sp inv = covariance k all M (SdFloat (vget l 0)) sp inv).
  { unfold covariance. destruct (Nat.eqb_spec (length l) (nc M)); [lia|]. destruct (Nat.ltb_spec 1 (length l)); [|lia]. reflexivity. }
  split; auto. rewrite E, (covariance_eq k all M (SdFloat (vget l 0)) sp inv _ HK (sd_float _ _)). eexists. reflexivity.
Qed.
Theorem variants_scalar_err : forall f M x sp inv, In f variants -> nc M = 1%nat -> f M (SdScalar x) sp inv = Err IndexError.
Proof.
  intros f M x sp inv Hf H. destruct (variants_kernel f Hf) as (k & (all & -> & HK & _) & _).
  unfold covariance. rewrite H. reflexivity.
Qed.
Theorem variants_int_err : forall f M z sp inv, In f variants -> f M (SdInt z) sp inv = Err AttributeError.
Proof.
  intros f M z sp inv Hf. destruct (variants_kernel f Hf) as (k & (all & -> & HK & _) & _). reflexivity.
Qed.

Theorem variants_invertible : forall f M sd sp s, In f variants -> sd_means (nc M) sd s ->
  (forall t i, (t < nr M)%nat -> (i < nc M)%nat -> get M t i <> 0%K /\ s i <> 0) -> sp <> 0 ->
  exists S Q S' T, f M sd sp false = Ok S /\ finite S Q /\ f M sd sp true = Ok S' /\ finite S' T /\
    shape T (nr Q) (nr Q) /\ mmul Q T = meye (nr Q).
Proof.
  intros f M sd sp s Hf Hs HM Hp. destruct (variants_kernel f Hf) as (k & (all & -> & HK & HP) & HD & _).
  set (r := entries (k_real k) M s sp). set (i := entries (k_imag k) M s sp). set (c := entries (k_cov k) M s sp).
  set (N := (nr M * nc M)%nat).
  assert (D : forall l, (l < N)%nat -> vget r l * vget i l - vget c l * vget c l <> 0).
  { intros l Hl. unfold N in Hl. destruct (entry_at k M sp s l Hl) as (t & j & Ht & Hj & E1 & E2 & E3).
    unfold r, i, c. rewrite E1, E2, E3. destruct (HM t j Ht Hj) as [Hz Hsd].
    destruct (HD (get M t j) (s j) sp Hsd Hp Hz) as (Rr & Tt & HR & HT & Hr). rewrite (rotated_det _ _ _ _ _ _ Hr). nra. }
  set (Q := rbmat N (vget r) (vget i) (vget c)).
  set (T := rbmat N (fun l => vget i l / (vget r l * vget i l - vget c l * vget c l)) (fun l => vget r l / (vget r l * vget i l - vget c l * vget c l))
                  (fun l => - vget c l / (vget r l * vget i l - vget c l * vget c l))).
  assert (E : mmul Q T = meye (N + N)) by (apply rb_inverse; auto).
  exists (mmap Fin Q), Q, (mmap Fin T), T. split; [exact (cov_false _ _ _ _ _ s HK Hs)|].
  split; [split; [apply shape_rbmat|auto]|]. split; [|split; [split; [apply shape_rbmat|auto]|split; [apply shape_rbmat|exact E]]].
  apply (cov_inverse _ _ _ _ _ s HK Hs HP T); fold N; replace (2 * N)%nat with (N + N)%nat by lia; auto. apply shape_rbmat.
Qed.
