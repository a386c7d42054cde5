(** Duplication, transformation and elimination matrices: closed forms for every n. *)
From Coq Require Import Arith ZArith Lia List Bool.
From Coq Require Import Ring Field.
From Verif Require Import BasePy BaseFld BaseSum BaseMat BaseNumpy ModelMatrixOps SpecMatrix ProofRagged ProofMatrixOps.
Import ListNotations.

Section Struct.
Context {K : Type} {O : Ops K} {F : Fld K}.
Add Field Kfld : (@k_field K O F).

Notation N n := (off (hlen n) n).
Notation NS n := (off (slen n) n).

Lemma set_at_ok : forall (m : mat K) r c i j iz jz x, shape m r c -> iz = Z.of_nat i -> jz = Z.of_nat j ->
  i < r -> j < c ->
  exists m', set_at m iz jz x = Ok m' /\ shape m' r c /\
    forall p q, p < r -> q < c -> get m' p q = if ((p =? i) && (q =? j))%nat then x else get m p q.
Proof.
  intros m r c i j iz jz x (W & Hr & Hc) -> -> Hi Hj. unfold set_at.
  rewrite Hr, Hc, !norm_idx_nat by auto. simpl. eexists; split; [reflexivity|].
  unfold mset. rewrite Hr, Hc. split; [apply shape_mk|].
  intros. rewrite get_mk; auto.
Qed.

Lemma set_row_slice_ok : forall (m : mat K) r c i iz a az b bz x, shape m r c ->
  iz = Z.of_nat i -> az = Z.of_nat a -> bz = Z.of_nat b -> i < r -> a <= c -> b <= c ->
  exists m', set_row_slice m iz az bz x = Ok m' /\ shape m' r c /\
    forall p q, p < r -> q < c ->
      get m' p q = if ((p =? i) && (a <=? q) && (q <? b))%nat then x else get m p q.
Proof.
  intros m r c i iz a az b bz x (W & Hr & Hc) -> Ea Eb Hi Ha Hb. unfold set_row_slice.
  rewrite Hr, Hc, norm_idx_nat by auto. simpl.
  rewrite (slice_bound_nat c az a), (slice_bound_nat c bz b) by auto.
  eexists; split; [reflexivity|]. split; [apply shape_mk|]. intros. rewrite get_mk; auto.
Qed.

(** *** duplication matrix *)
Definition dup_entry (n : nat) (D : mat K) : Prop :=
  shape D (n * n) (N n) /\
  forall i j q, i < n -> j < n -> q < N n ->
    get D (i * n + j) q = if (q =? hidx n (Nat.max i j) (Nat.min i j))%nat then 1%K else 0%K.

Definition dup_inv (n i k : nat) (D : mat K) : Prop :=
  shape D (n * n) (N n) /\
  forall a b q, a < n -> b < n -> q < N n ->
    get D (a * n + b) q =
     if ((q =? hidx n (Nat.max a b) (Nat.min a b)) &&
         ((Nat.max a b <? i) || ((Nat.max a b =? i) && (Nat.min a b <? k))))%nat then 1%K else 0%K.

Lemma eqb_pair : forall n a b i j, b < n -> j < n ->
  (a * n + b =? i * n + j)%nat = ((a =? i) && (b =? j))%nat.
Proof.
  intros. destruct (Nat.eqb_spec (a * n + b) (i * n + j)) as [E|E].
  - destruct (divmod_add a b n), (divmod_add i j n); auto.
    replace a with i by congruence. replace b with j by congruence.
    rewrite !Nat.eqb_refl. reflexivity.
  - destruct (Nat.eqb_spec a i) as [->|]; destruct (Nat.eqb_spec b j) as [->|]; simpl; auto; contradiction.
Qed.

Lemma dup_step : forall n i j D, i < n -> j <= i -> dup_inv n i j D ->
  exists D2, (res1 <- set_at D (Z.of_nat i * Z.of_nat n + Z.of_nat j)
                (Z.of_nat j * Z.of_nat n + Z.of_nat i - half (Z.of_nat j * (Z.of_nat j + 1))) 1%K ;;
              set_at res1 (Z.of_nat j * Z.of_nat n + Z.of_nat i)
                (Z.of_nat j * Z.of_nat n + Z.of_nat i - half (Z.of_nat j * (Z.of_nat j + 1))) 1%K) = Ok D2
             /\ dup_inv n i (S j) D2.
Proof.
  intros n i j D Hi Hj (Sh & G).
  assert (Hu : (Z.of_nat j * Z.of_nat n + Z.of_nat i - half (Z.of_nat j * (Z.of_nat j + 1)))%Z = Z.of_nat (hidx n i j)).
  { rewrite half_tri. unfold hidx.
    generalize (off_hlen n j ltac:(lia)) (off_hlen_full j). intros. nia. }
  destruct (set_at_ok D (n*n) (N n) (i * n + j) (hidx n i j)
     (Z.of_nat i * Z.of_nat n + Z.of_nat j) (Z.of_nat j * Z.of_nat n + Z.of_nat i - half (Z.of_nat j * (Z.of_nat j + 1))) 1%K)
    as (D1 & E1 & S1 & G1); auto; try lia; [apply idx_bound; lia|apply hidx_lt; lia|].
  destruct (set_at_ok D1 (n*n) (N n) (j * n + i) (hidx n i j)
     (Z.of_nat j * Z.of_nat n + Z.of_nat i) (Z.of_nat j * Z.of_nat n + Z.of_nat i - half (Z.of_nat j * (Z.of_nat j + 1))) 1%K)
    as (D2 & E2 & S2 & G2); auto; try lia; [apply idx_bound; lia|apply hidx_lt; lia|].
  exists D2. rewrite E1. simpl. split; auto. split; auto.
  intros a b q Ha Hb Hq.
  rewrite G2, G1, G by (auto; apply idx_bound; lia). rewrite !eqb_pair by lia.
  destruct (Nat.eqb_spec a j) as [Eaj|], (Nat.eqb_spec b i) as [Ebi|]; simpl.
  1: { subst. rewrite Nat.max_r, Nat.min_l by lia.
       destruct (Nat.eqb_spec q (hidx n i j)); simpl.
       - replace (i =? i)%nat with true by (symmetry; apply Nat.eqb_eq; auto).
         replace (j <? S j)%nat with true by (symmetry; apply Nat.ltb_lt; lia).
         rewrite orb_true_r. reflexivity.
       - rewrite andb_false_r. reflexivity. }
  all: destruct (Nat.eqb_spec a i) as [Eai|], (Nat.eqb_spec b j) as [Ebj|]; simpl.
  all: try (subst; rewrite Nat.max_l, Nat.min_r by lia;
       destruct (Nat.eqb_spec q (hidx n i j)); simpl;
       [ rewrite Nat.eqb_refl; replace (j <? S j)%nat with true by (symmetry; apply Nat.ltb_lt; lia);
         rewrite orb_true_r; reflexivity
       | reflexivity ]).
  all: destruct (q =? hidx n (Nat.max a b) (Nat.min a b))%nat; simpl; auto.
  all: destruct (Nat.ltb_spec (Nat.max a b) i); simpl; auto.
  all: destruct (Nat.eqb_spec (Nat.max a b) i); simpl; auto.
  all: destruct (Nat.ltb_spec (Nat.min a b) j), (Nat.ltb_spec (Nat.min a b) (Datatypes.S j)); auto; lia.
Qed.

Lemma dup_inv_next : forall n i D, dup_inv n i (S i) D -> dup_inv n (S i) 0 D.
Proof.
  intros n i D (Sh & G). split; auto. intros a b q Ha Hb Hq. rewrite G by auto.
  destruct (q =? _)%nat; simpl; auto.
  destruct (Nat.ltb_spec (Nat.max a b) i), (Nat.ltb_spec (Nat.max a b) (Datatypes.S i));
  destruct (Nat.eqb_spec (Nat.max a b) i), (Nat.eqb_spec (Nat.max a b) (Datatypes.S i));
  destruct (Nat.ltb_spec (Nat.min a b) (Datatypes.S i)); simpl; auto; lia.
Qed.

Lemma duplication_matrix_ok : forall n, exists D, duplication_matrix n = Ok D /\ dup_entry n D.
Proof.
  intros n. unfold duplication_matrix. rewrite half_tri, Nat2Z.id.
  destruct (for_each_range_inv (mat K)
    (fun res i => for_each (range (i + 1)) res (fun res j =>
      res1 <- set_at res (Z.of_nat i * Z.of_nat n + Z.of_nat j)
                (Z.of_nat j * Z.of_nat n + Z.of_nat i - half (Z.of_nat j * (Z.of_nat j + 1))) 1%K ;;
              set_at res1 (Z.of_nat j * Z.of_nat n + Z.of_nat i)
                (Z.of_nat j * Z.of_nat n + Z.of_nat i - half (Z.of_nat j * (Z.of_nat j + 1))) 1%K))
    (fun i D => dup_inv n i 0 D) n (mzeros (n * n) (N n))) as (D & E & I).
  - split; [apply shape_mk|]. intros. unfold mzeros. rewrite get_mk by (auto; apply idx_bound; auto).
    destruct (Nat.ltb_spec (Nat.max a b) 0); [lia|].
    destruct (Nat.ltb_spec (Nat.min a b) 0); [lia|]. rewrite !andb_false_r. reflexivity.
  - intros i D Hi I.
    destruct (for_each_range_inv (mat K) (fun res j =>
      res1 <- set_at res (Z.of_nat i * Z.of_nat n + Z.of_nat j)
                (Z.of_nat j * Z.of_nat n + Z.of_nat i - half (Z.of_nat j * (Z.of_nat j + 1))) 1%K ;;
              set_at res1 (Z.of_nat j * Z.of_nat n + Z.of_nat i)
                (Z.of_nat j * Z.of_nat n + Z.of_nat i - half (Z.of_nat j * (Z.of_nat j + 1))) 1%K)
      (fun j D => dup_inv n i j D) (i + 1) D I) as (D' & E' & I').
    + intros j D0 Hj I0. apply dup_step; auto; lia.
    + exists D'. split; auto. apply dup_inv_next. rewrite Nat.add_1_r in I'. auto.
  - exists D. split; [exact E|]. destruct I as (Sh & G). split; auto.
    intros i j q Hi Hj Hq. rewrite G by auto.
    destruct (Nat.ltb_spec (Nat.max i j) n); [|lia]. simpl. rewrite andb_true_r. reflexivity.
Qed.

(** action of the duplication matrix on a vector *)
Lemma dup_mvmul : forall n D v i j, dup_entry n D -> i < n -> j < n ->
  vget (mvmul D v) (i * n + j) = vget v (hidx n (Nat.max i j) (Nat.min i j)).
Proof.
  intros n D v i j ((W & Hr & Hc) & G) Hi Hj.
  rewrite vget_mvmul by (rewrite Hr; apply idx_bound; auto). rewrite Hc.
  rewrite (sumn_single (N n) (hidx n (Nat.max i j) (Nat.min i j))).
  - rewrite G by (auto; apply hidx_lt; lia). rewrite Nat.eqb_refl. ring.
  - apply hidx_lt; lia.
  - intros q Hq Hne. rewrite G by auto. destruct (Nat.eqb_spec q (hidx n (Nat.max i j) (Nat.min i j))); [contradiction|ring].
Qed.

Lemma vech_ragged : forall M : mat K, vech M = ragged (hlen (nr M)) (nr M) (fun b t => get M (b + t) b).
Proof.
  intros. unfold vech, ragged. apply flat_map_ext. intros b. rewrite seq_range, map_map. reflexivity.
Qed.
Lemma length_vech : forall M : mat K, length (vech M) = N (nr M).
Proof. intros. rewrite vech_ragged. apply ragged_length. Qed.
Lemma vget_vech : forall (M : mat K) a b, b <= a -> a < nr M -> vget (vech M) (hidx (nr M) a b) = get M a b.
Proof.
  intros. rewrite vech_ragged. unfold vget, hidx. rewrite ragged_nth by (unfold hlen; lia).
  f_equal. lia.
Qed.

Lemma ve_ragged : forall M : mat K, ve M = ragged (slen (nr M)) (nr M) (fun b t => - get M (S b + t) b)%K.
Proof.
  intros. unfold ve, ragged. apply flat_map_ext. intros b. rewrite seq_range, map_map. reflexivity.
Qed.
Lemma length_ve : forall M : mat K, length (ve M) = NS (nr M).
Proof. intros. rewrite ve_ragged. apply ragged_length. Qed.
Lemma vget_ve : forall (M : mat K) a b, b < a -> a < nr M -> vget (ve M) (sidx (nr M) a b) = (- get M a b)%K.
Proof.
  intros. rewrite ve_ragged. unfold vget, sidx. rewrite ragged_nth by (unfold slen; lia).
  f_equal. f_equal. lia.
Qed.

Lemma hvec_ext : forall n (u v : list K), length u = N n -> length v = N n ->
  (forall a b, b <= a -> a < n -> vget u (hidx n a b) = vget v (hidx n a b)) -> u = v.
Proof.
  intros n u v Hu Hv H. apply vec_ext; [congruence|]. intros q Hq. rewrite Hu in Hq.
  destruct (hidx_surj _ _ Hq) as (a & b & ? & ? & ->). auto.
Qed.
Lemma svec_ext : forall n (u v : list K), length u = NS n -> length v = NS n ->
  (forall a b, b < a -> a < n -> vget u (sidx n a b) = vget v (sidx n a b)) -> u = v.
Proof.
  intros n u v Hu Hv H. apply vec_ext; [congruence|]. intros q Hq. rewrite Hu in Hq.
  destruct (sidx_surj _ _ Hq) as (a & b & ? & ? & ->). auto.
Qed.
Lemma sqvec_ext : forall n (u v : list K), length u = n * n -> length v = n * n ->
  (forall i j, i < n -> j < n -> vget u (i * n + j) = vget v (i * n + j)) -> u = v.
Proof.
  intros n u v Hu Hv H. apply vec_ext; [congruence|]. intros q Hq. rewrite Hu in Hq.
  destruct (divmod_bound q n n) as (? & ? & ->); auto.
Qed.

Lemma dup_vech : forall n D M, dup_entry n D -> symmetric n M -> mvmul D (vech M) = vectorize_matrix M.
Proof.
  intros n D M HD ((W & Hr & Hc) & Sy). assert (HD' := HD). destruct HD as ((WD & RD & CD) & _).
  apply (sqvec_ext n).
  - rewrite length_mvmul; auto.
  - rewrite length_vectorize, Hr, Hc. reflexivity.
  - intros i j Hi Hj. rewrite (dup_mvmul n) by auto.
    replace (i * n + j) with (i * nr M + j) by (rewrite Hr; reflexivity).
    rewrite vget_vectorize by lia.
    rewrite <- Hr, vget_vech by lia.
    destruct (Nat.max_spec i j) as [[? ->]|[? ->]], (Nat.min_spec i j) as [[? ->]|[? ->]]; try lia; auto.
Qed.

(** the symmetric matrix with stacked lower triangle [v] *)
Definition sym_of (n : nat) (v : list K) : mat K :=
  mk n n (fun i j => vget v (hidx n (Nat.max i j) (Nat.min i j))).

Lemma symmetric_sym_of : forall n v, symmetric n (sym_of n v).
Proof.
  intros. split; [apply shape_mk|]. intros. unfold sym_of. rewrite !get_mk by auto.
  rewrite Nat.max_comm, Nat.min_comm. reflexivity.
Qed.

Lemma vech_sym_of : forall n v, length v = N n -> vech (sym_of n v) = v.
Proof.
  intros n v H. apply (hvec_ext n); auto; [apply (length_vech (sym_of n v))|].
  intros a b H1 H2. rewrite (vget_vech (sym_of n v)) by auto. unfold sym_of. rewrite get_mk by lia.
  rewrite Nat.max_l, Nat.min_r by lia. reflexivity.
Qed.

Lemma dup_any : forall n D v, dup_entry n D -> mvmul D v = vectorize_matrix (sym_of n v).
Proof.
  intros n D v HD. assert (HD' := HD). destruct HD as ((WD & RD & CD) & _).
  apply (sqvec_ext n).
  - rewrite length_mvmul; auto.
  - rewrite length_vectorize. reflexivity.
  - intros i j Hi Hj. rewrite (dup_mvmul n) by auto.
    change (i * n + j) with (i * nr (sym_of n v) + j).
    rewrite vget_vectorize by auto. unfold sym_of. rewrite get_mk by auto.
    rewrite Nat.max_comm, Nat.min_comm. reflexivity.
Qed.

(** *** transformation matrix *)
Definition tent (a b c d : nat) : K :=
  if (a =? b)%nat then (if ((c =? a) || (d =? a))%nat then 1 else 0)%K
  else if ((a =? c) && (b =? d))%nat then (- (1))%K else 0%K.

Definition tra_entry (n : nat) (T : mat K) : Prop :=
  shape T (N n) (NS n) /\
  forall a b c d, b <= a -> a < n -> d < c -> c < n ->
    get T (hidx n a b) (sidx n c d) = tent a b c d.

Definition tra_inv (n i k : nat) (s : mat K * Z) : Prop :=
  shape (fst s) (N n) (NS n) /\
  snd s = Z.of_nat (off (hlen n) i + k) /\
  (forall a b c d, b <= a -> a < n -> d < c -> c < n -> b < i \/ (b = i /\ a < i + k) ->
     get (fst s) (hidx n a b) (sidx n c d) = tent a b c d) /\
  (forall p q, off (hlen n) i + k <= p -> p < N n -> q < NS n -> get (fst s) p q = 0%K).

Lemma sum_n2_eq : forall n k, sum_n2 n k = (Z.of_nat k * (n - 2) - half (Z.of_nat k * (Z.of_nat k - 1)))%Z.
Proof.
  intros n k. rewrite half_tri_strict. unfold sum_n2.
  assert (forall k, fold_left Z.add (map (fun x => (n - 2 - Z.of_nat x)%Z) (range k)) 0%Z
            = (Z.of_nat k * (n - 2) - Z.of_nat (off (slen k) k))%Z) as H; [|apply H].
  clear k. induction k; [reflexivity|].
  rewrite range_S, map_app, fold_left_app, IHk. cbn [map fold_left].
  generalize (off_slen_full k) (off_slen_full (S k)).
  generalize (off (slen k) k) (off (slen (S k)) (S k)).
  intros x y Hx Hy. assert (y = x + k) by (destruct k; nia). subst y.
  rewrite Nat2Z.inj_succ, Nat2Z.inj_add. ring.
Qed.

Lemma sidx_start : forall n i, i < n -> sidx n (S i) i = off (slen n) i.
Proof. intros. unfold sidx. lia. Qed.

Lemma hidx_lt_block : forall n a b i k, b <= a -> a < n -> i < n -> k < n - i ->
  (hidx n a b < off (hlen n) i + k <-> b < i \/ (b = i /\ a < i + k)).
Proof.
  intros n a b i k H1 H2 H3 H4. unfold hidx. split; intro H.
  - destruct (lt_eq_lt_dec b i) as [[?|?]|?]; [left; auto| subst; right; lia|].
    assert (off (hlen n) (S i) <= off (hlen n) b) by (apply off_mono; lia).
    simpl in H0. unfold hlen in H0 at 2. lia.
  - destruct H as [H|[-> H]]; [|lia].
    assert (off (hlen n) (S b) <= off (hlen n) i) by (apply off_mono; lia).
    simpl in H0. unfold hlen in H0 at 2. lia.
Qed.

Lemma tra_step : forall n i k s, i < n -> k < n - i -> tra_inv n i k s ->
  exists s', (let '(res, row) := s in
            res' <- (if (k =? 0)%nat then
                       res1 <- set_row_slice res row (row - Z.of_nat i) (row - Z.of_nat i + Z.of_nat n - Z.of_nat i - 1) 1%K ;;
                       for_each (range i) res1 (fun r k => set_at r row (Z.of_nat i - 1 + sum_n2 (Z.of_nat n) k) 1%K)
                     else set_at res row (row - Z.of_nat i - 1) (- (1))%K) ;;
            Ok (res', row + 1)%Z) = Ok s' /\ tra_inv n i (S k) s'.
Proof.
  intros n i k [T row] Hi Hk (Sh & Hrow & G & Z0). simpl in Sh, Hrow, G, Z0.
  assert (Hp : off (hlen n) i + k = hidx n (i + k) i) by (unfold hidx; lia).
  assert (Hpl : hidx n (i + k) i < N n) by (apply hidx_lt; lia).
  destruct (Nat.eqb_spec k 0) as [->|Hk0].
  - rewrite !Nat.add_0_r in *.
    assert (Hoff : off (hlen n) i = off (slen n) i + i) by (apply off_hlen_slen; lia).
    assert (Hle : off (slen n) i + (n - i - 1) <= NS n).
    { generalize (off_mono (slen n) (Datatypes.S i) n ltac:(lia)). simpl. unfold slen at 2. lia. }
    destruct (set_row_slice_ok T (N n) (NS n) (hidx n i i) row
       (off (slen n) i) (row - Z.of_nat i) (off (slen n) i + (n - i - 1))
       (row - Z.of_nat i + Z.of_nat n - Z.of_nat i - 1) 1%K) as (T1 & E1 & S1 & G1); auto; try lia.
    rewrite E1. cbn [bind].
    destruct (for_each_range_inv (mat K)
      (fun r k => set_at r row (Z.of_nat i - 1 + sum_n2 (Z.of_nat n) k) 1%K)
      (fun k T2 => shape T2 (N n) (NS n) /\ forall p q, p < N n -> q < NS n ->
         get T2 p q = if ((p =? hidx n i i) && existsb (fun d => q =? sidx n i d) (range k))%nat then 1%K
                      else get T1 p q) i T1) as (T2 & E2 & S2 & G2).
    { split; auto. intros. simpl. rewrite andb_false_r. reflexivity. }
    { intros d T2 Hd (S2 & G2).
      destruct (set_at_ok T2 (N n) (NS n) (hidx n i i) (sidx n i d) row (Z.of_nat i - 1 + sum_n2 (Z.of_nat n) d) 1%K)
        as (T3 & E3 & S3 & G3); auto; try lia.
      - rewrite sum_n2_eq, half_tri_strict. unfold sidx.
        generalize (off_slen n d ltac:(lia)) (off_slen_full d). intros. nia.
      - apply sidx_lt; lia.
      - exists T3. split; auto. split; auto. intros p q Hp' Hq. rewrite G3, G2 by auto.
        rewrite range_S, existsb_app. simpl. rewrite orb_false_r.
        destruct (p =? hidx n i i)%nat; simpl; auto.
        destruct (q =? sidx n i d)%nat; simpl; rewrite ?orb_true_r, ?orb_false_r; auto. }
    rewrite E2. cbn [bind]. eexists; split; [reflexivity|].
    split; [auto|]. split; [simpl; lia|]. simpl fst. simpl snd. split.
    + intros a b c d H1 H2 H3 H4 Hb.
      assert (hidx n a b < N n) by (apply hidx_lt; lia).
      assert (Hq : sidx n c d < NS n) by (apply sidx_lt; lia).
      rewrite G2, G1 by auto.
      destruct (Nat.eqb_spec (hidx n a b) (hidx n i i)) as [E|E].
      * apply hidx_inj in E; try lia. destruct E as [-> ->]. simpl.
        unfold tent. rewrite Nat.eqb_refl.
        destruct (existsb (fun d0 => (sidx n c d =? sidx n i d0)%nat) (range i)) eqn:Ex.
        { apply existsb_exists in Ex. destruct Ex as (d0 & Hd0 & Ed). apply in_range in Hd0.
          apply Nat.eqb_eq in Ed. apply sidx_inj in Ed; try lia. destruct Ed as [-> ->].
          rewrite Nat.eqb_refl. reflexivity. }
        { assert (Hc : c <> i).
          { intros ->. assert (existsb (fun d0 => (sidx n i d =? sidx n i d0)%nat) (range i) = true); [|congruence].
            apply existsb_exists. exists d. split; [apply in_range; lia|apply Nat.eqb_refl]. }
          destruct (Nat.eqb_spec c i); [lia|]. simpl.
          destruct (Nat.eqb_spec d i) as [->|Hd].
          - unfold sidx. destruct (Nat.leb_spec (off (slen n) i) (off (slen n) i + (c - Datatypes.S i))); [|lia].
            destruct (Nat.ltb_spec (off (slen n) i + (c - Datatypes.S i)) (off (slen n) i + (n - i - 1))); [|lia].
            reflexivity.
          - assert (Z1 : get T (hidx n i i) (sidx n c d) = 0%K) by (apply Z0; auto; unfold hidx; lia).
            destruct (Nat.leb_spec (off (slen n) i) (sidx n c d)); [|auto].
            destruct (Nat.ltb_spec (sidx n c d) (off (slen n) i + (n - i - 1))); [|auto].
            exfalso. assert (sidx n c d = sidx n (Datatypes.S i + (sidx n c d - off (slen n) i)) i) as E.
            { unfold sidx at 2. lia. }
            apply sidx_inj in E; lia. }
      * simpl. apply G; auto. destruct Hb as [Hb|[-> Hb]]; auto.
        exfalso. apply E. f_equal. lia.
    + intros p q Hp1 Hp2 Hq. rewrite G2, G1 by auto. unfold hidx.
      destruct (Nat.eqb_spec p (off (hlen n) i + (i - i))); [lia|]. simpl. apply Z0; auto. lia.
  - destruct (set_at_ok T (N n) (NS n) (hidx n (i + k) i) (sidx n (i + k) i) row (row - Z.of_nat i - 1) (- (1))%K)
      as (T1 & E1 & S1 & G1); auto; try lia.
    { unfold sidx. rewrite (off_hlen_slen n i) in Hrow by lia. lia. }
    { apply sidx_lt; lia. }
    rewrite E1. cbn [bind]. eexists; split; [reflexivity|].
    split; [auto|]. split; [simpl; lia|]. simpl fst. simpl snd. split.
    + intros a b c d H1 H2 H3 H4 Hb.
      assert (hidx n a b < N n) by (apply hidx_lt; lia).
      assert (Hq : sidx n c d < NS n) by (apply sidx_lt; lia).
      rewrite G1 by auto.
      destruct (Nat.eqb_spec (hidx n a b) (hidx n (i + k) i)) as [E|E].
      * apply hidx_inj in E; try lia. destruct E as [-> ->]. simpl.
        unfold tent. destruct (Nat.eqb_spec (i + k) i); [lia|].
        destruct (Nat.eqb_spec (sidx n c d) (sidx n (i + k) i)) as [E'|E'].
        { apply sidx_inj in E'; try lia. destruct E' as [-> ->]. rewrite !Nat.eqb_refl. reflexivity. }
        { rewrite Z0 by (auto; lia).
          destruct (Nat.eqb_spec (i + k) c), (Nat.eqb_spec i d); simpl; auto.
          subst. contradiction. }
      * simpl. apply G; auto. destruct Hb as [Hb|[-> Hb]]; auto.
        right. split; auto. assert (a <> i + k) by (intros ->; contradiction). lia.
    + intros p q Hp1 Hp2 Hq. rewrite G1 by auto.
      destruct (Nat.eqb_spec p (hidx n (i + k) i)); [lia|]. simpl. apply Z0; auto. lia.
Qed.

Lemma transformation_matrix_ok : forall n, exists T, transformation_matrix n = Ok T /\ tra_entry n T.
Proof.
  intros n. unfold transformation_matrix. rewrite half_tri, half_tri_strict, !Nat2Z.id.
  set (body := fun (s : mat K * Z) i => for_each (range (n - i)) s (fun '(res, row) j =>
            res' <- (if (j =? 0)%nat then
                       res1 <- set_row_slice res row (row - Z.of_nat i) (row - Z.of_nat i + Z.of_nat n - Z.of_nat i - 1) 1%K ;;
                       for_each (range i) res1 (fun r k => set_at r row (Z.of_nat i - 1 + sum_n2 (Z.of_nat n) k) 1%K)
                     else set_at res row (row - Z.of_nat i - 1) (- (1))%K) ;;
            Ok (res', row + 1)%Z)).
  destruct (for_each_range_inv (mat K * Z) body (fun i s => tra_inv n i 0 s) n (mzeros (N n) (NS n), 0%Z))
    as (s & E & I).
  - split; [apply shape_mk|]. split; [reflexivity|]. split.
    + intros a b c d _ _ _ _ [H|[_ H]]; lia.
    + intros. simpl. unfold mzeros. rewrite get_mk; auto.
  - intros i s Hi I. unfold body.
    match goal with |- context [for_each _ _ ?b] => set (inner := b) end.
    destruct (for_each_range_inv (mat K * Z) inner (fun k s => tra_inv n i k s) (n - i) s I) as (s' & E' & I').
    + intros k s0 Hk I0. destruct s0 as [r0 w0]. apply (tra_step n i k (r0, w0)); auto.
    + exists s'. split; auto. destruct I' as (Sh & R & G & Z0).
      assert (Eo : off (hlen n) i + (n - i) = off (hlen n) (Datatypes.S i) + 0) by (simpl; unfold hlen at 3; lia).
      split; auto. split; [rewrite R, Eo; reflexivity|]. split.
      * intros a b c d H1 H2 H3 H4 [Hb|[-> Hb]]; [|lia]. apply G; auto.
        destruct (Nat.eq_dec b i) as [->|]; [right; split; auto; lia|left; lia].
      * rewrite <- Eo. exact Z0.
  - unfold body in E. fold body. match goal with |- context [for_each (range n) ?s0 ?b] =>
      change (for_each (range n) s0 b) with (for_each (range n) s0 body) end.
    unfold body at 1. rewrite E. cbn [bind]. exists (fst s). split; auto.
    destruct I as (Sh & R & G & Z0). split; auto. intros. apply G; auto. left. lia.
Qed.
End Struct.
