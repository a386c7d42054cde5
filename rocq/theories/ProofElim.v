(** Transformation matrix applied to vectors, elimination matrices. *)
From Coq Require Import Arith ZArith Lia List Bool.
From Coq Require Import Ring Field.
From Verif Require Import BasePy BaseFld BaseSum BaseMat BaseNumpy ModelMatrixOps SpecMatrix ProofRagged ProofMatrixOps ProofStruct.
Import ListNotations.

Section Elim.
Context {K : Type} {O : Ops K} {F : Fld K}.
Add Field Kfld : (@k_field K O F).
Local Open Scope K_scope.

Notation N n := (off (hlen n) n).
Notation NS n := (off (slen n) n).

(** sums over the strictly lower triangle *)
Lemma sum_sidx : forall n (f : nat -> K),
  sumn (NS n) f = sumn n (fun d => sumn n (fun c => if (d <? c)%nat then f (sidx n c d) else 0)).
Proof.
  intros n f. rewrite ragged_sum. apply sumn_ext. intros d Hd.
  replace (sumn n (fun c => if (d <? c)%nat then f (sidx n c d) else 0))
    with (sumn (S d + slen n d) (fun c => if (d <? c)%nat then f (sidx n c d) else 0))
    by (f_equal; unfold slen; lia).
  rewrite sumn_plus. rewrite (sumn_zero (S d)).
  2: { intros c Hc. destruct (Nat.ltb_spec d c); [lia|reflexivity]. }
  transitivity (sumn (slen n d) (fun t => if (d <? S d + t)%nat then f (sidx n (S d + t) d) else 0)); [|ring].
  apply sumn_ext. intros t Ht. destruct (Nat.ltb_spec d (S d + t)); [|lia].
  f_equal. unfold sidx. lia.
Qed.

Lemma tra_mvmul_off : forall n T w a b, tra_entry n T -> (b < a)%nat -> (a < n)%nat ->
  vget (mvmul T w) (hidx n a b) = - vget w (sidx n a b).
Proof.
  intros n T w a b ((W & Hr & Hc) & G) H1 H2.
  rewrite vget_mvmul by (rewrite Hr; apply hidx_lt; lia). rewrite Hc.
  rewrite (sumn_single (NS n) (sidx n a b)); [|apply sidx_lt; lia|].
  - rewrite G by lia. unfold tent. destruct (Nat.eqb_spec a b); [lia|]. rewrite !Nat.eqb_refl. simpl. ring.
  - intros q Hq Hne. destruct (sidx_surj _ _ Hq) as (c & d & ? & ? & ->).
    rewrite G by lia. unfold tent. destruct (Nat.eqb_spec a b); [lia|].
    destruct (Nat.eqb_spec a c), (Nat.eqb_spec b d); simpl; try ring. subst; contradiction.
Qed.

Lemma tra_mvmul_diag : forall n T w a, tra_entry n T -> (a < n)%nat ->
  vget (mvmul T w) (hidx n a a) =
    sumn n (fun c => if (c =? a)%nat then 0 else vget w (sidx n (Nat.max a c) (Nat.min a c))).
Proof.
  intros n T w a ((W & Hr & Hc) & G) Ha.
  rewrite vget_mvmul by (rewrite Hr; apply hidx_lt; lia). rewrite Hc, sum_sidx.
  transitivity (sumn n (fun d => sumn n (fun c =>
     (if (c =? a)%nat then (if (d <? a)%nat then vget w (sidx n a d) else 0) else 0)
     + (if (d =? a)%nat then (if (a <? c)%nat then vget w (sidx n c a) else 0) else 0)))).
  { apply sumn_ext. intros d Hd. apply sumn_ext. intros c Hc'.
    destruct (Nat.ltb_spec d c).
    - rewrite G by lia. unfold tent. rewrite Nat.eqb_refl.
      destruct (Nat.eqb_spec c a) as [->|]; destruct (Nat.eqb_spec d a) as [->|]; simpl; try lia.
      + destruct (Nat.ltb_spec d a); [ring|lia].
      + destruct (Nat.ltb_spec a c); [ring|lia].
      + ring.
    - destruct (Nat.eqb_spec c a) as [->|]; destruct (Nat.eqb_spec d a) as [->|]; simpl; try ring.
      + rewrite Nat.ltb_irrefl. ring.
      + destruct (Nat.ltb_spec d a); [lia|ring].
      + destruct (Nat.ltb_spec a c); [lia|ring]. }
  transitivity (sumn n (fun d => (if (d <? a)%nat then vget w (sidx n a d) else 0))
      + sumn n (fun c => if (a <? c)%nat then vget w (sidx n c a) else 0)).
  { transitivity (sumn n (fun d => (if (d <? a)%nat then vget w (sidx n a d) else 0) +
       (if (d =? a)%nat then sumn n (fun c => if (a <? c)%nat then vget w (sidx n c a) else 0) else 0))).
    - apply sumn_ext. intros d Hd. rewrite sumn_add. f_equal.
      + rewrite (sumn_single n a); auto.
        * rewrite Nat.eqb_refl. reflexivity.
        * intros c _ Hne. destruct (Nat.eqb_spec c a); [contradiction|reflexivity].
      + destruct (Nat.eqb_spec d a); [reflexivity|]. apply sumn_zero. reflexivity.
    - rewrite sumn_add. f_equal. rewrite (sumn_single n a); auto.
      + rewrite Nat.eqb_refl. reflexivity.
      + intros d _ Hne. destruct (Nat.eqb_spec d a); [contradiction|reflexivity]. }
  rewrite <- sumn_add. apply sumn_ext. intros c Hc'.
  destruct (Nat.eqb_spec c a) as [->|].
  - rewrite Nat.ltb_irrefl. ring.
  - destruct (Nat.ltb_spec c a), (Nat.ltb_spec a c); try lia.
    + rewrite Nat.max_l, Nat.min_r by lia. ring.
    + rewrite Nat.max_r, Nat.min_l by lia. ring.
Qed.

(** the Laplacian whose off-diagonal entries are the negated parameters [w] *)
Definition lap_of (n : nat) (w : list K) : mat K :=
  mk n n (fun i j => if (i =? j)%nat
     then sumn n (fun c => if (c =? i)%nat then 0 else vget w (sidx n (Nat.max i c) (Nat.min i c)))
     else - vget w (sidx n (Nat.max i j) (Nat.min i j))).

Lemma laplacian_lap_of : forall n w, laplacian n (lap_of n w).
Proof.
  intros n w. split; [split; [apply shape_mk|]|].
  - intros i j Hi Hj. unfold lap_of. rewrite !get_mk by auto.
    destruct (Nat.eqb_spec i j) as [->|]; [rewrite Nat.eqb_refl; reflexivity|].
    destruct (Nat.eqb_spec j i); [lia|]. rewrite Nat.max_comm, Nat.min_comm. reflexivity.
  - intros i Hi.
    transitivity (sumn n (fun j => (if (j =? i)%nat then sumn n (fun c => if (c =? i)%nat then 0 else vget w (sidx n (Nat.max i c) (Nat.min i c))) else 0)
        - (if (j =? i)%nat then 0 else vget w (sidx n (Nat.max i j) (Nat.min i j))))).
    + apply sumn_ext. intros j Hj. unfold lap_of. rewrite get_mk by auto.
      destruct (Nat.eqb_spec i j) as [->|]; [rewrite Nat.eqb_refl; ring|].
      destruct (Nat.eqb_spec j i); [lia|]. ring.
    + rewrite sumn_sub. rewrite (sumn_single n i); auto.
      * rewrite Nat.eqb_refl. ring.
      * intros j _ Hne. destruct (Nat.eqb_spec j i); [contradiction|reflexivity].
Qed.

Lemma ve_lap_of : forall n w, length w = NS n -> ve (lap_of n w) = w.
Proof.
  intros n w H. apply (svec_ext n); auto; [apply (length_ve (lap_of n w))|].
  intros a b H1 H2. rewrite (vget_ve (lap_of n w)) by auto. unfold lap_of. rewrite get_mk by lia.
  destruct (Nat.eqb_spec a b); [lia|]. rewrite Nat.max_l, Nat.min_r by lia. ring.
Qed.

Lemma lap_of_ve : forall n M, laplacian n M -> lap_of n (ve M) = M.
Proof.
  intros n M ((Sh & Sy) & Z0). assert (Hr : nr M = n) by apply Sh.
  apply (gshape_ext _ _ n n); [apply shape_mk|auto|].
  assert (V : forall i j, (i < n)%nat -> (j < n)%nat -> i <> j ->
      vget (ve M) (sidx n (Nat.max i j) (Nat.min i j)) = - get M i j).
  { intros i j Hi Hj Hne. rewrite <- Hr, vget_ve by lia.
    destruct (Nat.max_spec i j) as [[? ->]|[? ->]], (Nat.min_spec i j) as [[? ->]|[? ->]]; try lia; auto.
    rewrite Sy by lia. reflexivity. }
  intros i j Hi Hj. unfold lap_of. rewrite get_mk by auto.
  destruct (Nat.eqb_spec i j) as [<-|Hne].
  - transitivity (sumn n (fun c => (if (c =? i)%nat then get M i i else 0) - get M i c)).
    + apply sumn_ext. intros c Hc. destruct (Nat.eqb_spec c i) as [->|]; [ring|]. rewrite V by auto. ring.
    + rewrite sumn_sub, Z0 by auto. rewrite (sumn_single n i); auto.
      * rewrite Nat.eqb_refl. ring.
      * intros c _ Hc. destruct (Nat.eqb_spec c i); [contradiction|reflexivity].
  - rewrite V by auto. ring.
Qed.

Lemma tra_any : forall n T w, tra_entry n T -> mvmul T w = vech (lap_of n w).
Proof.
  intros n T w HT. assert (HT' := HT). destruct HT as ((W & Hr & Hc) & G).
  apply (hvec_ext n).
  - rewrite length_mvmul; auto.
  - apply (length_vech (lap_of n w)).
  - intros a b H1 H2. rewrite (vget_vech (lap_of n w)) by auto. unfold lap_of. rewrite get_mk by lia.
    destruct (Nat.eqb_spec a b) as [<-|].
    + apply tra_mvmul_diag; auto.
    + rewrite Nat.max_l, Nat.min_r by lia. apply tra_mvmul_off; auto; lia.
Qed.

Lemma tra_ve : forall n T M, tra_entry n T -> laplacian n M -> mvmul T (ve M) = vech M.
Proof. intros n T M HT HM. rewrite (tra_any n) by auto. rewrite lap_of_ve; auto. Qed.

(** *** elimination of the upper triangle *)
Lemma elim_sums : forall n D q, dup_entry n D -> (q < N n)%nat -> forall f : nat -> K,
  exists a b, (b <= a)%nat /\ (a < n)%nat /\ q = hidx n a b /\
  sumn (n * n) (fun p => get D p q * f p) = if (a =? b)%nat then f (a * n + a)%nat else f (a * n + b)%nat + f (b * n + a)%nat.
Proof.
  intros n D q (Sh & G) Hq f. destruct (hidx_surj _ _ Hq) as (a & b & H1 & H2 & E).
  exists a, b. repeat split; auto.
  assert (Z0 : forall i j, (i < n)%nat -> (j < n)%nat -> ~ (i = a /\ j = b) -> ~ (i = b /\ j = a) ->
    get D (i * n + j)%nat q = 0).
  { intros i j Hi Hj Hn1 Hn2. rewrite G by auto. destruct (Nat.eqb_spec q (hidx n (Nat.max i j) (Nat.min i j))) as [E'|]; auto.
    rewrite E in E'. apply hidx_inj in E'; try lia. }
  assert (One : forall i j, (i < n)%nat -> (j < n)%nat -> (i = a /\ j = b) \/ (i = b /\ j = a) ->
    get D (i * n + j)%nat q = 1).
  { intros i j Hi Hj Hor. rewrite G by auto. replace (Nat.max i j) with a by lia. replace (Nat.min i j) with b by lia.
    rewrite E, Nat.eqb_refl. reflexivity. }
  destruct (Nat.eqb_spec a b) as [->|Hne].
  - rewrite (sumn_single _ (b * n + b)%nat).
    + rewrite One by lia. ring.
    + apply idx_bound; lia.
    + intros p Hp Hne. destruct (divmod_bound p n n Hp) as (Hi & Hj & Ep).
      set (i := (p / n)%nat) in *. set (j := (p mod n)%nat) in *. rewrite Ep.
      rewrite Z0; [ring|auto|auto| |]; intros [-> ->]; apply Hne; auto.
  - rewrite (sumn_two _ (a * n + b)%nat (b * n + a)%nat).
    + rewrite !One by lia. ring.
    + apply idx_bound; lia.
    + apply idx_bound; lia.
    + intro E'. assert (((a * n + b)%nat =? (b * n + a)%nat)%nat = true) as E2 by (apply Nat.eqb_eq; auto).
      rewrite eqb_pair in E2 by lia. apply andb_prop in E2. destruct E2 as [E2 _]. apply Nat.eqb_eq in E2. lia.
    + intros p Hp Hn1 Hn2. destruct (divmod_bound p n n Hp) as (Hi & Hj & Ep).
      set (i := (p / n)%nat) in *. set (j := (p mod n)%nat) in *. rewrite Ep.
      rewrite Z0; [ring|auto|auto| |]; intros [-> ->]; auto.
Qed.

Lemma elimination_sym_ok : forall n, exists E, elimination_sym_matrix n = Ok E /\
  shape E (N n) (n * n) /\
  forall M, shape M n n -> mvmul E (vectorize_matrix M) = vech (sym_part n M).
Proof.
  intros n. unfold elimination_sym_matrix.
  destruct (duplication_matrix_ok n) as (D & ED & HD). rewrite ED. cbn [bind].
  assert (HD' := HD). destruct HD as ((WD & RD & CD) & _).
  set (sums := mkv (nr (tr D)) (fun i => sumn (nc (tr D)) (fun j => get (tr D) i j))).
  assert (Ls : length (map (fun x => 1 / x) sums) = N n).
  { unfold sums. rewrite map_length, length_mkv. simpl. auto. }
  unfold matmul. unfold mdiag at 1. rewrite nc_mk, Ls. replace (nr (tr D)) with (N n) by (simpl; auto).
  rewrite Nat.eqb_refl. eexists; split; [reflexivity|].
  split.
  { split; [apply wf_mk|]. split; [unfold mdiag; simpl; auto|simpl; auto]. }
  intros M HM. assert (Hr : nr M = n) by apply HM. assert (Hc : nc M = n) by apply HM.
  rewrite mvmul_assoc by (unfold mdiag; rewrite nc_mk, Ls; simpl; auto).
  apply (hvec_ext n).
  - rewrite length_mvmul. unfold mdiag. rewrite nr_mk. exact Ls.
  - apply (length_vech (sym_part n M)).
  - intros a b H1 H2. rewrite (vget_vech (sym_part n M)) by auto.
    unfold sym_part. rewrite get_mk by lia.
    assert (Hq : (hidx n a b < N n)%nat) by (apply hidx_lt; auto).
    rewrite vget_mvmul by (unfold mdiag; rewrite nr_mk, Ls; auto).
    replace (nc (mdiag (map (fun x => 1 / x) sums))) with (N n) by (unfold mdiag; rewrite nc_mk; auto).
    unfold mdiag.
    rewrite (sumn_single (N n) (hidx n a b)); auto.
    + rewrite get_mk by (rewrite Ls; auto). rewrite Nat.eqb_refl.
      rewrite (vget_map _ _ _ 0) by (rewrite map_length in Ls; rewrite Ls; auto).
      change (nth (hidx n a b) sums 0) with (vget sums (hidx n a b)).
      unfold sums. rewrite vget_mkv by (simpl; rewrite CD; auto).
      rewrite vget_mvmul by (simpl; rewrite CD; auto).
      replace (nc (tr D)) with (n * n)%nat by (simpl; auto).
      transitivity (1 / sumn (n * n) (fun p => get D p (hidx n a b) * 1) *
         sumn (n * n) (fun p => get D p (hidx n a b) * vget (vectorize_matrix M) p)).
      { f_equal; [f_equal|].
        - apply sumn_ext. intros p Hp. rewrite get_tr; [ring|rewrite CD; auto|rewrite RD; auto].
        - apply sumn_ext. intros p Hp. rewrite get_tr; [ring|rewrite CD; auto|rewrite RD; auto]. }
      destruct (elim_sums n D (hidx n a b) HD' Hq (fun _ => 1)) as (a1 & b1 & A1 & A2 & A3 & ->).
      destruct (elim_sums n D (hidx n a b) HD' Hq (vget (vectorize_matrix M))) as (a2 & b2 & B1 & B2 & B3 & ->).
      apply hidx_inj in A3; auto. destruct A3 as [<- <-].
      apply hidx_inj in B3; auto. destruct B3 as [<- <-].
      assert (V : forall i j, (i < n)%nat -> (j < n)%nat -> vget (vectorize_matrix M) (i * n + j) = get M j i).
      { intros i j Hi Hj. replace (i * n + j)%nat with (i * nr M + j)%nat by (rewrite Hr; reflexivity).
        apply vget_vectorize; lia. }
      rewrite !V by lia.
      generalize k2_neq0. intros H20.
      destruct (Nat.eqb_spec a b) as [<-|]; field; auto. split; auto. apply k1_neq0.
    + intros i Hi Hne. rewrite get_mk by (rewrite Ls; auto).
      destruct (Nat.eqb_spec (hidx n a b) i); [subst; contradiction|ring].
Qed.

Lemma sym_part_symmetric : forall n M, symmetric n M -> sym_part n M = M.
Proof.
  intros n M (Sh & Sy). apply (gshape_ext _ _ n n); auto; [apply shape_mk|].
  intros i j Hi Hj. unfold sym_part. rewrite get_mk by auto. rewrite (Sy j i) by auto. generalize k2_neq0. intro. field. auto.
Qed.

(** *** deletion of rows *)
Lemma ldel_from_app : forall A (l1 l2 : list A) o s,
  ldel_from o (l1 ++ l2) s = ldel_from o l1 s ++ ldel_from (o + length l1) l2 s.
Proof.
  induction l1; intros; simpl.
  - rewrite Nat.add_0_r. reflexivity.
  - rewrite IHl1. replace (o + S (length l1))%nat with (S o + length l1)%nat by lia.
    destruct (memb o s); reflexivity.
Qed.
Lemma ldel_from_map : forall A B (f : A -> B) l o s, ldel_from o (map f l) s = map f (ldel_from o l s).
Proof. induction l; intros; simpl; auto. rewrite IHl. destruct (memb o s); reflexivity. Qed.
Lemma memb_spec : forall i s, memb i s = true <-> In i s.
Proof.
  intros. unfold memb. rewrite existsb_exists. split.
  - intros (x & H & E). apply Nat.eqb_eq in E. subst. auto.
  - intros H. exists i. split; auto. apply Nat.eqb_refl.
Qed.
Lemma memb_false : forall i s, memb i s = false <-> ~ In i s.
Proof. intros. rewrite <- memb_spec. destruct (memb i s); split; congruence. Qed.
Lemma ldel_from_none : forall A (l : list A) o s, (forall i, (o <= i)%nat -> (i < o + length l)%nat -> ~ In i s) ->
  ldel_from o l s = l.
Proof.
  induction l; intros o s H; simpl; auto.
  replace (memb o s) with false by (symmetry; apply memb_false; apply H; simpl; lia).
  f_equal. apply IHl. intros; apply H; simpl; lia.
Qed.

Lemma ldel_ragged : forall A n (g : nat -> nat -> A) m s, (m <= n)%nat ->
  (forall i, (i < N n)%nat -> In i s <-> exists a, (a < n)%nat /\ i = off (hlen n) a) ->
  ldel (ragged (hlen n) m g) s = ragged (slen n) m (fun b t => g b (S t)).
Proof.
  intros A n g m s Hm Hs. unfold ldel. induction m; [reflexivity|].
  rewrite !ragged_S, ldel_from_app, IHm by lia. f_equal. rewrite ragged_length, Nat.add_0_l.
  assert (Hb : (off (hlen n) m + hlen n m <= N n)%nat).
  { generalize (off_mono (hlen n) (S m) n ltac:(lia)). simpl. lia. }
  assert (E : hlen n m = S (slen n m)) by (unfold hlen, slen; lia). rewrite E in Hb.
  replace (range (hlen n m)) with (0%nat :: map S (range (slen n m))).
  2: { rewrite E. unfold range. simpl. rewrite seq_shift. reflexivity. }
  simpl. replace (memb (off (hlen n) m) s) with true.
  2: { symmetry. apply memb_spec. apply Hs; [lia|]. exists m. split; auto. }
  rewrite map_map. apply ldel_from_none.
  rewrite map_length, length_range. intros i H1 H2 Hin.
  apply Hs in Hin; [|lia]. destruct Hin as (a & Ha & Ea).
  destruct (lt_eq_lt_dec a m) as [[L| ->]|L]; [|lia|].
  - generalize (off_mono (hlen n) a m ltac:(lia)). lia.
  - generalize (off_mono (hlen n) (S m) a ltac:(lia)). simpl. lia.
Qed.

Lemma nth_ldel_rows : forall (l : list (list K)) (f : list K -> K) o s,
  map f (ldel_from o l s) = ldel_from o (map f l) s.
Proof. intros. symmetry. apply ldel_from_map. Qed.

Lemma mvmul_rows : forall (m : mat K) v, length (dat m) = nr m ->
  mvmul m v = map (fun r => sumn (nc m) (fun k => nth k r 0 * vget v k)) (dat m).
Proof.
  intros m v W. unfold mvmul, mkv. rewrite <- W.
  rewrite (list_eta _ (dat m) []) at 2. rewrite map_map.
  reflexivity.
Qed.

Lemma mvmul_delete0 : forall (m : mat K) s v, wf m ->
  mvmul (Mat (length (ldel (dat m) s)) (nc m) (ldel (dat m) s)) v = ldel (mvmul m v) s.
Proof.
  intros m s v [W _]. rewrite !mvmul_rows by auto. simpl. unfold ldel. rewrite ldel_from_map. reflexivity.
Qed.

Lemma mvmul_mopp : forall (m : mat K) v, mvmul (mopp m) v = map kopp (mvmul m v).
Proof.
  intros. unfold mvmul, mkv. rewrite map_map. simpl. apply map_range_ext. intros i Hi.
  rewrite <- sumn_opp. apply sumn_ext. intros k Hk. rewrite get_mopp by auto. ring.
Qed.

Lemma norm_idxs_all : forall n l (f : nat -> nat), (forall i, In i l -> (f i < n)%nat) ->
  norm_idxs n (map (fun i => Z.of_nat (f i)) l) = Ok (map f l).
Proof.
  induction l; intros f H; simpl; auto. rewrite norm_idx_nat by (apply H; left; auto).
  simpl. rewrite IHl by (intros; apply H; right; auto). reflexivity.
Qed.

Lemma hdiag_pos : forall n i, (i < n)%nat ->
  (half (Z.of_nat n * (Z.of_nat n + 1)) - half ((Z.of_nat i + 1) * (Z.of_nat i + 2)))%Z
   = Z.of_nat (off (hlen n) (n - 1 - i)).
Proof.
  intros n i Hi. rewrite half_tri.
  replace ((Z.of_nat i + 1) * (Z.of_nat i + 2))%Z with (Z.of_nat (S i) * (Z.of_nat (S i) + 1))%Z by (rewrite Nat2Z.inj_succ; ring).
  rewrite half_tri.
  generalize (off_hlen_full n) (off_hlen_full (S i)) (off_hlen n (n - 1 - i) ltac:(lia)).
  generalize (off (hlen n) n) (off (hlen (S i)) (S i)) (off (hlen n) (n - 1 - i)).
  intros x y z. set (k := (n - 1 - i)%nat). assert (n = k + S i)%nat by (unfold k; lia). clearbody k. subst n.
  intros. nia.
Qed.

Lemma elimination_lap_ok : forall n, exists E, elimination_lap_matrix n = Ok E /\
  nc E = N n /\ nr E = NS n /\ wf E /\
  forall v, length v = N n ->
    mvmul E v = ragged (slen n) n (fun b t => - vget v (hidx n (S b + t) b)).
Proof.
  intros n. unfold elimination_lap_matrix, np_delete0.
  replace (nr (meye (Z.to_nat (half (Z.of_nat n * (Z.of_nat n + 1)))) : mat K)) with (N n)
    by (rewrite half_tri, Nat2Z.id; reflexivity).
  erewrite (map_ext_in _ (fun i => Z.of_nat (off (hlen n) (n - 1 - i)))).
  2: { intros i Hi. apply in_range in Hi. apply hdiag_pos; auto. }
  rewrite (norm_idxs_all (N n) (range n) (fun i => off (hlen n) (n - 1 - i))).
  2: { intros i Hi. apply in_range in Hi.
       generalize (off_mono (hlen n) (S (n - 1 - i)) n ltac:(lia)). simpl. unfold hlen at 2. lia. }
  cbn [bind]. rewrite half_tri, Nat2Z.id.
  set (s := map (fun i => off (hlen n) (n - 1 - i)) (range n)).
  assert (Hs : forall i, (i < N n)%nat -> In i s <-> exists a, (a < n)%nat /\ i = off (hlen n) a).
  { intros i Hi. unfold s. rewrite in_map_iff. split.
    - intros (x & <- & Hx). apply in_range in Hx. exists (n - 1 - x)%nat. split; [lia|reflexivity].
    - intros (a & Ha & ->). exists (n - 1 - a)%nat. split; [f_equal; lia|apply in_range; lia]. }
  assert (M : forall v, length v = N n -> ldel v s = ragged (slen n) n (fun b t => vget v (hidx n (S b + t) b))).
  { intros v Hv. transitivity (ldel (ragged (hlen n) n (fun b t => vget v (off (hlen n) b + t))) s).
    - f_equal. apply (ragged_vec_ext (hlen n) n); auto; [apply ragged_length|].
      intros b t Hb Ht. unfold vget at 2. rewrite ragged_nth; auto.
    - rewrite (ldel_ragged _ n) by auto. apply ragged_ext; auto.
      intros b t Hb Ht. f_equal. unfold hidx. lia. }
  assert (L : length (ldel (dat (meye (N n) : mat K)) s) = NS n).
  { rewrite <- (ragged_length K (slen n) n (fun b t => vget (vzeros (N n)) (hidx n (S b + t) b))).
    rewrite <- M by apply repeat_length.
    unfold ldel.
    assert (G : forall (A B : Type) (l : list A) (l' : list B) o, length l = length l' -> length (ldel_from o l s) = length (ldel_from o l' s)).
    { induction l; destruct l'; simpl; intros o H; try discriminate; auto.
      destruct (memb o s); simpl; rewrite (IHl l'); auto. }
    apply G. unfold vzeros. rewrite repeat_length. simpl. rewrite map_length, length_range. reflexivity. }
  eexists; split; [reflexivity|]. split; [reflexivity|]. split; [exact L|]. split; [apply wf_mk|].
  intros v Hv. rewrite mvmul_mopp.
  change (nc (meye (N n) : mat K)) with (N n).
  rewrite (mvmul_delete0 (meye (N n))) by apply wf_mk.
  rewrite <- Hv, mvmul_1, M by auto.
  unfold ragged. rewrite flat_map_concat_map, concat_map, map_map, <- flat_map_concat_map.
  apply flat_map_ext. intros b. rewrite map_map. reflexivity.
Qed.

Lemma elim_lap_vech : forall n E M, elimination_lap_matrix n = Ok E -> shape M n n -> mvmul E (vech M) = ve M.
Proof.
  intros n E M HE (W & Hr & Hc). destruct (elimination_lap_ok n) as (E' & HE' & _ & _ & _ & G).
  assert (E = E') by congruence. subst E'.
  rewrite G by (rewrite length_vech, Hr; reflexivity).
  rewrite ve_ragged, Hr. apply ragged_ext; auto. intros b t Hb Ht. f_equal.
  rewrite <- Hr. apply vget_vech; [lia|]. unfold slen in Ht. lia.
Qed.
End Elim.
