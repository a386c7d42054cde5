(** Lemmas about the model of matrix_operations.py. *)
From Coq Require Import Arith ZArith Lia List Bool.
From Coq Require Import Ring Field.
From Verif Require Import BasePy BaseFld BaseSum BaseMat BaseNumpy ModelMatrixOps SpecMatrix ProofRagged.
Import ListNotations.

Lemma for_each_range_inv : forall S (body : S -> nat -> res S) (Inv : nat -> S -> Prop) n s,
  Inv 0 s ->
  (forall i s, i < n -> Inv i s -> exists s', body s i = Ok s' /\ Inv (Datatypes.S i) s') ->
  exists s', for_each (range n) s body = Ok s' /\ Inv n s'.
Proof.
  intros S body Inv n s H0 Hs. induction n.
  - exists s. auto.
  - destruct IHn as (s1 & E1 & I1); [intros; apply Hs; auto; lia|].
    destruct (Hs n s1 ltac:(lia) I1) as (s2 & E2 & I2).
    exists s2. split; auto. rewrite range_S, for_each_app, E1. simpl. rewrite E2. reflexivity.
Qed.

Lemma norm_idx_nat : forall n i, i < n -> norm_idx n (Z.of_nat i) = Ok i.
Proof.
  intros n i H. unfold norm_idx.
  replace (0 <=? Z.of_nat i)%Z with true by (symmetry; apply Z.leb_le; lia).
  replace (Z.of_nat i <? Z.of_nat n)%Z with true by (symmetry; apply Z.ltb_lt; lia).
  simpl. rewrite Nat2Z.id. reflexivity.
Qed.

Lemma norm_idx_eq : forall n z i, z = Z.of_nat i -> i < n -> norm_idx n z = Ok i.
Proof. intros; subst; apply norm_idx_nat; auto. Qed.

Lemma norm_idxs_nat : forall n l, Forall (fun i => i < n) l -> norm_idxs n (map Z.of_nat l) = Ok l.
Proof.
  induction 1; simpl; [reflexivity|]. rewrite norm_idx_nat by auto. simpl. rewrite IHForall. reflexivity.
Qed.

Lemma slice_bound_nat : forall n z i, z = Z.of_nat i -> i <= n -> slice_bound n z = i.
Proof.
  intros n z i -> H. unfold slice_bound.
  replace (Z.of_nat i <? 0)%Z with false by (symmetry; apply Z.ltb_ge; lia).
  rewrite Nat2Z.id. lia.
Qed.

Lemma half_double : forall z y, z = (2 * y)%Z -> half z = y.
Proof. intros z y ->. unfold half. rewrite Z.mul_comm. apply Z.div_mul. lia. Qed.

Lemma half_tri : forall n, half (Z.of_nat n * (Z.of_nat n + 1)) = Z.of_nat (off (hlen n) n).
Proof. intros. apply half_double. generalize (off_hlen_full n). nia. Qed.

Lemma half_tri_strict : forall n, half (Z.of_nat n * (Z.of_nat n - 1)) = Z.of_nat (off (slen n) n).
Proof. intros. apply half_double. generalize (off_slen_full n). destruct n; nia. Qed.

Section Vec.
Context {K : Type} {O : Ops K}.

Lemma vectorize_ragged : forall m : mat K,
  vectorize_matrix m = ragged (fun _ => nr m) (nc m) (fun j i => get m i j).
Proof. reflexivity. Qed.

Lemma off_const : forall r c, off (fun _ => r) c = c * r.
Proof. induction c; simpl; lia. Qed.

Lemma length_vectorize : forall m : mat K, length (vectorize_matrix m) = nr m * nc m.
Proof. intros. rewrite vectorize_ragged, ragged_length, off_const. lia. Qed.

Lemma vget_vectorize : forall (m : mat K) i j, i < nr m -> j < nc m ->
  vget (vectorize_matrix m) (j * nr m + i) = get m i j.
Proof.
  intros. rewrite vectorize_ragged. unfold vget.
  rewrite <- (off_const (nr m) j). rewrite ragged_nth; auto.
Qed.

Lemma unvectorize_ok : forall (v : list K) r c, length v = r * c ->
  exists m, unvectorize_matrix v r c = Ok m /\ shape m r c /\
            forall i j, i < r -> j < c -> get m i j = vget v (j * r + i).
Proof.
  intros v r c H. unfold unvectorize_matrix. rewrite H, Nat.eqb_refl.
  eexists. split; [reflexivity|]. split; [apply shape_mk|]. intros. rewrite get_mk; auto.
Qed.

Lemma unvectorize_vectorize : forall m : mat K, wf m ->
  unvectorize_matrix (vectorize_matrix m) (nr m) (nc m) = Ok m.
Proof.
  intros m H. destruct (unvectorize_ok (vectorize_matrix m) (nr m) (nc m)) as (m' & E & S & G).
  { rewrite length_vectorize; lia. }
  rewrite E. f_equal. apply (gshape_ext _ _ (nr m) (nc m)); auto; [repeat split; auto; apply H|].
  intros. rewrite G by auto. apply vget_vectorize; auto.
Qed.

Lemma vectorize_unvectorize : forall (v : list K) r c m,
  unvectorize_matrix v r c = Ok m -> vectorize_matrix m = v.
Proof.
  intros v r c m E. unfold unvectorize_matrix in E.
  destruct (Nat.eqb_spec (length v) (r * c)) as [H|]; [|discriminate].
  injection E as <-. apply vec_ext.
  - rewrite length_vectorize. simpl. lia.
  - intros k Hk. rewrite length_vectorize in Hk. simpl in Hk.
    destruct (divmod_bound k c r) as (H1 & H2 & H3); [lia|].
    rewrite H3. set (mm := mk r c _). change r with (nr mm) at 1.
    rewrite vget_vectorize by auto. unfold mm. rewrite get_mk by auto. reflexivity.
Qed.

Lemma unvectorize_err : forall (v : list K) r c, length v <> r * c ->
  unvectorize_matrix v r c = Err ValueError.
Proof.
  intros. unfold unvectorize_matrix. destruct (Nat.eqb_spec (length v) (r * c)); [contradiction|reflexivity].
Qed.

Lemma gpu_vectorize_eq : forall m : mat K, gpu_vectorize_matrix m = vectorize_matrix m.
Proof.
  intros. unfold gpu_vectorize_matrix, vectorize_matrix, tr, mtr. simpl.
  rewrite flat_map_concat_map. reflexivity.
Qed.

(** real/complex vectors *)
Lemma length_make_real_vector : forall v : list (cplx K), length (make_real_vector v) = 2 * length v.
Proof. intros. unfold make_real_vector. rewrite app_length, !map_length. lia. Qed.

Lemma combine_re_im : forall v : list (cplx K),
  map (fun p => Cx (fst p) (snd p)) (combine (map re v) (map im v)) = v.
Proof. induction v as [|[a b] v IH]; simpl; [reflexivity|]. rewrite IH. reflexivity. Qed.

Lemma half_length_2 : forall n, (2 * n) / 2 = n.
Proof. intros. rewrite Nat.mul_comm. apply Nat.div_mul. lia. Qed.

Lemma make_complex_real : forall v : list (cplx K), make_complex_vector (make_real_vector v) = Ok v.
Proof.
  intros. unfold make_complex_vector. rewrite length_make_real_vector, half_length_2.
  unfold make_real_vector.
  rewrite firstn_app, skipn_app, map_length, Nat.sub_diag. simpl.
  rewrite firstn_all2, skipn_all2 by (rewrite map_length; lia).
  rewrite app_nil_r. simpl. unfold broadcast1. rewrite !map_length, Nat.eqb_refl.
  f_equal. apply combine_re_im.
Qed.

Lemma make_real_complex : forall v : list K, Nat.Even (length v) ->
  exists w, make_complex_vector v = Ok w /\ make_real_vector w = v /\ length v = 2 * length w.
Proof.
  intros v [h Hh]. unfold make_complex_vector. rewrite Hh, half_length_2.
  unfold broadcast1. rewrite firstn_length, skipn_length.
  replace (Nat.min h (length v)) with h by lia. replace (length v - h) with h by lia.
  rewrite Nat.eqb_refl. eexists. split; [reflexivity|].
  assert (L : forall a b : list K, length a = length b ->
    map re (map (fun p => Cx (fst p) (snd p)) (combine a b)) = a /\
    map im (map (fun p => Cx (fst p) (snd p)) (combine a b)) = b).
  { induction a as [|x a IH]; intros [|y b] Hl; simpl in *; try discriminate; auto.
    destruct (IH b ltac:(lia)) as [-> ->]. auto. }
  unfold make_real_vector.
  destruct (L (firstn h v) (skipn h v)) as [-> ->].
  { rewrite firstn_length, skipn_length. lia. }
  split; [apply firstn_skipn|].
  rewrite map_length, combine_length, firstn_length, skipn_length. lia.
Qed.

(** odd lengths: an error, except 1 and 3 *)
Lemma make_complex_odd : forall v : list K, Nat.Odd (length v) -> length v <> 1 -> length v <> 3 ->
  make_complex_vector v = Err ValueError.
Proof.
  intros v [h Hh] H1 H3. unfold make_complex_vector.
  replace (length v / 2) with h.
  2:{ rewrite Hh. replace (2 * h + 1) with (1 + h * 2) by lia. rewrite Nat.div_add by lia. reflexivity. }
  unfold broadcast1.
  assert (Hf : length (firstn h v) = h) by (rewrite firstn_length; lia).
  assert (Hs : length (skipn h v) = S h) by (rewrite skipn_length; lia).
  rewrite Hf, Hs. destruct (Nat.eqb_spec h (S h)); [lia|].
  destruct (firstn h v) as [|a [|a' l]]; destruct (skipn h v) as [|b [|b' l']]; simpl in *; try lia; auto.
Qed.
End Vec.

(** ** Real form of complex matrices *)
Section RealForm.
Context {K : Type} {O : Ops K} {F : Fld K}.
Add Field Kfld : (@k_field K O F).
Local Open Scope K_scope.

Lemma get_mmap_re : forall (m : mat (cplx K)) i j, wf m -> (i < nr m)%nat -> (j < nc m)%nat ->
  get (mmap re m) i j = re (get m i j).
Proof. intros. unfold get. rewrite (gget_mmap _ _ re (0 : cplx K)); auto. Qed.
Lemma get_mmap_im : forall (m : mat (cplx K)) i j, wf m -> (i < nr m)%nat -> (j < nc m)%nat ->
  get (mmap im m) i j = im (get m i j).
Proof. intros. unfold get. rewrite (gget_mmap _ _ im (0 : cplx K)); auto. Qed.

Lemma shape_make_real_matrix : forall m : mat (cplx K),
  shape (make_real_matrix m) (nr m + nr m) (nc m + nc m).
Proof. intros. unfold make_real_matrix, mblock. apply shape_mk. Qed.

Lemma get_make_real_matrix : forall (m : mat (cplx K)) i j, wf m ->
  (i < nr m + nr m)%nat -> (j < nc m + nc m)%nat ->
  get (make_real_matrix m) i j =
   (if (i <? nr m)%nat
    then (if (j <? nc m)%nat then re (get m i j) else - im (get m i (j - nc m)))
    else (if (j <? nc m)%nat then im (get m (i - nr m) j) else re (get m (i - nr m) (j - nc m)))).
Proof.
  intros m i j W Hi Hj. unfold make_real_matrix. rewrite get_mblock by (simpl; auto). simpl.
  destruct (Nat.ltb_spec i (nr m)), (Nat.ltb_spec j (nc m)).
  - apply get_mmap_re; auto.
  - rewrite get_mopp by (simpl; lia). rewrite get_mmap_im by (try lia; auto). reflexivity.
  - apply get_mmap_im; auto; lia.
  - apply get_mmap_re; auto; lia.
Qed.

Lemma re_sumn : forall n (f : nat -> cplx K), re (sumn n f) = sumn n (fun i => re (f i)).
Proof. induction n; intros; simpl; [reflexivity|]. rewrite IHn. reflexivity. Qed.
Lemma im_sumn : forall n (f : nat -> cplx K), im (sumn n f) = sumn n (fun i => im (f i)).
Proof. induction n; intros; simpl; [reflexivity|]. rewrite IHn. reflexivity. Qed.

Lemma make_real_matrix_mmul : forall a b : mat (cplx K), wf a -> wf b -> nc a = nr b ->
  make_real_matrix (mmul a b) = mmul (make_real_matrix a) (make_real_matrix b).
Proof.
  intros a b Wa Wb H.
  apply (gshape_ext _ _ (nr a + nr a) (nc b + nc b)).
  { exact (shape_make_real_matrix (mmul a b)). }
  { destruct (shape_make_real_matrix a) as (? & R1 & C1), (shape_make_real_matrix b) as (? & R2 & C2).
    unfold mmul. rewrite R1, C2. apply shape_mk. }
  intros i j Hi Hj.
  rewrite get_make_real_matrix by (try apply wf_mk; simpl; auto).
  destruct (shape_make_real_matrix a) as (? & R1 & C1), (shape_make_real_matrix b) as (? & R2 & C2).
  rewrite (get_mmul (make_real_matrix a)) by (rewrite ?R1, ?C2; auto). rewrite C1, sumn_plus. simpl nr. simpl nc.
  destruct (Nat.ltb_spec i (nr a)), (Nat.ltb_spec j (nc b)).
  - rewrite get_mmul by auto. rewrite re_sumn, <- sumn_add. apply sumn_ext. intros k Hk.
    rewrite !get_make_real_matrix by (try lia; auto).
    repeat match goal with |- context [(?x <? ?y)%nat] => destruct (Nat.ltb_spec x y); try lia end.
    rewrite <- H, (Nat.add_comm (nc a) k), Nat.add_sub. simpl. ring.
  - rewrite get_mmul by lia. rewrite im_sumn, <- sumn_opp, <- sumn_add. apply sumn_ext. intros k Hk.
    rewrite !get_make_real_matrix by (try lia; auto).
    repeat match goal with |- context [(?x <? ?y)%nat] => destruct (Nat.ltb_spec x y); try lia end.
    rewrite <- H, (Nat.add_comm (nc a) k), Nat.add_sub. simpl. ring.
  - rewrite get_mmul by lia. rewrite im_sumn, <- sumn_add. apply sumn_ext. intros k Hk.
    rewrite !get_make_real_matrix by (try lia; auto).
    repeat match goal with |- context [(?x <? ?y)%nat] => destruct (Nat.ltb_spec x y); try lia end.
    rewrite <- H, (Nat.add_comm (nc a) k), Nat.add_sub. simpl. ring.
  - rewrite get_mmul by lia. rewrite re_sumn, <- sumn_add. apply sumn_ext. intros k Hk.
    rewrite !get_make_real_matrix by (try lia; auto).
    repeat match goal with |- context [(?x <? ?y)%nat] => destruct (Nat.ltb_spec x y); try lia end.
    rewrite <- H, (Nat.add_comm (nc a) k), Nat.add_sub. simpl. ring.
Qed.

Lemma vget_make_real_vector : forall (v : list (cplx K)) i, (i < 2 * length v)%nat ->
  vget (make_real_vector v) i =
  if (i <? length v)%nat then re (vget v i) else im (vget v (i - length v)).
Proof.
  intros v i Hi. unfold make_real_vector, vget.
  destruct (Nat.ltb_spec i (length v)).
  - rewrite app_nth1 by (rewrite map_length; auto).
    change (nth i (map re v) 0) with (vget (map re v) i). apply (vget_map _ re v (0 : cplx K)); auto.
  - rewrite app_nth2 by (rewrite map_length; auto). rewrite map_length.
    change (nth (i - length v) (map im v) 0) with (vget (map im v) (i - length v)).
    rewrite (vget_map _ im v (0 : cplx K)) by lia. reflexivity.
Qed.

Lemma make_real_matrix_mvmul : forall (a : mat (cplx K)) v, wf a -> nc a = length v ->
  mvmul (make_real_matrix a) (make_real_vector v) = make_real_vector (mvmul a v).
Proof.
  intros a v Wa H. destruct (shape_make_real_matrix a) as (W & R1 & C1).
  apply vec_ext.
  { rewrite length_mvmul, length_make_real_vector, length_mvmul, R1. lia. }
  intros i Hi. rewrite length_mvmul, R1 in Hi.
  rewrite vget_mvmul by (rewrite R1; auto).
  rewrite vget_make_real_vector by (rewrite length_mvmul; lia). rewrite length_mvmul, C1, sumn_plus.
  destruct (Nat.ltb_spec i (nr a)).
  - rewrite vget_mvmul by auto. rewrite re_sumn, <- sumn_add. apply sumn_ext. intros k Hk.
    rewrite !get_make_real_matrix by (try lia; auto). rewrite !vget_make_real_vector by lia.
    repeat match goal with |- context [(?x <? ?y)%nat] => destruct (Nat.ltb_spec x y); try lia end.
    rewrite <- H, (Nat.add_comm (nc a) k), Nat.add_sub. simpl. ring.
  - rewrite vget_mvmul by lia. rewrite im_sumn, <- sumn_add. apply sumn_ext. intros k Hk.
    rewrite !get_make_real_matrix by (try lia; auto). rewrite !vget_make_real_vector by lia.
    repeat match goal with |- context [(?x <? ?y)%nat] => destruct (Nat.ltb_spec x y); try lia end.
    rewrite <- H, (Nat.add_comm (nc a) k), Nat.add_sub. simpl. ring.
Qed.

Lemma make_real_matrix_madd : forall a b : mat (cplx K), wf a -> wf b -> nr a = nr b -> nc a = nc b ->
  make_real_matrix (madd a b) = madd (make_real_matrix a) (make_real_matrix b).
Proof.
  intros a b Wa Wb Hr Hc.
  apply (gshape_ext _ _ (nr a + nr a) (nc a + nc a)).
  { exact (shape_make_real_matrix (madd a b)). }
  { destruct (shape_make_real_matrix a) as (? & R1 & C1). unfold madd. rewrite R1, C1. apply shape_mk. }
  intros i j Hi Hj. destruct (shape_make_real_matrix a) as (? & R1 & C1).
  rewrite (get_madd (make_real_matrix a)) by (rewrite ?R1, ?C1; auto).
  rewrite !get_make_real_matrix by (try apply wf_mk; simpl; try lia; auto). simpl nr; simpl nc.
  rewrite <- Hr, <- Hc.
  destruct (Nat.ltb_spec i (nr a)), (Nat.ltb_spec j (nc a)); rewrite get_madd by lia; simpl; ring.
Qed.

Lemma make_real_matrix_eye : forall n, make_real_matrix (meye n : mat (cplx K)) = meye (n + n).
Proof.
  intros. apply (gshape_ext _ _ (n + n) (n + n)).
  { exact (shape_make_real_matrix (meye n)). }
  { apply shape_mk. }
  intros i j Hi Hj. rewrite get_meye by auto.
  rewrite get_make_real_matrix by (try apply wf_mk; auto). simpl nr; simpl nc.
  destruct (Nat.ltb_spec i n), (Nat.ltb_spec j n); rewrite get_meye by lia;
    repeat match goal with |- context [(?x =? ?y)%nat] => destruct (Nat.eqb_spec x y); try lia end;
    simpl; try ring.
Qed.

Lemma make_real_matrix_ctr : forall a : mat (cplx K), wf a -> make_real_matrix (ctr a) = tr (make_real_matrix a).
Proof.
  intros a Wa. destruct (shape_make_real_matrix a) as (? & R1 & C1).
  apply (gshape_ext _ _ (nc a + nc a) (nr a + nr a)).
  { exact (shape_make_real_matrix (ctr a)). }
  { unfold tr, mtr. rewrite R1, C1. apply shape_mk. }
  intros i j Hi Hj. rewrite get_tr by (rewrite ?R1, ?C1; auto).
  rewrite !get_make_real_matrix by (try apply wf_mk; auto). simpl nr; simpl nc.
  destruct (Nat.ltb_spec i (nc a)), (Nat.ltb_spec j (nr a));
    unfold ctr; rewrite get_mk by lia; simpl; ring.
Qed.
End RealForm.
