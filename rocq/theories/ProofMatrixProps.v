(** The statements of properties C01-C09 assembled from the lemmas. *)
From Coq Require Import Arith ZArith Lia List Bool.
From Coq Require Import Ring Field.
From Verif Require Import BasePy BaseFld BaseSum BaseMat BaseNumpy BaseEx ModelMatrixOps SpecMatrix
  ProofRagged ProofMatrixOps ProofStruct ProofElim ProofUndelete.
Import ListNotations.

Section Props.
Context {K : Type} {O : Ops K} {F : Fld K}.
Add Field Kfld : (@k_field K O F).

Lemma p_vectorize_position : forall (m : mat K),
  length (vectorize_matrix m) = nr m * nc m /\
  forall i j, i < nr m -> j < nc m -> vget (vectorize_matrix m) (j * nr m + i) = get m i j.
Proof. intros; split; [apply length_vectorize|]. intros; apply vget_vectorize; auto. Qed.

Lemma p_unvectorize : forall (v : list K) r c,
  (length v = r * c -> exists m, unvectorize_matrix v r c = Ok m /\ shape m r c /\ vectorize_matrix m = v) /\
  (length v <> r * c -> unvectorize_matrix v r c = Err ValueError).
Proof.
  intros v r c. split; [|apply unvectorize_err].
  intros H. destruct (unvectorize_ok v r c H) as (m & E & S & _). exists m. repeat split; auto; try apply S.
  apply (vectorize_unvectorize v r c m E).
Qed.

Lemma p_make_real_complex : forall v : list K, Nat.Even (length v) ->
  exists w, make_complex_vector v = Ok w /\ make_real_vector w = v.
Proof. intros v H. destruct (make_real_complex v H) as (w & ? & ? & _). eauto. Qed.

Lemma p_complex_matrix_always_fails : forall m : mat K, make_complex_matrix m = Err TypeError.
Proof. reflexivity. Qed.

Lemma mvmul_ext_mat : forall (A B : mat K) r c, shape A r c -> shape B r c ->
  (forall v, length v = c -> mvmul A v = mvmul B v) -> A = B.
Proof.
  intros A B r c HA HB H. apply (gshape_ext A B r c HA HB). intros i j Hi Hj.
  destruct HA as (_ & RA & CA). destruct HB as (_ & RB & CB).
  set (e := mkv c (fun k => if (j =? k)%nat then 1%K else 0%K)).
  assert (Le : length e = c) by apply length_mkv.
  assert (G : forall M : mat K, nr M = r -> nc M = c -> vget (mvmul M e) i = get M i j).
  { intros M HM HC. rewrite vget_mvmul by lia. rewrite HC.
    rewrite (sumn_single c j); auto.
    - unfold e. rewrite vget_mkv by auto. rewrite Nat.eqb_refl. ring.
    - intros k Hk Hne. unfold e. rewrite vget_mkv by auto. destruct (Nat.eqb_spec j k); [subst; contradiction|ring]. }
  rewrite <- (G A), <- (G B) by auto. rewrite H; auto.
Qed.

Lemma p_duplication : forall n, exists D : mat K, duplication_matrix n = Ok D /\
  shape D (n * n) (n * (n + 1) / 2) /\
  (forall M, symmetric n M -> mvmul D (vech M) = vectorize_matrix M) /\
  (forall v, length v = n * (n + 1) / 2 -> exists M, symmetric n M /\ vech M = v /\ mvmul D v = vectorize_matrix M).
Proof.
  intros n. destruct (duplication_matrix_ok n) as (D & E & HD). exists D.
  assert (EN : n * (n + 1) / 2 = off (hlen n) n).
  { rewrite <- off_hlen_full, Nat.mul_comm. apply Nat.div_mul. lia. }
  rewrite EN. split; auto. split; [apply HD|]. split.
  - intros. apply dup_vech with (n := n); auto.
  - intros v Hv. exists (sym_of n v). split; [apply symmetric_sym_of|]. split; [apply vech_sym_of; auto|].
    apply dup_any; auto.
Qed.

Lemma p_transformation : forall n, exists D T : mat K,
  duplication_matrix n = Ok D /\ transformation_matrix n = Ok T /\
  shape T (n * (n + 1) / 2) (n * (n - 1) / 2) /\
  (forall M, laplacian n M -> mvmul T (ve M) = vech M) /\
  (forall w, length w = n * (n - 1) / 2 ->
     exists M, laplacian n M /\ ve M = w /\ mvmul D (mvmul T w) = vectorize_matrix M).
Proof.
  intros n. destruct (duplication_matrix_ok n) as (D & ED & HD). destruct (transformation_matrix_ok n) as (T & ET & HT).
  exists D, T. split; auto. split; auto.
  assert (EN : n * (n + 1) / 2 = off (hlen n) n).
  { rewrite <- off_hlen_full, Nat.mul_comm. apply Nat.div_mul. lia. }
  assert (ES : n * (n - 1) / 2 = off (slen n) n).
  { rewrite <- off_slen_full, Nat.mul_comm. apply Nat.div_mul. lia. }
  rewrite EN, ES. split; [apply HT|]. split; [intros; apply (tra_ve n); auto|].
  intros w Hw. exists (lap_of n w). split; [apply laplacian_lap_of|]. split; [apply ve_lap_of; auto|].
  rewrite (tra_any n T w HT). apply (dup_vech n); auto. apply laplacian_lap_of.
Qed.

Lemma vectorize_inj : forall M M' : mat K, wf M -> wf M' -> nr M = nr M' -> nc M = nc M' ->
  vectorize_matrix M = vectorize_matrix M' -> M = M'.
Proof.
  intros M M' W W' Hr Hc E. generalize (unvectorize_vectorize M W) (unvectorize_vectorize M' W').
  rewrite E, Hr, Hc. intros; congruence.
Qed.

Lemma p_elimination_sym : forall n, exists D E : mat K,
  duplication_matrix n = Ok D /\ elimination_sym_matrix n = Ok E /\
  (forall M, shape M n n -> mvmul E (vectorize_matrix M) = vech (sym_part n M)) /\
  mmul E D = meye (n * (n + 1) / 2) /\
  (forall M, shape M n n -> mvmul D (mvmul E (vectorize_matrix M)) = vectorize_matrix (sym_part n M)) /\
  tr (mmul D E) = mmul D E /\ mmul (mmul D E) (mmul D E) = mmul D E.
Proof.
  intros n. destruct (duplication_matrix_ok n) as (D & ED & HD).
  destruct (elimination_sym_ok n) as (E & EE & SE & GE). exists D, E.
  assert (EN : n * (n + 1) / 2 = off (hlen n) n).
  { rewrite <- off_hlen_full, Nat.mul_comm. apply Nat.div_mul. lia. }
  rewrite EN.
  assert (SD : shape D (n * n) (off (hlen n) n)) by apply HD.
  destruct SE as (WE & RE & CE). destruct SD as (WD & RD & CD).
  assert (PM : forall M, shape M n n -> mvmul D (mvmul E (vectorize_matrix M)) = vectorize_matrix (sym_part n M)).
  { intros M HM. rewrite GE by auto. apply (dup_vech n); auto.
    split; [apply shape_mk|]. intros i j Hi Hj. unfold sym_part. rewrite !get_mk by auto. f_equal. ring. }
  assert (ID : mmul E D = meye (off (hlen n) n)).
  { apply (mvmul_ext_mat _ _ (off (hlen n) n) (off (hlen n) n)).
    - apply shape_mmul with (m := n * n); auto.
    - apply shape_mk.
    - intros v Hv. rewrite mvmul_assoc by congruence. rewrite (dup_any n D v HD).
      rewrite GE by apply shape_mk.
      rewrite sym_part_symmetric by apply symmetric_sym_of. rewrite vech_sym_of by auto.
      rewrite <- Hv at 1. symmetry. apply mvmul_1. }
  split; auto. split; auto. split; auto. split; auto. split; auto. split.
  - (* symmetric: the (i n + j, k n + l) entry *)
    assert (SH : shape (mmul D E) (n * n) (n * n)) by (apply shape_mmul with (m := off (hlen n) n); auto).
    apply (gshape_ext _ _ (n * n) (n * n)); auto.
    { split; [apply wf_mk|]. split; simpl; auto. }
    assert (ENT : forall i j k l, i < n -> j < n -> k < n -> l < n ->
       get (mmul D E) (i * n + j) (k * n + l) =
       (((if ((i =? k) && (j =? l))%nat then 1 else 0) + (if ((i =? l) && (j =? k))%nat then 1 else 0)) / (1 + 1))%K).
    { intros i j k l Hi Hj Hk Hl.
      set (U := mk n n (fun a b => if ((a =? l) && (b =? k))%nat then 1%K else 0%K)).
      assert (G := PM U (shape_mk _ _ _)). rewrite <- mvmul_assoc in G by congruence.
      apply (f_equal (fun v => vget v (i * n + j))) in G.
      rewrite vget_mvmul in G by (simpl; rewrite RD; apply idx_bound; auto).
      replace (nc (mmul D E)) with (n * n) in G by (simpl; auto).
      assert (VU : forall a b, a < n -> b < n -> vget (vectorize_matrix U) (b * n + a) = get U a b).
      { intros a b Ha Hb. apply (vget_vectorize U); auto. }
      rewrite (sumn_single (n * n) (k * n + l)) in G.
      - rewrite VU in G by auto. unfold U at 1 in G. rewrite get_mk in G by auto. rewrite !Nat.eqb_refl in G. simpl in G.
        transitivity (get (mmul D E) (i * n + j) (k * n + l) * 1)%K; [ring|]. rewrite G.
        change (vget (vectorize_matrix (sym_part n U)) (i * nr (sym_part n U) + j) =
           (((if ((i =? k) && (j =? l))%nat then 1 else 0) + (if ((i =? l) && (j =? k))%nat then 1 else 0)) / (1 + 1))%K).
        rewrite vget_vectorize by auto. unfold sym_part. rewrite get_mk by auto. unfold U. rewrite !get_mk by auto.
        rewrite (andb_comm (j =? l)). reflexivity.
      - apply idx_bound; auto.
      - intros q Hq Hne. destruct (divmod_bound q n n Hq) as (Ha & Hb & Eq). rewrite Eq.
        rewrite VU by auto. unfold U. rewrite get_mk by auto.
        destruct (Nat.eqb_spec (q mod n) l), (Nat.eqb_spec (q / n) k); simpl; try ring.
        exfalso. apply Hne. congruence. }
    intros p q Hp Hq. rewrite get_tr by (simpl; lia).
    destruct (divmod_bound p n n Hp) as (H1 & H2 & E1). destruct (divmod_bound q n n Hq) as (H3 & H4 & E2).
    rewrite E1, E2, !ENT by auto.
    rewrite (Nat.eqb_sym (q / n) (p / n)), (Nat.eqb_sym (q mod n) (p mod n)), (Nat.eqb_sym (q / n) (p mod n)), (Nat.eqb_sym (q mod n) (p / n)).
    rewrite (andb_comm (p mod n =? q / n)). reflexivity.
  - rewrite mmul_assoc by (simpl; congruence). rewrite <- (mmul_assoc E D E) by congruence. rewrite ID.
    rewrite (mmul_1_l' (off (hlen n) n)); auto.
Qed.

Lemma p_elimination_lap : forall n, exists T E : mat K,
  transformation_matrix n = Ok T /\ elimination_lap_matrix n = Ok E /\
  (forall M, shape M n n -> mvmul E (vech M) = ve M) /\
  mmul E T = meye (n * (n - 1) / 2) /\
  (forall M, laplacian n M -> mvmul T (mvmul E (vech M)) = vech M).
Proof.
  intros n. destruct (transformation_matrix_ok n) as (T & ET & HT).
  destruct (elimination_lap_ok n) as (E & EE & CE & RE & WE & GE). exists T, E.
  assert (ES : n * (n - 1) / 2 = off (slen n) n).
  { rewrite <- off_slen_full, Nat.mul_comm. apply Nat.div_mul. lia. }
  rewrite ES. assert (ST := proj1 HT). destruct ST as (WT & RT & CT).
  split; auto. split; auto. split; [intros; apply (elim_lap_vech n); auto|]. split.
  - apply (mvmul_ext_mat _ _ (off (slen n) n) (off (slen n) n)).
    + apply shape_mmul with (m := off (hlen n) n); auto.
    + apply shape_mk.
    + intros w Hw. rewrite mvmul_assoc by congruence. rewrite (tra_any n T w HT).
      rewrite (elim_lap_vech n) by (auto; apply shape_mk). rewrite ve_lap_of by auto.
      rewrite <- Hw at 1. symmetry. apply mvmul_1.
  - intros M HM. rewrite (elim_lap_vech n) by (auto; apply HM). apply (tra_ve n); auto.
Qed.
End Props.

Lemma p_complex_matrix_refuted : forall (K : Type) (O : Ops K) (m : mat (cplx K)),
  make_complex_matrix (make_real_matrix m) = Err TypeError.
Proof. reflexivity. Qed.

Lemma p_odd_refuted : exists v : list Qcanon.Qc, Nat.Odd (length v) /\
  exists w, make_complex_vector v = Ok w /\ make_real_vector w <> v.
Proof.
  exists (map zq [1; 2; 3]%Z). split; [exists 1; reflexivity|].
  eexists; split; [reflexivity|]. discriminate.
Qed.

Lemma p_undelete_repeated_refuted : exists (m : mat Qcanon.Qc) (l : list Z) d,
  np_delete0 m l = Ok d /\ nr (undelete d l 0) <> nr m.
Proof.
  exists (zrows [[1]; [2]]%Z), [0; 0]%Z. eexists. split; [reflexivity|]. discriminate.
Qed.

Lemma p_undelete_negative_refuted : exists (m : mat Qcanon.Qc) d,
  np_delete0 m [(-1)%Z] = Ok d /\ undelete d [(-1)%Z] 0 <> zero_rows m [nr m - 1].
Proof.
  exists (zrows [[1]; [2]; [3]]%Z). eexists. split; [reflexivity|].
  apply meqb_neq. vm_compute. reflexivity.
Qed.
