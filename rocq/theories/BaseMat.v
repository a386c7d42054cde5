(** Arrays in the style of numpy: 1-D arrays are lists, 2-D arrays are
    records of a shape and a list of rows.  Leibniz equality of well-formed
    arrays is equality of shape and entries. *)
From Coq Require Import Arith Lia List Bool.
From Coq Require Import Ring Field.
From Verif Require Import BasePy BaseFld BaseSum.
Import ListNotations.
Local Open Scope K_scope.

Record mat (T : Type) := Mat { nr : nat; nc : nat; dat : list (list T) }.
Arguments Mat {T} nr nc dat.
Arguments nr {T} m.
Arguments nc {T} m.
Arguments dat {T} m.

Definition wf {T} (m : mat T) : Prop :=
  length (dat m) = nr m /\ Forall (fun r => length r = nc m) (dat m).

Definition mk {T} (r c : nat) (f : nat -> nat -> T) : mat T :=
  Mat r c (map (fun i => map (f i) (range c)) (range r)).

Definition gget {T} (d : T) (m : mat T) (i j : nat) : T := nth j (nth i (dat m) []) d.

(** shape predicate used in hypotheses *)
Definition shape {T} (m : mat T) (r c : nat) : Prop := wf m /\ nr m = r /\ nc m = c.

(** ** Purely structural facts *)
Section Struct.
Context {T U : Type}.

Lemma wf_mk : forall r c (f : nat -> nat -> T), wf (mk r c f).
Proof.
  intros; split; simpl.
  - rewrite map_length, length_range; reflexivity.
  - apply Forall_forall. intros x Hx. apply in_map_iff in Hx. destruct Hx as (i & <- & _).
    rewrite map_length, length_range; reflexivity.
Qed.

Lemma nr_mk : forall r c (f : nat -> nat -> T), nr (mk r c f) = r.
Proof. reflexivity. Qed.
Lemma nc_mk : forall r c (f : nat -> nat -> T), nc (mk r c f) = c.
Proof. reflexivity. Qed.
Lemma shape_mk : forall r c (f : nat -> nat -> T), shape (mk r c f) r c.
Proof. intros; repeat split; try apply wf_mk. Qed.

Lemma gget_mk : forall d r c (f : nat -> nat -> T) i j,
  i < r -> j < c -> gget d (mk r c f) i j = f i j.
Proof.
  intros. unfold gget, mk; simpl.
  rewrite nth_map_range by auto. rewrite nth_map_range by auto. reflexivity.
Qed.

Lemma mk_ext : forall r c (f g : nat -> nat -> T),
  (forall i j, i < r -> j < c -> f i j = g i j) -> mk r c f = mk r c g.
Proof.
  intros. unfold mk. f_equal. apply map_range_ext. intros i Hi.
  apply map_range_ext. intros; auto.
Qed.

Lemma mk_eq : forall r c r' c' (f g : nat -> nat -> T), r = r' -> c = c' ->
  (forall i j, i < r -> j < c -> f i j = g i j) -> mk r c f = mk r' c' g.
Proof. intros; subst; apply mk_ext; auto. Qed.

Lemma mat_eta : forall d (m : mat T), wf m -> m = mk (nr m) (nc m) (gget d m).
Proof.
  intros d [r c l] [H1 H2]; simpl in *. unfold mk. f_equal.
  rewrite (list_eta _ l []) at 1. subst r. apply map_range_ext. intros i Hi.
  unfold gget; simpl.
  rewrite (list_eta _ (nth i l []) d) at 1.
  rewrite Forall_forall in H2. rewrite (H2 (nth i l [])) by (apply nth_In; auto). reflexivity.
Qed.

Lemma mat_ext : forall d (m m' : mat T), wf m -> wf m' -> nr m = nr m' -> nc m = nc m' ->
  (forall i j, i < nr m -> j < nc m -> gget d m i j = gget d m' i j) -> m = m'.
Proof.
  intros d m m' H H' Hr Hc He. rewrite (mat_eta d m), (mat_eta d m') by auto.
  apply mk_eq; auto.
Qed.

Lemma shape_ext : forall d (m m' : mat T) r c, shape m r c -> shape m' r c ->
  (forall i j, i < r -> j < c -> gget d m i j = gget d m' i j) -> m = m'.
Proof.
  intros d m m' r c (W & R & C) (W' & R' & C') He.
  apply (mat_ext d); auto; try congruence. intros; apply He; congruence.
Qed.
End Struct.

Definition mmap {T U} (f : T -> U) (m : mat T) : mat U := Mat (nr m) (nc m) (map (map f) (dat m)).

Lemma wf_mmap : forall T U (f : T -> U) m, wf m -> wf (mmap f m).
Proof.
  intros T U f m [H1 H2]; split; simpl.
  - rewrite map_length; auto.
  - apply Forall_map. eapply Forall_impl; [|exact H2]. simpl. intros. rewrite map_length; auto.
Qed.

Lemma shape_mmap : forall T U (f : T -> U) m r c, shape m r c -> shape (mmap f m) r c.
Proof. intros T U f m r c (W & H1 & H2). split; [apply wf_mmap; auto|auto]. Qed.

Lemma gget_mmap : forall T U (f : T -> U) d d' m i j, wf m -> i < nr m -> j < nc m ->
  gget d' (mmap f m) i j = f (gget d m i j).
Proof.
  intros T U f d d' m i j [H1 H2] Hi Hj. unfold gget; simpl.
  rewrite nth_indep with (d' := map f []) by (rewrite map_length; congruence).
  rewrite map_nth. rewrite Forall_forall in H2.
  rewrite nth_indep with (d' := f d).
  - apply map_nth.
  - rewrite map_length. rewrite (H2 (nth i (dat m) [])); auto. apply nth_In; congruence.
Qed.

(** ** Numeric arrays *)
Section Num.
Context {K : Type} {O : Ops K}.

Definition get (m : mat K) (i j : nat) : K := gget 0 m i j.
Definition vget (v : list K) (i : nat) : K := nth i v 0.
Definition mkv {T} (n : nat) (f : nat -> T) : list T := map f (range n).

Definition mzeros (r c : nat) : mat K := mk r c (fun _ _ => 0).
Definition mones (r c : nat) : mat K := mk r c (fun _ _ => 1).
Definition meye (n : nat) : mat K := mk n n (fun i j => if (i =? j)%nat then 1 else 0).
Definition mtr {T} (d : T) (m : mat T) : mat T := mk (nc m) (nr m) (fun i j => gget d m j i).
Definition tr (m : mat K) : mat K := mtr 0 m.
Definition madd (a b : mat K) : mat K := mk (nr a) (nc a) (fun i j => get a i j + get b i j).
Definition msubt (a b : mat K) : mat K := mk (nr a) (nc a) (fun i j => get a i j - get b i j).
Definition mopp (a : mat K) : mat K := mk (nr a) (nc a) (fun i j => - get a i j).
Definition mscal (x : K) (a : mat K) : mat K := mk (nr a) (nc a) (fun i j => x * get a i j).
Definition mmul (a b : mat K) : mat K :=
  mk (nr a) (nc b) (fun i j => sumn (nc a) (fun k => get a i k * get b k j)).
Definition mvmul (a : mat K) (v : list K) : list K :=
  mkv (nr a) (fun i => sumn (nc a) (fun k => get a i k * vget v k)).
Definition mdiag (v : list K) : mat K :=
  mk (length v) (length v) (fun i j => if (i =? j)%nat then vget v i else 0).
Definition mdiagonal (m : mat K) : list K := mkv (Nat.min (nr m) (nc m)) (fun i => get m i i).
Definition hstack2 (a b : mat K) : mat K :=
  mk (nr a) (nc a + nc b) (fun i j => if (j <? nc a)%nat then get a i j else get b i (j - nc a)).
Definition vstack2 (a b : mat K) : mat K :=
  mk (nr a + nr b) (nc a) (fun i j => if (i <? nr a)%nat then get a i j else get b (i - nr a) j).
Definition mblock (a b c d : mat K) : mat K := vstack2 (hstack2 a b) (hstack2 c d).
Definition mkron (a b : mat K) : mat K :=
  mk (nr a * nr b) (nc a * nc b)
     (fun i j => get a (i / nr b) (j / nc b) * get b (i mod nr b) (j mod nc b)).
(** [m[r0:r1, c0:c1]] with in-range non-negative bounds *)
Definition mslice (m : mat K) (r0 r1 c0 c1 : nat) : mat K :=
  mk (r1 - r0) (c1 - c0) (fun i j => get m (r0 + i) (c0 + j)).
(** [m[idx, :]], [m[:, idx]] with in-range non-negative indices *)
Definition mrows (m : mat K) (idx : list nat) : mat K :=
  mk (length idx) (nc m) (fun i j => get m (nth i idx 0%nat) j).
Definition mcols (m : mat K) (idx : list nat) : mat K :=
  mk (nr m) (length idx) (fun i j => get m i (nth j idx 0%nat)).
(** a 1-D array as a column *)
Definition colm (v : list K) : mat K := mk (length v) 1 (fun i _ => vget v i).

Definition vadd (u v : list K) : list K := mkv (length u) (fun i => vget u i + vget v i).
Definition vsubt (u v : list K) : list K := mkv (length u) (fun i => vget u i - vget v i).
Definition vscal (x : K) (v : list K) : list K := map (fun y => x * y) v.
Definition vdot (u v : list K) : K := sumn (length u) (fun i => vget u i * vget v i).
Definition vzeros (n : nat) : list K := repeat 0 n.

(** Shape-checked operations (numpy raises ValueError on mismatch). *)
Definition matmul (a b : mat K) : res (mat K) :=
  if (nc a =? nr b)%nat then Ok (mmul a b) else Err ValueError.
Definition matvec (a : mat K) (v : list K) : res (list K) :=
  if (nc a =? length v)%nat then Ok (mvmul a v) else Err ValueError.

Lemma get_mk : forall r c (f : nat -> nat -> K) i j,
  (i < r)%nat -> (j < c)%nat -> get (mk r c f) i j = f i j.
Proof. intros; apply gget_mk; auto. Qed.

Lemma length_mkv : forall T n (f : nat -> T), length (mkv n f) = n.
Proof. intros; unfold mkv; rewrite map_length, length_range; reflexivity. Qed.

Lemma vget_mkv : forall n (f : nat -> K) i, (i < n)%nat -> vget (mkv n f) i = f i.
Proof. intros; unfold vget, mkv; apply nth_map_range; auto. Qed.

Lemma mkv_ext : forall T n (f g : nat -> T), (forall i, (i < n)%nat -> f i = g i) -> mkv n f = mkv n g.
Proof. intros; apply map_range_ext; auto. Qed.

Lemma vec_eta : forall v : list K, v = mkv (length v) (vget v).
Proof. intros; apply list_eta. Qed.

Lemma vec_ext : forall u v : list K, length u = length v ->
  (forall i, (i < length u)%nat -> vget u i = vget v i) -> u = v.
Proof.
  intros u v H He. rewrite (vec_eta u), (vec_eta v). rewrite <- H. apply mkv_ext; auto.
Qed.

Lemma vget_oob : forall (v : list K) i, (length v <= i)%nat -> vget v i = 0.
Proof. intros; apply nth_overflow; auto. Qed.

Lemma vget_map : forall T (f : T -> K) (v : list T) d i, (i < length v)%nat ->
  vget (map f v) i = f (nth i v d).
Proof.
  intros. unfold vget. rewrite nth_indep with (d' := f d) by (rewrite map_length; auto).
  apply map_nth.
Qed.

Lemma gmat_eta : forall m : mat K, wf m -> m = mk (nr m) (nc m) (get m).
Proof. intros; apply mat_eta; auto. Qed.

Lemma gmat_ext : forall m m' : mat K, wf m -> wf m' -> nr m = nr m' -> nc m = nc m' ->
  (forall i j, (i < nr m)%nat -> (j < nc m)%nat -> get m i j = get m' i j) -> m = m'.
Proof. intros; apply (mat_ext 0); auto. Qed.

Lemma gshape_ext : forall (m m' : mat K) r c, shape m r c -> shape m' r c ->
  (forall i j, (i < r)%nat -> (j < c)%nat -> get m i j = get m' i j) -> m = m'.
Proof. intros m m' r c H H' He; apply (shape_ext 0 m m' r c); auto. Qed.

End Num.


(** Proof automation: equality of matrices built with [mk]. *)
Ltac mk_eq_tac := apply mk_eq; [try reflexivity; try (simpl; lia)|try reflexivity; try (simpl; lia)|intros].

Ltac mext i j Hi Hj :=
  apply gmat_ext;
  [ try apply wf_mk; auto | try apply wf_mk; auto
  | simpl; try reflexivity; try lia; auto | simpl; try reflexivity; try lia; auto
  | intros i j Hi Hj; simpl in Hi, Hj ].

Section Alg.
Context {K : Type} {O : Ops K} {F : Fld K}.
Add Field Kfld : (@k_field K O F).

Lemma mmul_assoc : forall a b c : mat K, nc a = nr b -> nc b = nr c ->
  mmul (mmul a b) c = mmul a (mmul b c).
Proof.
  intros a b c H1 H2. unfold mmul at 1 3. mk_eq_tac. simpl in *.
  transitivity (sumn (nc b) (fun k => sumn (nc a) (fun l => get a i l * get b l k * get c k j))).
  - apply sumn_ext. intros k Hk. unfold mmul. rewrite get_mk by auto.
    rewrite <- sumn_scal_r. reflexivity.
  - rewrite sumn_swap. apply sumn_ext. intros l Hl. unfold mmul. rewrite get_mk by (try lia).
    rewrite <- sumn_scal_l. apply sumn_ext. intros. ring.
Qed.

Lemma mvmul_assoc : forall (a b : mat K) v, nc a = nr b ->
  mvmul (mmul a b) v = mvmul a (mvmul b v).
Proof.
  intros a b v H. unfold mvmul at 1 2. simpl. apply mkv_ext. intros i Hi.
  transitivity (sumn (nc b) (fun k => sumn (nc a) (fun l => get a i l * get b l k * vget v k))).
  - apply sumn_ext. intros k Hk. unfold mmul. rewrite get_mk by auto.
    rewrite <- sumn_scal_r. reflexivity.
  - rewrite sumn_swap. apply sumn_ext. intros l Hl. unfold mvmul. rewrite vget_mkv by lia.
    rewrite <- sumn_scal_l. apply sumn_ext. intros. ring.
Qed.

Lemma shape_mmul : forall (a b : mat K) n m p, nr a = n -> nc b = p -> nc a = m -> shape (mmul a b) n p.
Proof. intros; subst. apply shape_mk. Qed.

Lemma get_mmul : forall (a b : mat K) i j, (i < nr a)%nat -> (j < nc b)%nat ->
  get (mmul a b) i j = sumn (nc a) (fun k => get a i k * get b k j).
Proof. intros. unfold mmul. rewrite get_mk; auto. Qed.

Lemma get_meye : forall n i j, (i < n)%nat -> (j < n)%nat ->
  get (meye n : mat K) i j = if (i =? j)%nat then 1 else 0.
Proof. intros. unfold meye. rewrite get_mk; auto. Qed.

Lemma get_tr : forall (a : mat K) i j, (i < nc a)%nat -> (j < nr a)%nat -> get (tr a) i j = get a j i.
Proof. intros. unfold tr, mtr. rewrite get_mk; auto. Qed.

Lemma get_madd : forall (a b : mat K) i j, (i < nr a)%nat -> (j < nc a)%nat ->
  get (madd a b) i j = get a i j + get b i j.
Proof. intros. unfold madd. rewrite get_mk; auto. Qed.

Lemma get_msubt : forall (a b : mat K) i j, (i < nr a)%nat -> (j < nc a)%nat ->
  get (msubt a b) i j = get a i j - get b i j.
Proof. intros. unfold msubt. rewrite get_mk; auto. Qed.

Lemma get_mopp : forall (a : mat K) i j, (i < nr a)%nat -> (j < nc a)%nat ->
  get (mopp a) i j = - get a i j.
Proof. intros. unfold mopp. rewrite get_mk; auto. Qed.

Lemma get_mscal : forall x (a : mat K) i j, (i < nr a)%nat -> (j < nc a)%nat ->
  get (mscal x a) i j = x * get a i j.
Proof. intros. unfold mscal. rewrite get_mk; auto. Qed.

Lemma mmul_1_l : forall a : mat K, wf a -> mmul (meye (nr a)) a = a.
Proof.
  intros a H. transitivity (mk (nr a) (nc a) (get a)); [|symmetry; apply gmat_eta; auto].
  unfold mmul. mk_eq_tac. simpl in *.
  transitivity (sumn (nr a) (fun k => (if (i =? k)%nat then 1 else 0) * get a k j)).
  - apply sumn_ext. intros. rewrite get_meye by auto. reflexivity.
  - exact (sumn_delta_l (nr a) i (fun k => get a k j) H0).
Qed.

Lemma mmul_1_r : forall a : mat K, wf a -> mmul a (meye (nc a)) = a.
Proof.
  intros a H. transitivity (mk (nr a) (nc a) (get a)); [|symmetry; apply gmat_eta; auto].
  unfold mmul. mk_eq_tac. simpl in *.
  transitivity (sumn (nc a) (fun k => get a i k * (if (k =? j)%nat then 1 else 0))).
  - apply sumn_ext. intros. rewrite get_meye by auto. reflexivity.
  - exact (sumn_delta_r (nc a) j (fun k => get a i k) H1).
Qed.

Lemma mmul_1_l' : forall n (a : mat K), wf a -> nr a = n -> mmul (meye n) a = a.
Proof. intros; subst; apply mmul_1_l; auto. Qed.
Lemma mmul_1_r' : forall n (a : mat K), wf a -> nc a = n -> mmul a (meye n) = a.
Proof. intros; subst; apply mmul_1_r; auto. Qed.

Lemma mvmul_1 : forall v : list K, mvmul (meye (length v)) v = v.
Proof.
  intros. transitivity (mkv (length v) (vget v)); [|symmetry; apply vec_eta].
  unfold mvmul. simpl. apply mkv_ext. intros i Hi.
  transitivity (sumn (length v) (fun k => (if (i =? k)%nat then 1 else 0) * vget v k)).
  - apply sumn_ext. intros. rewrite get_meye by auto. reflexivity.
  - exact (sumn_delta_l (length v) i (vget v) Hi).
Qed.

Lemma tr_tr : forall a : mat K, wf a -> tr (tr a) = a.
Proof.
  intros. transitivity (mk (nr a) (nc a) (get a)); [|symmetry; apply gmat_eta; auto].
  unfold tr at 1, mtr at 1. mk_eq_tac.
  fold (get (tr a) j i). simpl in *. apply get_tr; auto.
Qed.

Lemma tr_mmul : forall a b : mat K, nc a = nr b -> tr (mmul a b) = mmul (tr b) (tr a).
Proof.
  intros a b H. mext i j Hi Hj. rewrite get_tr by auto. rewrite !get_mmul by auto. simpl. rewrite H.
  apply sumn_ext. intros k Hk. rewrite !get_tr by (try lia; auto). ring.
Qed.

Lemma tr_meye : forall n, tr (meye n : mat K) = meye n.
Proof.
  intros. mext i j Hi Hj. rewrite get_tr by auto. rewrite !get_meye by auto.
  rewrite Nat.eqb_sym. reflexivity.
Qed.

Lemma mmul_madd_l : forall a b c : mat K, nr a = nr b -> nc a = nc b ->
  mmul (madd a b) c = madd (mmul a c) (mmul b c).
Proof.
  intros a b c H H0. mext i j Hi Hj.
  rewrite get_madd by auto. rewrite !get_mmul by (try lia; auto). simpl. rewrite <- H0, <- sumn_add.
  apply sumn_ext. intros. rewrite get_madd by auto. ring.
Qed.

Lemma mmul_madd_r : forall a b c : mat K, nr b = nr c -> nc b = nc c -> nc a = nr b ->
  mmul a (madd b c) = madd (mmul a b) (mmul a c).
Proof.
  intros a b c H H0 H1. mext i j Hi Hj.
  rewrite get_madd by auto. rewrite !get_mmul by (try lia; auto). rewrite <- sumn_add.
  apply sumn_ext. intros. rewrite get_madd by (try lia; auto). ring.
Qed.

Lemma mmul_msubt_l : forall a b c : mat K, nr a = nr b -> nc a = nc b ->
  mmul (msubt a b) c = msubt (mmul a c) (mmul b c).
Proof.
  intros a b c H H0. mext i j Hi Hj.
  rewrite get_msubt by auto. rewrite !get_mmul by (try lia; auto). simpl. rewrite <- H0, <- sumn_sub.
  apply sumn_ext. intros. rewrite get_msubt by auto. ring.
Qed.

Lemma mmul_msubt_r : forall a b c : mat K, nr b = nr c -> nc b = nc c -> nc a = nr b ->
  mmul a (msubt b c) = msubt (mmul a b) (mmul a c).
Proof.
  intros a b c H H0 H1. mext i j Hi Hj.
  rewrite get_msubt by auto. rewrite !get_mmul by (try lia; auto). rewrite <- sumn_sub.
  apply sumn_ext. intros. rewrite get_msubt by (try lia; auto). ring.
Qed.

Lemma mmul_mopp_l : forall a b : mat K, mmul (mopp a) b = mopp (mmul a b).
Proof.
  intros a b. mext i j Hi Hj.
  rewrite get_mopp by auto. rewrite !get_mmul by auto. simpl. rewrite <- sumn_opp. apply sumn_ext. intros.
  rewrite get_mopp by auto. ring.
Qed.

Lemma mmul_mopp_r : forall a b : mat K, nc a = nr b -> mmul a (mopp b) = mopp (mmul a b).
Proof.
  intros a b H. mext i j Hi Hj.
  rewrite get_mopp by auto. rewrite !get_mmul by auto. rewrite <- sumn_opp. apply sumn_ext. intros.
  rewrite get_mopp by (try lia; auto). ring.
Qed.

Lemma mmul_mscal_l : forall x (a b : mat K), mmul (mscal x a) b = mscal x (mmul a b).
Proof.
  intros x a b. mext i j Hi Hj.
  rewrite get_mscal by auto. rewrite !get_mmul by auto. simpl. rewrite <- sumn_scal_l. apply sumn_ext. intros.
  rewrite get_mscal by auto. ring.
Qed.

Lemma mmul_mscal_r : forall x (a b : mat K), nc a = nr b -> mmul a (mscal x b) = mscal x (mmul a b).
Proof.
  intros x a b H. mext i j Hi Hj.
  rewrite get_mscal by auto. rewrite !get_mmul by auto. rewrite <- sumn_scal_l. apply sumn_ext. intros.
  rewrite get_mscal by (try lia; auto). ring.
Qed.

(** vectors *)
Lemma length_vadd : forall u v : list K, length (vadd u v) = length u.
Proof. intros; apply length_mkv. Qed.
Lemma length_vsubt : forall u v : list K, length (vsubt u v) = length u.
Proof. intros; apply length_mkv. Qed.
Lemma length_vscal : forall x (v : list K), length (vscal x v) = length v.
Proof. intros; apply map_length. Qed.
Lemma length_mvmul : forall (a : mat K) v, length (mvmul a v) = nr a.
Proof. intros; apply length_mkv. Qed.
Lemma vget_vadd : forall (u v : list K) i, (i < length u)%nat -> vget (vadd u v) i = vget u i + vget v i.
Proof. intros; unfold vadd; rewrite vget_mkv; auto. Qed.
Lemma vget_vsubt : forall (u v : list K) i, (i < length u)%nat -> vget (vsubt u v) i = vget u i - vget v i.
Proof. intros; unfold vsubt; rewrite vget_mkv; auto. Qed.
Lemma vget_vscal : forall x (v : list K) i, (i < length v)%nat -> vget (vscal x v) i = x * vget v i.
Proof. intros. unfold vscal. rewrite (vget_map _ _ _ 0) by auto. reflexivity. Qed.
Lemma vget_mvmul : forall (a : mat K) v i, (i < nr a)%nat ->
  vget (mvmul a v) i = sumn (nc a) (fun k => get a i k * vget v k).
Proof. intros; unfold mvmul; rewrite vget_mkv; auto. Qed.

Lemma mvmul_vadd : forall (a : mat K) u v, nc a = length u -> length u = length v ->
  mvmul a (vadd u v) = vadd (mvmul a u) (mvmul a v).
Proof.
  intros a u v H H'. apply vec_ext; rewrite ?length_vadd, ?length_mvmul; auto.
  intros i Hi. rewrite vget_vadd by (rewrite length_mvmul; auto). rewrite !vget_mvmul by auto.
  rewrite <- sumn_add. apply sumn_ext. intros. rewrite vget_vadd by lia. ring.
Qed.

Lemma mvmul_vsubt : forall (a : mat K) u v, nc a = length u -> length u = length v ->
  mvmul a (vsubt u v) = vsubt (mvmul a u) (mvmul a v).
Proof.
  intros a u v H H'. apply vec_ext; rewrite ?length_vsubt, ?length_mvmul; auto.
  intros i Hi. rewrite vget_vsubt by (rewrite length_mvmul; auto). rewrite !vget_mvmul by auto.
  rewrite <- sumn_sub. apply sumn_ext. intros. rewrite vget_vsubt by lia. ring.
Qed.

Lemma mvmul_vscal : forall (a : mat K) x v, nc a = length v -> mvmul a (vscal x v) = vscal x (mvmul a v).
Proof.
  intros a x v H. apply vec_ext; rewrite ?length_vscal, ?length_mvmul; auto.
  intros i Hi. rewrite vget_vscal by (rewrite length_mvmul; auto). rewrite !vget_mvmul by auto.
  rewrite <- sumn_scal_l. apply sumn_ext. intros. rewrite vget_vscal by lia. ring.
Qed.

Lemma mvmul_madd : forall (a b : mat K) v, nr a = nr b -> nc a = nc b ->
  mvmul (madd a b) v = vadd (mvmul a v) (mvmul b v).
Proof.
  intros. apply vec_ext; rewrite ?length_vadd, ?length_mvmul; auto.
  intros i Hi. simpl in Hi. rewrite vget_vadd by (rewrite length_mvmul; auto).
  rewrite !vget_mvmul by (simpl; lia). simpl. rewrite <- H0, <- sumn_add.
  apply sumn_ext. intros. rewrite get_madd by auto. ring.
Qed.

Lemma mvmul_msubt : forall (a b : mat K) v, nr a = nr b -> nc a = nc b ->
  mvmul (msubt a b) v = vsubt (mvmul a v) (mvmul b v).
Proof.
  intros. apply vec_ext; rewrite ?length_vsubt, ?length_mvmul; auto.
  intros i Hi. simpl in Hi. rewrite vget_vsubt by (rewrite length_mvmul; auto).
  rewrite !vget_mvmul by (simpl; lia). simpl. rewrite <- H0, <- sumn_sub.
  apply sumn_ext. intros. rewrite get_msubt by auto. ring.
Qed.

Lemma mvmul_mscal : forall x (a : mat K) v, mvmul (mscal x a) v = vscal x (mvmul a v).
Proof.
  intros. apply vec_ext; rewrite ?length_vscal, ?length_mvmul; auto.
  intros i Hi. simpl in Hi. rewrite vget_vscal by (rewrite length_mvmul; auto).
  rewrite !vget_mvmul by (simpl; lia). simpl. rewrite <- sumn_scal_l.
  apply sumn_ext. intros. rewrite get_mscal by auto. ring.
Qed.

Lemma vdot_comm : forall u v : list K, length u = length v -> vdot u v = vdot v u.
Proof. intros u v H. unfold vdot. rewrite <- H. apply sumn_ext. intros; ring. Qed.

Lemma vdot_vadd_l : forall u v w : list K, length u = length v ->
  vdot (vadd u v) w = vdot u w + vdot v w.
Proof.
  intros u v w H. unfold vdot. rewrite length_vadd, <- H, <- sumn_add.
  apply sumn_ext. intros. rewrite vget_vadd by auto. ring.
Qed.

Lemma vdot_vsubt_l : forall u v w : list K, length u = length v ->
  vdot (vsubt u v) w = vdot u w - vdot v w.
Proof.
  intros u v w H. unfold vdot. rewrite length_vsubt, <- H, <- sumn_sub.
  apply sumn_ext. intros. rewrite vget_vsubt by auto. ring.
Qed.

Lemma vdot_vadd_r : forall u v w : list K, length u = length v -> length v = length w ->
  vdot u (vadd v w) = vdot u v + vdot u w.
Proof.
  intros u v w H H'. unfold vdot. rewrite <- sumn_add.
  apply sumn_ext. intros. rewrite vget_vadd by lia. ring.
Qed.

Lemma vdot_vsubt_r : forall u v w : list K, length u = length v -> length v = length w ->
  vdot u (vsubt v w) = vdot u v - vdot u w.
Proof.
  intros u v w H H'. unfold vdot. rewrite <- sumn_sub.
  apply sumn_ext. intros. rewrite vget_vsubt by lia. ring.
Qed.

Lemma vdot_vscal_l : forall x (u v : list K), vdot (vscal x u) v = x * vdot u v.
Proof.
  intros. unfold vdot. rewrite length_vscal, <- sumn_scal_l.
  apply sumn_ext. intros. rewrite vget_vscal by auto. ring.
Qed.

Lemma vdot_vscal_r : forall x (u v : list K), length u = length v -> vdot u (vscal x v) = x * vdot u v.
Proof.
  intros. unfold vdot. rewrite <- sumn_scal_l.
  apply sumn_ext. intros. rewrite vget_vscal by lia. ring.
Qed.

Lemma vdot_mvmul : forall (a : mat K) u v, length u = nr a -> length v = nc a ->
  vdot u (mvmul a v) = vdot (mvmul (tr a) u) v.
Proof.
  intros a u v Hu Hv. unfold vdot. rewrite length_mvmul. simpl.
  transitivity (sumn (length u) (fun i => sumn (nc a) (fun k => vget u i * get a i k * vget v k))).
  - apply sumn_ext. intros. rewrite vget_mvmul by lia. rewrite <- sumn_scal_l.
    apply sumn_ext. intros. ring.
  - rewrite sumn_swap. apply sumn_ext. intros k Hk.
    rewrite vget_mvmul by auto. simpl. rewrite <- sumn_scal_r. rewrite Hu.
    apply sumn_ext. intros l Hl. rewrite get_tr by auto. ring.
Qed.

(** Kronecker product *)
Lemma get_mkron : forall (a b : mat K) i j k l,
  (i < nr a)%nat -> (j < nc a)%nat -> (k < nr b)%nat -> (l < nc b)%nat ->
  get (mkron a b) (i * nr b + k) (j * nc b + l) = get a i j * get b k l.
Proof.
  intros. unfold mkron. rewrite get_mk by (apply idx_bound; auto).
  destruct (divmod_add i k (nr b)) as [-> ->]; auto.
  destruct (divmod_add j l (nc b)) as [-> ->]; auto.
Qed.

Lemma get_mkron' : forall (a b : mat K) i j, (i < nr a * nr b)%nat -> (j < nc a * nc b)%nat ->
  get (mkron a b) i j = get a (i / nr b) (j / nc b) * get b (i mod nr b) (j mod nc b).
Proof. intros. unfold mkron. rewrite get_mk; auto. Qed.

Lemma mmul_mkron : forall a b c d : mat K, nc a = nr c -> nc b = nr d ->
  mmul (mkron a b) (mkron c d) = mkron (mmul a c) (mmul b d).
Proof.
  intros a b c d H1 H2. mext i j Hi Hj.
  rewrite get_mmul by auto. rewrite (get_mkron' (mmul a c)) by auto. simpl.
  destruct (divmod_bound i (nr a) (nr b)) as (Hi1 & Hi2 & Ei); auto.
  destruct (divmod_bound j (nc c) (nc d)) as (Hj1 & Hj2 & Ej); auto.
  rewrite !get_mmul by auto. rewrite sumn_mul.
  rewrite <- sumn_scal_r. apply sumn_ext. intros k Hk.
  rewrite <- sumn_scal_l. apply sumn_ext. intros l Hl.
  rewrite Ei at 1. rewrite Ej at 1.
  rewrite (get_mkron a b) by auto. rewrite H2, (get_mkron c d) by lia. ring.
Qed.

Lemma tr_mkron : forall a b : mat K, tr (mkron a b) = mkron (tr a) (tr b).
Proof.
  intros. mext i j Hi Hj. rewrite get_tr by auto. rewrite (get_mkron' (tr a)) by auto. simpl.
  destruct (divmod_bound i (nc a) (nc b)) as (Hi1 & Hi2 & Ei); auto.
  destruct (divmod_bound j (nr a) (nr b)) as (Hj1 & Hj2 & Ej); auto.
  rewrite Ei at 1. rewrite Ej at 1.
  rewrite get_mkron by auto. rewrite !get_tr by auto. reflexivity.
Qed.

Lemma mkron_eye : forall m n, mkron (meye m : mat K) (meye n) = meye (m * n).
Proof.
  intros. mext i j Hi Hj. rewrite get_meye by auto. unfold mkron. rewrite get_mk by auto. simpl.
  destruct (divmod_bound i m n) as (Hi1 & Hi2 & Ei); auto.
  destruct (divmod_bound j m n) as (Hj1 & Hj2 & Ej); auto.
  rewrite !get_meye by auto.
  destruct (Nat.eqb_spec i j) as [->|Hn].
  - rewrite !Nat.eqb_refl. ring.
  - destruct (Nat.eqb_spec (i / n) (j / n)); [|ring].
    destruct (Nat.eqb_spec (i mod n) (j mod n)); [|ring]. congruence.
Qed.

(** stacking *)
Lemma get_hstack2_l : forall (a b : mat K) i j, (i < nr a)%nat -> (j < nc a)%nat ->
  get (hstack2 a b) i j = get a i j.
Proof.
  intros. unfold hstack2. rewrite get_mk by lia.
  destruct (Nat.ltb_spec j (nc a)); [reflexivity|lia].
Qed.
Lemma get_hstack2_r : forall (a b : mat K) i j, (i < nr a)%nat -> (j < nc b)%nat ->
  get (hstack2 a b) i (nc a + j) = get b i j.
Proof.
  intros. unfold hstack2. rewrite get_mk by lia.
  destruct (Nat.ltb_spec (nc a + j) (nc a)); [lia|]. f_equal. lia.
Qed.
Lemma get_vstack2_l : forall (a b : mat K) i j, (i < nr a)%nat -> (j < nc a)%nat ->
  get (vstack2 a b) i j = get a i j.
Proof.
  intros. unfold vstack2. rewrite get_mk by lia.
  destruct (Nat.ltb_spec i (nr a)); [reflexivity|lia].
Qed.
Lemma get_vstack2_r : forall (a b : mat K) i j, (i < nr b)%nat -> (j < nc a)%nat ->
  get (vstack2 a b) (nr a + i) j = get b i j.
Proof.
  intros. unfold vstack2. rewrite get_mk by lia.
  destruct (Nat.ltb_spec (nr a + i) (nr a)); [lia|]. f_equal. lia.
Qed.

Lemma get_hstack2 : forall (a b : mat K) i j, (i < nr a)%nat -> (j < nc a + nc b)%nat ->
  get (hstack2 a b) i j = if (j <? nc a)%nat then get a i j else get b i (j - nc a).
Proof. intros. unfold hstack2. rewrite get_mk; auto. Qed.
Lemma get_vstack2 : forall (a b : mat K) i j, (i < nr a + nr b)%nat -> (j < nc a)%nat ->
  get (vstack2 a b) i j = if (i <? nr a)%nat then get a i j else get b (i - nr a) j.
Proof. intros. unfold vstack2. rewrite get_mk; auto. Qed.

Lemma get_mblock : forall (a b c d : mat K) i j,
  nr a = nr b -> nr c = nr d -> nc a = nc c -> nc b = nc d ->
  (i < nr a + nr c)%nat -> (j < nc a + nc b)%nat ->
  get (mblock a b c d) i j =
    if (i <? nr a)%nat
    then (if (j <? nc a)%nat then get a i j else get b i (j - nc a))
    else (if (j <? nc a)%nat then get c (i - nr a) j else get d (i - nr a) (j - nc a)).
Proof.
  intros. unfold mblock, vstack2. rewrite get_mk by (simpl; lia). simpl.
  destruct (Nat.ltb_spec i (nr a)).
  - unfold hstack2. rewrite get_mk by lia. reflexivity.
  - unfold hstack2. rewrite get_mk by lia. rewrite <- H1. reflexivity.
Qed.

Lemma mmul_hv : forall a b c d : mat K, nr a = nr b -> nc c = nc d -> nc a = nr c -> nc b = nr d ->
  mmul (hstack2 a b) (vstack2 c d) = madd (mmul a c) (mmul b d).
Proof.
  intros. mext i j Hi Hj. rewrite get_madd by auto.
  rewrite !get_mmul by (simpl; lia). simpl. rewrite sumn_plus. f_equal; apply sumn_ext; intros k Hk.
  - rewrite get_hstack2_l by auto. rewrite get_vstack2_l by lia. reflexivity.
  - rewrite get_hstack2_r by (try lia; auto). rewrite H1, get_vstack2_r by lia. reflexivity.
Qed.

Lemma mmul_hstack_r : forall a b c : mat K, nr b = nr c -> nc a = nr b ->
  mmul a (hstack2 b c) = hstack2 (mmul a b) (mmul a c).
Proof.
  intros. mext i j Hi Hj. rewrite get_mmul by auto. rewrite (get_hstack2 (mmul a b)) by (simpl; lia). simpl.
  destruct (Nat.ltb_spec j (nc b)).
  - rewrite get_mmul by auto. apply sumn_ext. intros. rewrite get_hstack2_l by lia. reflexivity.
  - rewrite get_mmul by lia. apply sumn_ext. intros k Hk.
    replace j with (nc b + (j - nc b))%nat at 1 by lia. rewrite get_hstack2_r by lia. reflexivity.
Qed.

Lemma mmul_vstack_l : forall a b c : mat K, nc a = nc b ->
  mmul (vstack2 a b) c = vstack2 (mmul a c) (mmul b c).
Proof.
  intros. mext i j Hi Hj. rewrite get_mmul by auto. rewrite (get_vstack2 (mmul a c)) by (simpl; lia). simpl.
  destruct (Nat.ltb_spec i (nr a)).
  - rewrite get_mmul by auto. apply sumn_ext. intros. rewrite get_vstack2_l by lia. reflexivity.
  - rewrite get_mmul by lia. rewrite <- H. apply sumn_ext. intros k Hk.
    replace i with (nr a + (i - nr a))%nat at 1 by lia. rewrite get_vstack2_r by lia. reflexivity.
Qed.
End Alg.
