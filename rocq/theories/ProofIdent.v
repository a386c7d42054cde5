(** Eliminated matrices as lists of parameters, and sums over them. *)
From Coq Require Import String.
From Coq Require Import Bool Arith List ZArith Lia Ring Field.
From Verif Require Import BasePy BaseFld BaseOrd BaseSum BaseMat BaseNumpy BaseLin ModelMatrixOps SpecMatrix ModelPrior ModelFit
  ModelIdent SpecPrior SpecIdent ProofRagged ProofMatrixOps ProofStruct ProofElim ProofMatrixProps ProofFitBase ProofFitRep ProofPrior.
Import ListNotations.
Close Scope string_scope.
Local Open Scope K_scope.

Notation N n := (off (hlen n) n).
Notation NS n := (off (slen n) n).

Section Ident.
Context {K : Type} {O : Ops K} {F : Fld K} {FR : FReal K}.
Notation CK := (cplx K).
Add Field Kfld : (@k_field K O F).

(** the parameters of a matrix, real or complex *)
Definition pv {T} {OT : Ops T} (lap : bool) (M : mat T) : list T := if lap then ve M else vech M.
Definition psize (lap : bool) (n : nat) : nat := if lap then NS n else N n.
Definition pidx (lap : bool) (n a b : nat) : nat := if lap then sidx n a b else hidx n a b.
Definition psign {T} {OT : Ops T} (lap : bool) (x : T) : T := if lap then - x else x.

Lemma length_pv : forall T (OT : Ops T) lap (M : mat T), length (pv lap M) = psize lap (nr M).
Proof. intros T OT [|] M; [apply length_ve|apply length_vech]. Qed.
Lemma vget_pv : forall T (OT : Ops T) lap (M : mat T) a b, (b < a)%nat -> (a < nr M)%nat ->
  vget (pv lap M) (pidx lap (nr M) a b) = psign lap (get M a b).
Proof. intros T OT [|] M a b H1 H2; simpl; [apply vget_ve; assumption|apply vget_vech; lia]. Qed.
Lemma pidx_lt : forall lap n a b, (b < a)%nat -> (a < n)%nat -> (pidx lap n a b < psize lap n)%nat.
Proof. intros [|] n a b H1 H2; simpl; [apply sidx_lt; lia|apply hidx_lt; lia]. Qed.

(** two real lists of parameters agree when they agree on lines and, without Laplacian form, on the diagonal *)
Lemma pv_ext : forall T (OT : Ops T) lap n (u v : list T), length u = psize lap n -> length v = psize lap n ->
  (forall a b, (b < a)%nat -> (a < n)%nat -> vget u (pidx lap n a b) = vget v (pidx lap n a b)) ->
  (lap = false -> forall a, (a < n)%nat -> vget u (hidx n a a) = vget v (hidx n a a)) -> u = v.
Proof.
  intros T OT [|] n u v Hu Hv H1 H2; simpl in *.
  - apply (svec_ext n); auto.
  - apply (hvec_ext n); auto. intros a b Hb Ha. destruct (Nat.eq_dec a b) as [->|Hne]; [apply H2; auto|apply H1; lia].
Qed.

Lemma vget_vectorize_any : forall T (OT : Ops T) (Y : mat T) k, (k < nr Y * nc Y)%nat ->
  vget (vectorize_matrix Y) k = get Y (k mod nr Y) (k / nr Y) /\ (k mod nr Y < nr Y)%nat /\ (k / nr Y < nc Y)%nat.
Proof.
  intros T OT Y k Hk.
  assert (Hr : (nr Y <> 0)%nat) by nia.
  assert (Hm : (k mod nr Y < nr Y)%nat) by (apply Nat.mod_upper_bound; auto).
  assert (Hd : (k / nr Y < nc Y)%nat) by (apply Nat.div_lt_upper_bound; lia).
  split; [|auto]. rewrite <- (vget_vectorize Y) by assumption. f_equal. rewrite (Nat.div_mod k (nr Y)) at 1 by auto. lia.
Qed.
Lemma map_re_vectorize : forall Y : mat CK, wf Y -> map re (vectorize_matrix Y) = vectorize_matrix (mmap re Y).
Proof.
  intros Y W. apply vec_ext.
  - rewrite map_length, !length_vectorize. reflexivity.
  - rewrite map_length, length_vectorize. intros k Hk. rewrite vget_map_re.
    destruct (vget_vectorize_any _ _ Y k Hk) as (-> & H1 & H2).
    destruct (vget_vectorize_any _ _ (mmap re Y) k Hk) as (-> & _ & _). simpl nr.
    rewrite get_mmap_re by assumption. reflexivity.
Qed.
Lemma map_im_vectorize : forall Y : mat CK, wf Y -> map im (vectorize_matrix Y) = vectorize_matrix (mmap im Y).
Proof.
  intros Y W. apply vec_ext.
  - rewrite map_length, !length_vectorize. reflexivity.
  - rewrite map_length, length_vectorize. intros k Hk. rewrite vget_map_im.
    destruct (vget_vectorize_any _ _ Y k Hk) as (-> & H1 & H2).
    destruct (vget_vectorize_any _ _ (mmap im Y) k Hk) as (-> & _ & _). simpl nr.
    rewrite get_mmap_im by assumption. reflexivity.
Qed.

Lemma re_half : forall a b : CK, re ((a + b) / (1 + 1)) = (re a + re b) / (1 + 1).
Proof.
  intros [a1 a2] [b1 b2]. pose proof (k2_neq0 (K := K)).
  cbn [re im kadd kmul kdiv k1 cplx_ops cadd cmul cinv]. unfold cnorm2. cbn [re im cadd].
  assert (H2 : (1 + 1) * (1 + 1) <> (0 : K)) by (intro E; destruct (kmul_integral _ _ E); contradiction).
  field. split; [exact H|exact H2].
Qed.
Lemma im_half : forall a b : CK, im ((a + b) / (1 + 1)) = (im a + im b) / (1 + 1).
Proof.
  intros [a1 a2] [b1 b2]. pose proof (k2_neq0 (K := K)).
  cbn [re im kadd kmul kdiv k1 cplx_ops cadd cmul cinv]. unfold cnorm2. cbn [re im cadd].
  assert (H2 : (1 + 1) * (1 + 1) <> (0 : K)) by (intro E; destruct (kmul_integral _ _ E); contradiction).
  field. split; [exact H|exact H2].
Qed.

Lemma get_sym_part : forall T (OT : Ops T) n (Y : mat T) i j, (i < n)%nat -> (j < n)%nat ->
  get (sym_part n Y) i j = (get Y i j + get Y j i) / (1 + 1).
Proof. intros. unfold sym_part. rewrite get_mk by assumption. reflexivity. Qed.

Lemma re_sym_part : forall n (Y : mat CK), shape Y n n -> mmap re (sym_part n Y) = sym_part n (mmap re Y).
Proof.
  intros n Y (W & Hr & Hc). apply (gshape_ext _ _ n n); [apply shape_mmap; apply shape_mk|apply shape_mk|].
  intros i j Hi Hj. rewrite get_mmap_re by (try apply wf_mk; assumption).
  rewrite !get_sym_part by assumption. rewrite !get_mmap_re by lia || assumption. apply re_half.
Qed.
Lemma im_sym_part : forall n (Y : mat CK), shape Y n n -> mmap im (sym_part n Y) = sym_part n (mmap im Y).
Proof.
  intros n Y (W & Hr & Hc). apply (gshape_ext _ _ n n); [apply shape_mmap; apply shape_mk|apply shape_mk|].
  intros i j Hi Hj. rewrite get_mmap_im by (try apply wf_mk; assumption).
  rewrite !get_sym_part by assumption. rewrite !get_mmap_im by lia || assumption. apply im_half.
Qed.

Lemma re_pv : forall lap n (M : mat CK), shape M n n -> map re (pv lap M) = pv lap (mmap re M).
Proof.
  intros lap n M (W & Hr & Hc). apply (pv_ext K O lap n).
  - rewrite map_length, length_pv, Hr. reflexivity.
  - rewrite length_pv. simpl. rewrite Hr. reflexivity.
  - intros a b Hb Ha. rewrite vget_map_re.
    pose proof (vget_pv _ _ lap M a b Hb ltac:(lia)) as E1. rewrite Hr in E1. rewrite E1.
    pose proof (vget_pv _ _ lap (mmap re M) a b Hb ltac:(simpl; lia)) as E2. simpl nr in E2. rewrite Hr in E2. rewrite E2.
    rewrite get_mmap_re by (assumption || lia). destruct lap; reflexivity.
  - intros -> a Ha. rewrite vget_map_re. simpl pv.
    pose proof (vget_vech M a a ltac:(lia) ltac:(lia)) as E1. rewrite Hr in E1. rewrite E1.
    pose proof (vget_vech (mmap re M) a a ltac:(lia) ltac:(simpl; lia)) as E2. simpl nr in E2. rewrite Hr in E2. rewrite E2.
    rewrite get_mmap_re by (assumption || lia). reflexivity.
Qed.
Lemma im_pv : forall lap n (M : mat CK), shape M n n -> map im (pv lap M) = pv lap (mmap im M).
Proof.
  intros lap n M (W & Hr & Hc). apply (pv_ext K O lap n).
  - rewrite map_length, length_pv, Hr. reflexivity.
  - rewrite length_pv. simpl. rewrite Hr. reflexivity.
  - intros a b Hb Ha. rewrite vget_map_im.
    pose proof (vget_pv _ _ lap M a b Hb ltac:(lia)) as E1. rewrite Hr in E1. rewrite E1.
    pose proof (vget_pv _ _ lap (mmap im M) a b Hb ltac:(simpl; lia)) as E2. simpl nr in E2. rewrite Hr in E2. rewrite E2.
    rewrite get_mmap_im by (assumption || lia). destruct lap; reflexivity.
  - intros -> a Ha. rewrite vget_map_im. simpl pv.
    pose proof (vget_vech M a a ltac:(lia) ltac:(lia)) as E1. rewrite Hr in E1. rewrite E1.
    pose proof (vget_vech (mmap im M) a a ltac:(lia) ltac:(simpl; lia)) as E2. simpl nr in E2. rewrite Hr in E2. rewrite E2.
    rewrite get_mmap_im by (assumption || lia). reflexivity.
Qed.

(** the elimination matrix *)
Lemma e_of_ok : forall lap n, exists E, e_of n lap = Ok E /\ shape E (psize lap n) (n * n) /\
  forall M : mat K, shape M n n -> mvmul E (vectorize_matrix M) = pv lap (sym_part n M).
Proof.
  intros [|] n; unfold e_of, lap_el; simpl.
  - destruct (elimination_lap_ok n) as (E & HE & Hc & Hr & W & HEv).
    destruct (elimination_sym_ok n) as (S & HS & HsS & HSv).
    rewrite HE. simpl. rewrite HS. simpl. unfold matmul.
    replace (nc E =? nr S)%nat with true by (symmetry; apply Nat.eqb_eq; rewrite Hc; symmetry; apply HsS).
    eexists. split; [reflexivity|]. split.
    + apply (shape_mmul _ _ _ (N n)); [assumption| apply HsS |assumption].
    + intros M HM. rewrite mvmul_assoc by (rewrite Hc; symmetry; apply HsS). rewrite HSv by assumption.
      apply (elim_lap_vech n); [assumption|apply shape_mk].
  - destruct (elimination_sym_ok n) as (S & HS & HsS & HSv). exists S. auto.
Qed.

Lemma dt_of_ok : forall lap n, exists D, dt_of n lap = Ok D /\ shape D (n * n) (psize lap n) /\
  forall w : list K, length w = psize lap n -> mvmul D w = vectorize_matrix (if lap then lap_of n w else sym_of n w).
Proof.
  intros [|] n; unfold dt_of, lap_dt; simpl.
  - destruct (duplication_matrix_ok n) as (D & HD & HDe). destruct (transformation_matrix_ok n) as (T & HT & HTe).
    rewrite HD. simpl. rewrite HT. simpl. unfold matmul.
    assert (HcD : nc D = N n) by apply (proj1 HDe). assert (HrT : nr T = N n) by apply (proj1 HTe).
    rewrite HcD, HrT, Nat.eqb_refl. eexists. split; [reflexivity|]. split.
    + apply (shape_mmul _ _ _ (N n)); [apply (proj1 HDe)|apply (proj1 HTe)|assumption].
    + intros w Hw. rewrite mvmul_assoc by congruence. rewrite (tra_any n T) by assumption.
      apply (dup_vech n); [assumption|]. apply laplacian_lap_of.
  - destruct (duplication_matrix_ok n) as (D & HD & HDe). exists D. split; [assumption|]. split; [apply (proj1 HDe)|].
    intros w Hw. apply dup_any. assumption.
Qed.

Definition is_e (lap : bool) (n : nat) (E : mat K) : Prop := shape E (psize lap n) (n * n) /\
  forall M : mat K, shape M n n -> mvmul E (vectorize_matrix M) = pv lap (sym_part n M).
Definition is_dt (lap : bool) (n : nat) (D : mat K) : Prop := shape D (n * n) (psize lap n) /\
  forall w : list K, length w = psize lap n -> mvmul D w = vectorize_matrix (if lap then lap_of n w else sym_of n w).

Lemma map_re_mvmul : forall (D : mat K) (v : list CK), wf D -> map re (mvmul (cmat D) v) = mvmul D (map re v).
Proof.
  intros D v W. apply vec_ext; [rewrite map_length, !length_mvmul; reflexivity|].
  rewrite map_length, length_mvmul. intros i Hi. rewrite vget_map_re. apply re_mvmul_cmat; assumption.
Qed.
Lemma map_im_mvmul : forall (D : mat K) (v : list CK), wf D -> map im (mvmul (cmat D) v) = mvmul D (map im v).
Proof.
  intros D v W. apply vec_ext; [rewrite map_length, !length_mvmul; reflexivity|].
  rewrite map_length, length_mvmul. intros i Hi. rewrite vget_map_im. apply im_mvmul_cmat; assumption.
Qed.

Lemma eliminated_vec : forall lap n E (Y : mat CK), is_e lap n E -> shape Y n n ->
  mvmul (cmat E) (vectorize_matrix Y) = pv lap (sym_part n Y).
Proof.
  intros lap n E Y (HsE & HE) HY. assert (W : wf Y) by apply HY. assert (WE : wf E) by apply HsE.
  apply map_re_rv.
  - rewrite map_re_mvmul, map_re_vectorize by assumption. rewrite HE by (apply shape_mmap; assumption).
    rewrite (re_pv lap n) by apply shape_mk. rewrite re_sym_part by assumption. reflexivity.
  - rewrite map_im_mvmul, map_im_vectorize by assumption. rewrite HE by (apply shape_mmap; assumption).
    rewrite (im_pv lap n) by apply shape_mk. rewrite im_sym_part by assumption. reflexivity.
Qed.
Lemma eliminated_ok : forall lap n E (Y : mat CK), is_e lap n E -> shape Y n n ->
  eliminated E Y = Ok (pv lap (sym_part n Y)).
Proof.
  intros lap n E Y HE HY. unfold eliminated, matvec. rewrite length_vectorize.
  destruct HY as (W & Hr & Hc). rewrite Hr, Hc. replace (nc (cmat E)) with (n * n)%nat by (symmetry; apply (proj1 HE)).
  rewrite Nat.eqb_refl. rewrite (eliminated_vec lap n) by (assumption || (split; auto)). reflexivity.
Qed.
Lemma eliminated_real_ok : forall lap n E (Y : mat K), is_e lap n E -> symmetric n Y ->
  eliminated_real E Y = Ok (pv lap Y).
Proof.
  intros lap n E Y HE HY. unfold eliminated_real, matvec. rewrite length_vectorize.
  destruct (proj1 HY) as (W & Hr & Hc). rewrite Hr, Hc. replace (nc E) with (n * n)%nat by (symmetry; apply (proj1 HE)).
  rewrite Nat.eqb_refl. rewrite (proj2 HE) by apply HY. rewrite sym_part_symmetric by assumption. reflexivity.
Qed.

(** the symmetric (or Laplacian) matrix that the builders start from *)
Definition completed (lap : bool) (n : nat) (Y : mat CK) : mat CK :=
  if lap then lap_of n (pv lap (sym_part n Y)) else sym_part n Y.

Lemma re_lap_of : forall n (w : list CK), mmap re (lap_of n w) = lap_of n (map re w).
Proof.
  intros n w. apply (gshape_ext _ _ n n); [apply shape_mmap; apply shape_mk|apply shape_mk|].
  intros i j Hi Hj. rewrite get_mmap_re by (try apply wf_mk; assumption). unfold lap_of. rewrite !get_mk by assumption.
  destruct (i =? j)%nat.
  - rewrite re_sumn. apply sumn_ext. intros c Hc. destruct (c =? i)%nat; [reflexivity|]. rewrite vget_map_re. reflexivity.
  - rewrite vget_map_re. reflexivity.
Qed.
Lemma im_lap_of : forall n (w : list CK), mmap im (lap_of n w) = lap_of n (map im w).
Proof.
  intros n w. apply (gshape_ext _ _ n n); [apply shape_mmap; apply shape_mk|apply shape_mk|].
  intros i j Hi Hj. rewrite get_mmap_im by (try apply wf_mk; assumption). unfold lap_of. rewrite !get_mk by assumption.
  destruct (i =? j)%nat.
  - rewrite im_sumn. apply sumn_ext. intros c Hc. destruct (c =? i)%nat; [reflexivity|]. rewrite vget_map_im. reflexivity.
  - rewrite vget_map_im. reflexivity.
Qed.
Lemma sym_part_sym : forall T (OT : Ops T) (FT : Fld T) n (Y : mat T), symmetric n (sym_part n Y).
Proof.
  intros T OT FT n Y. split; [apply shape_mk|]. intros i j Hi Hj. rewrite !get_sym_part by assumption.
  f_equal. apply (F_R (@k_field T OT FT)).
Qed.
Lemma sym_of_vech : forall T (OT : Ops T) (FT : Fld T) n (M : mat T), symmetric n M -> sym_of n (vech M) = M.
Proof.
  intros T OT FT n M (Sh & Sy). assert (Hr : nr M = n) by apply Sh.
  apply (gshape_ext _ _ n n); [apply shape_mk|assumption|].
  intros i j Hi Hj. unfold sym_of. rewrite get_mk by assumption.
  pose proof (vget_vech M (Nat.max i j) (Nat.min i j) ltac:(lia) ltac:(lia)) as E. rewrite Hr in E. rewrite E.
  destruct (Nat.max_spec i j) as [[? ->]|[? ->]], (Nat.min_spec i j) as [[? ->]|[? ->]]; try lia; auto.
Qed.

Lemma symmetrised_ok : forall lap n E D (Y : mat CK), is_e lap n E -> is_dt lap n D -> shape Y n n ->
  symmetrised n E D Y = Ok (completed lap n Y).
Proof.
  intros lap n E D Y HE HD HY. unfold symmetrised, matmul, matvec.
  replace (nc D) with (psize lap n) by (symmetry; apply (proj1 HD)).
  replace (nr E) with (psize lap n) by (symmetry; apply (proj1 HE)).
  rewrite Nat.eqb_refl. cbn [bind]. rewrite length_vectorize.
  assert (WY : wf Y) by apply HY. assert (Hr : nr Y = n) by apply HY. assert (Hc : nc Y = n) by apply HY.
  change (nc (cmat (mmul D E))) with (nc E). replace (nc E) with (n * n)%nat by (symmetry; apply (proj1 HE)).
  rewrite Hr, Hc, Nat.eqb_refl. cbn [bind].
  assert (HsC : shape (completed lap n Y) n n) by (destruct lap; apply shape_mk).
  assert (EV : mvmul (cmat (mmul D E)) (vectorize_matrix Y) = vectorize_matrix (completed lap n Y)).
  { assert (HnE : nc D = nr E) by (destruct HE as ((_ & -> & _) & _); destruct HD as ((_ & _ & ->) & _); reflexivity).
    assert (Wp : wf (mmul D E)) by apply wf_mk. assert (WC : wf (completed lap n Y)) by apply HsC.
    assert (Hl : forall M : mat K, length (pv lap (sym_part n M)) = psize lap n) by (intros; rewrite length_pv; reflexivity).
    apply map_re_rv.
    - rewrite map_re_mvmul, !map_re_vectorize by assumption. rewrite mvmul_assoc by assumption.
      rewrite (proj2 HE) by (apply shape_mmap; assumption). rewrite (proj2 HD) by apply Hl. f_equal.
      unfold completed. destruct lap.
      + rewrite re_lap_of. rewrite (re_pv true n) by apply shape_mk. rewrite re_sym_part by assumption. reflexivity.
      + simpl pv. rewrite (sym_of_vech K O F) by apply (sym_part_sym K O F). symmetry. apply re_sym_part. assumption.
    - rewrite map_im_mvmul, !map_im_vectorize by assumption. rewrite mvmul_assoc by assumption.
      rewrite (proj2 HE) by (apply shape_mmap; assumption). rewrite (proj2 HD) by apply Hl. f_equal.
      unfold completed. destruct lap.
      + rewrite im_lap_of. rewrite (im_pv true n) by apply shape_mk. rewrite im_sym_part by assumption. reflexivity.
      + simpl pv. rewrite (sym_of_vech K O F) by apply (sym_part_sym K O F). symmetry. apply im_sym_part. assumption. }
  rewrite EV. destruct HsC as (W & R1 & R2).
  rewrite <- R1 at 2. rewrite <- R2 at 3. apply unvectorize_vectorize. assumption.
Qed.

Lemma completed_admissible : forall lap n Y, admissible lap n (completed lap n Y).
Proof. intros [|] n Y; simpl; [apply laplacian_lap_of|apply (sym_part_sym CK _ _)]. Qed.
Lemma admissible_sym : forall lap n (M : mat CK), admissible lap n M -> symmetric n M.
Proof. intros [|] n M H; [apply (proj1 H)|exact H]. Qed.
Lemma completed_off : forall lap n (Y : mat CK) i j, (i < n)%nat -> (j < n)%nat -> i <> j ->
  get (completed lap n Y) i j = get (sym_part n Y) i j.
Proof.
  intros [|] n Y i j Hi Hj Hne; [|reflexivity]. simpl. unfold lap_of. rewrite get_mk by assumption.
  destruct (Nat.eqb_spec i j) as [|_]; [contradiction|].
  pose proof (vget_ve (sym_part n Y) (Nat.max i j) (Nat.min i j) ltac:(lia) ltac:(simpl; lia)) as E.
  simpl nr in E. rewrite E.
  assert (G : get (sym_part n Y) (Nat.max i j) (Nat.min i j) = get (sym_part n Y) i j).
  { destruct (Nat.max_spec i j) as [[? ->]|[? ->]], (Nat.min_spec i j) as [[? ->]|[? ->]]; try lia; auto.
    apply (sym_part_sym CK _ _); lia. }
  rewrite G. apply cplx_eq; cbn; ring.
Qed.
Lemma pv_completed : forall lap n (Y : mat CK), pv lap (completed lap n Y) = pv lap (sym_part n Y).
Proof.
  intros [|] n Y; [|reflexivity]. simpl pv at 1. unfold completed. apply ve_lap_of. apply (length_ve (sym_part n Y)).
Qed.

(** ** sums *)
Lemma sumn_below : forall n c (g : nat -> K), (c <= n)%nat -> sumn n (fun d => if (d <? c)%nat then g d else 0) = sumn c g.
Proof.
  intros n c g H. replace n with (c + (n - c))%nat by lia. rewrite sumn_plus.
  rewrite (sumn_zero (n - c)).
  - rewrite (sumn_ext c _ g); [ring|]. intros d Hd. destruct (Nat.ltb_spec d c); [reflexivity|lia].
  - intros d Hd. destruct (Nat.ltb_spec (c + d) c); [lia|reflexivity].
Qed.
Lemma line_sum_columns : forall n (g : nat -> nat -> K),
  line_sum n g = sumn n (fun d => sumn n (fun c => if (d <? c)%nat then g c d else 0)).
Proof.
  intros n g. unfold line_sum. rewrite sumn_swap. apply sumn_ext. intros c Hc. symmetry. apply sumn_below. lia.
Qed.
Lemma sum_hidx : forall n (f : nat -> K), sumn (N n) f = line_sum n (fun a b => f (hidx n a b)) + sumn n (fun a => f (hidx n a a)).
Proof.
  intros n f. rewrite ragged_sum, line_sum_columns, <- sumn_add. apply sumn_ext. intros b Hb.
  unfold hlen. replace (n - b)%nat with (S (n - b - 1)) by lia. rewrite sumn_S_l.
  replace (sumn n (fun c => if (b <? c)%nat then f (hidx n c b) else 0))
    with (sumn (n - b - 1) (fun t => f (off (fun b => n - b)%nat b + S t)%nat)).
  - unfold hidx, hlen. replace (b - b)%nat with 0%nat by lia. ring.
  - transitivity (sumn (S b + (n - b - 1)) (fun c => if (b <? c)%nat then f (hidx n c b) else 0)).
    + rewrite sumn_plus. rewrite (sumn_zero (S b)).
      * match goal with |- _ = 0 + ?x => replace (0 + x) with x by ring end. apply sumn_ext. intros t Ht.
        destruct (Nat.ltb_spec b (S b + t)); [|lia]. unfold hidx, hlen. f_equal. lia.
      * intros c Hc. destruct (Nat.ltb_spec b c); [lia|reflexivity].
    + f_equal. lia.
Qed.
Lemma sum_params : forall lap n (h : nat -> K), sumn (psize lap n) h =
  line_sum n (fun a b => h (pidx lap n a b)) + (if lap then 0 else sumn n (fun a => h (hidx n a a))).
Proof.
  intros [|] n h; simpl.
  - rewrite sum_sidx, line_sum_columns. unfold pidx. ring.
  - apply sum_hidx.
Qed.
Lemma line_sum_ext : forall n (f g : nat -> nat -> K), (forall i j, (j < i)%nat -> (i < n)%nat -> f i j = g i j) ->
  line_sum n f = line_sum n g.
Proof. intros n f g H. apply sumn_ext. intros i Hi. apply sumn_ext. intros j Hj. apply H; lia. Qed.
Lemma line_sum_add : forall n (f g : nat -> nat -> K), line_sum n (fun i j => f i j + g i j) = line_sum n f + line_sum n g.
Proof.
  intros n f g. unfold line_sum. rewrite <- sumn_add. apply sumn_ext. intros i Hi. apply sumn_add.
Qed.

(** the lines at one node *)
Lemma line_sum_node : forall n i (f : nat -> nat -> K), (i < n)%nat -> (forall a b, (a < n)%nat -> (b < n)%nat -> f a b = f b a) ->
  line_sum n (fun a b => if xorb (a =? i)%nat (b =? i)%nat then f a b else 0)
  = sumn n (fun j => if (j =? i)%nat then 0 else f i j).
Proof.
  intros n i f Hi Sy.
  transitivity (sumn n (fun a => (if (a =? i)%nat then sumn i (fun b => f i b) else 0) + (if (i <? a)%nat then f a i else 0))).
  - apply sumn_ext. intros a Ha. destruct (Nat.eqb_spec a i) as [->|Hne].
    + rewrite (Nat.ltb_irrefl i). replace (sumn i (fun b => f i b) + 0) with (sumn i (fun b => f i b)) by ring.
      apply sumn_ext. intros b Hb. destruct (Nat.eqb_spec b i); [lia|reflexivity].
    + destruct (Nat.ltb_spec i a) as [H|H].
      * rewrite (sumn_single a i); [rewrite Nat.eqb_refl; simpl; ring|assumption|].
        intros b Hb Hne2. destruct (Nat.eqb_spec b i); [contradiction|reflexivity].
      * rewrite sumn_zero; [ring|]. intros b Hb. destruct (Nat.eqb_spec b i); [lia|reflexivity].
  - rewrite sumn_add. rewrite (sumn_single n i); [|assumption|].
    + rewrite Nat.eqb_refl. rewrite <- (sumn_below n i) by lia. rewrite <- sumn_add. apply sumn_ext. intros j Hj.
      destruct (Nat.ltb_spec j i), (Nat.ltb_spec i j), (Nat.eqb_spec j i); try lia; try ring.
      rewrite (Sy j i) by assumption. ring.
    + intros a Ha Hne. destruct (Nat.eqb_spec a i); [contradiction|reflexivity].
Qed.

Lemma lsum_filter : forall (p : nat -> bool) (g : nat -> K) n,
  lsum (map g (filter p (range n))) = sumn n (fun k => if p k then g k else 0).
Proof.
  intros p g n. induction n as [|n IH]; [reflexivity|]. rewrite range_S, filter_app, map_app, lsum_app, IH.
  cbn [sumn filter]. destruct (p n); simpl; ring.
Qed.
End Ident.
