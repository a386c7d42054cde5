(** Proofs about networks built from an admittance matrix. *)
From Coq Require Import Bool Arith ZArith String List Lia Ring Field.
From Verif Require Import BasePy BaseFld BaseSum BaseMat ModelNet SpecNet ProofNet ProofNetBuild.
Import ListNotations.
Local Open Scope K_scope.
Local Open Scope list_scope.

Section Pos.
Context {K : Type} {O : Ops K}.
Notation net := (@net K).
Lemma position_from_nth : forall (l : list (@bus_row K)) k i b, NoDup (map b_id l) -> nth_error l i = Some b -> position_from k l (b_id b) = Some (k + i)%nat.
Proof.
  induction l as [|x l IH]; intros k i b N H; [destruct i; discriminate|]. cbn in N. inversion N as [|u v N1 N2]. subst.
  destruct i as [|i]; cbn in H.
  - injection H as <-. cbn. rewrite Nat.eqb_refl. f_equal. lia.
  - cbn. destruct (Nat.eqb_spec (b_id x) (b_id b)) as [E|E]; [exfalso; apply N1; rewrite E; apply in_map; eapply nth_error_In; eauto|].
    rewrite (IH (S k) i b) by auto. f_equal. lia.
Qed.
Lemma at_position_nth : forall (n : net) i b a, NoDup (ids n) -> nth_error (buses n) i = Some b -> at_position n (b_id b) a = (i =? a)%nat.
Proof. intros n i b a N H. unfold at_position, position. rewrite (position_from_nth _ 0 i b) by auto. reflexivity. Qed.
End Pos.

Section Inv.
Context {L : Type} {OL : Ops L} {FL : Fld L}.
Add Field Lfld : (@k_field L OL FL).
Lemma kinv_inv : forall y : L, y <> 0 -> kinv (kinv y) = y.
Proof.
  intros y H. assert (E : y * kinv y = 1) by (rewrite <- kdiv_def; apply kdiv_same; auto).
  assert (N : kinv y <> 0). { intro X. apply (k1_neq0 (K := L)). rewrite <- E, X. ring. }
  apply (kmul_cancel_l (kinv y)); auto. transitivity (1 : L); [rewrite <- kdiv_def; apply kdiv_same; auto|].
  rewrite <- E. ring.
Qed.
End Inv.

Section Y.
Context {K : Type} {O : Ops K} {F : Fld K} {FR : FReal K}.
Notation net := (@net K).
Notation CK := (cplx K).
Implicit Type n : net.
Add Field KKfld : (@k_field K O F).
Add Field CKfld : (@k_field CK _ _).

Lemma same_entry : forall n n' l a b, same_but_lines n n' -> line_entry n' l a b = line_entry n l a b.
Proof.
  intros n n' l a b (B & _ & _ & _ & S1 & _). unfold line_entry, line_admittance, at_position, position. rewrite B, S1. reflexivity.
Qed.
Let ckinv_inv := @kinv_inv CK _ _.
Lemma kmul_zero_l : forall x : K, 0 * x = 0.
Proof. intro. ring. Qed.
Lemma rscal_zero : forall (c : K) (z : CK), c <> 0 -> rscal c z = 0 -> z = 0.
Proof.
  intros c [x y] Hc H. unfold rscal in H. cbn in H. injection H as H1 H2.
  destruct (kmul_integral _ _ H1) as [E|E]; [tauto|]. destruct (kmul_integral _ _ H2) as [E'|E']; [tauto|]. subst. reflexivity.
Qed.
Lemma rscal_rscal : forall (c d : K) (z : CK), rscal c (rscal d z) = rscal (c * d) z.
Proof. intros c d [x y]. unfold rscal. cbn. f_equal; ring. Qed.
Lemma rscal_1 : forall z : CK, rscal 1 z = z.
Proof. intros [x y]. unfold rscal. cbn. f_equal; ring. Qed.

(** contribution of the pair [(i, j)] *)
Definition pair_entry (Y : mat CK) (i j a b : nat) : CK :=
  let y := - get Y i j in
  (if ((i =? a) && (i =? b))%nat then y else 0) + (if ((j =? a) && (j =? b))%nat then y else 0)
  - (if ((i =? a) && (j =? b))%nat then y else 0) - (if ((j =? a) && (i =? b))%nat then y else 0).
Definition entries n a b : CK := lsum (map (fun l => line_entry n l a b) (lines n)).
Definition y_step (Y : mat CK) (i : nat) n (j : nat) : res net :=
  if keqb (get Y i j) 0 then Ok n
  else
    vi <- vn_kv n i ;;
    let y := rscal (kinv (vi * vi) * sn n) (- get Y i j) in
    bi <- bus_index n i ;; fb <- pp_get_element_index n (PStr (str bi)) ;;
    bj <- bus_index n j ;; tb <- pp_get_element_index n (PStr (str bj)) ;;
    let z := kinv y in
    pp_create_line_from_parameters n fb tb 1 (re z) (im z).
(** the voltage read for row [i] is that of the bus in row [i] *)
Definition base_ok n i : Prop := exists b v, nth_error (buses n) i = Some b /\ vn_kv n i = Ok v /\ v * v = b_kv b * b_kv b /\ v <> 0.

Lemma has_nth : forall n i b, nth_error (buses n) i = Some b -> has_bus n (b_id b) = true.
Proof. intros n i b H. apply has_bus_In. apply in_map. eapply nth_error_In; eauto. Qed.
Lemma step_ok : forall (Y : mat CK) n i j, consistent n -> sn n <> 0 -> (i < length (buses n))%nat -> (j < i)%nat -> (get Y i j <> 0 -> base_ok n i) ->
  exists n', y_step Y i n j = Ok n' /\ consistent n' /\ same_but_lines n n' /\ forall a b, entries n' a b = entries n a b + pair_entry Y i j a b.
Proof.
  intros Y n i j C Hsn Hi Hj Hb. unfold y_step. destruct (keqb (get Y i j) 0) eqn:E0.
  - apply keqb_eq in E0. exists n. split; [reflexivity|]. split; [auto|]. split; [repeat split|]. intros a b. unfold pair_entry. rewrite E0.
    transitivity (entries n a b + 0); [ring|]. f_equal.
    repeat match goal with |- context [if ?c then _ else _] => destruct c end; ring.
  - assert (Hn : get Y i j <> 0) by (intro E; apply keqb_eq in E; congruence).
    destruct (Hb Hn) as (bi & v & Ei & Ev & E2 & Hv). rewrite Ev. cbn [bind].
    destruct (nth_error (buses n) j) as [bj|] eqn:Ej; [|apply nth_error_None in Ej; lia].
    unfold bus_index. rewrite Ei, Ej. cbn [bind]. rewrite !element_index by apply C. rewrite (has_nth n i bi Ei), (has_nth n j bj Ej). cbn [bind].
    set (y := rscal (kinv (v * v) * sn n) (- get Y i j)).
    destruct (pp_create_line_from_parameters n (b_id bi) (b_id bj) 1 (re (kinv y)) (im (kinv y))) as [n'|e] eqn:E.
    2:{ unfold pp_create_line_from_parameters in E. rewrite (has_nth n i bi Ei), (has_nth n j bj Ej) in E. discriminate. }
    destruct (cons_line _ _ _ _ _ _ _ C E) as (C' & B & L & As & G & Sn & T & _ & _ & k & EL).
    exists n'. split; [reflexivity|]. split; [auto|]. split; [repeat split; auto|].
    assert (Sb : same_but_lines n n') by (repeat split; auto).
    intros a b. unfold entries. rewrite EL, map_app, lsum_app.
    rewrite (map_ext (fun l => line_entry n' l a b) (fun l => line_entry n l a b)) by (intro; apply same_entry; auto). f_equal.
    cbn [map lsum]. rewrite (same_entry n n') by auto.
    assert (Ey : line_admittance n (Line k (b_id bi) (b_id bj) 1 (re (kinv y)) (im (kinv y))) = - get Y i j).
    { unfold line_admittance. cbn [n_from n_r n_x n_len]. rewrite (find_id (buses n) bi) by (try apply C; eapply nth_error_In; eauto).
      replace (Cx (re (kinv y) * 1) (im (kinv y) * 1)) with (kinv y) by (destruct (kinv y); cbn; f_equal; ring).
      assert (Hc : kinv (v * v) * sn n <> 0).
      { intro X. apply kmul_integral in X as [X|X]; [|auto]. apply (k1_neq0 (K := K)). transitivity (v * v * kinv (v * v)); [field; auto|]. rewrite X. ring. }
      assert (Hy : y <> 0). { intro X. apply rscal_zero in X; auto. apply Hn. transitivity (- - get Y i j); [ring|]. rewrite X. ring. }
      rewrite ckinv_inv by exact Hy.
      unfold y. rewrite rscal_rscal, <- E2. replace (v * v / sn n * (kinv (v * v) * sn n)) with 1 by (field; auto). apply rscal_1. }
    unfold line_entry. rewrite Ey. cbn [n_from n_to].
    rewrite !(at_position_nth n i bi) by (auto; apply C). rewrite !(at_position_nth n j bj) by (auto; apply C).
    unfold pair_entry. cbv zeta. ring.
Qed.
Lemma same_trans : forall n1 n2 n3, same_but_lines n1 n2 -> same_but_lines n2 n3 -> same_but_lines n1 n3.
Proof. intros n1 n2 n3 (? & ? & ? & ? & ? & ?) (? & ? & ? & ? & ? & ?). repeat split; congruence. Qed.
Lemma base_same : forall n n' i, same_but_lines n n' -> base_ok n i -> base_ok n' i.
Proof. intros n n' i (B & _) H. unfold base_ok, vn_kv in *. rewrite B. exact H. Qed.
Lemma inner_ok : forall (Y : mat CK) i k n, consistent n -> sn n <> 0 -> (i < length (buses n))%nat -> (k <= i)%nat ->
  (forall j, (j < k)%nat -> get Y i j <> 0 -> base_ok n i) ->
  exists n', for_each (range k) n (y_step Y i) = Ok n' /\ consistent n' /\ same_but_lines n n' /\
  forall a b, entries n' a b = entries n a b + sumn k (fun j => pair_entry Y i j a b).
Proof.
  intros Y i. induction k as [|k IH]; intros n C Hsn Hi Hk Hb.
  - exists n. split; [reflexivity|]. split; [auto|]. split; [repeat split|]. intros a b. cbn [sumn]. ring.
  - rewrite range_S, for_each_app. destruct (IH n C Hsn Hi ltac:(lia) (fun j Hj => Hb j ltac:(lia))) as (n1 & E1 & C1 & S1 & H1). rewrite E1. cbn [bind for_each].
    assert (L1 : buses n1 = buses n) by apply S1. assert (Q1 : sn n1 = sn n) by apply S1.
    destruct (step_ok Y n1 i k C1) as (n2 & E2 & C2 & S2 & H2); try (rewrite L1); try congruence; try lia; auto.
    { intro X. apply (base_same n); auto. apply (Hb k); auto. }
    rewrite E2. cbn [bind]. exists n2. split; [reflexivity|]. split; [auto|]. split; [eapply same_trans; eauto|].
    intros a b. rewrite H2, H1. cbn [sumn]. ring.
Qed.
Lemma outer_ok : forall (Y : mat CK) m n, consistent n -> sn n <> 0 -> (m <= length (buses n))%nat ->
  (forall i j, (i < m)%nat -> (j < i)%nat -> get Y i j <> 0 -> base_ok n i) ->
  exists n', for_each (range m) n (fun n i => for_each (range i) n (y_step Y i)) = Ok n' /\ consistent n' /\ same_but_lines n n' /\
  forall a b, entries n' a b = entries n a b + sumn m (fun i => sumn i (fun j => pair_entry Y i j a b)).
Proof.
  intros Y. induction m as [|m IH]; intros n C Hsn Hm Hb.
  - exists n. split; [reflexivity|]. split; [auto|]. split; [repeat split|]. intros a b. cbn [sumn]. ring.
  - rewrite range_S, for_each_app. destruct (IH n C Hsn ltac:(lia) (fun i j Hi => Hb i j ltac:(lia))) as (n1 & E1 & C1 & S1 & H1). rewrite E1. cbn [bind for_each].
    assert (L1 : buses n1 = buses n) by apply S1. assert (Q1 : sn n1 = sn n) by apply S1.
    destruct (inner_ok Y m m n1 C1) as (n2 & E2 & C2 & S2 & H2); try (rewrite L1); try congruence; try lia; auto.
    { intros j Hj X. apply (base_same n); auto. apply (Hb m j); auto. }
    rewrite E2. cbn [bind]. exists n2. split; [reflexivity|]. split; [auto|]. split; [eapply same_trans; eauto|].
    intros a b. rewrite H2, H1. cbn [sumn]. ring.
Qed.
Lemma sumn_widen : forall m i (f : nat -> CK), (i <= m)%nat -> sumn i f = sumn m (fun j => if (j <? i)%nat then f j else 0).
Proof.
  intros m i f H. replace m with (i + (m - i))%nat by lia. rewrite sumn_plus.
  transitivity (sumn i f + 0); [ring|]. f_equal; [apply sumn_ext|symmetry; apply sumn_zero].
  - intros j Hj. destruct (Nat.ltb_spec j i); auto; lia.
  - intros j _. destruct (Nat.ltb_spec (i + j) i); auto; lia.
Qed.
Lemma pairs_sum : forall (Y : mat CK) m a b, shape Y m m -> (a < m)%nat -> (b < m)%nat ->
  sumn m (fun i => sumn i (fun j => pair_entry Y i j a b)) = get (laplacian_of Y) a b.
Proof.
  intros Y m a b (W & Er & Ec) Ha Hb. unfold laplacian_of. rewrite Er, get_mk by auto. destruct (Nat.eqb_spec a b) as [<-|Hab].
  - transitivity (sumn m (fun i => sumn m (fun j => (if (i =? a)%nat then (if (j <? i)%nat then - get Y i j else 0) else 0)))
                + sumn m (fun i => sumn m (fun j => (if (j =? a)%nat then (if (j <? i)%nat then - get Y i j else 0) else 0)))).
    { rewrite <- sumn_add. apply sumn_ext. intros i Hi. rewrite <- sumn_add. rewrite (sumn_widen m i) by lia. apply sumn_ext. intros j Hj.
      unfold pair_entry. destruct (Nat.ltb_spec j i) as [L|L]; [|destruct (i =? a)%nat, (j =? a)%nat; ring].
      destruct (Nat.eqb_spec i a), (Nat.eqb_spec j a); cbn [andb]; try ring; lia. }
    rewrite (sumn_single m a) by (auto; intros i Hi N; apply sumn_zero; intros; destruct (Nat.eqb_spec i a); auto; tauto).
    rewrite Nat.eqb_refl.
    rewrite (sumn_ext m (fun i => sumn m _) (fun i => if (a <? i)%nat then - get Y i a else 0)).
    2:{ intros i Hi. rewrite (sumn_single m a) by (auto; intros j Hj N; destruct (Nat.eqb_spec j a); auto; tauto). rewrite Nat.eqb_refl. reflexivity. }
    rewrite <- sumn_add, <- sumn_opp. apply sumn_ext. intros j Hj.
    destruct (Nat.eqb_spec j a), (Nat.ltb_spec j a), (Nat.ltb_spec a j); try lia; ring.
  - set (hi := Nat.max a b). set (lo := Nat.min a b).
    rewrite (sumn_single m hi) by (unfold hi; try lia; intros i Hi N; apply sumn_zero; intros j Hj; unfold pair_entry;
      destruct (Nat.eqb_spec i a), (Nat.eqb_spec i b), (Nat.eqb_spec j a), (Nat.eqb_spec j b); cbn [andb]; try ring; lia).
    rewrite (sumn_single hi lo) by (unfold hi, lo; try lia; intros j Hj N; unfold pair_entry;
      destruct (Nat.eqb_spec (Nat.max a b) a), (Nat.eqb_spec (Nat.max a b) b), (Nat.eqb_spec j a), (Nat.eqb_spec j b); cbn [andb]; try ring; lia).
    unfold pair_entry, hi, lo. destruct (Nat.ltb_spec b a).
    + rewrite Nat.max_l, Nat.min_r by lia. rewrite !Nat.eqb_refl. destruct (Nat.eqb_spec a b), (Nat.eqb_spec b a); try lia. cbn [andb]. ring.
    + rewrite Nat.max_r, Nat.min_l by lia. rewrite !Nat.eqb_refl. destruct (Nat.eqb_spec a b), (Nat.eqb_spec b a); try lia. cbn [andb]. ring.
Qed.
Lemma same_y : forall n n' (D : mat CK), same_but_lines n n' -> (forall a b, (a < length (buses n))%nat -> (b < length (buses n))%nat -> entries n' a b = entries n a b + get D a b) ->
  y_matrix n' = madd (y_matrix n) D.
Proof.
  intros n n' D (B & L & A & G & S1 & T) H. apply (gshape_ext _ _ (length (buses n)) (length (buses n))).
  - rewrite <- B. split; [apply wf_mk|split; reflexivity].
  - split; [apply wf_mk|split; reflexivity].
  - intros i j Hi Hj. rewrite get_madd by (cbn; auto). unfold y_matrix. rewrite B. rewrite !get_mk by auto.
    specialize (H i j Hi Hj). unfold entries in H. rewrite H. rewrite L. unfold at_position, position, load_admittance. rewrite B, S1. ring.
Qed.
Lemma shape_y_matrix : forall n, shape (y_matrix n) (length (buses n)) (length (buses n)).
Proof. intro n. split; [apply wf_mk|split; reflexivity]. Qed.

Lemma p_ybus_exact : forall n (Y : mat CK), consistent n -> sn n <> 0 -> shape Y (length (buses n)) (length (buses n)) ->
  (forall i j, (i < length (buses n))%nat -> (j < i)%nat -> get Y i j <> 0 -> base_ok n i) -> grids n <> [] ->
  exists n' Z, create_lines_from_ybus n Y = Ok n' /\ same_but_lines n n' /\ make_y_bus n = Ok Z /\ make_y_bus n' = Ok (madd Z (laplacian_of Y)).
Proof.
  intros n Y C Hsn HY Hb Hg. destruct (outer_ok Y (length (buses n)) n) as (n' & E & C' & S' & H); auto.
  exists n', (y_matrix n). destruct HY as (W & Er & Ec). split; [unfold create_lines_from_ybus; rewrite Er; exact E|]. split; [auto|].
  unfold make_y_bus. destruct (grids n) as [|g gs] eqn:Eg; [tauto|]. split; [reflexivity|].
  assert (Eg' : grids n' = g :: gs) by (rewrite <- Eg; apply S'). rewrite Eg'. f_equal. apply same_y; auto.
  intros a b Ha Hb'. rewrite H. f_equal. apply pairs_sum; auto. split; auto.
Qed.
Lemma laplacian_of_id : forall (Y : mat CK) m, shape Y m m -> tr Y = Y -> (forall i, (i < m)%nat -> sumn m (fun j => get Y i j) = 0) -> laplacian_of Y = Y.
Proof.
  intros Y m HY HT HS. pose proof HY as (W & Er & Ec). apply (gshape_ext _ _ m m); auto.
  { rewrite <- Er. split; [apply wf_mk|split; reflexivity]. }
  assert (Sy : forall i j, (i < m)%nat -> (j < m)%nat -> get Y i j = get Y j i).
  { intros i j Hi Hj. rewrite <- HT at 1. rewrite get_tr by congruence. reflexivity. }
  intros i j Hi Hj. unfold laplacian_of. rewrite Er, get_mk by auto. destruct (Nat.eqb_spec i j) as [<-|N].
  - assert (X : sumn m (fun j => get Y i j) = get Y i i + sumn m (fun j => if (j =? i)%nat then 0 else if (j <? i)%nat then get Y i j else get Y j i)).
    { rewrite <- (sumn_delta_l m i (fun j => get Y i j)) by auto. rewrite <- sumn_add. apply sumn_ext. intros k Hk.
      rewrite (Nat.eqb_sym i k). destruct (k =? i)%nat; [ring|]. destruct (k <? i)%nat; [ring|]. rewrite (Sy k i) by auto. ring. }
    rewrite HS in X by auto. match goal with |- - ?s = _ => transitivity (get Y i i + s - s) end; [rewrite <- X; ring|ring].
  - destruct (j <? i)%nat; auto.
Qed.
Lemma p_ybus : forall n (Y : mat CK), consistent n -> sn n <> 0 -> shape Y (length (buses n)) (length (buses n)) ->
  (forall i j, (i < length (buses n))%nat -> (j < i)%nat -> get Y i j <> 0 -> base_ok n i) -> grids n <> [] ->
  tr Y = Y -> (forall i, (i < length (buses n))%nat -> sumn (length (buses n)) (fun j => get Y i j) = 0) ->
  lines n = [] -> (forall l, In l (loads n) -> l_z l = 0) ->
  exists n', create_lines_from_ybus n Y = Ok n' /\ same_but_lines n n' /\ make_y_bus n' = Ok Y.
Proof.
  intros n Y C Hsn HY Hb Hg HT HS HL Hz. destruct (p_ybus_exact n Y) as (n' & Z & E & S' & EZ & E'); auto.
  exists n'. split; [auto|]. split; [auto|]. rewrite E'. f_equal. rewrite (laplacian_of_id Y (length (buses n))) by auto.
  assert (Z0 : Z = mzeros (length (buses n)) (length (buses n))).
  { unfold make_y_bus in EZ. destruct (grids n) as [|g0 gs] eqn:Eg; [tauto|]. injection EZ as <-.
    apply (gshape_ext _ _ (length (buses n)) (length (buses n))); [apply shape_y_matrix|split; [apply wf_mk|split; reflexivity]|].
    intros i j Hi Hj. unfold y_matrix, mzeros. rewrite !get_mk by auto. rewrite HL. cbn [map lsum].
    assert (X : lsum (map (fun l => if at_position n (l_bus l) i then load_admittance n l else 0) (loads n)) = (0 : CK)).
    { revert Hz. induction (loads n) as [|l ls IH]; intro Hz; [reflexivity|]. cbn [map lsum]. rewrite IH by (intros; apply Hz; cbn; auto).
      unfold load_admittance. rewrite (Hz l) by (cbn; auto).
      replace (rscal (0 / hundred / sn n) (Cx (l_p l) (- l_q l))) with (0 : CK); [destruct (at_position n (l_bus l) i); ring|].
      assert (Z0 : (0 / hundred / sn n : K) = 0) by (rewrite !kdiv_def; ring).
      rewrite Z0. unfold rscal. apply cplx_eq; cbn [re im]; symmetry; apply kmul_zero_l. }
    rewrite X. destruct (i =? j)%nat; ring. }
  rewrite Z0. apply (gshape_ext _ _ (length (buses n)) (length (buses n))); auto; [split; [apply wf_mk|split; reflexivity]|].
  intros i j Hi Hj. unfold madd, mzeros. cbn [nr nc mk]. rewrite !get_mk by auto. ring.
Qed.
(** a row without bus of that number *)
Lemma same_but_refl : forall n, same_but_lines n n.
Proof. intro. repeat split. Qed.
Lemma p_ybus_keyerror : forall n (Y : mat CK) i j, consistent n -> shape Y (length (buses n)) (length (buses n)) -> sn n <> 0 ->
  (i < length (buses n))%nat -> (j < i)%nat -> get Y i j <> 0 -> ~ In i (ids n) ->
  (forall i' j', (i' < i)%nat -> (j' < i')%nat -> get Y i' j' <> 0 -> base_ok n i') ->
  create_lines_from_ybus n Y = Err KeyError.
Proof.
  intros n Y i j C (W & Er & Ec) Hsn Hi Hj Hn Hid Hb. unfold create_lines_from_ybus. rewrite Er.
  change (for_each (range (length (buses n))) n (fun n i => for_each (range i) n (y_step Y i)) = Err KeyError).
  assert (Sp : range (length (buses n)) = range i ++ i :: seq (S i) (length (buses n) - S i)).
  { unfold range. replace (length (buses n)) with (i + S (length (buses n) - S i))%nat at 1 by lia. rewrite seq_app. reflexivity. }
  rewrite Sp, for_each_app. destruct (outer_ok Y i n) as (n1 & E1 & C1 & S1 & _); auto; [lia|]. rewrite E1. cbn [bind for_each].
  assert (Bad : for_each (range i) n1 (y_step Y i) = Err KeyError).
  { assert (Hv : vn_kv n1 i = Err KeyError).
    { unfold vn_kv. destruct S1 as (B & _). rewrite B. destruct (find _ _) as [b|] eqn:Ef; auto. exfalso.
      apply find_some in Ef as [I Eb]. apply Nat.eqb_eq in Eb. apply Hid. rewrite <- Eb. apply in_map; auto. }
    assert (Ij : In j (range i)) by (apply in_range; auto). revert Ij Hv. generalize (range i) as l. clear - Hn F FR.
    induction l as [|x l IH]; intros Ij Hv; [destruct Ij|]. cbn [for_each]. unfold y_step at 1.
    destruct (keqb (get Y i x) 0) eqn:E.
    - cbn [bind]. apply IH; auto. destruct Ij as [->|Ij]; auto. apply keqb_eq in E. tauto.
    - rewrite Hv. reflexivity. }
  rewrite Bad. reflexivity.
Qed.
End Y.

Section YProps.
Context {K : Type} {O : Ops K} {F : Fld K} {FR : FReal K}.
Notation net := (@net K).
Notation CK := (cplx K).
Lemma fits_base : forall (n : net) i, NoDup (ids n) -> row_number_fits n i -> base_ok n i.
Proof.
  intros n i N (b & c & Hb & Ic & Ei & E2 & Hc). exists b, (b_kv c). split; [auto|]. split; [|auto].
  unfold vn_kv. rewrite <- Ei, (find_id (buses n) c) by auto. reflexivity.
Qed.
Lemma p_ybus_exact' : forall (n : net) (Y : mat CK), consistent n -> sn n <> 0 -> grids n <> [] -> shape Y (length (buses n)) (length (buses n)) ->
  (forall i j, (i < length (buses n))%nat -> (j < i)%nat -> get Y i j <> 0 -> row_number_fits n i) ->
  exists n' Z, create_lines_from_ybus n Y = Ok n' /\ only_lines_changed n n' /\ make_y_bus n = Ok Z /\ make_y_bus n' = Ok (madd Z (laplacian_of Y)).
Proof. intros n Y C Hs Hg HY H. apply p_ybus_exact; auto. intros. apply fits_base; [apply C|eauto]. Qed.
Lemma p_ybus' : forall (n : net) (Y : mat CK), consistent n -> sn n <> 0 -> grids n <> [] -> shape Y (length (buses n)) (length (buses n)) ->
  (forall i j, (i < length (buses n))%nat -> (j < i)%nat -> get Y i j <> 0 -> row_number_fits n i) ->
  tr Y = Y -> (forall i, (i < length (buses n))%nat -> sumn (length (buses n)) (fun j => get Y i j) = 0) ->
  lines n = [] -> (forall l, In l (loads n) -> l_z l = 0) ->
  exists n', create_lines_from_ybus n Y = Ok n' /\ only_lines_changed n n' /\ make_y_bus n' = Ok Y.
Proof. intros n Y C Hs Hg HY H HT HS HL Hz. apply p_ybus; auto. intros. apply fits_base; [apply C|eauto]. Qed.
Lemma p_ybus_uniform : forall (n : net) (Y : mat CK) v, consistent n -> sn n <> 0 -> grids n <> [] -> shape Y (length (buses n)) (length (buses n)) ->
  (ids n = seq 0 (length (buses n)) \/ ids n = seq 1 (length (buses n))) -> v <> 0 -> (forall b, In b (buses n) -> b_kv b = v) ->
  tr Y = Y -> (forall i, (i < length (buses n))%nat -> sumn (length (buses n)) (fun j => get Y i j) = 0) ->
  lines n = [] -> (forall l, In l (loads n) -> l_z l = 0) ->
  exists n', create_lines_from_ybus n Y = Ok n' /\ only_lines_changed n n' /\ make_y_bus n' = Ok Y.
Proof.
  intros n Y v C Hs Hg HY Hid Hv Hkv HT HS HL Hz. apply p_ybus'; auto. intros i j Hi Hj _.
  destruct (nth_error (buses n) i) as [b|] eqn:Eb; [|apply nth_error_None in Eb; lia].
  assert (I : In i (ids n)) by (destruct Hid as [E|E]; rewrite E; apply in_seq; lia).
  unfold ids in I. apply in_map_iff in I as (c & Ec & I). exists b, c. split; [auto|]. split; [auto|]. split; [auto|].
  rewrite (Hkv c I), (Hkv b) by (eapply nth_error_In; eauto). auto.
Qed.
Lemma p_ybus_missing : forall (n : net) (Y : mat CK) i j, consistent n -> sn n <> 0 -> shape Y (length (buses n)) (length (buses n)) ->
  (i < length (buses n))%nat -> (j < i)%nat -> get Y i j <> 0 -> ~ In i (ids n) ->
  (forall i' j', (i' < i)%nat -> (j' < i')%nat -> get Y i' j' <> 0 -> row_number_fits n i') ->
  create_lines_from_ybus n Y = Err KeyError.
Proof. intros n Y i j C Hs HY Hi Hj Hn Hid H. apply (p_ybus_keyerror n Y i j); auto. intros. apply fits_base; [apply C|eauto]. Qed.
End YProps.
