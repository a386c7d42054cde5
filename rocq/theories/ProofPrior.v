From Coq Require Import Arith ZArith Lia List Bool Ring Field.
From Verif Require Import BasePy BaseFld BaseSum BaseMat BaseNumpy BaseOrd BaseLin ModelPrior SpecPrior.
Import ListNotations.
Local Open Scope K_scope.

Lemma for_each_inv : forall A St (P : St -> Prop) (l : list A) s body s',
  P s -> (forall t x t', In x l -> P t -> body t x = Ok t' -> P t') ->
  for_each l s body = Ok s' -> P s'.
Proof.
  induction l as [|x l IH]; intros s body s' Hs Hb H; simpl in H.
  - inversion H; subst; exact Hs.
  - apply bind_ok in H. destruct H as (t & Ht & H).
    apply (IH t body s'); auto.
    + apply (Hb s x t); simpl; auto.
    + intros u y u' Hy; apply Hb; simpl; auto.
Qed.

Lemma norm_idx_pos : forall n z, in_bounds n z -> norm_idx n z = Ok (pos n z) /\ (pos n z < n)%nat.
Proof.
  unfold in_bounds, norm_idx, pos; intros n z H.
  destruct (z <? 0)%Z eqn:E.
  - apply Z.ltb_lt in E.
    replace (0 <=? z)%Z with false by (symmetry; apply Z.leb_gt; lia).
    replace (- Z.of_nat n <=? z)%Z with true by (symmetry; apply Z.leb_le; lia).
    simpl; split; [reflexivity|lia].
  - apply Z.ltb_ge in E.
    replace (0 <=? z)%Z with true by (symmetry; apply Z.leb_le; lia).
    replace (z <? Z.of_nat n)%Z with true by (symmetry; apply Z.ltb_lt; lia).
    simpl; split; [reflexivity|lia].
Qed.

Lemma norm_idx_nat : forall n i, (i < n)%nat -> norm_idx n (Z.of_nat i) = Ok i.
Proof.
  intros n i H. unfold norm_idx.
  replace (0 <=? Z.of_nat i)%Z with true by (symmetry; apply Z.leb_le; lia).
  replace (Z.of_nat i <? Z.of_nat n)%Z with true by (symmetry; apply Z.ltb_lt; lia).
  simpl. rewrite Nat2Z.id. reflexivity.
Qed.

Lemma pyget_ok : forall A (l : list A) i d, (i < length l)%nat -> pyget l i = Ok (nth i l d).
Proof. intros; unfold pyget; rewrite (nth_error_nth' l d) by assumption; reflexivity. Qed.

Lemma length_std_weights : forall A (one : A) w m, fits w m -> length (std_weights one w m) = m.
Proof. intros A one [|x|l] m H; simpl; try apply repeat_length; exact H. Qed.

Lemma nth_std_weights : forall A (one d : A) w m i, (i < m)%nat ->
  nth i (std_weights one w m) d = arg_at one d w i.
Proof.
  intros A one d [|x|l] m i H; simpl.
  - rewrite (nth_indep _ d one) by (rewrite repeat_length; lia). apply nth_repeat.
  - rewrite (nth_indep _ d x) by (rewrite repeat_length; lia). apply nth_repeat.
  - reflexivity.
Qed.

Section Prior.
Context {K : Type} {O : Ops K} {F : Fld K}.
Add Field Kfld : (@k_field K O F).

Lemma shape_set_at : forall (m : mat K) i j x m' r c,
  shape m r c -> set_at m i j x = Ok m' -> shape m' r c.
Proof.
  intros m i j x m' r c Hs H. unfold set_at in H.
  apply bind_ok in H. destruct H as (i' & _ & H).
  apply bind_ok in H. destruct H as (j' & _ & H).
  inversion H; subst. destruct Hs as (Hw & <- & <-). apply shape_mk.
Qed.

Lemma shape_set_many : forall ks xs (m : mat K) i m' r c,
  shape m r c -> set_many m i ks xs = Ok m' -> shape m' r c.
Proof.
  induction ks as [|k ks IH]; intros xs m i m' r c Hs H; simpl in H.
  - inversion H; subst; exact Hs.
  - destruct xs as [|x xs]; [inversion H; subst; exact Hs|].
    apply bind_ok in H. destruct H as (m1 & H1 & H).
    apply (IH xs m1 i m' r c); auto. eapply shape_set_at; eauto.
Qed.

Lemma shape_build_rows : forall n idx entry (m : mat K),
  build_rows n idx entry = Ok m -> shape m (length idx) n.
Proof.
  intros n idx entry m H. unfold build_rows in H.
  apply (for_each_inv nat (mat K) (fun m => shape m (length idx) n)) in H; auto.
  - apply shape_mk.
  - intros t i t' _ Ht Hb.
    apply bind_ok in Hb. destruct Hb as (x & _ & Hb).
    apply bind_ok in Hb. destruct Hb as (k & _ & Hb).
    eapply shape_set_at; eauto.
Qed.

Lemma shape_build_rows2 : forall n idx entry (m : mat K),
  build_rows2 n idx entry = Ok m -> shape m (nr idx) n.
Proof.
  intros n idx entry m H. unfold build_rows2 in H.
  apply (for_each_inv nat (mat K) (fun m => shape m (nr idx) n)) in H; auto.
  - apply shape_mk.
  - intros t i t' _ Ht Hb.
    apply bind_ok in Hb. destruct Hb as (x & _ & Hb).
    eapply shape_set_many; eauto.
Qed.

(** a loop that fills the rows one after the other *)
Lemma for_rows : forall r c (body : mat K -> nat -> res (mat K)) (f : nat -> nat -> K),
  (forall m i, (i < r)%nat -> shape m r c -> (forall j, (j < c)%nat -> get m i j = 0) ->
     exists m', body m i = Ok m' /\ shape m' r c /\
       forall a j, (a < r)%nat -> (j < c)%nat -> get m' a j = if (a =? i)%nat then f i j else get m a j) ->
  exists m, for_each (range r) (mzeros r c) body = Ok m /\ shape m r c /\
    forall a j, (a < r)%nat -> (j < c)%nat -> get m a j = f a j.
Proof.
  intros r c body f Hb.
  assert (H : forall k, (k <= r)%nat -> exists m, for_each (range k) (mzeros r c) body = Ok m /\ shape m r c /\
    forall a j, (a < r)%nat -> (j < c)%nat -> get m a j = if (a <? k)%nat then f a j else 0).
  { induction k as [|k IH]; intros Hk.
    - exists (mzeros r c). split; [reflexivity|]. split; [apply shape_mk|].
      intros a j Ha Hj. unfold mzeros. rewrite get_mk by assumption. reflexivity.
    - destruct IH as (m & Hm & Hs & Hg); [lia|].
      destruct (Hb m k) as (m' & Hm' & Hs' & Hg'); [lia|exact Hs| |].
      { intros j Hj. rewrite Hg by lia. rewrite Nat.ltb_irrefl. reflexivity. }
      exists m'. rewrite range_S, for_each_app, Hm. cbn [bind for_each]. rewrite Hm'. cbn [bind].
      split; [reflexivity|]. split; [exact Hs'|].
      intros a j Ha Hj. rewrite Hg' by assumption.
      destruct (Nat.eqb_spec a k) as [->|Hne].
      + replace (k <? S k)%nat with true by (symmetry; apply Nat.ltb_lt; lia). reflexivity.
      + rewrite Hg by assumption.
        destruct (Nat.ltb_spec a k), (Nat.ltb_spec a (S k)); try lia; reflexivity. }
  destruct (H r (le_n r)) as (m & Hm & Hs & Hg).
  exists m. repeat split; auto; try apply Hs.
  intros a j Ha Hj. rewrite Hg by assumption.
  replace (a <? r)%nat with true by (symmetry; apply Nat.ltb_lt; lia). reflexivity.
Qed.

Lemma set_at_ok : forall (m : mat K) i z x r c, shape m r c -> (i < r)%nat -> in_bounds c z ->
  set_at m (Z.of_nat i) z x = Ok (mset m i (pos c z) x).
Proof.
  intros m i z x r c (Hw & Hr & Hc) Hi Hz. unfold set_at. rewrite Hr, Hc.
  rewrite norm_idx_nat by assumption. cbn [bind].
  rewrite (proj1 (norm_idx_pos c z Hz)). cbn [bind]. reflexivity.
Qed.

Lemma get_mset : forall (m : mat K) i j x a b, (a < nr m)%nat -> (b < nc m)%nat ->
  get (mset m i j x) a b = if ((a =? i) && (b =? j))%nat then x else get m a b.
Proof. intros; unfold mset; rewrite get_mk by assumption; reflexivity. Qed.

Lemma build_rows_ok : forall n idx entry (f : nat -> K),
  Forall (in_bounds n) idx -> (forall i, (i < length idx)%nat -> entry i = Ok (f i)) ->
  exists m, build_rows n idx entry = Ok m /\ shape m (length idx) n /\
    forall a j, (a < length idx)%nat -> (j < n)%nat ->
      get m a j = if (j =? pos n (nth a idx 0%Z))%nat then f a else 0.
Proof.
  intros n idx entry f Hix He. unfold build_rows.
  apply (for_rows (length idx) n _ (fun a j => if (j =? pos n (nth a idx 0%Z))%nat then f a else 0)).
  intros m i Hi Hs Hz. rewrite He by assumption. cbn [bind].
  rewrite (pyget_ok _ idx i 0%Z) by assumption. cbn [bind].
  assert (Hb : in_bounds n (nth i idx 0%Z)).
  { rewrite Forall_forall in Hix. apply Hix, nth_In; assumption. }
  rewrite (set_at_ok m i _ (f i) (length idx) n) by assumption.
  exists (mset m i (pos n (nth i idx 0%Z)) (f i)). split; [reflexivity|].
  destruct Hs as (Hw & Hr & Hc).
  split; [unfold mset; rewrite Hr, Hc; apply shape_mk|].
  intros a j Ha Hj. rewrite get_mset by (rewrite ?Hr, ?Hc; assumption).
  destruct (Nat.eqb_spec a i) as [->|Hne]; [|reflexivity].
  cbn [andb]. destruct (Nat.eqb_spec j (pos n (nth i idx 0%Z))) as [->|Hj']; [reflexivity|].
  apply Hz; assumption.
Qed.

(** first position of [j] among distinct columns *)
Fixpoint assign (n : nat) (ks : list Z) (xs : list K) (j : nat) (d : K) : K :=
  match ks, xs with
  | k :: ks', x :: xs' => assign n ks' xs' j (if (j =? pos n k)%nat then x else d)
  | _, _ => d
  end.

Lemma set_many_ok : forall ks xs (m : mat K) i r c, shape m r c -> (i < r)%nat -> Forall (in_bounds c) ks ->
  exists m', set_many m (Z.of_nat i) ks xs = Ok m' /\ shape m' r c /\
    forall a j, (a < r)%nat -> (j < c)%nat ->
      get m' a j = if (a =? i)%nat then assign c ks xs j (get m i j) else get m a j.
Proof.
  induction ks as [|k ks IH]; intros xs m i r c Hs Hi Hk.
  - exists m. split; [reflexivity|]. split; [exact Hs|]. intros a j Ha Hj. simpl.
    destruct (Nat.eqb_spec a i) as [->|_]; reflexivity.
  - destruct xs as [|x xs].
    + exists m. split; [reflexivity|]. split; [exact Hs|]. intros a j Ha Hj. simpl.
      destruct (Nat.eqb_spec a i) as [->|_]; reflexivity.
    + inversion Hk as [|? ? Hb Hk']; subst. simpl.
      rewrite (set_at_ok m i k x r c) by assumption. cbn [bind].
      assert (Hs1 : shape (mset m i (pos c k) x) r c).
      { destruct Hs as (Hw & Hr & Hc). unfold mset. rewrite Hr, Hc. apply shape_mk. }
      destruct (IH xs _ i r c Hs1 Hi Hk') as (m' & Hm' & Hs' & Hg').
      exists m'. split; [exact Hm'|]. split; [exact Hs'|].
      intros a j Ha Hj. rewrite Hg' by assumption.
      destruct Hs as (Hw & Hr & Hc).
      destruct (Nat.eqb_spec a i) as [->|Hne].
      * rewrite get_mset by (rewrite ?Hr, ?Hc; assumption). rewrite Nat.eqb_refl. reflexivity.
      * rewrite get_mset by (rewrite ?Hr, ?Hc; assumption).
        replace (a =? i)%nat with false by (symmetry; apply Nat.eqb_neq; assumption). reflexivity.
Qed.

Lemma build_rows2_ok : forall n idx entry (f : nat -> list K),
  wf idx -> Forall (fun r => Forall (in_bounds n) r) (dat idx) ->
  (forall i, (i < nr idx)%nat -> entry i = Ok (f i)) ->
  exists m, build_rows2 n idx entry = Ok m /\ shape m (nr idx) n /\
    forall a j, (a < nr idx)%nat -> (j < n)%nat ->
      get m a j = assign n (nth a (dat idx) []) (f a) j 0.
Proof.
  intros n idx entry f Hw Hix He. unfold build_rows2.
  apply (for_rows (nr idx) n _ (fun a j => assign n (nth a (dat idx) []) (f a) j 0)).
  intros m i Hi Hs Hz. rewrite He by assumption. cbn [bind].
  assert (Hb : Forall (in_bounds n) (nth i (dat idx) [])).
  { rewrite Forall_forall in Hix. apply Hix, nth_In. rewrite (proj1 Hw). assumption. }
  destruct (set_many_ok (nth i (dat idx) []) (f i) m i (nr idx) n Hs Hi Hb) as (m' & Hm' & Hs' & Hg').
  exists m'. split; [exact Hm'|]. split; [exact Hs'|].
  intros a j Ha Hj. rewrite Hg' by assumption. rewrite (Hz j Hj). reflexivity.
Qed.

(** the sum over a row written by [assign] *)
Lemma assign_notin : forall n ks xs j d, ~ In j (map (pos n) ks) -> assign n ks xs j d = d.
Proof.
  induction ks as [|k ks IH]; intros xs j d H; simpl; [destruct xs; reflexivity|].
  destruct xs as [|x xs]; [reflexivity|]. simpl in H.
  rewrite IH by tauto. destruct (Nat.eqb_spec j (pos n k)); [subst; tauto|reflexivity].
Qed.

Lemma assign_sum : forall n ks xs (g : nat -> K), length ks = length xs ->
  Forall (in_bounds n) ks -> NoDup (map (pos n) ks) ->
  sumn n (fun j => assign n ks xs j 0 * g j) =
  lsum (map (fun p => snd p * g (pos n (fst p))) (combine ks xs)).
Proof.
  induction ks as [|k ks IH]; intros xs g Hl Hb Hn.
  - simpl. destruct xs; apply sumn_zero; intros; ring.
  - destruct xs as [|x xs]; [discriminate|].
    inversion Hb as [|? ? Hk Hb']; subst. inversion Hn as [|? ? Hni Hn']; subst.
    simpl. rewrite <- (IH xs g) by (auto; simpl in Hl; lia).
    destruct (norm_idx_pos n k Hk) as (_ & Hlt).
    transitivity (sumn n (fun j => (if (j =? pos n k)%nat then x * g (pos n k) else 0) + assign n ks xs j 0 * g j)).
    + apply sumn_ext. intros j Hj.
      destruct (Nat.eqb_spec j (pos n k)) as [->|Hne]; [|ring].
      rewrite (assign_notin n ks xs (pos n k) x) by assumption.
      rewrite (assign_notin n ks xs (pos n k) 0) by assumption. ring.
    + rewrite sumn_add. f_equal.
      rewrite (sumn_single n (pos n k)); [rewrite Nat.eqb_refl; reflexivity|assumption|].
      intros j Hj Hne. destruct (Nat.eqb_spec j (pos n k)); [contradiction|reflexivity].
Qed.

(** *** Structure of one addition: everything that changes is appended *)

(** rows appended by the base class, whatever the method *)
Definition appended (p q : bprior K) (m : nat) : Prop :=
  bn q = bn p /\ exists more added, bmu q = bmu p ++ more /\ shape added m (bn p) /\
    nc (bL p) = bn p /\ bL q = vstack2 (bL p) added.

Lemma stack_rows_none : forall (p : bprior K) added q, stack_rows p added = (q, None) ->
  exists a, added = Ok a /\ nc (bL p) = nc a /\ q = mkBP (vstack2 (bL p) a) (bmu p) (bn p).
Proof.
  intros p added q H. unfold stack_rows in H. destruct added as [a|e]; cbn [bind] in H; [|discriminate].
  unfold np_vstack in H. destruct (Nat.eqb_spec (nc (bL p)) (nc a)) as [E|E]; [|discriminate].
  exists a. inversion H; subst. auto.
Qed.

Definition base_add (p : bprior K) (a : addition K) : bprior K * option exn :=
  match a with
  | AddExact i v w o => add_exact_prior p i v w
  | AddExactAdaptive i v w o => add_exact_prior p i v w
  | AddSparsity i w o => add_sparsity_prior p i w
  | AddAdaptiveSparsity i v o => add_adaptive_sparsity_prior p i v
  | AddContrast i v w o => add_contrast_prior p i v w
  | AddRatios i v w o => add_ratios_prior p i v w
  end.
Definition add_orders (a : addition K) : list nat :=
  match a with
  | AddExact i v w o => std_weights 1%nat o (length v)
  | AddExactAdaptive i v w o => std_weights 1%nat o (length v)
  | AddSparsity i w o => std_weights 1%nat o (length i)
  | AddAdaptiveSparsity i v o => std_weights 1%nat o (length v)
  | AddContrast i v w o => std_weights 1%nat o (length v)
  | AddRatios i v w o => std_weights 1%nat o (length v)
  end.
Lemma apply_as_base : forall p a, apply_addition p a = then_gamma p (base_add (base p) a) (add_orders a).
Proof. intros p [] ; reflexivity. Qed.

Lemma broadcast1_same : forall A B C (f : A -> B -> C) u v, length u = length v ->
  broadcast1 f u v = Ok (map (fun p => f (fst p) (snd p)) (combine u v)).
Proof. intros; unfold broadcast1. rewrite H, Nat.eqb_refl. reflexivity. Qed.

(** the targets appended by a balanced addition *)
Definition add_targets (a : addition K) : list K :=
  match a with
  | AddExact i v w o | AddExactAdaptive i v w o =>
      map (fun p => fst p * snd p) (combine (std_weights 1 w (length v)) v)
  | AddSparsity i w o => vzeros (length i)
  | AddAdaptiveSparsity i v o => vzeros (length i)
  | AddContrast i v w o => std_weights 1 w (length v)
  | AddRatios i v w o => vzeros (nr i)
  end.

Lemma base_add_ok : forall p a q, balanced a -> base_add p a = (q, None) ->
  exists added, shape added (rows_of a) (bn p) /\ nc (bL p) = bn p /\
    q = mkBP (vstack2 (bL p) added) (bmu p ++ add_targets a) (bn p).
Proof.
  intros p a q Hb H.
  assert (Hst : forall (m : list K) added q', stack_rows (with_mu p m) added = (q', None) ->
     (forall x, added = Ok x -> shape x (rows_of a) (bn p)) ->
     exists added', shape added' (rows_of a) (bn p) /\ nc (bL p) = bn p /\
       q' = mkBP (vstack2 (bL p) added') (bmu p ++ m) (bn p)).
  { intros m added q' Hq Hx. apply stack_rows_none in Hq. destruct Hq as (x & Ex & Enc & Eq).
    exists x. specialize (Hx x Ex). split; [exact Hx|]. split; [|exact Eq].
    simpl in Enc. rewrite Enc. apply Hx. }
  destruct a as [i v w o|i v w o|i w o|i v o|i v w o|i v w o]; simpl in Hb, H.
  - destruct Hb as (Hv & Hw & Ho). unfold add_exact_prior in H.
    rewrite broadcast1_same in H by (rewrite length_std_weights; [reflexivity|rewrite Hv; exact Hw]).
    apply (Hst _ _ _ H). intros x Hx. simpl. eapply shape_build_rows; eauto.
  - destruct Hb as (Hv & Hw & Ho). unfold add_exact_prior in H.
    rewrite broadcast1_same in H by (rewrite length_std_weights; [reflexivity|rewrite Hv; exact Hw]).
    apply (Hst _ _ _ H). intros x Hx. simpl. eapply shape_build_rows; eauto.
  - apply (Hst _ _ _ H). intros x Hx. simpl. eapply shape_build_rows; eauto.
  - apply (Hst _ _ _ H). intros x Hx. simpl. eapply shape_build_rows; eauto.
  - apply (Hst _ _ _ H). intros x Hx. simpl. eapply shape_build_rows2; eauto.
  - unfold add_ratios_prior in H. destruct (nc i <? 2)%nat; [discriminate|].
    apply (Hst _ _ _ H). intros x Hx. simpl. eapply shape_build_rows2; eauto.
Qed.

Lemma length_add_targets : forall a, balanced a -> length (add_targets a) = rows_of a.
Proof.
  intros [i v w o|i v w o|i w o|i v o|i v w o|i v w o] H; simpl in *.
  - destruct H as (Hv & Hw & _). rewrite map_length, combine_length, length_std_weights by (rewrite Hv; exact Hw). lia.
  - destruct H as (Hv & Hw & _). rewrite map_length, combine_length, length_std_weights by (rewrite Hv; exact Hw). lia.
  - apply length_vzeros.
  - apply length_vzeros.
  - destruct H as (Hv & Hw & _). rewrite length_std_weights; [exact Hv|rewrite Hv; exact Hw].
  - apply length_vzeros.
Qed.

Lemma length_add_orders : forall a, balanced a -> length (add_orders a) = rows_of a.
Proof.
  intros [i v w o|i v w o|i w o|i v o|i v w o|i v w o] H; simpl in *;
  (rewrite length_std_weights; [try reflexivity; apply H|]);
  first [apply H | (replace (length v) with (rows_of (AddExact i v w o)) by (simpl; symmetry; apply H); apply H) | (replace (length v) with (length i) by (symmetry; apply H); apply H) | (replace (length v) with (nr i) by (symmetry; apply H); apply H)].
Qed.

Lemma shape_vstack2 : forall (a b : mat K) r1 r2 c, shape a r1 c -> shape b r2 c -> shape (vstack2 a b) (r1 + r2) c.
Proof. intros a b r1 r2 c (_ & <- & <-) (_ & <- & Hc). apply shape_mk. Qed.

Lemma vget_app_l : forall (u v : list K) i, (i < length u)%nat -> vget (u ++ v) i = vget u i.
Proof. intros; apply nth_app_l; assumption. Qed.
Lemma vget_app_r : forall (u v : list K) i, vget (u ++ v) (length u + i) = vget v i.
Proof. intros; unfold vget. rewrite nth_app_r by lia. f_equal. lia. Qed.

Lemma p_add_wf : forall p n a q, well_formed p n -> balanced a -> apply_addition p a = (q, None) ->
  well_formed q n /\ extends p q /\ alpha q = alpha p /\
  length (bmu (base q)) = (length (bmu (base p)) + rows_of a)%nat.
Proof.
  intros p n a q (Hn & Hs & Hg) Hb H. rewrite apply_as_base in H. unfold then_gamma in H.
  destruct (base_add (base p) a) as (b & oe) eqn:E. simpl in H. destruct oe as [e|]; [discriminate|].
  inversion H; subst q; clear H.
  destruct (base_add_ok _ _ _ Hb E) as (added & Ha & Hc & ->). simpl.
  assert (Hlen : length (bmu (base p) ++ add_targets a) = (length (bmu (base p)) + rows_of a)%nat).
  { rewrite app_length, length_add_targets by exact Hb. reflexivity. }
  split; [|split; [|split]].
  - unfold well_formed. simpl. split; [exact Hn|]. split.
    + rewrite Hlen. apply shape_vstack2; [exact Hs|]. rewrite <- Hn. exact Ha.
    + rewrite app_length, Hlen, Hg, length_add_orders by exact Hb. reflexivity.
  - unfold extends. simpl. split; [rewrite Hlen; lia|].
    intros i Hi. split; [|split].
    + intros k Hk. apply get_vstack2_l; [|rewrite Hc; exact Hk]. destruct Hs as (_ & -> & _). exact Hi.
    + apply vget_app_l; exact Hi.
    + apply nth_app_l. rewrite Hg. exact Hi.
  - reflexivity.
  - exact Hlen.
Qed.

Lemma extends_refl : forall p, extends p p.
Proof. intros p; split; [lia|auto]. Qed.
Lemma extends_trans : forall p q r : sprior K, bn (base p) = bn (base q) -> extends p q -> extends q r -> extends p r.
Proof.
  intros p q r Hn (L1 & H1) (L2 & H2). split; [lia|]. intros i Hi.
  destruct (H1 i Hi) as (A1 & B1 & C1). destruct (H2 i ltac:(lia)) as (A2 & B2 & C2).
  split; [|split].
  - intros k Hk. rewrite A2 by (rewrite <- Hn; exact Hk). apply A1; exact Hk.
  - rewrite B2; exact B1.
  - rewrite C2; exact C1.
Qed.

Theorem p_history_wf : forall l p n q, well_formed p n -> Forall balanced l -> history p l = (q, None) ->
  well_formed q n /\ extends p q /\ alpha q = alpha p /\
  length (bmu (base q)) = (length (bmu (base p)) + list_sum (map rows_of l))%nat.
Proof.
  induction l as [|a l IH]; intros p n q Hw Hb H; simpl in H.
  - inversion H; subst q. simpl. split; [exact Hw|]. split; [apply extends_refl|]. split; [reflexivity|lia].
  - inversion Hb as [|? ? Hba Hbl]; subst.
    destruct (apply_addition p a) as (p1 & oe) eqn:E. destruct oe; [discriminate|].
    destruct (p_add_wf p n a p1 Hw Hba E) as (Hw1 & He1 & Ha1 & Hl1).
    destruct (IH p1 n q Hw1 Hbl H) as (Hw2 & He2 & Ha2 & Hl2).
    split; [exact Hw2|]. split; [|split].
    + apply (extends_trans p p1 q); auto. rewrite (proj1 Hw), (proj1 Hw1). reflexivity.
    + rewrite Ha2; exact Ha1.
    + rewrite Hl2, Hl1. simpl. lia.
Qed.

Lemma p_init_wf : forall (s : K) n, well_formed (sprior_init s n None) n.
Proof. intros. split; [reflexivity|]. split; [apply shape_mk|reflexivity]. Qed.

(** *** Meaning of the appended rows *)
Lemma residual_new : forall (p : bprior K) added more x m i,
  shape added m (bn p) -> nc (bL p) = bn p -> nr (bL p) = length (bmu p) -> length x = bn p -> (i < m)%nat ->
  residual (mkBP (vstack2 (bL p) added) (bmu p ++ more) (bn p)) x (length (bmu p) + i) =
  sumn (bn p) (fun k => get added i k * vget x k) - vget more i.
Proof.
  intros p added more x m i Ha Hc Hr Hx Hi. unfold residual. simpl. rewrite vget_app_r, Hx.
  f_equal. apply sumn_ext. intros k Hk. rewrite <- Hr.
  rewrite get_vstack2_r; [reflexivity| |rewrite Hc; exact Hk].
  destruct Ha as (_ & -> & _). exact Hi.
Qed.

Lemma row_sum : forall n (added : mat K) i idx (f : nat -> K) x,
  (i < length idx)%nat -> length x = n -> Forall (in_bounds n) idx ->
  (forall a j, (a < length idx)%nat -> (j < n)%nat -> get added a j = if (j =? pos n (nth a idx 0%Z))%nat then f a else 0) ->
  sumn n (fun k => get added i k * vget x k) = f i * sel x (nth i idx 0%Z).
Proof.
  intros n added i idx f x Hi Hx Hb Hg.
  assert (Hbi : in_bounds n (nth i idx 0%Z)) by (rewrite Forall_forall in Hb; apply Hb, nth_In; exact Hi).
  destruct (norm_idx_pos _ _ Hbi) as (_ & Hlt).
  rewrite (sumn_single n (pos n (nth i idx 0%Z))); [|exact Hlt|].
  - rewrite Hg by assumption. rewrite Nat.eqb_refl. unfold sel. rewrite Hx. reflexivity.
  - intros j Hj Hne. rewrite Hg by assumption.
    destruct (Nat.eqb_spec j (pos n (nth i idx 0%Z))); [contradiction|ring].
Qed.

Lemma stack_rows_ok : forall (p : bprior K) more added m, nc (bL p) = bn p -> shape added m (bn p) ->
  stack_rows (with_mu p more) (Ok added) = (mkBP (vstack2 (bL p) added) (bmu p ++ more) (bn p), None).
Proof.
  intros p more added m Hc Hs. unfold stack_rows, np_vstack, with_mu. simpl.
  destruct Hs as (_ & _ & Hsc). rewrite Hsc, Hc, Nat.eqb_refl. reflexivity.
Qed.

Lemma vget_map2 : forall (u v : list K) i, length u = length v -> (i < length v)%nat ->
  vget (map (fun p => fst p * snd p) (combine u v)) i = vget u i * vget v i.
Proof.
  intros u v i Hl Hi. rewrite (vget_map _ _ _ (0,0)) by (rewrite combine_length; lia).
  rewrite combine_nth by exact Hl. reflexivity.
Qed.

Ltac weights_len Hv Hw := rewrite length_std_weights; [try reflexivity; try lia|try rewrite Hv; exact Hw].

(** adding valid constraints never raises, and the new rows have the stated residual *)
Theorem p_base_add : forall p a n, well_formed p n -> balanced a -> valid_indices n a -> nonzero_values a ->
  exists q, apply_addition p a = (q, None) /\
    (forall i, (i < rows_of a)%nat -> nth (length (bmu (base p)) + i) (gamma q) 0%nat = order_of a i) /\
    (match a with AddExactAdaptive _ _ _ _ => True | _ =>
      forall x i, length x = n -> (i < rows_of a)%nat ->
      residual (base q) x (length (bmu (base p)) + i) = documented a x i end).
Proof.
  intros p a n (Hn & Hs & Hg) Hb Hv Hz.
  destruct Hs as (Hw & Hr & Hc).
  rewrite apply_as_base. unfold then_gamma.
  assert (Hord : forall i, (i < rows_of a)%nat ->
     nth (length (bmu (base p)) + i) (gamma p ++ add_orders a) 0%nat = order_of a i).
  { intros i Hi. rewrite <- Hg. rewrite nth_app_r by lia.
    replace (length (gamma p) + i - length (gamma p))%nat with i by lia.
    destruct a as [ix v w o|ix v w o|ix w o|ix v o|ix v w o|ix v w o]; simpl in *;
    (apply nth_std_weights; try lia). }
  assert (Hfin : forall (more : list K) added,
     base_add (base p) a = stack_rows (with_mu (base p) more) (Ok added) -> shape added (rows_of a) (bn (base p)) ->
     (match a with AddExactAdaptive _ _ _ _ => True | _ => forall x i, length x = n -> (i < rows_of a)%nat ->
        sumn n (fun k => get added i k * vget x k) - vget more i = documented a x i end) ->
     exists q, match snd (base_add (base p) a) with
       | Some e => (mkSP (fst (base_add (base p) a)) (alpha p) (gamma p), Some e)
       | None => (mkSP (fst (base_add (base p) a)) (alpha p) (gamma p ++ add_orders a), None)
       end = (q, None) /\
       (forall i, (i < rows_of a)%nat -> nth (length (bmu (base p)) + i) (gamma q) 0%nat = order_of a i) /\
       (match a with AddExactAdaptive _ _ _ _ => True | _ => forall x i, length x = n -> (i < rows_of a)%nat ->
         residual (base q) x (length (bmu (base p)) + i) = documented a x i end)).
  { intros more added E Hsa Hdoc.
    rewrite (stack_rows_ok (base p) more added (rows_of a)) in E by (try exact Hsa; rewrite Hc; symmetry; exact Hn).
    rewrite E. cbn [fst snd]. eexists. split; [reflexivity|]. simpl. split; [exact Hord|].
    assert (Hfin' : forall x i, length x = n -> (i < rows_of a)%nat ->
       residual (mkBP (vstack2 (bL (base p)) added) (bmu (base p) ++ more) (bn (base p))) x (length (bmu (base p)) + i) =
       sumn n (fun k => get added i k * vget x k) - vget more i).
    { intros x i Hx Hi. rewrite <- Hn at 1. apply (residual_new (base p) added more x (rows_of a)); auto; congruence. }
    destruct a; auto; intros x i' Hx Hi; rewrite Hfin' by assumption; apply Hdoc; assumption. }
  destruct a as [ix v w o|ix v w o|ix w o|ix v o|ix v w o|ix v w o]; simpl in Hb, Hv, Hz.
  - (* exact *)
    destruct Hb as (Hlv & Hfw & _).
    assert (Hlw : length (std_weights 1 w (length v)) = length v) by (apply length_std_weights; rewrite Hlv; exact Hfw).
    destruct (build_rows_ok n ix (fun i => pyget (std_weights 1 w (length v)) i) (fun i => arg_at 1 0 w i) Hv) as (m & Hm & Hsm & Hgm).
    { intros i Hi. rewrite (pyget_ok _ _ i 0) by (rewrite Hlw; lia). f_equal. apply nth_std_weights; lia. }
    apply (Hfin (map (fun p => fst p * snd p) (combine (std_weights 1 w (length v)) v)) m).
    + simpl. unfold add_exact_prior. rewrite broadcast1_same by exact Hlw. rewrite Hn, Hm. reflexivity.
    + rewrite Hn. exact Hsm.
    + intros x i Hx Hi. simpl in Hi |- *.
      rewrite (row_sum n m i ix (fun i => arg_at 1 0 w i) x Hi Hx Hv Hgm).
      rewrite vget_map2 by lia.
      unfold vget at 1. rewrite nth_std_weights by lia. ring.
  - (* exact adaptive (same code as exact) *)
    destruct Hb as (Hlv & Hfw & _).
    assert (Hlw : length (std_weights 1 w (length v)) = length v) by (apply length_std_weights; rewrite Hlv; exact Hfw).
    destruct (build_rows_ok n ix (fun i => pyget (std_weights 1 w (length v)) i) (fun i => arg_at 1 0 w i) Hv) as (m & Hm & Hsm & Hgm).
    { intros i Hi. rewrite (pyget_ok _ _ i 0) by (rewrite Hlw; lia). f_equal. apply nth_std_weights; lia. }
    apply (Hfin (map (fun p => fst p * snd p) (combine (std_weights 1 w (length v)) v)) m).
    + simpl. unfold add_exact_prior. rewrite broadcast1_same by exact Hlw. rewrite Hn, Hm. reflexivity.
    + rewrite Hn. exact Hsm.
    + exact I.
  - (* sparsity *)
    destruct Hb as (Hfw & _).
    destruct (build_rows_ok n ix (fun i => pyget (std_weights 1 w (length ix)) i) (fun i => arg_at 1 0 w i) Hv) as (m & Hm & Hsm & Hgm).
    { intros i Hi. rewrite (pyget_ok _ _ i 0) by (weights_len Hfw Hfw). f_equal. apply nth_std_weights; lia. }
    apply (Hfin (vzeros (length ix)) m).
    + simpl. unfold add_sparsity_prior. rewrite Hn, Hm. reflexivity.
    + rewrite Hn. exact Hsm.
    + intros x i Hx Hi. simpl in Hi |- *.
      rewrite (row_sum n m i ix (fun i => arg_at 1 0 w i) x Hi Hx Hv Hgm), vget_vzeros. ring.
  - (* adaptive sparsity *)
    destruct Hb as (Hlv & _).
    destruct (build_rows_ok n ix (fun i => v0 <- pyget v i ;; Ok (1 / v0)) (fun i => 1 / vget v i) Hv) as (m & Hm & Hsm & Hgm).
    { intros i Hi. rewrite (pyget_ok _ _ i 0) by lia. reflexivity. }
    apply (Hfin (vzeros (length ix)) m).
    + simpl. unfold add_adaptive_sparsity_prior. rewrite Hn, Hm. reflexivity.
    + rewrite Hn. exact Hsm.
    + intros x i Hx Hi. simpl in Hi |- *.
      rewrite (row_sum n m i ix (fun i => 1 / vget v i) x Hi Hx Hv Hgm), vget_vzeros.
      assert (vget v i <> 0) by (rewrite Forall_forall in Hz; apply Hz, nth_In; lia).
      field. assumption.
  - (* contrast *)
    destruct Hb as (Hlv & Hfw & _). destruct Hv as (Hwi & Hv).
    assert (Hlw : length (std_weights 1 w (length v)) = length v) by (apply length_std_weights; rewrite Hlv; exact Hfw).
    destruct (build_rows2_ok n ix (fun i => w0 <- pyget (std_weights 1 w (length v)) i ;; v0 <- pyget v i ;; Ok (repeat (w0 / v0) (nc ix)))
       (fun i => repeat (arg_at 1 0 w i / vget v i) (nc ix)) Hwi) as (m & Hm & Hsm & Hgm).
    { rewrite Forall_forall in Hv |- *. intros r Hr'. apply Hv; exact Hr'. }
    { intros i Hi. rewrite (pyget_ok _ _ i 0) by (rewrite Hlw; lia). cbn [bind].
      rewrite (pyget_ok _ v i 0) by lia. cbn [bind]. rewrite nth_std_weights by lia. reflexivity. }
    apply (Hfin (std_weights 1 w (length v)) m).
    + simpl. unfold add_contrast_prior. rewrite Hn, Hm. reflexivity.
    + rewrite Hn. exact Hsm.
    + intros x i Hx Hi. simpl in Hi |- *.
      assert (Hnz : vget v i <> 0) by (rewrite Forall_forall in Hz; apply Hz, nth_In; lia).
      assert (Hin : In (nth i (dat ix) []) (dat ix)) by (apply nth_In; rewrite (proj1 Hwi); exact Hi).
      rewrite Forall_forall in Hv. destruct (Hv _ Hin) as (Hbi & Hnd).
      assert (Hli : length (nth i (dat ix) []) = nc ix).
      { destruct Hwi as (_ & Hf). rewrite Forall_forall in Hf. apply Hf; exact Hin. }
      rewrite (sumn_ext n _ (fun k => assign n (nth i (dat ix) []) (repeat (arg_at 1 0 w i / vget v i) (nc ix)) k 0 * vget x k))
        by (intros k Hk; rewrite Hgm by assumption; reflexivity).
      rewrite assign_sum; [|rewrite repeat_length; exact Hli|exact Hbi|exact Hnd].
      unfold vget at 3. rewrite nth_std_weights by lia.
      rewrite <- Hli. clear Hli Hin Hbi Hnd.
      assert (Hsum : forall r c, lsum (map (fun p : Z * K => snd p * vget x (pos n (fst p))) (combine r (repeat c (length r)))) = c * lsum (map (sel x) r)).
      { induction r as [|z r IHr]; intros c; simpl; [ring|]. rewrite IHr. unfold sel. rewrite Hx. ring. }
      rewrite Hsum. field. exact Hnz.
  - (* ratios *)
    destruct Hb as (Hlv & Hfw & _). destruct Hv as (Hwi & Hnc & Hv).
    assert (Hlw : length (std_weights 1 w (nr ix)) = nr ix) by (apply length_std_weights; exact Hfw).
    destruct (build_rows2_ok n ix (fun i => v0 <- pyget v i ;; w0 <- pyget (std_weights 1 w (nr ix)) i ;;
         if (nc ix =? 2)%nat then Ok [1 * w0; - v0 * w0] else Err ValueError)
       (fun i => [1 * arg_at 1 0 w i; - vget v i * arg_at 1 0 w i]) Hwi) as (m & Hm & Hsm & Hgm).
    { rewrite Forall_forall in Hv |- *. intros r Hr'. apply Hv; exact Hr'. }
    { intros i Hi. rewrite (pyget_ok _ v i 0) by lia. cbn [bind].
      rewrite (pyget_ok _ _ i 0) by (rewrite Hlw; lia). cbn [bind]. rewrite Hnc. simpl. rewrite nth_std_weights by lia. reflexivity. }
    apply (Hfin (vzeros (nr ix)) m).
    + simpl. unfold add_ratios_prior. rewrite Hnc at 1. simpl. rewrite Hn, Hm. reflexivity.
    + rewrite Hn. exact Hsm.
    + intros x i Hx Hi. simpl in Hi |- *.
      assert (Hin : In (nth i (dat ix) []) (dat ix)) by (apply nth_In; rewrite (proj1 Hwi); exact Hi).
      rewrite Forall_forall in Hv. destruct (Hv _ Hin) as (Hbi & Hnd).
      assert (Hli : length (nth i (dat ix) []) = 2%nat).
      { destruct Hwi as (_ & Hf). rewrite Forall_forall in Hf. rewrite Hf by exact Hin. exact Hnc. }
      rewrite (sumn_ext n _ (fun k => assign n (nth i (dat ix) []) [1 * arg_at 1 0 w i; - vget v i * arg_at 1 0 w i] k 0 * vget x k))
        by (intros k Hk; rewrite Hgm by assumption; reflexivity).
      rewrite assign_sum; [|exact Hli|exact Hbi|exact Hnd].
      rewrite vget_vzeros. unfold gget.
      destruct (nth i (dat ix) []) as [|z0 [|z1 [|]]]; try discriminate.
      simpl. unfold sel. rewrite Hx. ring.
Qed.

(** the base class (not SmoothPrior) has the documented adaptive exact prior *)
Theorem p_base_adaptive : forall (p : bprior K) ix v w n,
  bn p = n -> shape (bL p) (length (bmu p)) n -> length v = length ix -> fits w (length ix) ->
  Forall (in_bounds n) ix -> Forall (fun y => y <> 0) v ->
  exists q, add_exact_adaptive_prior p ix v w = (q, None) /\
    forall x i, length x = n -> (i < length ix)%nat ->
      residual q x (length (bmu p) + i) = documented (AddExactAdaptive ix v w ANone) x i.
Proof.
  intros p ix v w n Hn (Hw & Hr & Hc) Hlv Hfw Hv Hz.
  assert (Hlw : length (std_weights 1 w (length v)) = length v) by (apply length_std_weights; rewrite Hlv; exact Hfw).
  destruct (build_rows_ok n ix (fun i => w0 <- pyget (std_weights 1 w (length v)) i ;; v0 <- pyget v i ;; Ok (w0 / v0))
     (fun i => arg_at 1 0 w i / vget v i) Hv) as (m & Hm & Hsm & Hgm).
  { intros i Hi. rewrite (pyget_ok _ _ i 0) by (rewrite Hlw; lia). cbn [bind].
    rewrite (pyget_ok _ v i 0) by lia. cbn [bind]. rewrite nth_std_weights by lia. reflexivity. }
  unfold add_exact_adaptive_prior. rewrite Hn, Hm.
  rewrite (stack_rows_ok p _ m (length ix)) by (rewrite ?Hn, ?Hc; auto).
  eexists. split; [reflexivity|]. intros x i Hx Hi.
  rewrite (residual_new p m _ x (length ix)) by (rewrite ?Hn; auto).
  rewrite Hn. rewrite (row_sum n m i ix (fun i => arg_at 1 0 w i / vget v i) x Hi Hx Hv Hgm).
  simpl. unfold vget at 2. rewrite nth_std_weights by lia.
  assert (vget v i <> 0) by (rewrite Forall_forall in Hz; apply Hz, nth_In; lia).
  field. assumption.
Qed.

(** SmoothPrior's adaptive method: the documented residual times the value *)
Theorem p_smooth_adaptive : forall (p : sprior K) ix v w o n, well_formed p n ->
  balanced (AddExactAdaptive ix v w o) -> Forall (in_bounds n) ix -> Forall (fun y => y <> 0) v ->
  exists q, apply_addition p (AddExactAdaptive ix v w o) = (q, None) /\
    forall x i, length x = n -> (i < length ix)%nat ->
      residual (base q) x (length (bmu (base p)) + i) = vget v i * documented (AddExactAdaptive ix v w o) x i.
Proof.
  intros p ix v w o n Hwf Hb Hv Hz.
  destruct (p_base_add p (AddExact ix v w o) n Hwf Hb Hv I) as (q & Hq & _ & Hd).
  exists q. split; [exact Hq|]. intros x i Hx Hi. etransitivity; [exact (Hd x i Hx Hi)|].
  simpl. destruct Hb as (Hlv & _).
  assert (vget v i <> 0) by (rewrite Forall_forall in Hz; apply Hz, nth_In; lia).
  field. assumption.
Qed.

(** *** Continuing a prior *)
Theorem p_continue_ok : forall (p : sprior K) s, s = alpha p -> sprior_init s (bn (base p)) (Some (OSmooth p)) = p.
Proof. intros [[l m n] a g] s ->. reflexivity. Qed.

Theorem p_continue_default_fails : forall (p : sprior K) s n a, well_formed p n -> n <> 0%nat ->
  exists q e, apply_addition (sprior_init s 0 (Some (OSmooth p))) a = (q, Some e).
Proof.
  intros p s n a (Hn & (Hw & Hr & Hc) & Hg) Hn0.
  destruct (apply_addition (sprior_init s 0 (Some (OSmooth p))) a) as (q & [e|]) eqn:E; [eauto|exfalso].
  rewrite apply_as_base in E. unfold then_gamma in E.
  destruct (base_add (base (sprior_init s 0 (Some (OSmooth p)))) a) as (b & [e|]) eqn:E2; [discriminate|]. clear E.
  assert (Hst : forall (m : list K) added q', (forall x, added = Ok x -> nc x = 0%nat) ->
     stack_rows (with_mu (mkBP (bL (base p)) (bmu (base p)) 0) m) added = (q', None) -> False).
  { intros m added q' Hx Hq. apply stack_rows_none in Hq. destruct Hq as (x & Ex & Enc & _).
    simpl in Enc. rewrite (Hx x Ex) in Enc. congruence. }
  destruct a as [ix v w o|ix v w o|ix w o|ix v o|ix v w o|ix v w o]; simpl in E2.
  - unfold add_exact_prior in E2. destruct (broadcast1 kmul _ v); [|discriminate].
    apply Hst in E2; [exact E2|]. intros x Hx. apply shape_build_rows in Hx. apply Hx.
  - unfold add_exact_prior in E2. destruct (broadcast1 kmul _ v); [|discriminate].
    apply Hst in E2; [exact E2|]. intros x Hx. apply shape_build_rows in Hx. apply Hx.
  - apply Hst in E2; [exact E2|]. intros x Hx. apply shape_build_rows in Hx. apply Hx.
  - apply Hst in E2; [exact E2|]. intros x Hx. apply shape_build_rows in Hx. apply Hx.
  - apply Hst in E2; [exact E2|]. intros x Hx. apply shape_build_rows2 in Hx. apply Hx.
  - unfold add_ratios_prior in E2. destruct (nc ix <? 2)%nat; [discriminate|].
    apply Hst in E2; [exact E2|]. intros x Hx. apply shape_build_rows2 in Hx. apply Hx.
Qed.

(** *** Sparse and dense *)
Section Ordered.
Context {O2 : OrdOps K}.

Theorem p_sparse_history : forall l (p : sprior K),
  dense (fst (sp_history (mkSSP p true) l)) = fst (history p l) /\
  snd (sp_history (mkSSP p true) l) = snd (history p l) /\
  (snd (history p l) = None -> is_sparse (fst (sp_history (mkSSP p true) l)) = true).
Proof.
  induction l as [|a l IH]; intros p; simpl.
  - auto.
  - unfold via_dense. simpl. destruct (apply_addition p a) as (q & [e|]) eqn:E; simpl.
    + repeat split; try reflexivity. discriminate.
    + apply IH.
Qed.

Theorem p_sparse_log : forall (p : spprior K) x, length (bmu (base (dense p))) <> 1%nat ->
  sp_log_distribution p x = log_distribution (dense p) x.
Proof.
  intros p x H. unfold sp_log_distribution, log_distribution.
  destruct (prior_w (dense p) x); cbn [bind]; [|reflexivity].
  destruct (matmul _ _); cbn [bind]; [|reflexivity].
  destruct (matmul _ _); cbn [bind]; [|reflexivity].
  destruct (Nat.eqb_spec (length (bmu (base (dense p)))) 1); [contradiction|reflexivity].
Qed.

Lemma sp_log_one_row : forall (p : spprior K) x, length (bmu (base (dense p))) = 1%nat ->
  exists e, sp_log_distribution p x = Err e.
Proof.
  intros p x H. unfold sp_log_distribution.
  destruct (prior_w (dense p) x); cbn [bind]; [|eauto].
  destruct (matmul _ _); cbn [bind]; [|eauto].
  destruct (matmul _ _); cbn [bind]; [|eauto].
  rewrite H. simpl. eauto.
Qed.

(** *** The quadratic form *)
Context {OF : OrdFld K}.

Definition wt (p : sprior K) (x : list K) (i : nat) : K :=
  kpow (kabs (residual (base p) x i)) (2 - nth i (gamma p) 0%nat) + alpha p.

Lemma kpow_nonneg : forall (x : K) n, 0 <=! x -> 0 <=! kpow x n.
Proof. induction n as [|n IH]; intros H; simpl; [apply kle_01|]. apply kle_mul; auto. Qed.

Lemma wt_pos : forall p x i, 0 <! alpha p -> 0 <! wt p x i.
Proof. intros. apply klt_add; [|assumption]. apply kpow_nonneg, kabs_nonneg. Qed.

Lemma prior_w_ok : forall p n x, well_formed p n -> length x = n -> n <> 1%nat ->
  prior_w p x = Ok (mkv (length (bmu (base p))) (wt p x)).
Proof.
  intros p n x (Hn & (Hw & Hr & Hc) & Hg) Hx H1. unfold prior_w, squeezed_matvec.
  destruct (Nat.eqb_spec (length x) 1); [congruence|].
  unfold matvec. rewrite Hc, Hx, Nat.eqb_refl. cbn [bind].
  rewrite broadcast1_same by (rewrite length_mvmul; exact Hr). cbn [bind].
  rewrite broadcast1_same by (rewrite map_length, combine_length, length_mvmul, Hr, Hg, Nat.min_id; reflexivity).
  cbn [bind]. f_equal. apply vec_ext.
  - rewrite length_mkv, !map_length, !combine_length, map_length, combine_length, length_mvmul, Hr, Hg. lia.
  - rewrite !map_length, !combine_length, map_length, combine_length, length_mvmul, Hr, Hg, !Nat.min_id.
    intros i Hi. rewrite vget_mkv by exact Hi.
    rewrite (vget_map _ _ _ 0) by (rewrite map_length, combine_length, map_length, combine_length, length_mvmul, Hr, Hg, !Nat.min_id; exact Hi).
    unfold wt. f_equal.
    rewrite (nth_indep _ 0 ((fun q => kpow (kabs (fst q)) (2 - snd q)) (0,0%nat)))
      by (rewrite map_length, combine_length, map_length, combine_length, length_mvmul, Hr, Hg, !Nat.min_id; exact Hi).
    rewrite (map_nth (fun q : K * nat => kpow (kabs (fst q)) (2 - snd q))).
    rewrite combine_nth by (rewrite map_length, combine_length, length_mvmul, Hr, Hg, Nat.min_id; reflexivity).
    cbn [fst snd].
    rewrite (nth_indep _ 0 ((fun q => fst q - snd q) (0,0)))
      by (rewrite map_length, combine_length, length_mvmul, Hr, Nat.min_id; exact Hi).
    rewrite (map_nth (fun q : K * K => fst q - snd q)).
    rewrite combine_nth by (rewrite length_mvmul; exact Hr). cbn [fst snd].
    f_equal. f_equal. unfold residual. f_equal.
    change (vget (mvmul (bL (base p)) x) i = sumn (length x) (fun k => get (bL (base p)) i k * vget x k)).
    rewrite vget_mvmul by (rewrite Hr; exact Hi). rewrite Hc, Hx. reflexivity.
Qed.

Definition lrow (p : sprior K) (n : nat) (u : list K) (i : nat) : K :=
  sumn n (fun k => get (bL (base p)) i k * vget u k).

Theorem p_log_value : forall p n x, well_formed p n -> length x = n -> n <> 1%nat ->
  let m := length (bmu (base p)) in
  exists A b, log_distribution p x = Ok (A, b, sumn m (wt p x)) /\ shape A n n /\ length b = n /\
    (forall i j, (i < n)%nat -> (j < n)%nat ->
       get A i j = sumn m (fun k => get (bL (base p)) k i * get (bL (base p)) k j / wt p x k)) /\
    (forall i, (i < n)%nat -> vget b i = sumn m (fun k => get (bL (base p)) k i * vget (bmu (base p)) k / wt p x k)).
Proof.
  intros p n x Hwf Hx H1 m. pose proof Hwf as (Hn & (Hw & Hr & Hc) & Hg).
  unfold log_distribution. rewrite (prior_w_ok p n x Hwf Hx H1). cbn [bind]. fold m.
  set (l := bL (base p)) in *. set (w := mkv m (wt p x)).
  assert (Hlw : length (map (fun u => 1 / u) w) = m) by (rewrite map_length; apply length_mkv).
  set (D := mdiag (map (fun u => 1 / u) w)).
  assert (HDr : nr D = m) by (unfold D, mdiag; simpl; exact Hlw).
  assert (HDc : nc D = m) by (unfold D, mdiag; simpl; exact Hlw).
  assert (HDg : forall i j, (i < m)%nat -> (j < m)%nat -> get D i j = if (i =? j)%nat then 1 / wt p x i else 0).
  { intros i j Hi Hj. unfold D, mdiag. rewrite get_mk by (rewrite Hlw; assumption).
    destruct (i =? j)%nat; [|reflexivity].
    rewrite (vget_map _ _ _ 0) by (unfold w; rewrite length_mkv; exact Hi).
    f_equal. change (vget w i = wt p x i). apply vget_mkv; exact Hi. }
  unfold matmul at 1. rewrite HDr. replace (nc (tr l)) with m by (simpl; symmetry; exact Hr).
  rewrite Nat.eqb_refl. cbn [bind].
  unfold matmul. replace (nc (mmul (tr l) D)) with m by (simpl; symmetry; exact HDc).
  rewrite Hr. fold m. rewrite Nat.eqb_refl. cbn [bind].
  unfold matvec. replace (nc (mmul (tr l) D)) with m by (simpl; symmetry; exact HDc).
  fold m. rewrite Nat.eqb_refl. cbn [bind].
  assert (HLW : forall i k, (i < n)%nat -> (k < m)%nat -> get (mmul (tr l) D) i k = get l k i / wt p x k).
  { intros i k Hi Hk. rewrite get_mmul by (first [rewrite HDc; exact Hk | change (nr (tr l)) with (nc l); rewrite Hc; exact Hi]).
    replace (nc (tr l)) with m by (simpl; symmetry; exact Hr).
    rewrite (sumn_single m k); [|exact Hk|].
    - rewrite get_tr by (rewrite ?Hc, ?Hr; assumption). rewrite HDg by assumption.
      rewrite Nat.eqb_refl, !kdiv_def. ring.
    - intros j Hj Hne. rewrite HDg by assumption.
      destruct (Nat.eqb_spec j k); [contradiction|ring]. }
  do 2 eexists. split; [|split; [|split; [|split]]].
  - f_equal. f_equal. rewrite lsum_nth. unfold w. rewrite length_mkv. apply sumn_ext.
    intros i Hi. change (vget (mkv m (wt p x)) i = wt p x i). apply vget_mkv; exact Hi.
  - rewrite <- Hc. apply shape_mk.
  - rewrite length_mvmul. simpl. exact Hc.
  - intros i j Hi Hj. rewrite get_mmul by (simpl; rewrite ?Hc; assumption).
    replace (nc (mmul (tr l) D)) with m by (simpl; symmetry; exact HDc).
    apply sumn_ext. intros k Hk. rewrite HLW by assumption. rewrite !kdiv_def. ring.
  - intros i Hi. rewrite vget_mvmul by (simpl; rewrite Hc; exact Hi).
    replace (nc (mmul (tr l) D)) with m by (simpl; symmetry; exact HDc).
    apply sumn_ext. intros k Hk. rewrite HLW by assumption. rewrite !kdiv_def. ring.
Qed.

Theorem p_quadratic : forall p n x, well_formed p n -> length x = n -> n <> 1%nat -> 0 <! alpha p ->
  exists A b pen, log_distribution p x = Ok (A, b, pen) /\ shape A n n /\ length b = n /\
    tr A = A /\
    (forall u, length u = n -> 0 <=! vdot u (mvmul A u)) /\
    (forall u, length u = n -> vdot u (mvmul A u) = 0 <->
        forall i, (i < length (bmu (base p)))%nat -> lrow p n u i = 0) /\
    ((forall i, (i < length (bmu (base p)))%nat -> residual (base p) x i = 0) -> mvmul A x = b) /\
    (forall y, length y = n -> (forall g, In g (gamma p) -> g = GAUSS) ->
       exists pen', log_distribution p y = Ok (A, b, pen')).
Proof.
  intros p n x Hwf Hx H1 Ha. pose proof Hwf as (Hn & (Hw & Hr & Hc) & Hg).
  destruct (p_log_value p n x Hwf Hx H1) as (A & b & HA & HsA & Hlb & HgA & Hgb).
  set (m := length (bmu (base p))) in *.
  assert (HAr : nr A = n) by apply HsA. assert (HAc : nc A = n) by apply HsA.
  exists A, b, (sumn m (wt p x)).
  assert (Hq : forall u, length u = n -> vdot u (mvmul A u) = sumn m (fun k => lrow p n u k * lrow p n u k / wt p x k)).
  { intros u Hu. unfold vdot. rewrite Hu.
    rewrite (sumn_ext n _ (fun i => sumn m (fun k => get (bL (base p)) k i * vget u i * lrow p n u k / wt p x k))).
    - rewrite sumn_swap. apply sumn_ext. intros k Hk.
      rewrite (sumn_ext n _ (fun i => get (bL (base p)) k i * vget u i * (lrow p n u k / wt p x k)))
        by (intros; rewrite !kdiv_def; ring).
      rewrite sumn_scal_r. fold (lrow p n u k). rewrite !kdiv_def; ring.
    - intros i Hi. rewrite vget_mvmul by (rewrite HAr; exact Hi). rewrite HAc, <- sumn_scal_l.
      rewrite (sumn_ext n _ (fun j => sumn m (fun k => get (bL (base p)) k i * vget u i * (get (bL (base p)) k j * vget u j) / wt p x k))).
      + rewrite sumn_swap. apply sumn_ext. intros k Hk. unfold lrow.
        rewrite <- sumn_scal_l, !kdiv_def, <- sumn_scal_r.
        apply sumn_ext; intros; rewrite !kdiv_def; ring.
      + intros j Hj. rewrite HgA by assumption. rewrite <- sumn_scal_r, <- sumn_scal_l.
        apply sumn_ext; intros; rewrite !kdiv_def; ring. }
  assert (Hterm : forall u k, 0 <=! lrow p n u k * lrow p n u k / wt p x k).
  { intros; apply kle_div; [apply kle_sqr|apply wt_pos; exact Ha]. }
  split; [exact HA|]. split; [exact HsA|]. split; [exact Hlb|]. split; [|split; [|split; [|split]]].
  - apply (gshape_ext _ _ n n); [|exact HsA|].
    + unfold tr, mtr. rewrite HAr, HAc. apply shape_mk.
    + intros i j Hi Hj. rewrite get_tr by (rewrite ?HAr, ?HAc; assumption).
      rewrite !HgA by assumption. apply sumn_ext; intros; rewrite !kdiv_def; ring.
  - intros u Hu. rewrite Hq by exact Hu. apply sumn_nonneg. intros; apply Hterm.
  - intros u Hu. rewrite Hq by exact Hu. split.
    + intros H0 k Hk. pose proof (sumn_nonneg_zero _ _ (fun k _ => Hterm u k) H0 k Hk) as E.
      cbv beta in E. assert (Hp : wt p x k <> 0) by (apply klt_neq, wt_pos; exact Ha).
      apply sqr_zero. transitivity ((lrow p n u k * lrow p n u k / wt p x k) * wt p x k); [field; exact Hp|rewrite E; ring].
    + intros H0. apply sumn_zero. intros k Hk. rewrite H0 by exact Hk. rewrite kdiv_def. ring.
  - intros H0. apply vec_ext; [rewrite length_mvmul; congruence|].
    rewrite length_mvmul, HAr. intros i Hi. rewrite vget_mvmul by (rewrite HAr; exact Hi).
    rewrite Hgb by exact Hi. rewrite HAc.
    rewrite (sumn_ext n _ (fun j => sumn m (fun k => get (bL (base p)) k i * (get (bL (base p)) k j * vget x j) / wt p x k))).
    + rewrite sumn_swap. apply sumn_ext. intros k Hk.
      rewrite (sumn_ext n _ (fun j => get (bL (base p)) k i / wt p x k * (get (bL (base p)) k j * vget x j)))
        by (intros; rewrite !kdiv_def; ring).
      rewrite sumn_scal_l.
      assert (E : sumn n (fun j => get (bL (base p)) k j * vget x j) = vget (bmu (base p)) k).
      { apply ksub_eq0. rewrite <- Hx. exact (H0 k Hk). }
      rewrite E, !kdiv_def. ring.
    + intros j Hj. rewrite HgA by assumption. rewrite <- sumn_scal_r. apply sumn_ext; intros; rewrite !kdiv_def; ring.
  - intros y Hy Hall.
    destruct (p_log_value p n y Hwf Hy H1) as (A' & b' & HA' & HsA' & Hlb' & HgA' & Hgb').
    fold m in HA', HgA', Hgb'.
    assert (Ewt : forall k, (k < m)%nat -> wt p y k = wt p x k).
    { intros k Hk. unfold wt. rewrite (Hall (nth k (gamma p) 0%nat)) by (apply nth_In; rewrite Hg; exact Hk).
      reflexivity. }
    exists (sumn m (wt p y)). rewrite HA'. f_equal. f_equal. f_equal.
    + apply (gshape_ext _ _ n n HsA' HsA). intros i j Hi Hj. rewrite HgA', HgA by assumption.
      apply sumn_ext; intros k Hk. rewrite Ewt by exact Hk. reflexivity.
    + apply vec_ext; [congruence|]. rewrite Hlb'. intros i Hi. rewrite Hgb', Hgb by assumption.
      apply sumn_ext; intros k Hk. rewrite Ewt by exact Hk. reflexivity.
Qed.

(** *** After an exception *)
Lemma log_needs_shape : forall (p : sprior K) x v, log_distribution p x = Ok v ->
  nr (bL (base p)) = length (bmu (base p)).
Proof.
  intros p x v H. unfold log_distribution in H.
  apply bind_ok in H. destruct H as (w & _ & H).
  apply bind_ok in H. destruct H as (lw & Hlw & H).
  apply bind_ok in H. destruct H as (a & _ & H).
  apply bind_ok in H. destruct H as (b & Hb & _).
  unfold matmul in Hlw. destruct (Nat.eqb_spec (nc (tr (bL (base p)))) (nr (mdiag (map (fun u => 1 / u) w)))) as [E|]; [|discriminate].
  inversion Hlw; subst lw. unfold matvec in Hb.
  destruct (Nat.eqb_spec (nc (mmul (tr (bL (base p))) (mdiag (map (fun u => 1 / u) w)))) (length (bmu (base p)))) as [E2|]; [|discriminate].
  simpl in E, E2. congruence.
Qed.

Theorem p_failed_addition : forall p n a q e, well_formed p n -> balanced a -> (0 < rows_of a)%nat ->
  (match a with AddRatios i _ _ _ => (2 <= nc i)%nat | _ => True end) ->
  apply_addition p a = (q, Some e) -> forall x, exists e', log_distribution q x = Err e'.
Proof.
  intros p n a q e (Hn & (Hw & Hr & Hc) & Hg) Hb Hpos Hnc H x.
  destruct (log_distribution q x) as [v0|e'] eqn:E; [exfalso|eauto].
  apply log_needs_shape in E.
  rewrite apply_as_base in H. unfold then_gamma in H.
  destruct (base_add (base p) a) as (b & [e1|]) eqn:Eb; cbn [fst snd] in H; [|discriminate].
  inversion H; subst q; clear H. simpl in E.
  assert (Hst : forall more added b', stack_rows (with_mu (base p) more) added = (b', Some e1) ->
     b' = with_mu (base p) more).
  { intros more added b' Hq. unfold stack_rows in Hq. destruct (bind added _); inversion Hq; reflexivity. }
  assert (Hb' : b = with_mu (base p) (add_targets a)).
  { destruct a as [i v w o|i v w o|i w o|i v o|i v w o|i v w o]; simpl in Hb, Eb, Hnc.
    - destruct Hb as (Hv & Hw' & Ho). unfold add_exact_prior in Eb.
      rewrite broadcast1_same in Eb by (rewrite length_std_weights; [reflexivity|rewrite Hv; exact Hw']).
      apply (Hst _ _ _ Eb).
    - destruct Hb as (Hv & Hw' & Ho). unfold add_exact_prior in Eb.
      rewrite broadcast1_same in Eb by (rewrite length_std_weights; [reflexivity|rewrite Hv; exact Hw']).
      apply (Hst _ _ _ Eb).
    - apply (Hst _ _ _ Eb).
    - apply (Hst _ _ _ Eb).
    - apply (Hst _ _ _ Eb).
    - unfold add_ratios_prior in Eb. destruct (Nat.ltb_spec (nc i) 2); [lia|]. apply (Hst _ _ _ Eb). }
  subst b. simpl in E. rewrite Hr, app_length, length_add_targets in E by exact Hb. lia.
Qed.
End Ordered.
End Prior.
