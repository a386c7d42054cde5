(** undelete is a two-sided inverse of np.delete for distinct non-negative indices. *)
From Coq Require Import Arith ZArith Lia List Bool Permutation Sorted.
From Coq Require Import Ring Field.
From Verif Require Import BasePy BaseFld BaseSum BaseMat BaseNumpy ModelMatrixOps SpecMatrix ProofRagged ProofMatrixOps ProofStruct ProofElim.
Import ListNotations.

(** ** lists *)
Section Lists.
Context {A : Type}.

Definition lund (z : A) (o : nat) (s : list nat) (l : list A) : list A :=
  fold_left (fun l i => linsert (i - o) z l) s l.

(** positions from [s] (counted from [o]) replaced by [z] *)
Fixpoint lzero (z : A) (o : nat) (s : list nat) (l : list A) : list A :=
  match l with
  | [] => []
  | x :: r => (if memb o s then z else x) :: lzero z (S o) s r
  end.

Lemma linsert_0 : forall (z : A) l, linsert 0 z l = z :: l.
Proof. reflexivity. Qed.
Lemma linsert_S : forall k (z x : A) l, linsert (S k) z (x :: l) = x :: linsert k z l.
Proof. reflexivity. Qed.

Lemma lund_cons : forall z x s o l, Forall (fun i => S o <= i) s ->
  lund z o s (x :: l) = x :: lund z (S o) s l.
Proof.
  intros z x s. induction s as [|i s IH]; intros o l H; [reflexivity|].
  inversion H; subst. unfold lund in *. simpl fold_left.
  replace (i - o) with (S (i - S o)) by lia. rewrite linsert_S. apply IH; auto.
Qed.

Lemma ldel_from_ge : forall (l : list A) o o' s i, i < o' -> o = o' -> ldel_from o l (i :: s) = ldel_from o l s.
Proof.
  induction l; intros o o' s i H E; simpl; auto.
  subst o'. replace (o =? i) with false by (symmetry; apply Nat.eqb_neq; lia). simpl.
  rewrite (IHl (S o) (S o)) by lia. reflexivity.
Qed.
Lemma lzero_ge : forall z (l : list A) o s i, i < o -> lzero z o (i :: s) l = lzero z o s l.
Proof.
  induction l; intros o s i H; simpl; auto.
  replace (o =? i) with false by (symmetry; apply Nat.eqb_neq; lia). simpl.
  rewrite (IHl (S o)) by lia. reflexivity.
Qed.

Lemma lund_ldel : forall z (l : list A) o s, StronglySorted lt s ->
  Forall (fun i => o <= i /\ i < o + length l) s ->
  lund z o s (ldel_from o l s) = lzero z o s l.
Proof.
  induction l as [|x l IH]; intros o s Hs Hb.
  - destruct s; [reflexivity|]. inversion Hb; subst. simpl in *. lia.
  - destruct s as [|i s].
    + simpl. f_equal. apply (IH (S o) []); auto.
    + inversion Hs as [|? ? Hs' Hlt]; subst. inversion Hb as [|? ? Hbi Hbs]; subst. simpl in Hbi.
      destruct (Nat.eq_dec i o) as [->|Hne].
      * simpl ldel_from. unfold memb at 1. simpl existsb. rewrite Nat.eqb_refl. simpl.
        unfold lund. simpl fold_left. rewrite Nat.sub_diag, linsert_0.
        change (lund z o s (z :: ldel_from (S o) l (o :: s)) = (if memb o (o :: s) then z else x) :: lzero z (S o) (o :: s) l).
        unfold memb. simpl existsb. rewrite Nat.eqb_refl. simpl.
        rewrite lund_cons by (rewrite Forall_forall in *; intros j Hj; specialize (Hlt j Hj); lia).
        rewrite (ldel_from_ge l (S o) (S o)) by lia. rewrite lzero_ge by lia. f_equal.
        apply IH; auto. rewrite Forall_forall in *. intros j Hj. specialize (Hlt j Hj). specialize (Hbs j Hj). simpl in Hbs. lia.
      * assert (M : memb o (i :: s) = false).
        { apply memb_false. intros [E|E]; [lia|]. rewrite Forall_forall in Hlt. specialize (Hlt o E). lia. }
        cbn [ldel_from lzero]. rewrite M. rewrite lund_cons.
        2: { constructor; [lia|]. rewrite Forall_forall in *. intros j Hj. specialize (Hlt j Hj). lia. }
        f_equal. apply IH; auto. constructor; [lia|].
        rewrite Forall_forall in *. intros j Hj. specialize (Hlt j Hj). specialize (Hbs j Hj). simpl in Hbs. lia.
Qed.

Lemma sorted_span : forall s o, StronglySorted lt s -> Forall (fun i => o <= i) s -> s <> [] ->
  exists i, In i s /\ o + length s <= S i.
Proof.
  induction s as [|i s IH]; intros o Hs Hb Hn; [contradiction|].
  inversion Hs as [|? ? Hs' Hlt]; subst. inversion Hb as [|? ? Hbi Hbs]; subst. destruct s as [|j s].
  - exists i. split; [left; auto|simpl; lia].
  - destruct (IH (S i)) as (k & Hk & Hl); auto; try discriminate.
    exists k. split; [right; auto|]. simpl in *. lia.
Qed.

Lemma ldel_lund : forall z n (r : list A) o s, length r + length s = n -> StronglySorted lt s ->
  Forall (fun i => o <= i /\ i < o + length r + length s) s ->
  ldel_from o (lund z o s r) s = r /\ length (lund z o s r) = length r + length s.
Proof.
  induction n as [|n IH]; intros r o s Hn Hs Hb.
  - destruct r; [|discriminate]. destruct s; [|discriminate]. auto.
  - destruct s as [|i s].
    + unfold lund. simpl. split; [|lia]. apply ldel_from_none. intros; auto.
    + inversion Hs as [|? ? Hs' Hlt]; subst. inversion Hb as [|? ? Hbi Hbs]; subst. simpl in Hbi, Hn.
      destruct (Nat.eq_dec i o) as [->|Hne].
      * unfold lund. simpl fold_left. rewrite Nat.sub_diag, linsert_0.
        fold (lund z o s (z :: r)). rewrite lund_cons by (rewrite Forall_forall in *; intros j Hj; specialize (Hlt j Hj); lia).
        simpl. unfold memb at 1. simpl. rewrite Nat.eqb_refl. simpl.
        rewrite (ldel_from_ge _ (S o) (S o)) by lia.
        destruct (IH r (S o) s) as [E1 E2]; auto; [lia| |].
        { rewrite Forall_forall in *. intros j Hj. specialize (Hlt j Hj). specialize (Hbs j Hj). simpl in Hbs. lia. }
        rewrite E1, E2. split; auto; lia.
      * destruct r as [|x r].
        { exfalso. destruct (sorted_span (i :: s) (S o)) as (k & Hk & Hl); auto; try discriminate.
          - constructor; [lia|]. rewrite Forall_forall in *. intros j Hj. specialize (Hlt j Hj). lia.
          - rewrite Forall_forall in Hb. specialize (Hb k Hk). simpl in *. lia. }
        rewrite lund_cons.
        2: { constructor; [lia|]. rewrite Forall_forall in *. intros j Hj. specialize (Hlt j Hj). lia. }
        assert (M : memb o (i :: s) = false).
        { apply memb_false. intros [E|E]; [lia|]. rewrite Forall_forall in Hlt. specialize (Hlt o E). lia. }
        cbn [ldel_from]. rewrite M.
        destruct (IH r (S o) (i :: s)) as [E1 E2]; auto.
        { constructor; [simpl in *; lia|]. rewrite Forall_forall in *. intros j Hj. specialize (Hlt j Hj). specialize (Hbs j Hj). simpl in *. lia. }
        rewrite E1. simpl in *. rewrite E2. split; auto.
Qed.

Lemma lzero_nth : forall z d s (l : list A) o i, i < length l ->
  nth i (lzero z o s l) d = if memb (o + i) s then z else nth i l d.
Proof.
  induction l; intros o i H; simpl in *; [lia|]. destruct i.
  - rewrite Nat.add_0_r. reflexivity.
  - rewrite IHl by lia. replace (S o + i) with (o + S i) by lia. reflexivity.
Qed.
Lemma length_lzero : forall z s (l : list A) o, length (lzero z o s l) = length l.
Proof. induction l; intros; simpl; auto. Qed.
End Lists.

(** ** integer sort *)
Lemma zinsert_perm : forall x l, Permutation (zinsert x l) (x :: l).
Proof.
  induction l; simpl; auto. destruct (x <=? a)%Z; auto.
  transitivity (a :: x :: l); [constructor; auto|constructor].
Qed.
Lemma zsort_perm : forall l, Permutation (zsort l) l.
Proof. induction l; simpl; auto. rewrite zinsert_perm. constructor; auto. Qed.

Lemma zinsert_sorted : forall x l, StronglySorted Z.le l -> StronglySorted Z.le (zinsert x l).
Proof.
  induction l; simpl; intros H; [constructor; auto|].
  inversion H; subst. destruct (Z.leb_spec x a).
  - constructor; auto. constructor; auto. rewrite Forall_forall in *. intros y Hy. specialize (H3 y Hy). lia.
  - constructor; auto. rewrite Forall_forall in *. intros y Hy.
    apply (Permutation_in y (zinsert_perm x l)) in Hy. destruct Hy as [->|Hy]; [lia|auto].
Qed.
Lemma zsort_sorted : forall l, StronglySorted Z.le (zsort l).
Proof. induction l; simpl; [constructor|apply zinsert_sorted; auto]. Qed.

Lemma zsort_nat : forall l : list nat, NoDup l ->
  exists s, zsort (map Z.of_nat l) = map Z.of_nat s /\ StronglySorted lt s /\ Permutation s l.
Proof.
  intros l Hl. assert (P := zsort_perm (map Z.of_nat l)).
  destruct (Permutation_map_inv _ _ P) as (s & E & Ps).
  exists s. split; auto. split; [|symmetry; auto].
  assert (N : NoDup s) by (eapply Permutation_NoDup; [exact Ps|auto]).
  assert (S := zsort_sorted (map Z.of_nat l)). rewrite E in S. clear - S N.
  induction s; simpl in *; [constructor|]. inversion S; subst. inversion N; subst.
  constructor; auto. rewrite Forall_forall in *. intros j Hj.
  assert (Z.of_nat a <= Z.of_nat j)%Z by (apply H2; apply in_map; auto).
  assert (a <> j) by (intros ->; contradiction). lia.
Qed.

(** deletion depends only on the set of indices *)
Lemma ldel_from_perm : forall A (l : list A) o s s', Permutation s s' -> ldel_from o l s = ldel_from o l s'.
Proof.
  induction l; intros o s s' P; simpl; auto.
  replace (memb o s) with (memb o s').
  - rewrite (IHl (S o) s s'); auto.
  - destruct (memb o s') eqn:E.
    + symmetry. apply memb_spec. apply memb_spec in E. eapply Permutation_in; [symmetry; eauto|auto].
    + symmetry. apply memb_false. apply memb_false in E. intro H. apply E. eapply Permutation_in; eauto.
Qed.

Lemma linsert_min : forall A k (x : A) l, linsert (Nat.min k (length l)) x l = linsert k x l.
Proof.
  intros. unfold linsert. destruct (le_dec k (length l)).
  - rewrite Nat.min_l by auto. reflexivity.
  - rewrite Nat.min_r by lia. rewrite firstn_all, skipn_all, (firstn_all2 l), (skipn_all2 l) by lia. reflexivity.
Qed.

Section Undelete.
Context {K : Type} {O : Ops K} {F : Fld K}.

Definition und0 (m : mat K) (i : Z) : mat K :=
  Mat (S (nr m)) (nc m) (linsert (slice_bound (nr m) i) (repeat 0%K (nc m)) (dat m)).
Definition und1 (m : mat K) (i : Z) : mat K :=
  Mat (nr m) (S (nc m)) (map (linsert (slice_bound (nc m) i) 0%K) (dat m)).

Lemma slice_bound_of_nat : forall n k, slice_bound n (Z.of_nat k) = Nat.min k n.
Proof.
  intros. unfold slice_bound. destruct (Z.ltb_spec (Z.of_nat k) 0); [lia|]. rewrite Nat2Z.id. reflexivity.
Qed.

Lemma fold_und0 : forall s m, length (dat m) = nr m ->
  fold_left und0 (map Z.of_nat s) m =
    Mat (nr m + length s) (nc m) (lund (repeat 0%K (nc m)) 0 s (dat m)).
Proof.
  induction s as [|i s IH]; intros m W; simpl.
  - rewrite Nat.add_0_r. destruct m; reflexivity.
  - rewrite IH.
    + unfold und0. simpl. rewrite slice_bound_of_nat, <- W, linsert_min.
      unfold lund. simpl. rewrite !Nat.sub_0_r. f_equal. lia.
    + unfold und0. simpl. rewrite slice_bound_of_nat, <- W, linsert_min.
      unfold linsert. rewrite app_length. simpl. rewrite <- (firstn_skipn i (dat m)) at 3. rewrite app_length. lia.
Qed.

Lemma fold_und1 : forall s m, wf m ->
  fold_left und1 (map Z.of_nat s) m =
    Mat (nr m) (nc m + length s) (map (lund 0%K 0 s) (dat m)).
Proof.
  induction s as [|i s IH]; intros m [W1 W2]; simpl.
  - rewrite Nat.add_0_r. unfold lund. simpl. rewrite map_id. destruct m; reflexivity.
  - assert (E : map (linsert (slice_bound (nc m) (Z.of_nat i)) 0%K) (dat m) = map (linsert i 0%K) (dat m)).
    { apply map_ext_in. intros r Hr. rewrite slice_bound_of_nat. rewrite Forall_forall in W2.
      rewrite <- (W2 r Hr). apply linsert_min. }
    rewrite IH.
    + unfold und1. simpl. rewrite E, map_map. f_equal; [lia|].
      apply map_ext. intros r. unfold lund. simpl. rewrite !Nat.sub_0_r. reflexivity.
    + unfold und1. split; simpl; rewrite E; [rewrite map_length; auto|].
      rewrite Forall_forall in *. intros r Hr. apply in_map_iff in Hr. destruct Hr as (r' & <- & Hr').
      unfold linsert. rewrite app_length. simpl. rewrite <- (W2 r' Hr').
      rewrite <- (firstn_skipn i r') at 3. rewrite app_length. lia.
Qed.

Lemma undelete0_nat : forall (m : mat K) (l : list nat), wf m -> NoDup l ->
  exists s, StronglySorted lt s /\ Permutation s l /\
   undelete m (map Z.of_nat l) 0 = Mat (nr m + length s) (nc m) (lund (repeat 0%K (nc m)) 0 s (dat m)).
Proof.
  intros m l [W _] Hl. destruct (zsort_nat l Hl) as (s & E & Hs & P).
  exists s. repeat split; auto. unfold undelete. rewrite E. apply (fold_und0 s m W).
Qed.
Lemma undelete1_nat : forall (m : mat K) (l : list nat), wf m -> NoDup l ->
  exists s, StronglySorted lt s /\ Permutation s l /\
   undelete m (map Z.of_nat l) 1 = Mat (nr m) (nc m + length s) (map (lund 0%K 0 s) (dat m)).
Proof.
  intros m l W Hl. destruct (zsort_nat l Hl) as (s & E & Hs & P).
  exists s. repeat split; auto. unfold undelete. rewrite E. apply (fold_und1 s m W).
Qed.

Lemma ldel_length : forall A (l : list A) (s : list nat), NoDup s -> Forall (fun i => i < length l) s ->
  length (ldel l s) + length s = length l.
Proof.
  intros A l s N B. assert (exists s', StronglySorted lt s' /\ Permutation s' s) as (s' & Hs & P).
  { destruct (zsort_nat s N) as (s' & _ & ? & ?). eauto. }
  assert (E : length (lzero (hd_error l) 0 s' (map Some l)) = length l) by (rewrite length_lzero, map_length; auto).
  rewrite <- lund_ldel in E; auto.
  2: { rewrite Forall_forall in *. intros i Hi. rewrite map_length. specialize (B i (Permutation_in _ P Hi)). lia. }
  rewrite <- E, ldel_from_map.
  assert (G : forall B0 (z : B0) s r, length (lund z 0 s r) = length r + length s).
  { clear. induction s; intros r; unfold lund in *; simpl; [lia|]. rewrite IHs. unfold linsert. rewrite app_length. simpl.
    rewrite <- (firstn_skipn (a - 0) r) at 3. rewrite app_length. lia. }
  rewrite G, map_length, (Permutation_length P). unfold ldel. rewrite (ldel_from_perm _ l 0 s' s); auto.
Qed.

Lemma memb_in_dec : forall (T : Type) i s (x y : T), (if memb i s then x else y) = (if in_dec Nat.eq_dec i s then x else y).
Proof.
  intros. destruct (in_dec Nat.eq_dec i s) as [H|H].
  - apply memb_spec in H. rewrite H. reflexivity.
  - apply memb_false in H. rewrite H. reflexivity.
Qed.
Lemma memb_perm : forall i s s', Permutation s s' -> memb i s = memb i s'.
Proof.
  intros i s s' P. destruct (memb i s') eqn:E.
  - apply memb_spec. apply memb_spec in E. eapply Permutation_in; [symmetry; eauto|auto].
  - apply memb_false. apply memb_false in E. intro H. apply E. eapply Permutation_in; eauto.
Qed.

Lemma norm_idxs_map : forall n l, Forall (fun i => i < n) l -> norm_idxs n (map Z.of_nat l) = Ok l.
Proof.
  intros n l H. transitivity (Ok (map (fun i => i) l)); [|rewrite map_id; reflexivity].
  apply (norm_idxs_all n l (fun i => i)). rewrite Forall_forall in H. auto.
Qed.

Lemma Forall_perm : forall (P : nat -> Prop) s l, Permutation s l -> Forall P l -> Forall P s.
Proof. intros P s l Pm H. rewrite Forall_forall in *. intros i Hi. apply H. eapply Permutation_in; eauto. Qed.

Lemma undelete_delete0 : forall (m : mat K) l, wf m -> NoDup l -> Forall (fun i => i < nr m) l ->
  exists d, np_delete0 m (map Z.of_nat l) = Ok d /\ undelete d (map Z.of_nat l) 0 = zero_rows m l.
Proof.
  intros m l W Hl Hb. unfold np_delete0. rewrite norm_idxs_map by auto. cbn [bind]. eexists; split; [reflexivity|].
  destruct W as [W1 W2].
  assert (Wd : wf (Mat (length (ldel (dat m) l)) (nc m) (ldel (dat m) l))).
  { split; simpl; auto. unfold ldel. generalize 0. clear - W2. induction W2; intros o; simpl; auto.
    destruct (memb o l); auto. }
  destruct (undelete0_nat _ l Wd Hl) as (s & Hs & P & ->). simpl.
  unfold ldel. rewrite (ldel_from_perm _ _ _ l s) by (symmetry; auto).
  rewrite lund_ldel; auto.
  2: { apply (Forall_perm _ s l P). rewrite Forall_forall in *. intros i Hi. rewrite W1. specialize (Hb i Hi). lia. }
  assert (Len : length (ldel_from 0 (dat m) s) + length s = nr m).
  { rewrite <- W1. apply (ldel_length _ (dat m) s).
    - eapply Permutation_NoDup; [symmetry; eauto|auto].
    - apply (Forall_perm _ s l P). rewrite W1. auto. }
  rewrite Len.
  assert (Wf : wf (Mat (nr m) (nc m) (lzero (repeat 0%K (nc m)) 0 s (dat m)))).
  { split; simpl; [rewrite length_lzero; auto|].
    clear - W2. generalize 0 as o. induction W2; intros o; simpl; constructor; auto.
    destruct (memb o s); auto. apply repeat_length. }
  apply gmat_ext; auto; [apply wf_mk|]. intros i j Hi Hj. simpl in Hi, Hj.
  unfold zero_rows. rewrite get_mk by auto. unfold get at 1, gget. simpl dat.
  rewrite (lzero_nth _ [] s (dat m) 0 i) by (rewrite W1; auto). simpl.
  rewrite (memb_perm i s l P), memb_in_dec. destruct (in_dec Nat.eq_dec i l); [|reflexivity].
  apply nth_repeat.
Qed.

Lemma undelete_delete1 : forall (m : mat K) l, wf m -> NoDup l -> Forall (fun i => i < nc m) l ->
  exists d, np_delete1 m (map Z.of_nat l) = Ok d /\ undelete d (map Z.of_nat l) 1 = zero_cols m l.
Proof.
  intros m l W Hl Hb. unfold np_delete1. rewrite norm_idxs_map by auto. cbn [bind]. eexists; split; [reflexivity|].
  destruct W as [W1 W2].
  assert (Ln : forall A (r : list A), length r = nc m -> length (ldel r l) = length (ldel (range (nc m)) l)).
  { intros A r Hr. assert (H1 := ldel_length _ r l Hl). rewrite Hr in H1. specialize (H1 Hb).
    assert (H2 := ldel_length _ (range (nc m)) l Hl). rewrite length_range in H2. specialize (H2 Hb). lia. }
  assert (Wd : wf (Mat (nr m) (length (ldel (range (nc m)) l)) (map (fun r => ldel r l) (dat m)))).
  { split; simpl; [rewrite map_length; auto|]. rewrite Forall_forall in *. intros r Hr.
    apply in_map_iff in Hr. destruct Hr as (r' & <- & Hr'). apply Ln. auto. }
  destruct (undelete1_nat _ l Wd Hl) as (s & Hs & P & ->). simpl. rewrite map_map.
  assert (Len : length (ldel (range (nc m)) l) + length s = nc m).
  { rewrite (Permutation_length P). rewrite <- (length_range (nc m)) at 2. apply ldel_length; auto.
    rewrite length_range. auto. }
  rewrite Len.
  assert (E : map (fun x => lund 0%K 0 s (ldel x l)) (dat m) = map (lzero 0%K 0 s) (dat m)).
  { apply map_ext_in. intros r Hr. rewrite Forall_forall in W2. specialize (W2 r Hr). unfold ldel.
    rewrite (ldel_from_perm _ _ _ l s) by (symmetry; auto). apply lund_ldel; auto.
    apply (Forall_perm _ s l P). rewrite Forall_forall in *. intros i Hi. specialize (Hb i Hi). lia. }
  rewrite E.
  assert (Wf : wf (Mat (nr m) (nc m) (map (lzero 0%K 0 s) (dat m)))).
  { split; simpl; [rewrite map_length; auto|]. rewrite Forall_forall in *. intros r Hr.
    apply in_map_iff in Hr. destruct Hr as (r' & <- & Hr'). rewrite length_lzero. auto. }
  apply gmat_ext; auto; [apply wf_mk|]. intros i j Hi Hj. simpl in Hi, Hj.
  unfold zero_cols. rewrite get_mk by auto. unfold get at 1, gget. simpl dat.
  rewrite (nth_indep _ [] (lzero 0%K 0 s [])) by (rewrite map_length; lia). rewrite map_nth.
  assert (Hrow : length (nth i (dat m) []) = nc m).
  { rewrite Forall_forall in W2. apply W2. apply nth_In. lia. }
  rewrite lzero_nth by lia. simpl. rewrite (memb_perm j s l P), memb_in_dec.
  reflexivity.
Qed.

Lemma delete_undelete0 : forall (m : mat K) l, wf m -> NoDup l -> Forall (fun i => i < nr m + length l) l ->
  np_delete0 (undelete m (map Z.of_nat l) 0) (map Z.of_nat l) = Ok m.
Proof.
  intros m l W Hl Hb. destruct (undelete0_nat m l W Hl) as (s & Hs & P & ->). destruct W as [W1 W2].
  unfold np_delete0. simpl nr. rewrite (Permutation_length P), norm_idxs_map by auto. cbn [bind]. simpl.
  unfold ldel. rewrite (ldel_from_perm _ _ _ l s) by (symmetry; auto).
  destruct (ldel_lund (repeat 0%K (nc m)) (length (dat m) + length s) (dat m) 0 s) as [E _]; auto.
  { apply (Forall_perm _ s l P). rewrite W1, (Permutation_length P). rewrite Forall_forall in *. intros i Hi. specialize (Hb i Hi). lia. }
  rewrite E, W1. destruct m; reflexivity.
Qed.

Lemma delete_undelete1 : forall (m : mat K) l, wf m -> NoDup l -> Forall (fun i => i < nc m + length l) l ->
  np_delete1 (undelete m (map Z.of_nat l) 1) (map Z.of_nat l) = Ok m.
Proof.
  intros m l W Hl Hb. destruct (undelete1_nat m l W Hl) as (s & Hs & P & ->). destruct W as [W1 W2].
  unfold np_delete1. simpl nc. rewrite (Permutation_length P), norm_idxs_map by auto. cbn [bind]. simpl.
  assert (H2 := ldel_length _ (range (nc m + length l)) l Hl). rewrite length_range in H2. specialize (H2 Hb).
  replace (length (ldel (range (nc m + length l)) l)) with (nc m) by lia.
  f_equal. rewrite map_map. rewrite (map_ext_in _ (fun r => r)).
  - rewrite map_id. destruct m; reflexivity.
  - intros r Hr. rewrite Forall_forall in W2. specialize (W2 r Hr). unfold ldel.
    rewrite (ldel_from_perm _ _ _ l s) by (symmetry; auto).
    destruct (ldel_lund 0%K (length r + length s) r 0 s) as [E _]; auto.
    apply (Forall_perm _ s l P). rewrite W2, (Permutation_length P). rewrite Forall_forall in *. intros i Hi. specialize (Hb i Hi). lia.
Qed.
End Undelete.
