(** Proofs about the reduction of a simulated network. *)
From Coq Require Import Bool Arith List Permutation Lia Ring Field.
From Verif Require Import BasePy BaseFld BaseSum BaseMat BaseLin ModelErrorMetrics ModelSet ModelKron ModelNet ModelReduce
  SpecMatrix SpecLS SpecKron SpecNet SpecReduce ProofSet ProofKron ProofNet ProofNetBuild.
Import ListNotations.
Local Open Scope K_scope.

(** ** positions and sets *)
Lemma mem_existsb : forall x l, mem x l = existsb (Nat.eqb x) l.
Proof. reflexivity. Qed.
Lemma staying_kept : forall n l, staying n l = kept_ascending n l.
Proof. reflexivity. Qed.
Lemma kept_In : forall n l x, In x (kept_ascending n l) <-> (x < n)%nat /\ ~ In x l.
Proof.
  intros n l x. unfold kept_ascending. rewrite filter_In, in_seq, negb_true_iff. rewrite <- mem_existsb, mem_not_In. split; intros [A B]; split; auto; lia.
Qed.
Lemma kept_NoDup : forall n l, NoDup (kept_ascending n l).
Proof. intros. apply NoDup_filter, seq_NoDup. Qed.
Lemma set_copy_keys : forall a, roomy (set_copy (set_of a)) /\ NoDup (keys (set_copy (set_of a))).
Proof.
  intro a. destruct (set_of_ok a) as (R & N & I). destruct (set_copy_ok _ R N) as [P Lc]. split.
  - unfold set_copy. match goal with |- context [if ?c then MINSIZE else ?e] => set (size := if c then MINSIZE else e) end.
    destruct (size =? length (set_of a))%nat; auto.
    assert (used (set_of a) * 5 < (size - 1) * 3 /\ used (set_of a) < size)%nat.
    { unfold size. destruct (Nat.ltb_spec (used (set_of a) * 5) ((MINSIZE - 1) * 3)).
      - unfold MINSIZE in *. split; [exact H|lia].
      - unfold MINSIZE in *. destruct (newsize_gt (used (set_of a) * 2)). unfold MINSIZE in *. lia. }
    destruct (fold_insert_ok (keys (set_of a)) (empty_table size)) as [L' P'].
    + rewrite length_empty. unfold used in *. rewrite keys_empty. cbn [length]. lia.
    + rewrite keys_empty, app_nil_r in P'. unfold roomy. rewrite (used_same _ _ P'), L', length_empty. lia.
  - apply (Permutation_NoDup (Permutation_sym P)); auto.
Qed.
Lemma union_difference_ok : forall a b c, NoDup (union_difference a b c) /\
  forall x, In x (union_difference a b c) <-> (In x a \/ In x b) /\ ~ In x c.
Proof.
  intros a b c. unfold union_difference. destruct (set_copy_keys a) as [R N].
  destruct (fold_add_ok b (set_copy (set_of a)) R N) as (R2 & N2 & _).
  set (t := fold_left set_add b (set_copy (set_of a))) in *.
  assert (U : forall x, In x (keys t) <-> In x a \/ In x b) by exact (union_list_In a b).
  destruct (set_copy_ok t R2 N2) as [P _]. pose proof (set_discard_perm (set_copy t) c) as D. split.
  - apply (Permutation_NoDup (Permutation_sym D)). apply NoDup_filter. apply (Permutation_NoDup (Permutation_sym P)). auto.
  - intro x. transitivity (In x (filter (fun x => negb (mem x c)) (keys (set_copy t)))).
    + split; apply Permutation_in; [exact D|apply Permutation_sym; exact D].
    + rewrite filter_In, negb_true_iff, mem_not_In, <- U. split; intros [A B]; split; auto.
      * exact (Permutation_in _ P A).
      * exact (Permutation_in _ (Permutation_sym P) A).
Qed.

Section Pos.
Context {K : Type} {O : Ops K}.
Lemma position_from_spec : forall (l : list (bus_row (K := K))) k i p, NoDup (map b_id l) ->
  (position_from k l i = Some p <-> (k <= p)%nat /\ nth_error (map b_id l) (p - k) = Some i).
Proof.
  induction l as [|b l IH]; intros k i p N; cbn [position_from map].
  - split; [discriminate|]. intros [_ H]. destruct (p - k)%nat; discriminate.
  - inversion N as [|? ? Nb N']; subst. destruct (Nat.eqb_spec (b_id b) i) as [E|E].
    + split.
      * intro H. injection H as <-. split; [lia|]. rewrite Nat.sub_diag. cbn. congruence.
      * intros [Hk H]. f_equal. destruct (p - k)%nat as [|q] eqn:Eq; [lia|]. cbn in H. apply nth_error_In in H. subst. contradiction.
    + rewrite (IH (S k) i p N'). split; intros [Hk H].
      * split; [lia|]. replace (p - k)%nat with (S (p - S k)) by lia. exact H.
      * destruct (p - k)%nat as [|q] eqn:Eq; cbn in H; [congruence|]. split; [lia|]. replace (p - S k)%nat with q by lia. exact H.
Qed.
Lemma position_spec : forall (n : net (K := K)) i p, NoDup (ids n) -> (position n i = Some p <-> nth_error (ids n) p = Some i).
Proof. intros n i p N. unfold position. rewrite (position_from_spec _ _ _ _ N), Nat.sub_0_r. split; [tauto|]. intro; split; [lia|auto]. Qed.
Lemma positions_ok : forall (n : net (K := K)) l ps, NoDup (ids n) -> located n l ps -> positions n l = Ok ps.
Proof.
  intros n l ps N H. induction H as [|i p l ps E H IH]; [reflexivity|].
  cbn [positions]. apply position_spec in E; auto. rewrite E, IH. reflexivity.
Qed.
Lemma located_lt : forall (n : net (K := K)) l ps p, located n l ps -> In p ps -> (p < length (buses n))%nat.
Proof.
  intros n l ps p H. induction H as [|i q l ps E H IH]; [intros []|]. intros [<-|I]; auto.
  assert (nth_error (ids n) q <> None) by congruence. apply nth_error_Some in H0. unfold ids in H0. rewrite map_length in H0. exact H0.
Qed.
Lemma positions_all : forall (n : net (K := K)) l, NoDup (ids n) -> (forall i, In i l -> In i (ids n)) -> exists ps, located n l ps.
Proof.
  intros n l N. induction l as [|i l IH]; intro H; [exists []; constructor|].
  destruct IH as [ps L]; [intros; apply H; cbn; auto|]. destruct (In_nth_error (ids n) i) as [p E]; [apply H; cbn; auto|].
  exists (p :: ps). constructor; auto.
Qed.
Lemma located_In : forall (n : net (K := K)) l ps p, located n l ps -> NoDup (ids n) ->
  (In p ps <-> exists i, nth_error (ids n) p = Some i /\ In i l).
Proof.
  intros n l ps p H N. induction H as [|i q l ps E H IH]; [split; [intros []|intros (i & _ & [])]|].
  cbn [In]. rewrite IH. split.
  - intros [<-|(j & E' & I)]; [exists i|exists j]; auto.
  - intros (j & E' & [<-|I]); [left|right; exists j; auto].
    assert (L1 : (q < length (ids n))%nat) by (apply nth_error_Some; congruence).
    apply (proj1 (NoDup_nth_error (ids n)) N); auto. congruence.
Qed.
(** the passive positions the code computes *)
Lemma passive_positions : forall (F : Fld K) (n : net (K := K)), consistent n -> exists f ps, give_passive_nodes n = Ok f /\ positions n (f 0%nat) = Ok ps /\
  forall p, In p ps <-> exists i, nth_error (ids n) p = Some i /\ idle n 0 i.
Proof.
  intros F n C. destruct (p_passive n C) as (f & E & H). destruct (H 0%nat) as [H1 _].
  assert (N : NoDup (ids n)) by apply C.
  destruct (positions_all n (f 0%nat) N) as [ps L]; [intros i I; apply H1, I|].
  exists f, ps. split; [exact E|]. split; [apply positions_ok; auto|]. intro p.
  rewrite (located_In n (f 0%nat) ps p L N). split; intros (i & E' & I); exists i; (split; [exact E'|]).
  - apply H1, I.
  - apply H1. split; auto. eapply nth_error_In; eauto.
Qed.
End Pos.

(** ** removing the grounded nodes renumbers the others *)
Definition at_ (s : list nat) (i : nat) : nat := nth i s 0%nat.
Lemma filter_seq_nth : forall (p : nat -> bool) N x, (x < N)%nat -> p x = true -> nth (length (filter p (seq 0 x))) (filter p (seq 0 N)) 0%nat = x.
Proof.
  intros p N x Hx Hp. replace N with (x + (N - x))%nat by lia. rewrite seq_app, filter_app, app_nth2 by lia.
  rewrite Nat.sub_diag, Nat.add_0_l. destruct (N - x)%nat as [|k] eqn:E; [lia|]. cbn [seq filter]. rewrite Hp. reflexivity.
Qed.
Lemma filter_split : forall (p : nat -> bool) l, (length (filter p l) + length (filter (fun i => negb (p i)) l) = length l)%nat.
Proof. induction l as [|x l IH]; [reflexivity|]. cbn [filter length]. destruct (p x); cbn [negb length]; lia. Qed.
Lemma before_count : forall G x, NoDup G -> (length (kept_ascending x G) + before x G = x)%nat.
Proof.
  intros G x N. unfold kept_ascending. pose proof (filter_split (fun i => negb (existsb (Nat.eqb i) G)) (seq 0 x)) as S.
  rewrite seq_length in S. rewrite <- S at 3. f_equal. unfold before. apply Permutation_length. apply NoDup_Permutation.
  - apply NoDup_filter, N.
  - apply NoDup_filter, seq_NoDup.
  - intro a. rewrite !filter_In, in_seq, negb_involutive, Nat.ltb_lt. rewrite <- mem_existsb. split.
    + intros [A B]. split; [lia|]. apply mem_In; auto.
    + intros [A B]. split; [apply mem_In; auto|lia].
Qed.
Lemma kept_at : forall N G x, NoDup G -> (x < N)%nat -> ~ In x G -> at_ (kept_ascending N G) (x - before x G) = x.
Proof.
  intros N G x ND H I. unfold at_. replace (x - before x G)%nat with (length (kept_ascending x G)) by (pose proof (before_count G x ND); lia).
  apply filter_seq_nth; auto. apply negb_true_iff. rewrite <- mem_existsb. apply mem_not_In; auto.
Qed.
Lemma kept_first : forall N G x, (x < N)%nat -> (forall p, In p G -> (x < p)%nat) -> at_ (kept_ascending N G) x = x /\ (x < length (kept_ascending N G))%nat.
Proof.
  intros N G x H B. assert (L : length (kept_ascending x G) = x).
  { unfold kept_ascending. pose proof (filter_split (fun i => negb (existsb (Nat.eqb i) G)) (seq 0 x)) as S. rewrite seq_length in S.
    replace (length (filter (fun i => negb (negb (existsb (Nat.eqb i) G))) (seq 0 x))) with 0%nat in S; [lia|].
    symmetry. apply length_zero_iff_nil. destruct (filter (fun i => negb (negb (existsb (Nat.eqb i) G))) (seq 0 x)) as [|a r] eqn:E; [reflexivity|exfalso].
    assert (I : In a (a :: r)) by (cbn; auto). rewrite <- E in I. apply filter_In in I. destruct I as [I1 I2]. rewrite negb_involutive, <- mem_existsb in I2.
    apply mem_In in I2. apply B in I2. apply in_seq in I1. lia. }
  assert (E : at_ (kept_ascending N G) x = x).
  { unfold at_. rewrite <- L at 1. apply filter_seq_nth; auto. apply negb_true_iff. rewrite <- mem_existsb. apply mem_not_In. intro I. apply B in I. lia. }
  split; [exact E|]. assert (In x (kept_ascending N G)) by (apply kept_In; split; auto; intro I; apply B in I; lia).
  destruct (In_nth _ x 0%nat H0) as (k & Hk & Ek).
  destruct (le_lt_dec (length (kept_ascending N G)) x) as [Q|Q]; [|exact Q]. unfold at_ in E. rewrite nth_overflow in E by auto. lia.
Qed.
Lemma at_inj : forall s a b, NoDup s -> (a < length s)%nat -> (b < length s)%nat -> at_ s a = at_ s b -> a = b.
Proof. intros s a b N Ha Hb E. exact (proj1 (NoDup_nth s 0%nat) N a b Ha Hb E). Qed.
Lemma at_lt : forall s x, (x < length s)%nat -> In (at_ s x) s.
Proof. intros. apply nth_In; auto. Qed.
Lemma kept_index : forall N G x, NoDup G -> (x < N)%nat -> ~ In x G -> (x - before x G < length (kept_ascending N G))%nat.
Proof.
  intros N G x ND H I. pose proof (before_count G x ND) as B. replace (x - before x G)%nat with (length (kept_ascending x G)) by lia.
  unfold kept_ascending. replace N with (x + (N - x))%nat by lia. rewrite (seq_app x (N - x) 0), filter_app, app_length.
  rewrite Nat.add_0_l. destruct (N - x)%nat as [|k] eqn:E; [lia|]. cbn [seq filter].
  replace (existsb (Nat.eqb x) G) with false; [cbn [negb length]; lia|]. symmetry. rewrite <- mem_existsb. apply mem_not_In; auto.
Qed.

(** ** the shift of the code *)
Definition shift1 (G : list nat) (x : nat) : nat := fold_left (fun x i => if (i <? x)%nat then (x - 1)%nat else x) G x.
Lemma shift_map : forall G l, shift G l = map (shift1 G) l.
Proof.
  unfold shift. induction G as [|i G IH]; intro l; cbn [fold_left].
  - rewrite map_id. reflexivity.
  - rewrite IH, map_map. reflexivity.
Qed.
Lemma shift1_first : forall G x, (forall p, In p G -> (x < p)%nat) -> shift1 G x = x.
Proof.
  induction G as [|i G IH]; intros x H; [reflexivity|]. unfold shift1. cbn [fold_left].
  destruct (Nat.ltb_spec i x) as [L|L]; [specialize (H i (or_introl eq_refl)); lia|]. apply IH. intros p I. apply H. right; auto.
Qed.
Lemma before_all : forall G x, (forall p, In p G -> (p < x)%nat) -> before x G = length G.
Proof.
  unfold before. induction G as [|i G IH]; intros x H; [reflexivity|]. cbn [filter]. destruct (Nat.ltb_spec i x) as [L|L].
  - cbn [length]. f_equal. apply IH. intros. apply H. right; auto.
  - specialize (H i (or_introl eq_refl)). lia.
Qed.
Lemma shift1_descending : forall G x, descending G -> ~ In x G -> shift1 G x = (x - before x G)%nat.
Proof.
  induction G as [|i G IH]; intros x D NI.
  - unfold shift1, before. cbn. lia.
  - destruct D as [D1 D2]. unfold shift1. cbn [fold_left]. change (fold_left _ G ?y) with (shift1 G y). unfold before. cbn [filter].
    destruct (Nat.ltb_spec i x) as [L|L].
    + cbn [length]. change (length (filter (fun p => (p <? x)%nat) G)) with (before x G).
      rewrite IH; auto.
      * rewrite !before_all; [lia| |]; intros p I; specialize (D1 p I); lia.
      * intro I. specialize (D1 _ I). lia.
    + apply IH; auto. intro I. apply NI. right; auto.
Qed.
Lemma descending_NoDup : forall G, descending G -> NoDup G.
Proof.
  induction G as [|i G IH]; intro D; constructor; destruct D as [D1 D2]; auto. intro I. specialize (D1 _ I). lia.
Qed.

(** ** a description of the matrix without the grounded nodes describes the whole *)
Section Lift.
Context {K : Type} {O : Ops K} {F : Fld K}.
Add Field Kfld_lift : (@k_field K O F).
Lemma nth_map_at : forall s l k, (k < length l)%nat -> nth k (map (at_ s) l) 0%nat = at_ s (nth k l 0%nat).
Proof. intros s l k H. rewrite (nth_indep _ 0%nat (at_ s 0%nat)) by (rewrite map_length; auto). apply map_nth. Qed.
Lemma block_block : forall (L : mat K) s a b, (forall x, In x a -> (x < length s)%nat) -> (forall x, In x b -> (x < length s)%nat) ->
  block_of (block_of L s s) a b = block_of L (map (at_ s) a) (map (at_ s) b).
Proof.
  intros L s a b Ha Hb. unfold block_of. rewrite !map_length. apply mk_ext. intros i j Hi Hj.
  rewrite get_mk; [|apply Ha, nth_In; auto|apply Hb, nth_In; auto]. rewrite !nth_map_at by auto. reflexivity.
Qed.
Lemma kept_split : forall N G, Permutation (kept_ascending N G ++ filter (fun i => mem i G) (seq 0 N)) (range N).
Proof.
  intros N G. apply NoDup_Permutation.
  - apply NoDup_app_disjoint; [apply kept_NoDup|apply NoDup_filter, seq_NoDup|]. intros x H I. apply kept_In in H. apply filter_In in I.
    destruct I as [_ I]. apply mem_In in I. tauto.
  - apply seq_NoDup.
  - intro x. rewrite in_app_iff, kept_In, filter_In, in_seq, in_range, mem_In. destruct (in_dec Nat.eq_dec x G); intuition lia.
Qed.
Lemma product_at : forall N G (V L : mat K) t c, let s := kept_ascending N G in shape L N N -> nc V = N -> grounded G V ->
  (t < nr V)%nat -> (c < length s)%nat ->
  forall V', nr V' = nr V -> nc V' = length s -> (forall j, (j < length s)%nat -> get V' t j = get V t (at_ s j)) ->
  get (mmul V' (block_of L s s)) t c = get (mmul V L) t (at_ s c).
Proof.
  intros N G V L t c s (WL & RL & CL) HV Gr Ht Hc V' RV CV E.
  assert (Hs : (at_ s c < N)%nat) by (apply (kept_In N G), at_lt; auto).
  rewrite !get_mmul by (try rewrite RV; cbn; auto; try (rewrite CL; auto)). rewrite CV, HV.
  rewrite (sum_split N s (filter (fun i => mem i G) (seq 0 N)) _ (kept_split N G)).
  rewrite (sumn_zero (length (filter _ _))).
  - transitivity (sumn (length s) (fun j => get V t (nth j s 0%nat) * get L (nth j s 0%nat) (at_ s c))); [|ring].
    apply sumn_ext. intros j Hj. rewrite E by auto. unfold block_of. rewrite get_mk by auto. reflexivity.
  - intros j Hj. rewrite Gr; [ring|auto|]. apply mem_In. eapply (proj2 (proj1 (filter_In _ _ _) (nth_In _ 0%nat Hj))).
Qed.
Lemma lift : forall N G E order (L Z : mat K), let s := kept_ascending N G in shape L N N -> (forall x, In x G -> (x < N)%nat) ->
  (forall x, In x order -> (x < length s)%nat) -> (forall x, In x E -> (x < length s)%nat) ->
  describes (length s) order E (block_of L s s) Z -> behaves N G (map (at_ s) E) (map (at_ s) order) L Z.
Proof.
  intros N G E order L Z s SL HG Ho HE (SZ & D & X). unfold behaves. rewrite !map_length. split; [exact SZ|]. split.
  - intros V HV WV Gr NI t k Ht Hk. rewrite nth_map_at by auto.
    set (V' := mk (nr V) (length s) (fun t j => get V t (at_ s j))).
    assert (EV : forall t j, (t < nr V)%nat -> (j < length s)%nat -> get V' t j = get V t (at_ s j)) by (intros; unfold V'; rewrite get_mk by auto; reflexivity).
    assert (PA : forall t c, (t < nr V)%nat -> (c < length s)%nat -> get (mmul V' (block_of L s s)) t c = get (mmul V L) t (at_ s c)).
    { intros u c Hu Hc. apply (product_at N G); auto. }
    rewrite <- PA by (auto; apply Ho, nth_In; auto). rewrite D; auto; [| apply wf_mk |].
    + apply sumn_ext. intros j Hj. rewrite EV by (auto; apply Ho, nth_In; auto). rewrite nth_map_at by auto. reflexivity.
    + intros u i Hu Hi. change (nr V') with (nr V) in Hu. rewrite PA by auto. apply NI; auto. apply in_map; auto.
  - intros T W SW. destruct (X T W SW) as (V' & (WV & RV & CV) & NI & EW).
    set (V := mk T N (fun t i => if mem i s then get V' t (pos i s) else 0)).
    assert (EV : forall t j, (t < T)%nat -> (j < length s)%nat -> get V' t j = get V t (at_ s j)).
    { intros t j Ht Hj. pose proof (at_lt s j Hj) as I. unfold V. rewrite get_mk by (auto; apply (kept_In N G); auto).
      rewrite (proj2 (mem_In _ _) I). unfold at_. rewrite pos_nth by (auto; apply kept_NoDup). reflexivity. }
    assert (Gr : grounded G V).
    { intros t i Ht Hi. cbn in Ht. unfold V.
      rewrite get_mk by auto. replace (mem i s) with false; [reflexivity|]. symmetry. apply mem_not_In. intro I. apply kept_In in I. tauto. }
    exists V. split; [apply shape_mk|]. split; [exact Gr|]. split.
    + intros t i Ht Hi. cbn in Ht. apply in_map_iff in Hi. destruct Hi as (a & <- & Ha).
      transitivity (get (mmul V' (block_of L s s)) t a); [|apply NI; [rewrite RV|]; auto].
      symmetry. exact (product_at N G V L t a SL eq_refl Gr Ht (HE a Ha) V' RV CV (fun j Hj => EV t j Ht Hj)).
    + intros t k Ht Hk. rewrite nth_map_at by auto. rewrite <- EV by (auto; apply Ho, nth_In; auto). apply EW; auto.
Qed.
End Lift.

(** ** the whole function *)
Section Whole.
Context {K : Type} {O : Ops K} {F : Fld K} {FR : FReal K}.
Notation CK := (cplx K).

Lemma delete_both : forall (Y : mat CK) N G, shape Y N N -> (forall x, In x G -> (x < N)%nat) ->
  bind (delete_cols Y G) (fun a => delete_rows a G) = Ok (block_of Y (kept_ascending N G) (kept_ascending N G)).
Proof.
  intros Y N G (W & R & C) H. unfold delete_cols. rewrite C, forallb_lt by auto. cbn [bind]. unfold delete_rows. rewrite nr_mk, nc_mk, R, forallb_lt by auto.
  f_equal. rewrite !staying_kept. apply mk_ext. intros i j Hi Hj. rewrite get_mk; auto.
  apply (kept_In N G). apply nth_In; auto.
Qed.
Lemma loaded_shape : forall (Y V I : mat CK) H N, shape Y N N -> shape (loaded Y V I H) N N.
Proof. intros Y V I H N (_ & R & _). unfold loaded. rewrite R. apply shape_mk. Qed.
(** the hidden nodes are before the grounded ones: the shunts are those of the hidden nodes *)
Lemma shunts_block : forall (Y V I : mat CK) N G H, shape Y N N -> nc V = N -> nc I = N -> (forall x, In x H -> (x < N)%nat) -> all_before H G ->
  let s := kept_ascending N G in exists v, make_shunts (length s) V I H = Ok v /\ madd (block_of Y s s) (diagonal v) = block_of (loaded Y V I H) s s.
Proof.
  intros Y V I N G H (WY & RY & CY) HV HI HH AB s.
  assert (A1 : forall x, In x H -> at_ s x = x /\ (x < length s)%nat) by (intros x Hx; apply kept_first; auto).
  unfold make_shunts. rewrite !forallb_lt; [|intros x Hx; apply A1; auto|rewrite HV; auto|rewrite HI; auto]. cbn [andb].
  eexists. split; [reflexivity|].
  apply (gshape_ext _ _ (length s) (length s)); [apply shape_mk|apply shape_mk|].
  intros a b Ha Hb. unfold madd, block_of, loaded. rewrite !get_mk; cbn [nr nc mk]; auto; [|rewrite RY; apply (kept_In N G), nth_In; auto..].
  f_equal. unfold diagonal. rewrite length_mkv, get_mk by auto. fold (at_ s a) (at_ s b).
  destruct (Nat.eqb_spec a b) as [<-|Nab].
  - rewrite Nat.eqb_refl. cbn [andb]. rewrite vget_mkv by auto. rewrite <- mem_existsb. destruct (mem a H) eqn:M.
    + apply mem_In in M. destruct (A1 a M) as [-> _]. rewrite (proj2 (mem_In _ _) M). reflexivity.
    + destruct (mem (at_ s a) H) eqn:M2; [|reflexivity]. exfalso. apply mem_In in M2. destruct (A1 _ M2) as [E1 E2].
      apply at_inj in E1; auto; [|apply kept_NoDup]. rewrite E1 in M2. apply mem_In in M2. congruence.
  - destruct (Nat.eqb_spec (at_ s a) (at_ s b)) as [Q|]; [|reflexivity]. apply at_inj in Q; auto; [congruence|apply kept_NoDup].
Qed.
Lemma y_matrix_shape : forall n : net (K := K), grids n <> [] -> exists Y, make_y_bus n = Ok Y /\ shape Y (length (buses n)) (length (buses n)).
Proof.
  intros n H. unfold make_y_bus. destruct (grids n) as [|g gs]; [congruence|]. eexists. split; [reflexivity|]. apply shape_mk.
Qed.
Lemma behaves_ext : forall N G E E' order (Y Z : mat CK), (forall x, In x E <-> In x E') -> behaves N G E order Y Z -> behaves N G E' order Y Z.
Proof.
  intros N G E E' order Y Z H (S & D & X). split; [exact S|]. split.
  - intros V HV WV Gr NI. apply D; auto. intros t i Ht Hi. apply NI; auto. apply H; auto.
  - intros T W SW. destruct (X T W SW) as (V & SV & Gr & NI & EW). exists V. split; [auto|]. split; [auto|]. split; [|auto].
    intros t i Ht Hi. apply NI; auto. apply H; auto.
Qed.
Lemma filter_map_comm : forall (f : nat -> nat) (p : nat -> bool) l, filter p (map f l) = map f (filter (fun x => p (f x)) l).
Proof. induction l as [|x l IH]; [reflexivity|]. cbn [map filter]. destruct (p (f x)); cbn [map]; rewrite IH; reflexivity. Qed.
Lemma filter_ext_In : forall (p q : nat -> bool) l, (forall x, In x l -> p x = q x) -> filter p l = filter q l.
Proof. induction l as [|x l IH]; intro H; [reflexivity|]. cbn [filter]. rewrite (H x) by (cbn; auto). rewrite IH by (intros; apply H; cbn; auto). reflexivity. Qed.
Lemma filter_filter_and : forall (p q : nat -> bool) l, filter p (filter q l) = filter (fun x => q x && p x) l.
Proof. induction l as [|x l IH]; [reflexivity|]. cbn [filter]. destruct (q x); cbn [filter andb]; rewrite IH; reflexivity. Qed.
Lemma list_at : forall s, s = map (at_ s) (seq 0 (length s)).
Proof. intro s. apply (list_eta nat s 0%nat). Qed.
(** the nodes that stay, seen from the smaller matrix *)
Lemma kept_renumber : forall N G D idx, let s := kept_ascending N G in (forall x, In x D <-> In x G \/ exists a, In a idx /\ at_ s a = x) ->
  (forall a, In a idx -> (a < length s)%nat) -> map (at_ s) (kept_ascending (length s) idx) = kept_ascending N D.
Proof.
  intros N G D idx s H Hi. transitivity (filter (fun x => negb (mem x D)) s).
  - rewrite (list_at s) at 3. rewrite filter_map_comm. f_equal. apply filter_ext_In. intros a Ha. apply in_seq in Ha. f_equal.
    rewrite <- mem_existsb. apply eq_true_iff_eq. rewrite !mem_In, H. split.
    + intro I. right. exists a; auto.
    + intros [I|(b & I & E)].
      * exfalso. assert (J : In (at_ s a) s) by (apply at_lt; lia). apply kept_In in J. tauto.
      * apply at_inj in E; [subst; auto|apply kept_NoDup|auto|lia].
  - unfold s, kept_ascending. rewrite filter_filter_and. apply filter_ext_In. intros x Hx. rewrite <- !mem_existsb.
    destruct (mem x G) eqn:M; [|reflexivity]. cbn [negb andb]. symmetry. apply negb_false_iff, mem_In, H. left. apply mem_In; auto.
Qed.
Lemma core : forall (pinv : mat CK -> mat CK) N G E D idx (L B : mat CK), let s := kept_ascending N G in
  shape L N N -> (forall x, In x G -> (x < N)%nat) ->
  (forall a, In a idx -> (a < length s)%nat) -> NoDup idx -> NoDup E -> (forall x, In x E <-> exists a, In a idx /\ at_ s a = x) ->
  (forall x, In x D <-> In x G \/ In x E) ->
  shape B (length E) (length E) -> mmul (block_of L E E) B = meye (length E) ->
  (forall E', Permutation E E' -> penrose (length E') (length E') (block_of L E' E') (pinv (block_of L E' E'))) ->
  exists Z order, kron_reduction pinv idx (block_of L s s) = Ok Z /\ Permutation order (kept_ascending N D) /\
    (orderly (length s) (length order) -> order = kept_ascending N D) /\ behaves N G E order L Z.
Proof.
  intros pinv N G E D idx L B s SL HG Hi Ni NE HE HD SB EB HP.
  assert (Ns : NoDup s) by apply kept_NoDup.
  assert (Nm : NoDup (map (at_ s) idx)).
  { clear - Hi Ni Ns. induction Ni as [|a l A Ni IH]; [constructor|]. cbn [map]. constructor.
    - intro I. apply in_map_iff in I. destruct I as (b & Eb & Ib). apply at_inj in Eb; auto; [subst; auto| |]; apply Hi; cbn; auto.
    - apply IH. intros; apply Hi; cbn; auto. }
  assert (P : Permutation E (map (at_ s) idx)).
  { apply NoDup_Permutation; auto. intro x. rewrite HE, in_map_iff. split; intros (a & A1 & A2); exists a; auto. }
  destruct (block_perm_inverse L B E _ P SB EB) as (B' & SB' & EB'). pose proof (HP _ P) as PP.
  rewrite !map_length in SB', EB', PP. rewrite <- (block_block L s idx idx Hi Hi) in EB', PP.
  destruct PP as (_ & SP & GP & _).
  destruct (p_kron_behaviour pinv (block_of L s s) B' (length s) idx (block_shape L s s) Hi SB' EB' SP GP) as (Z & HZ & DZ).
  assert (KR : map (at_ s) (kept_ascending (length s) idx) = kept_ascending N D).
  { apply kept_renumber; auto. intro x. rewrite HD, HE. reflexivity. }
  exists Z, (map (at_ s) (remaining (length s) idx)). split; [exact HZ|]. split; [|split].
  - rewrite <- KR. apply Permutation_map. apply remaining_perm.
  - rewrite map_length. intro Or. rewrite <- KR. f_equal. rewrite (Permutation_length (remaining_perm (length s) idx)) in Or.
    change (kept_ascending (length s) idx) with (kept_nodes (length s) idx).
    destruct Or as [H|[H|[H|[H|[H|H]]]]]; try (apply remaining_sorted; auto 8; fail). apply remaining_sorted_most; auto.
  - apply (behaves_ext N G (map (at_ s) idx)).
    + intro x. split; apply Permutation_in; [apply Permutation_sym|]; exact P.
    + apply lift; auto. intros x I. apply remaining_In in I. tauto.
Qed.
Lemma kept_nil : forall N, kept_ascending N [] = seq 0 N.
Proof. intro N. unfold kept_ascending. induction (seq 0 N) as [|x l IH]; [reflexivity|]. cbn in *. rewrite IH. reflexivity. Qed.
Lemma block_all : forall (Y : mat CK) N, shape Y N N -> block_of Y (kept_ascending N []) (kept_ascending N []) = Y.
Proof.
  intros Y N SY. rewrite kept_nil. apply (gshape_ext _ _ N N); [unfold block_of; rewrite seq_length; apply shape_mk|exact SY|].
  intros i j Hi Hj. unfold block_of. rewrite seq_length, get_mk, !seq_nth by auto. reflexivity.
Qed.
(** what the code computes before the reduction *)
Lemma reduce_start : forall (pinv : mat CK -> mat CK) (n : net (K := K)) V I hidden H G, consistent n ->
  located n hidden H -> located n (grids n) G -> exists Pa, idle_positions n Pa /\ (forall x, In x Pa -> ~ In x G /\ (x < length (buses n))%nat) /\
  forall laplacian Y, make_y_bus n = Ok Y -> reduce_network pinv n V I hidden laplacian =
  let Hs := filter (fun i => negb (mem i G)) H in
  '(y_bus, hidden_idx, passive_idx) <-
    (if laplacian then Ok (Y, Hs, Pa)
     else a <- delete_cols Y G ;; b <- delete_rows a G ;; Ok (b, shift G Hs, shift G Pa)) ;;
  shunts <- make_shunts (nr y_bus) V I hidden_idx ;;
  y_red <- kron_reduction pinv (union_difference hidden_idx passive_idx G) (madd y_bus (diagonal shunts)) ;;
  Ok (union_list H Pa, y_red).
Proof.
  intros pinv n V I hidden H G C LH LG. destruct (passive_positions F n C) as (f & Pa & Ef & EP & IP).
  assert (N : NoDup (ids n)) by apply C.
  exists Pa. split; [exact IP|]. split.
  - intros x Hx. apply IP in Hx. destruct Hx as (i & Ei & (Ng & _)). split.
    + intro Gx. apply (located_In n (grids n) G x LG N) in Gx. destruct Gx as (j & Ej & Ij). congruence.
    + assert (nth_error (ids n) x <> None) by congruence. apply nth_error_Some in H0. unfold ids in H0. rewrite map_length in H0. exact H0.
  - intros laplacian Y EY. unfold reduce_network. rewrite EY. cbn [bind]. rewrite Ef. cbn [bind]. rewrite EP. cbn [bind].
    rewrite (positions_ok n hidden H N LH). cbn [bind]. rewrite (positions_ok n (grids n) G N LG). cbn [bind]. reflexivity.
Qed.
Lemma non_grid_In : forall G H x, In x (non_grid G H) <-> In x H /\ ~ In x G.
Proof. intros. unfold non_grid. rewrite filter_In, negb_true_iff, <- mem_existsb, mem_not_In. tauto. Qed.

Lemma p_reduce_laplacian : forall (pinv : mat CK -> mat CK) (n : net (K := K)) V I hidden Y H G E B,
  let N := length (buses n) in
  consistent n -> make_y_bus n = Ok Y -> located n hidden H -> located n (grids n) G -> nc V = N -> nc I = N ->
  (forall x, In x H -> ~ In x G) ->
  NoDup E -> (forall x, In x E <-> In x H \/ exists i, nth_error (ids n) x = Some i /\ idle n 0 i) ->
  let L := loaded Y V I H in
  shape B (length E) (length E) -> mmul (block_of L E E) B = meye (length E) ->
  (forall E', Permutation E E' -> penrose (length E') (length E') (block_of L E' E') (pinv (block_of L E' E'))) ->
  exists todel Z order, reduce_network pinv n V I hidden true = Ok (todel, Z) /\ (forall x, In x todel <-> In x E) /\
    Permutation order (kept_ascending N todel) /\ (orderly N (length order) -> order = kept_ascending N todel) /\
    behaves N [] E order L Z.
Proof.
  intros pinv n V I hidden Y H G E B N C EY LH LG HV HI HG NE HE L SB EB HP.
  destruct (reduce_start pinv n V I hidden H G C LH LG) as (Pa & IP & PG & RS). rewrite (RS true Y EY). clear RS.
  assert (EH : filter (fun i => negb (mem i G)) H = H).
  { clear - HG. induction H as [|x H IH]; [reflexivity|]. cbn [filter]. rewrite (proj2 (mem_not_In x G)) by (apply HG; cbn; auto). cbn [negb].
    rewrite IH by (intros; apply HG; cbn; auto). reflexivity. }
  rewrite EH. cbn [bind].
  assert (SY : shape Y N N).
  { unfold make_y_bus in EY. destruct (grids n); [discriminate|]. injection EY as <-. apply shape_mk. }
  assert (HH : forall x, In x H -> (x < N)%nat) by (intros x Hx; apply (located_lt n hidden H x LH Hx)).
  destruct (shunts_block Y V I N [] H SY HV HI HH) as (v & Ev & Em); [intros x p _ []|].
  rewrite (block_all Y N SY), (block_all _ N (loaded_shape Y V I H N SY)) in Em. rewrite kept_nil, seq_length in Ev.
  rewrite (proj1 (proj2 SY)). rewrite Ev. cbn [bind]. rewrite Em. fold L.
  assert (SL : shape L N N) by (apply loaded_shape; auto).
  destruct (union_difference_ok H Pa G) as [UN UI].
  assert (Lid : forall a, (a < N)%nat -> at_ (kept_ascending N []) a = a) by (intros a Ha; rewrite kept_nil; unfold at_; rewrite seq_nth; auto).
  assert (Llt : forall a, In a (union_difference H Pa G) -> (a < N)%nat).
  { intros a Ha. apply UI in Ha. destruct Ha as [[Ha|Ha] _]; [auto|apply PG; auto]. }
  assert (HE2 : forall x, In x E <-> In x (union_difference H Pa G)).
  { intro x. rewrite UI, HE. specialize (IP x). rewrite <- IP. split; [intros [A|A]; split; auto; apply PG; auto|tauto]. }
  destruct (core pinv N [] E (union_list H Pa) (union_difference H Pa G) L B) as (Z & order & HZ & OP & OO & BZ); auto.
  - intros x [].
  - rewrite kept_nil, seq_length. auto.
  - intro x. rewrite HE2. split; [intro A; exists x; auto|]. intros (a & A & <-). rewrite Lid; auto.
  - intro x. rewrite union_list_In, HE. specialize (IP x). rewrite <- IP. cbn. tauto.
  - rewrite (block_all L N SL) in HZ. rewrite HZ. cbn [bind]. rewrite kept_nil, seq_length in OO.
    exists (union_list H Pa), Z, order. split; [reflexivity|]. split; [|auto].
    intro x. rewrite union_list_In, HE. specialize (IP x). rewrite <- IP. tauto.
Qed.

Lemma p_reduce_substation : forall (pinv : mat CK -> mat CK) (n : net (K := K)) V I hidden Y H G E B,
  let N := length (buses n) in
  consistent n -> make_y_bus n = Ok Y -> located n hidden H -> located n (grids n) G -> nc V = N -> nc I = N ->
  (forall x, In x G -> In x H) ->
  NoDup E -> (forall x, In x E <-> In x (non_grid G H) \/ exists i, nth_error (ids n) x = Some i /\ idle n 0 i) ->
  all_before (non_grid G H) G ->
  (forall x, In x E -> (forall p, In p G -> (x < p)%nat) \/ (descending G /\ ~ In (x - before x G)%nat G)) ->
  let L := loaded Y V I (non_grid G H) in
  shape B (length E) (length E) -> mmul (block_of L E E) B = meye (length E) ->
  (forall E', Permutation E E' -> penrose (length E') (length E') (block_of L E' E') (pinv (block_of L E' E'))) ->
  exists todel Z order, reduce_network pinv n V I hidden false = Ok (todel, Z) /\ (forall x, In x todel <-> In x G \/ In x E) /\
    Permutation order (kept_ascending N todel) /\ (orderly (length (kept_ascending N G)) (length order) -> order = kept_ascending N todel) /\
    behaves N G E order L Z.
Proof.
  intros pinv n V I hidden Y H G E B N C EY LH LG HV HI HG NE HE AB HS L SB EB HP.
  destruct (reduce_start pinv n V I hidden H G C LH LG) as (Pa & IP & PG & RS). rewrite (RS false Y EY). clear RS.
  change (filter (fun i => negb (mem i G)) H) with (non_grid G H). cbn zeta.
  assert (SY : shape Y N N).
  { unfold make_y_bus in EY. destruct (grids n); [discriminate|]. injection EY as <-. apply shape_mk. }
  assert (HH : forall x, In x (non_grid G H) -> (x < N)%nat).
  { intros x Hx. apply non_grid_In in Hx. apply (located_lt n hidden H x LH). tauto. }
  assert (GL : forall x, In x G -> (x < N)%nat) by (intros x Hx; apply (located_lt n (grids n) G x LG Hx)).
  pose proof (delete_both Y N G SY GL) as DB. destruct (delete_cols Y G) as [a|e]; [|discriminate]. cbn [bind] in DB |- *. rewrite DB. cbn [bind].
  set (s := kept_ascending N G) in *.
  rewrite !shift_map.
  assert (SH : map (shift1 G) (non_grid G H) = non_grid G H).
  { rewrite <- map_id. apply map_ext_in. intros x Hx. apply shift1_first. intros p Hp. apply (AB x p); auto. }
  rewrite SH. change (nr (block_of Y s s)) with (length s).
  destruct (shunts_block Y V I N G (non_grid G H) SY HV HI HH AB) as (v & Ev & Em). fold s in Ev, Em. fold L in Em.
  rewrite Ev. cbn [bind]. rewrite Em.
  assert (SL : shape L N N) by (apply loaded_shape; auto).
  (* the shifted number of every node to be eliminated *)
  assert (ES : forall x, In x E -> (x < N)%nat /\ ~ In x G /\ at_ s (shift1 G x) = x /\ (shift1 G x < length s)%nat /\ ~ In (shift1 G x) G).
  { intros x Hx. assert (B1 : (x < N)%nat /\ ~ In x G).
    { pose proof (proj1 (HE x) Hx) as A. rewrite <- (IP x) in A. destruct A as [A|A]; [split; [auto|apply non_grid_In in A; tauto]|].
      destruct (PG x A). auto. }
    destruct B1 as [B1 B2]. split; [exact B1|]. split; [exact B2|]. destruct (HS x Hx) as [A|[A1 A2]].
    - rewrite shift1_first by auto. destruct (kept_first N G x B1 A) as [A1 A2]. auto.
    - rewrite shift1_descending by auto. pose proof (descending_NoDup G A1) as ND. split; [apply kept_at; auto|]. split; [apply kept_index; auto|auto]. }
  destruct (union_difference_ok (non_grid G H) (map (shift1 G) Pa) G) as [UN UI].
  set (idx := union_difference (non_grid G H) (map (shift1 G) Pa) G) in *.
  assert (IX : forall a, In a idx -> exists x, In x E /\ a = shift1 G x).
  { intros a0 Ha. apply UI in Ha. destruct Ha as [[Ha|Ha] _].
    - exists a0. split; [apply HE; auto|]. symmetry. apply shift1_first. intros p Hp. apply (AB a0 p); auto.
    - apply in_map_iff in Ha. destruct Ha as (x & <- & Hx). exists x. split; [apply HE; right; apply IP; auto|reflexivity]. }
  assert (XI : forall x, In x E -> In (shift1 G x) idx).
  { intros x Hx. apply UI. split; [|apply ES; auto]. pose proof (proj1 (HE x) Hx) as A. rewrite <- (IP x) in A. destruct A as [A|A].
    - left. rewrite <- SH. apply in_map; auto.
    - right. apply in_map; auto. }
  destruct (core pinv N G E (union_list H Pa) idx L B) as (Z & order & HZ & OP & OO & BZ); auto.
  - intros a0 Ha. destruct (IX a0 Ha) as (x & Hx & ->). apply ES; auto.
  - intro x. split.
    + intro Hx. exists (shift1 G x). split; [auto|]. apply ES; auto.
    + intros (a0 & Ha & <-). destruct (IX a0 Ha) as (y & Hy & ->). fold s. rewrite (proj1 (proj2 (proj2 (ES y Hy)))). auto.
  - intro x. rewrite union_list_In, HE, non_grid_In, <- (IP x). destruct (in_dec Nat.eq_dec x G); [|tauto]. split; auto.
  - fold s in HZ. rewrite HZ. cbn [bind]. exists (union_list H Pa), Z, order. split; [reflexivity|]. split; [|auto].
    intro x. rewrite union_list_In, HE, non_grid_In, <- (IP x). destruct (in_dec Nat.eq_dec x G); [|tauto]. split; auto.
Qed.
End Whole.

(** ** the measurements that stay *)
Section Data.
Context {K : Type} {O : Ops K} {F : Fld K}.
Add Field Kfld_data : (@k_field K O F).
Lemma product_loaded : forall (W Y V I : mat K) N H t x, shape Y N N -> nc W = N -> (t < nr W)%nat -> (x < N)%nat ->
  get (mmul W (loaded Y V I H)) t x = get (mmul W Y) t x + (if mem x H then mean_at I x / mean_at V x else 0) * get W t x.
Proof.
  intros W Y V I N H t x (WY & RY & CY) CW Ht Hx. rewrite !get_mmul by (auto; unfold loaded; cbn [nc mk]; lia). rewrite CW.
  set (c := if mem x H then mean_at I x / mean_at V x else 0).
  transitivity (sumn N (fun i => get W t i * get Y i x) + sumn N (fun i => if (i =? x)%nat then c * get W t i else 0)).
  - rewrite <- sumn_add. apply sumn_ext. intros i Hi. unfold loaded. rewrite get_mk by lia. rewrite <- mem_existsb. unfold c.
    destruct (Nat.eqb_spec i x) as [->|]; cbn [andb]; [|ring]. ring.
  - f_equal. rewrite (sumn_single N x); auto.
    + rewrite Nat.eqb_refl. reflexivity.
    + intros i Hi Ni. destruct (Nat.eqb_spec i x); [contradiction|reflexivity].
Qed.
Lemma p_data : forall N G E H todel (Y V I W Z : mat K), shape Y N N -> nc W = N -> wf W -> grounded G W ->
  (forall x, In x E -> (x < N)%nat) -> (forall x, In x todel <-> In x G \/ In x E) -> (forall x, In x H -> In x E) ->
  (forall x, In x H -> draws W Y x (mean_at I x / mean_at V x)) -> (forall x, In x E -> ~ In x H -> draws W Y x 0) ->
  behaves N G E (kept_ascending N todel) (loaded Y V I H) Z ->
  mmul (columns W (kept_ascending N todel)) Z = columns (mmul W Y) (kept_ascending N todel).
Proof.
  intros N G E H todel Y V I W Z SY CW WW Gr LE HT HHE DH DE (SZ & D & _).
  set (ks := kept_ascending N todel) in *.
  assert (NI : no_injection E W (loaded Y V I H)).
  { intros t x Ht Hx. rewrite (product_loaded W Y V I N) by auto. destruct (mem x H) eqn:M.
    - rewrite (DH x (proj1 (mem_In _ _) M) t Ht). ring.
    - rewrite (DE x Hx (proj1 (mem_not_In _ _) M) t Ht). ring. }
  destruct SZ as (WZ & RZ & CZ).
  apply (gshape_ext _ _ (nr W) (length ks)).
  - split; [apply wf_mk|]. split; [reflexivity|exact CZ].
  - apply shape_mk.
  - intros t k Ht Hk. rewrite get_mmul by (cbn; lia). cbn [nc columns mk]. unfold columns at 2. rewrite get_mk by (cbn; auto).
    assert (Lk : (nth k ks 0 < N)%nat /\ ~ In (nth k ks 0%nat) todel) by (apply (kept_In N todel), nth_In; auto). destruct Lk as [Lk NT].
    pose proof (D W CW WW Gr NI t k Ht Hk) as Q. rewrite (product_loaded W Y V I N) in Q by auto.
    replace (mem (nth k ks 0%nat) H) with false in Q; [|symmetry; apply mem_not_In; intro J; apply NT, HT; right; auto].
    transitivity (sumn (length ks) (fun j => get W t (nth j ks 0%nat) * get Z j k)).
    + apply sumn_ext. intros j Hj. unfold columns. rewrite get_mk by auto. reflexivity.
    + rewrite <- Q. ring.
Qed.
Lemma delete_columns : forall (m : mat K) N todel, nc m = N -> (forall x, In x todel -> (x < N)%nat) ->
  delete_cols m todel = Ok (columns m (kept_ascending N todel)).
Proof. intros m N todel C H. unfold delete_cols. rewrite C, forallb_lt by auto. reflexivity. Qed.
Lemma mean_ratio : forall (V I : mat K) x c, nr V = nr I -> proportional V I x c -> mean_at V x <> 0 -> mean_at I x / mean_at V x = c.
Proof.
  intros V I x c R P NZ. assert (E : mean_at I x = c * mean_at V x).
  { unfold mean_at. rewrite <- R. rewrite (sumn_ext _ _ (fun t => c * get V t x)) by (intros; apply P; auto). rewrite sumn_scal_l.
    rewrite !kdiv_def. ring. }
  rewrite E. field. exact NZ.
Qed.
End Data.
Section Data2.
Context {K : Type} {O : Ops K} {F : Fld K} {FR : FReal K}.
Notation CK := (cplx K).
Lemma p_reduced_data_laplacian : forall (pinv : mat CK -> mat CK) (n : net (K := K)) V I W hidden Y H G E B,
  let N := length (buses n) in
  consistent n -> make_y_bus n = Ok Y -> located n hidden H -> located n (grids n) G -> nc V = N -> nc I = N -> nr V = nr I ->
  (forall x, In x H -> ~ In x G) ->
  NoDup E -> (forall x, In x E <-> In x H \/ exists i, nth_error (ids n) x = Some i /\ idle n 0 i) ->
  (forall x, In x H -> mean_at V x <> 0) ->
  let L := loaded Y V I H in
  shape B (length E) (length E) -> mmul (block_of L E E) B = meye (length E) ->
  (forall E', Permutation E E' -> penrose (length E') (length E') (block_of L E' E') (pinv (block_of L E' E'))) ->
  orderly N (length (kept_ascending N E)) ->
  nc W = N -> wf W -> (forall x, In x H -> exists c, proportional V I x c /\ draws W Y x c) -> (forall x, In x E -> ~ In x H -> draws W Y x 0) ->
  exists todel Z Wr Jr, reduce_network pinv n V I hidden true = Ok (todel, Z) /\
    delete_cols W todel = Ok Wr /\ delete_cols (mmul W Y) todel = Ok Jr /\ mmul Wr Z = Jr.
Proof.
  intros pinv n V I W hidden Y H G E B N C EY LH LG HV HI HR HG NE HE NZ L SB EB HP Or CW WW DH DE.
  assert (SY : shape Y N N).
  { unfold make_y_bus in EY. destruct (grids n); [discriminate|]. injection EY as <-. apply shape_mk. }
  destruct (p_reduce_laplacian pinv n V I hidden Y H G E B C EY LH LG HV HI HG NE HE SB EB HP) as (todel & Z & order & ER & HT & PO & OO & BZ).
  fold N L in PO, OO, BZ.
  assert (EK : kept_ascending N E = kept_ascending N todel).
  { unfold kept_ascending. apply filter_ext_In. intros x _. f_equal. rewrite <- !mem_existsb. apply eq_true_iff_eq. rewrite !mem_In. symmetry. apply HT. }
  rewrite EK, <- (Permutation_length PO) in Or. rewrite (OO Or) in BZ.
  assert (LE : forall x, In x E -> (x < N)%nat).
  { intros x Hx. apply HE in Hx. destruct Hx as [Hx|(i & Ei & _)]; [apply (located_lt n hidden H x LH Hx)|].
    assert (nth_error (ids n) x <> None) by congruence. apply nth_error_Some in H0. unfold ids in H0. rewrite map_length in H0. exact H0. }
  assert (LT : forall x, In x todel -> (x < N)%nat) by (intros x Hx; apply LE, HT, Hx).
  exists todel, Z, (columns W (kept_ascending N todel)), (columns (mmul W Y) (kept_ascending N todel)).
  split; [exact ER|]. split; [apply delete_columns; auto|]. split; [apply delete_columns; auto; apply SY|].
  apply (p_data N [] E H todel Y V I); auto.
  - intros t i _ [].
  - intro x. rewrite HT. cbn. tauto.
  - intros x Hx. apply HE; auto.
  - intros x Hx. destruct (DH x Hx) as (c & P & D). rewrite (mean_ratio V I x c HR P (NZ x Hx)). exact D.
Qed.
Lemma p_reduced_data_substation : forall (pinv : mat CK -> mat CK) (n : net (K := K)) V I W hidden Y H G E B,
  let N := length (buses n) in
  consistent n -> make_y_bus n = Ok Y -> located n hidden H -> located n (grids n) G -> nc V = N -> nc I = N -> nr V = nr I ->
  (forall x, In x G -> In x H) ->
  NoDup E -> (forall x, In x E <-> In x (non_grid G H) \/ exists i, nth_error (ids n) x = Some i /\ idle n 0 i) ->
  all_before (non_grid G H) G ->
  (forall x, In x E -> (forall p, In p G -> (x < p)%nat) \/ (descending G /\ ~ In (x - before x G)%nat G)) ->
  (forall x, In x (non_grid G H) -> mean_at V x <> 0) ->
  let L := loaded Y V I (non_grid G H) in
  shape B (length E) (length E) -> mmul (block_of L E E) B = meye (length E) ->
  (forall E', Permutation E E' -> penrose (length E') (length E') (block_of L E' E') (pinv (block_of L E' E'))) ->
  orderly (length (kept_ascending N G)) (length (kept_ascending N (G ++ E))) ->
  nc W = N -> wf W -> grounded G W -> (forall x, In x (non_grid G H) -> exists c, proportional V I x c /\ draws W Y x c) ->
  (forall x, In x E -> ~ In x (non_grid G H) -> draws W Y x 0) ->
  exists todel Z Wr Jr, reduce_network pinv n V I hidden false = Ok (todel, Z) /\
    delete_cols W todel = Ok Wr /\ delete_cols (mmul W Y) todel = Ok Jr /\ mmul Wr Z = Jr.
Proof.
  intros pinv n V I W hidden Y H G E B N C EY LH LG HV HI HR HG NE HE AB HS NZ L SB EB HP Or CW WW Gr DH DE.
  assert (SY : shape Y N N).
  { unfold make_y_bus in EY. destruct (grids n); [discriminate|]. injection EY as <-. apply shape_mk. }
  destruct (p_reduce_substation pinv n V I hidden Y H G E B C EY LH LG HV HI HG NE HE AB HS SB EB HP) as (todel & Z & order & ER & HT & PO & OO & BZ).
  fold N L in PO, OO, BZ.
  assert (EK : kept_ascending N (G ++ E) = kept_ascending N todel).
  { unfold kept_ascending. apply filter_ext_In. intros x _. f_equal. rewrite <- !mem_existsb. apply eq_true_iff_eq. rewrite !mem_In, in_app_iff. symmetry. apply HT. }
  rewrite EK, <- (Permutation_length PO) in Or. rewrite (OO Or) in BZ.
  assert (LE : forall x, In x E -> (x < N)%nat).
  { intros x Hx. apply HE in Hx. destruct Hx as [Hx|(i & Ei & _)]; [apply non_grid_In in Hx; apply (located_lt n hidden H x LH); tauto|].
    assert (nth_error (ids n) x <> None) by congruence. apply nth_error_Some in H0. unfold ids in H0. rewrite map_length in H0. exact H0. }
  assert (LT : forall x, In x todel -> (x < N)%nat).
  { intros x Hx. apply HT in Hx. destruct Hx as [Hx|Hx]; auto. apply (located_lt n (grids n) G x LG Hx). }
  exists todel, Z, (columns W (kept_ascending N todel)), (columns (mmul W Y) (kept_ascending N todel)).
  split; [exact ER|]. split; [apply delete_columns; auto|]. split; [apply delete_columns; auto; apply SY|].
  apply (p_data N G E (non_grid G H) todel Y V I); auto.
  - intros x Hx. apply HE; auto.
  - intros x Hx. destruct (DH x Hx) as (c & P & D). rewrite (mean_ratio V I x c HR P (NZ x Hx)). exact D.
Qed.
End Data2.

(** the script hides exactly the substations in addition *)
Lemma p_hides_substations : forall K (O : Ops K) (F : Fld K) (ns : list (bus_data (K := K))) ls n hidden, (forall b, In b ns -> both is_single b) ->
  NetData (Some ns) (Some ls) None = Ok n ->
  (forall i, In i (with_substations ns false hidden) <-> In i hidden \/ In i (grids n)) /\ with_substations ns true hidden = hidden.
Proof.
  intros K O F ns ls n hidden S E. destruct (p_build_only ns ls n S E) as [N L]. destruct (p_build ns ls S N L) as (n' & E' & _ & _ & _ & _ & G & _).
  rewrite E in E'. injection E' as <-. split; [|reflexivity]. intro i. unfold with_substations. rewrite in_app_iff, G. reflexivity.
Qed.
