(** Kron reduction of nodes that are listed more than once. *)
From Coq Require Import Arith Lia List Permutation Ring Field.
From Verif Require Import BasePy BaseFld BaseSum BaseMat BaseLin ModelErrorMetrics ModelSet ModelKron SpecMatrix SpecLS SpecKron ProofSet ProofKron.
Import ListNotations.
Local Open Scope K_scope.

Section Dup.
Context {K : Type} {O : Ops K} {F : Fld K}.
Add Field KfD : (@k_field K _ _).

(** row i selects the place in [E] of the i-th node of [idx] *)
Definition chooser (idx E : list nat) : mat K :=
  mk (length idx) (length E) (fun i j => if (nth i idx 0 =? nth j E 0)%nat then 1 else 0).

Lemma chooser_sum : forall E x (f : nat -> K), NoDup E -> In x E ->
  sumn (length E) (fun j => (if (x =? nth j E 0)%nat then 1 else 0) * f (nth j E 0%nat)) = f x.
Proof.
  intros E x f N I. destruct (In_nth E x 0%nat I) as (k & Hk & Ek).
  rewrite (sumn_single _ k); auto.
  - rewrite Ek, Nat.eqb_refl. ring.
  - intros i Hi Ne. destruct (Nat.eqb_spec x (nth i E 0%nat)) as [Q|Q]; [|ring]. exfalso. apply Ne.
    apply (proj1 (NoDup_nth E 0%nat) N); auto. congruence.
Qed.
Lemma chooser_rows : forall (Y : mat K) E idx ci, NoDup E -> (forall x, In x idx -> In x E) ->
  block_of Y idx ci = mmul (chooser idx E) (block_of Y E ci).
Proof.
  intros Y E idx ci N H. apply (gshape_ext _ _ (length idx) (length ci)); [apply shape_mk|split; [apply wf_mk|cbn; auto]|].
  intros i j Hi Hj. rewrite get_mmul by (cbn; auto). unfold block_of at 1. rewrite get_mk by auto.
  rewrite <- (chooser_sum E (nth i idx 0%nat) (fun x => get Y x (nth j ci 0%nat)) N) by (apply H, nth_In; auto).
  apply sumn_ext. intros k Hk. unfold chooser, block_of. cbn in Hk. rewrite !get_mk by auto. reflexivity.
Qed.
Lemma chooser_cols : forall (Y : mat K) E idx ri, NoDup E -> (forall x, In x idx -> In x E) ->
  block_of Y ri idx = mmul (block_of Y ri E) (tr (chooser idx E)).
Proof.
  intros Y E idx ri N H. apply (gshape_ext _ _ (length ri) (length idx)); [apply shape_mk|split; [apply wf_mk|cbn; auto]|].
  intros i j Hi Hj. rewrite get_mmul by (cbn; auto). unfold block_of at 1. rewrite get_mk by auto.
  rewrite <- (chooser_sum E (nth j idx 0%nat) (fun x => get Y (nth i ri 0%nat) x) N) by (apply H, nth_In; auto).
  apply sumn_ext. intros k Hk. cbn in Hk. rewrite get_tr by (cbn; auto). unfold chooser, block_of. rewrite !get_mk by auto. ring.
Qed.
(** a left inverse: the first place of each node of [E] in [idx] *)
Definition first_places (idx E : list nat) : mat K :=
  mk (length E) (length idx) (fun j i => if (i =? pos (nth j E 0) idx)%nat then 1 else 0).
Lemma pos_from_In : forall l i o, In i l -> (o <= pos_from i l o < o + length l)%nat /\ nth (pos_from i l o - o) l 0%nat = i.
Proof.
  induction l as [|a l IH]; intros i o H; [destruct H|]. cbn [pos_from length].
  destruct (Nat.eqb_spec a i) as [->|Q].
  - split; [lia|]. rewrite Nat.sub_diag. reflexivity.
  - destruct H as [->|H]; [congruence|]. destruct (IH i (S o) H) as [H1 H2]. split; [lia|].
    replace (pos_from i l (S o) - o)%nat with (S (pos_from i l (S o) - S o)) by lia. exact H2.
Qed.
Lemma pos_any : forall l i, In i l -> (pos i l < length l)%nat /\ nth (pos i l) l 0%nat = i.
Proof. intros l i H. destruct (pos_from_In l i 0 H) as [H1 H2]. unfold pos. rewrite Nat.sub_0_r in H2. split; [lia|exact H2]. Qed.
Lemma first_left : forall idx E, NoDup E -> (forall x, In x E -> In x idx) -> mmul (first_places idx E) (chooser idx E) = meye (length E).
Proof.
  intros idx E N H. apply (gshape_ext _ _ (length E) (length E)); [split; [apply wf_mk|cbn; auto]|apply shape_mk|].
  intros i j Hi Hj. rewrite get_mmul by (cbn; auto). rewrite get_meye by auto. cbn [nc first_places mk].
  destruct (pos_any idx (nth i E 0%nat)) as [P1 P2]; [apply H, nth_In; auto|].
  rewrite (sumn_single _ (pos (nth i E 0%nat) idx)); auto.
  - unfold first_places, chooser. rewrite !get_mk by auto. rewrite Nat.eqb_refl, P2.
    destruct (Nat.eqb_spec i j) as [->|Q]; [rewrite Nat.eqb_refl; ring|].
    destruct (Nat.eqb_spec (nth i E 0%nat) (nth j E 0%nat)) as [Q'|_]; [|ring]. exfalso. apply Q. apply (proj1 (NoDup_nth E 0%nat) N); auto.
  - intros k Hk Ne. unfold first_places. rewrite get_mk by auto. destruct (Nat.eqb_spec k (pos (nth i E 0%nat) idx)); [congruence|]. ring.
Qed.

(** the pseudo-inverse of the block with repeated nodes, brought to the distinct ones *)
Lemma dup_gen : forall (Y X : mat K) E idx, NoDup E -> (forall x, In x idx <-> In x E) -> shape X (length idx) (length idx) ->
  mmul (mmul (block_of Y idx idx) X) (block_of Y idx idx) = block_of Y idx idx ->
  let P := mmul (mmul (tr (chooser idx E)) X) (chooser idx E) in
  mmul (mmul (block_of Y E E) P) (block_of Y E E) = block_of Y E E.
Proof.
  intros Y X E idx N H (WX & RX & CX) G P. set (Ch := chooser idx E) in *. set (Q := first_places idx E). set (A := block_of Y E E) in *.
  assert (EA : block_of Y idx idx = mmul (mmul Ch A) (tr Ch)).
  { rewrite (chooser_rows Y E idx idx N) by (intros; apply H; auto). rewrite (chooser_cols Y E idx E N) by (intros; apply H; auto).
    rewrite mmul_assoc by reflexivity. reflexivity. }
  assert (QC : mmul Q Ch = meye (length E)) by (apply first_left; auto; intros; apply H; auto).
  assert (CQ : mmul (tr Ch) (tr Q) = meye (length E)).
  { rewrite <- tr_mmul by reflexivity. rewrite QC. apply tr_meye. }
  assert (RCh : nr Ch = length idx) by reflexivity. assert (CCh : nc Ch = length E) by reflexivity.
  assert (RQ : nr Q = length E) by reflexivity. assert (CQ' : nc Q = length idx) by reflexivity.
  assert (RA : nr A = length E) by reflexivity. assert (CA : nc A = length E) by reflexivity.
  assert (WA : wf A) by apply wf_mk.
  assert (S1 : forall M : mat K, wf M -> nr M = length E -> nc M = length E -> mmul (mmul Q (mmul (mmul Ch M) (tr Ch))) (tr Q) = M).
  { intros M WM RM CM. rewrite <- (mmul_assoc Q (mmul Ch M) (tr Ch)) by (cbn; congruence). rewrite <- (mmul_assoc Q Ch M) by (cbn; congruence).
    rewrite QC, mmul_1_l' by auto. rewrite mmul_assoc by (cbn; congruence). rewrite CQ. apply mmul_1_r'; auto. }
  rewrite EA in G. apply (f_equal (fun M => mmul (mmul Q M) (tr Q))) in G. rewrite (S1 A) in G by auto. rewrite <- G at 3.
  symmetry. rewrite <- (S1 (mmul (mmul A P) A)) by (try apply wf_mk; reflexivity). f_equal. f_equal. unfold P.
  repeat (rewrite mmul_assoc by (cbn; rewrite ?RX, ?CX; congruence)). reflexivity.
Qed.
Lemma dup_reduced : forall (Y X : mat K) E idx kept, NoDup E -> (forall x, In x idx <-> In x E) -> shape X (length idx) (length idx) ->
  reduced Y X kept idx = reduced Y (mmul (mmul (tr (chooser idx E)) X) (chooser idx E)) kept E.
Proof.
  intros Y X E idx kept N H (WX & RX & CX). unfold reduced. f_equal.
  rewrite (chooser_rows Y E idx kept N) by (intros; apply H; auto). rewrite (chooser_cols Y E idx kept N) by (intros; apply H; auto).
  repeat (rewrite mmul_assoc by (cbn; rewrite ?RX, ?CX; congruence)). reflexivity.
Qed.
Lemma dup_behaviour : forall (pinv : mat K -> mat K) (Y B : mat K) n E idx, shape Y n n -> NoDup E -> (forall i, In i E -> (i < n)%nat) ->
  (forall x, In x idx <-> In x E) ->
  shape B (length E) (length E) -> mmul (block_of Y E E) B = meye (length E) ->
  shape (pinv (block_of Y idx idx)) (length idx) (length idx) ->
  mmul (mmul (block_of Y idx idx) (pinv (block_of Y idx idx))) (block_of Y idx idx) = block_of Y idx idx ->
  exists Z, kron_reduction pinv idx Y = Ok Z /\ describes n (remaining n E) E Y Z.
Proof.
  intros pinv Y B n E idx SY N HE HI SB EB SP G. eexists. split; [apply (kron_ok pinv Y n); auto; intros; apply HE, HI; auto|].
  rewrite (dup_reduced Y _ E idx) by auto. rewrite (remaining_ext n idx E HI).
  pose proof (dup_gen Y _ E idx N HI SP G) as G'. cbn zeta in G'.
  set (P := mmul (mmul (tr (chooser idx E)) (pinv (block_of Y idx idx))) (chooser idx E)) in *.
  assert (SP' : shape P (length E) (length E)) by (split; [apply wf_mk|cbn; auto]).
  destruct (gen_inverse _ _ _ _ (block_shape Y E E) SB SP' EB G') as [G1 G2].
  apply reduced_describes; auto. apply remaining_split; auto.
Qed.
End Dup.
