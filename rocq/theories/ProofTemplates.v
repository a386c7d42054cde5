(** The shipped single-phase networks: connected, with resistance everywhere. *)
From Coq Require Import String.
From Coq Require Import Bool Arith List ZArith Lia.
From Verif Require Import BasePy BaseFld BaseOrd BaseSum BaseMat ModelNet ModelScript ModelTemplates SpecNet SpecPassive SpecScriptData SpecTemplates ProofDec.
Import ListNotations.
Close Scope string_scope. Open Scope list_scope. Open Scope nat_scope.

(** the next bus on the way to the substation *)
Definition bolognani56_next := [55; 0; 1; 2; 3; 4; 5; 6; 7; 6; 9; 10; 11; 12; 13; 14; 10; 16; 17; 18; 19; 20; 20; 22; 23; 24; 18; 26; 27; 28; 29; 30; 16; 32; 33; 34; 32; 36; 37; 3; 39; 40; 41; 42; 43; 44; 39; 46; 47; 48; 49; 50; 50; 52; 53; 55]%nat.
Definition bolognani33_next := [32; 0; 1; 2; 3; 4; 5; 6; 7; 6; 9; 10; 11; 12; 13; 14; 10; 16; 17; 18; 19; 20; 20; 22; 23; 24; 18; 26; 27; 28; 29; 30; 32]%nat.
Definition bolognani21_next := [20; 0; 1; 2; 3; 4; 5; 6; 7; 8; 9; 4; 11; 12; 13; 14; 15; 15; 17; 20; 20]%nat.
Definition cigre_mv_feeder1_next := [9; 0; 1; 2; 5; 0; 5; 8; 1; 9]%nat.
Definition ieee_33_next := [0; 0; 1; 2; 3; 4; 5; 6; 7; 8; 9; 10; 11; 12; 13; 14; 15; 16; 1; 18; 19; 20; 2; 22; 23; 5; 25; 26; 27; 28; 29; 30; 31]%nat.

Section Facts.
Context {K : Type} {O : Ops K} {F : Fld K} {O2 : OrdOps K} {OF : OrdFld K}.
Notation nodes := (list (bus_data (K := K))).
Notation branches := (list (line_data (K := K))).

Definition isb (o : option nat) (i : nat) : bool := match o with Some j => j =? i | None => false end.
Lemma isb_ok : forall o i, isb o i = true -> o = Some i.
Proof. intros [j|] i H; [|discriminate H]. apply Nat.eqb_eq in H. subst. reflexivity. Qed.
Definition linkedb (is : list nat) (ends : list (nat * nat)) (a b : nat) : bool :=
  existsb (fun e => (isb (nth_error is a) (fst e) && isb (nth_error is b) (snd e)) || (isb (nth_error is a) (snd e) && isb (nth_error is b) (fst e))) ends.
Definition ends_of (ls : branches) : list (nat * nat) := map (fun l => (ld_start l, ld_end l)) (filter active ls).
Lemma linkedb_ok : forall (ns : nodes) (ls : branches) a b, linkedb (map bd_id ns) (ends_of ls) a b = true -> linked ns ls a b.
Proof.
  intros ns ls a b H. apply existsb_exists in H. destruct H as ((e1, e2) & He & H). apply in_map_iff in He. destruct He as (l & E & Hl). injection E as <- <-.
  apply filter_In in Hl. destruct Hl as [Hl A]. exists l. split; [exact Hl|]. split; [exact A|]. cbn [fst snd] in H.
  apply orb_true_iff in H. destruct H as [H|H]; apply andb_true_iff in H; destruct H as [H1 H2]; apply isb_ok in H1; apply isb_ok in H2; [left|right]; split; assumption.
Qed.
Fixpoint follows (is : list nat) (ends : list (nat * nat)) (next : list nat) (s fuel k : nat) : bool :=
  match fuel with
  | 0 => false
  | S f => (k =? s) || (linkedb is ends k (nth k next 0) && follows is ends next s f (nth k next 0))
  end.
Lemma follows_ok : forall (ns : nodes) (ls : branches) next s f k, follows (map bd_id ns) (ends_of ls) next s f k = true -> path (linked ns ls) k s.
Proof.
  intros ns ls next s. induction f as [|f IH]; intros k H; [discriminate H|]. cbn [follows] in H. apply orb_true_iff in H. destruct H as [H|H].
  - apply Nat.eqb_eq in H. subst. constructor.
  - apply andb_true_iff in H. destruct H as [H1 H2]. eapply step_on; [apply linkedb_ok; exact H1|apply IH; exact H2].
Qed.
Lemma connected_ok : forall (ns : nodes) (ls : branches) next s, forallb (follows (map bd_id ns) (ends_of ls) next s (S (length ns))) (seq 0 (length ns)) = true -> connected ns ls s.
Proof. intros ns ls next s H k Hk. rewrite forallb_forall in H. apply (follows_ok ns ls next s (S (length ns))). apply H. apply in_seq. lia. Qed.

Record nice (ns : nodes) (ls : branches) (s : nat) : Prop := Nice {
  n_single : forall b, In b ns -> both is_single b;
  n_labels : map bd_id ns = seq 1 (length ns);
  n_ends : forall l, In l ls -> active l = true -> In (ld_start l) (map bd_id ns) /\ In (ld_end l) (map bd_id ns) /\ ld_length l <> 0%K;
  n_only : only_substation ns s;
  n_conn : connected ns ls s;
  n_res : resistive_tables ns ls;
  n_no : no_shunts ns }.

Lemma types_ok : forall (ns : nodes) s, forallb (fun p => if fst p =? s then snd p =? 3 else snd p =? 1) (combine (seq 0 (length ns)) (map bd_type ns)) = true -> s < length ns -> only_substation ns s.
Proof.
  intros ns s H Hs. rewrite forallb_forall in H.
  assert (G : forall k b, nth_error ns k = Some b -> (if k =? s then bd_type b =? 3 else bd_type b =? 1) = true).
  { intros k b Hk. apply (H (k, bd_type b)). assert (L : k < length ns) by (apply nth_error_Some; rewrite Hk; discriminate).
    replace (k, bd_type b) with (nth k (combine (seq 0 (length ns)) (map bd_type ns)) (0, 0)).
    - apply nth_In. rewrite combine_length, seq_length, map_length. lia.
    - rewrite combine_nth by (rewrite seq_length, map_length; reflexivity). rewrite seq_nth by exact L. f_equal.
      apply (map_nth_error bd_type) in Hk. apply (nth_error_nth _ _ 0) in Hk. exact Hk. }
  split.
  - destruct (nth_error ns s) as [b|] eqn:E; [|apply nth_error_None in E; lia]. exists b. split; [reflexivity|]. specialize (G s b E). rewrite Nat.eqb_refl in G. apply Nat.eqb_eq. exact G.
  - intros k b Hk N. specialize (G k b Hk). apply Nat.eqb_neq in N. rewrite N in G. apply Nat.eqb_eq. exact G.
Qed.
Lemma ends_ok : forall (ns : nodes) (ls : branches), forallb (fun e => existsb (Nat.eqb (fst e)) (map bd_id ns) && existsb (Nat.eqb (snd e)) (map bd_id ns)) (ends_of ls) = true ->
  Forall (fun l => ld_length l <> 0%K) ls -> forall l, In l ls -> active l = true -> In (ld_start l) (map bd_id ns) /\ In (ld_end l) (map bd_id ns) /\ ld_length l <> 0%K.
Proof.
  intros ns ls H L l Hl A. rewrite forallb_forall in H. assert (Hin : In (ld_start l, ld_end l) (ends_of ls)). { apply in_map_iff. exists l. split; [reflexivity|]. apply filter_In. auto. }
  specialize (H _ Hin). cbn [fst snd] in H. apply andb_true_iff in H. destruct H as [H1 H2]. rewrite Forall_forall in L.
  apply existsb_exists in H1. destruct H1 as (x & X1 & X2). apply existsb_exists in H2. destruct H2 as (y & Y1 & Y2). apply Nat.eqb_eq in X2, Y2. subst. auto.
Qed.
Definition row_ok (b : bus_data (K := K)) : Prop := both is_single b /\ bd_kv b <> 0%K /\ kle k0 (bd_z b) /\ kle k0 (number (bd_p b)) /\ bd_z b = k0.
Lemma row_bus : forall i t (p q kv : K), kle k0 p -> kv <> 0%K -> row_ok (bus i t p q kv).
Proof. intros i t p q kv Hp Hk. split; [split; eexists; reflexivity|]. split; [exact Hk|]. split; [apply kle_refl|]. split; [exact Hp|reflexivity]. Qed.
Lemma nice_ok : forall (ns : nodes) (ls : branches) next s, s < length ns -> map bd_id ns = seq 1 (length ns) ->
  forallb (fun p => if fst p =? s then snd p =? 3 else snd p =? 1) (combine (seq 0 (length ns)) (map bd_type ns)) = true ->
  forallb (fun e => existsb (Nat.eqb (fst e)) (map bd_id ns) && existsb (Nat.eqb (snd e)) (map bd_id ns)) (ends_of ls) = true ->
  forallb (follows (map bd_id ns) (ends_of ls) next s (S (length ns))) (seq 0 (length ns)) = true ->
  Forall row_ok ns -> Forall (fun l => ld_length l <> 0%K /\ klt k0 (ld_r l)) ls -> nice ns ls s.
Proof.
  intros ns ls next s Hs HI HT HE HC HR HL. rewrite Forall_forall in HR.
  assert (L1 : Forall (fun l : line_data => ld_length l <> 0%K) ls) by (eapply Forall_impl; [|exact HL]; intros a [A _]; exact A). rewrite Forall_forall in HL.
  split.
  - intros b Hb. apply (HR b Hb).
  - exact HI.
  - apply ends_ok; assumption.
  - apply types_ok; assumption.
  - eapply connected_ok; eassumption.
  - split; [|split].
    + intros b Hb. apply (HR b Hb).
    + intros l Hl _. apply (HL l Hl).
    + intros b Hb _. split; apply (HR b Hb).
  - intros b Hb _. apply (HR b Hb).
Qed.
Lemma mul_pos : forall a b c d, klt k0 (dec a b * dec c d : K)%K.
Proof. intros. rewrite dec_mul. apply dec_pos. Qed.
Ltac rows := repeat (apply Forall_cons; [apply row_bus; [first [apply dec_nonneg | apply kle_refl]|apply dec_neq0]|]); apply Forall_nil.
Ltac branches := repeat (apply Forall_cons; [split; [apply dec_neq0|cbn [line ld_r]; first [apply dec_pos | apply mul_pos]]|]); apply Forall_nil.
Lemma bolognani56_nice : nice bolognani56_bus bolognani56_net 55.
Proof. apply (nice_ok _ _ bolognani56_next); [cbn; lia|vm_compute; reflexivity|vm_compute; reflexivity|vm_compute; reflexivity|vm_compute; reflexivity|unfold bolognani56_bus; rows|unfold bolognani56_net; branches]. Qed.
Lemma bolognani33_nice : nice bolognani33_bus bolognani33_net 32.
Proof. apply (nice_ok _ _ bolognani33_next); [cbn; lia|vm_compute; reflexivity|vm_compute; reflexivity|vm_compute; reflexivity|vm_compute; reflexivity|unfold bolognani33_bus; rows|unfold bolognani33_net; branches]. Qed.
Lemma bolognani21_nice : nice bolognani21_bus bolognani21_net 20.
Proof. apply (nice_ok _ _ bolognani21_next); [cbn; lia|vm_compute; reflexivity|vm_compute; reflexivity|vm_compute; reflexivity|vm_compute; reflexivity|unfold bolognani21_bus; rows|unfold bolognani21_net; branches]. Qed.
Lemma cigre_mv_feeder1_nice : nice cigre_mv_feeder1_bus cigre_mv_feeder1_net 9.
Proof. apply (nice_ok _ _ cigre_mv_feeder1_next); [cbn; lia|vm_compute; reflexivity|vm_compute; reflexivity|vm_compute; reflexivity|vm_compute; reflexivity|unfold cigre_mv_feeder1_bus; rows|unfold cigre_mv_feeder1_net; branches]. Qed.
Lemma ieee_33_nice : nice ieee_33_bus ieee_33_net 0.
Proof. apply (nice_ok _ _ ieee_33_next); [cbn; lia|vm_compute; reflexivity|vm_compute; reflexivity|vm_compute; reflexivity|vm_compute; reflexivity|unfold ieee_33_bus; rows|unfold ieee_33_net; branches]. Qed.
End Facts.
