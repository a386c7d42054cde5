(** The shipped networks compared with each other. *)
From Coq Require Import String.
From Coq Require Import Bool Arith List ZArith Lia.
From Verif Require Import BasePy BaseFld BaseOrd BaseSum BaseMat ModelNet ModelTemplates SpecNet SpecTemplates ProofDec.
Import ListNotations.
Close Scope string_scope. Open Scope list_scope. Open Scope nat_scope.

Section Same.
Context {K : Type} {O : Ops K} {F : Fld K} {O2 : OrdOps K} {OF : OrdFld K}.
Add Field Kfsame : (@k_field K O F).
Lemma mul_1_r' : forall x : K, (x * 1)%K = x.
Proof. intro x. ring. Qed.
Notation nodes := (list (bus_data (K := K))).
Notation branches := (list (line_data (K := K))).

Lemma forall_cons : forall {A} (P : A -> Prop) a l, P a -> (forall x, In x l -> P x) -> forall x, In x (a :: l) -> P x.
Proof. intros A P a l Ha Hl x [<-|Hx]; auto. Qed.
Lemma forall_nil : forall {A} (P : A -> Prop) x, In x [] -> P x.
Proof. intros A P x []. Qed.
(** labels of the ends of a line, whichever way round *)
Definition joins (a b : nat) (l : line_data (K := K)) : bool := ((ld_start l =? a) && (ld_end l =? b)) || ((ld_start l =? b) && (ld_end l =? a)).
(** the line between two labels *)
Definition line_between (f : nat -> nat) (a b : nat) (ls : branches) : option (line_data (K := K)) :=
  find (fun l => ((f (ld_start l) =? a) && (f (ld_end l) =? b)) || ((f (ld_start l) =? b) && (f (ld_end l) =? a))) ls.
Definition image_ends (f : nat -> nat) (ns : nodes) (l : line_data (K := K)) : bool :=
  existsb (fun b => f (bd_id b) =? ld_start l) ns && existsb (fun b => f (bd_id b) =? ld_end l) ns.
Lemma sub_ok : forall f ns ls ns' ls',
  Forall (fun b => nth_error ns' (f (bd_id b) - 1) = Some (relabelled f b)) ns ->
  Forall (fun l => exists m, line_between (fun i => i) (f (ld_start l)) (f (ld_end l)) ls' = Some m /\ same_line f l m) ls ->
  Forall (fun m => exists l, line_between f (ld_start m) (ld_end m) ls = Some l /\ same_line f l m) (filter (image_ends f ns) ls') ->
  subnetwork f ns ls ns' ls'.
Proof.
  intros f ns ls ns' ls' HB HL HM. rewrite Forall_forall in HB, HL, HM. split; [|split].
  - intros b Hb. exact (nth_error_In _ _ (HB b Hb)).
  - intros l Hl. destruct (HL l Hl) as (m & E & S). exists m. split; [|exact S]. unfold line_between in E. apply find_some in E. apply E.
  - intros m Hm (b & Hb & Eb) (c & Hc & Ec). destruct (HM m) as (l & E & S).
    + apply filter_In. split; [exact Hm|]. unfold image_ends. apply andb_true_intro. split; apply existsb_exists; [exists b|exists c]; (split; [assumption|apply Nat.eqb_eq; assumption]).
    + exists l. split; [|exact S]. unfold line_between in E. apply find_some in E. apply E.
Qed.
Ltac same := split; [first [left; split; reflexivity|right; split; reflexivity]|repeat split; reflexivity].
Ltac sub_lines := repeat (apply Forall_cons; [eexists; split; [reflexivity|same]|]); apply Forall_nil.
Ltac sub_rows := repeat (apply Forall_cons; [reflexivity|]); apply Forall_nil.
Theorem p_sub33 : subnetwork (renamed bolognani_mapping33) bolognani33_bus bolognani33_net bolognani56_bus bolognani56_net.
Proof.
  apply sub_ok; [unfold bolognani33_bus; sub_rows|unfold bolognani33_net; sub_lines|].
  assert (E : filter (image_ends (renamed bolognani_mapping33) bolognani33_bus) bolognani56_net = firstn 32 bolognani56_net) by reflexivity. rewrite E. cbn [firstn bolognani56_net]. sub_lines.
Qed.
(** the last line of the table the other way *)
Definition repaired21 : branches := removelast bolognani21_net ++ [line 19 20 (dec 250 1) (dec 8374139 10000000000 * dec 173 10)%K (dec 17156767 10000000000 * dec 173 10)%K 1].
Theorem p_sub21 : subnetwork (renamed bolognani_mapping21) bolognani21_bus repaired21 bolognani56_bus bolognani56_net.
Proof.
  apply sub_ok; [unfold bolognani21_bus; sub_rows|unfold repaired21, bolognani21_net; cbn [removelast app]; sub_lines|].
  assert (E : filter (image_ends (renamed bolognani_mapping21) bolognani21_bus) bolognani56_net = firstn 4 bolognani56_net ++ skipn 39 bolognani56_net) by reflexivity. rewrite E. cbn [firstn skipn app bolognani56_net]. sub_lines.
Qed.
Theorem p_not_sub21 : ~ subnetwork (renamed bolognani_mapping21) bolognani21_bus bolognani21_net bolognani56_bus bolognani56_net.
Proof.
  intros (_ & H & _). destruct (H (line 20 21 (dec 250 1) (dec 8374139 10000000000 * dec 173 10)%K (dec 17156767 10000000000 * dec 173 10)%K 1)) as (m & Hm & S & _).
  - apply (nth_error_In _ 19). reflexivity.
  - assert (X : forallb (fun m => negb (joins 55 56 m)) bolognani56_net = true) by reflexivity. rewrite forallb_forall in X. specialize (X m Hm). unfold joins in X. cbn [line ld_start ld_end] in S.
    change (renamed bolognani_mapping21 20) with 55 in S. change (renamed bolognani_mapping21 21) with 56 in S. destruct S as [[A B]|[A B]]; rewrite <- A, <- B in X; discriminate X.
Qed.
(** ** three phases *)
Ltac adds := split; [reflexivity|]; split; [reflexivity|]; split; [reflexivity|]; first [discriminate | intros _; do 6 eexists; split; [reflexivity|]; split; [reflexivity|]; cbn [bus bd_p bd_q]; split; apply (f_equal Single); decs].
Theorem p_adds_up : Forall2 adds_up bolognani56_bus ieee123center_bus.
Proof. unfold bolognani56_bus, ieee123center_bus. repeat (apply Forall2_cons; [adds|]). apply Forall2_nil. Qed.
Ltac scaled := split; [reflexivity|]; split; [reflexivity|]; split; [|split; reflexivity]; cbn [line line3 ld_length]; decs.
Theorem p_scaled : Forall2 (scaled_line (dec 3 10 / dec 1000 1)%K) bolognani56_net ieee123center_net.
Proof. unfold bolognani56_net, ieee123center_net. repeat (apply Forall2_cons; [scaled|]); apply Forall2_nil. Qed.
Ltac each := split; [reflexivity|]; split; [reflexivity|]; split; [reflexivity|]; first [discriminate | intros _; do 2 eexists; repeat split; reflexivity].
Theorem p_each : Forall2 each_phase cigre_mv_feeder1_bus cigre_mv_feeder3_bus.
Proof. unfold cigre_mv_feeder1_bus, cigre_mv_feeder3_bus. repeat (apply Forall2_cons; [each|]); apply Forall2_nil. Qed.
Theorem p_same_lines : Forall2 (scaled_line 1%K) cigre_mv_feeder1_net cigre_mv_feeder3_net.
Proof. unfold cigre_mv_feeder1_net, cigre_mv_feeder3_net. repeat (apply Forall2_cons; [split; [reflexivity|]; split; [reflexivity|]; split; [cbn [line line3 ld_length]; symmetry; apply mul_1_r'|split; reflexivity]|]); apply Forall2_nil. Qed.
End Same.
