(** Lemmas about ModelRun.v: files and assembled phases *)
From Coq Require Import String.
From Coq Require Import Bool Arith List ZArith Lia Sorted.
From Verif Require Import BasePy BaseFld BaseOrd BaseSum BaseMat BaseNumpy BaseLin SpecMatrix ModelMatrixOps ModelPrior ModelFit
  ModelLS SpecLS ModelIdent ModelRun SpecRun ProofSet ProofMask ProofRun.
Import ListNotations.
Close Scope string_scope.
Local Open Scope nat_scope.

Section IO.
Context {K : Type}.
Lemma bind_io_ok : forall A B (m : io K A) (f : A -> io K B) s s' b, bind_io m f s = (s', Ok b) ->
  exists s1 a, m s = (s1, Ok a) /\ f a s1 = (s', Ok b).
Proof. intros A B m f s s' b. unfold bind_io. destruct (m s) as [s1 [a|e]]; [eauto|discriminate]. Qed.
Lemma lift_ok : forall A (r : res A) (s s' : files K) a, lift r s = (s', Ok a) -> s' = s /\ r = Ok a.
Proof. intros. unfold lift in H. inversion H. auto. Qed.
Lemma bind_lift : forall A B (r : res A) (f : A -> io K B) s, bind_io (lift r) f s = match r with Ok a => f a s | Err e => (s, Err e) end.
Proof. intros. unfold bind_io, lift. destruct r; auto. Qed.
Definition write (s : files K) (path : string) (c : content K) : files K := fun p => if String.eqb p path then Some c else s p.
Lemma bind_save : forall B path c (f : unit -> io K B) s, bind_io (save path c) f s = f tt (write s path c).
Proof. reflexivity. Qed.

(** programs that write only to some files *)
Definition writes_only {A} (l : list string) (m : io K A) : Prop := forall s p, ~ In p l -> fst (m s) p = s p.
Lemma wo_lift : forall A l (r : res A), writes_only l (lift r).
Proof. intros A l r s p _. reflexivity. Qed.
Lemma wo_load : forall l path, writes_only l (load path).
Proof. intros l path s p _. reflexivity. Qed.
Lemma wo_save : forall l path c, In path l -> writes_only l (save path c).
Proof. intros l path c H s p N. cbn. destruct (String.eqb_spec p path); [subst; tauto|reflexivity]. Qed.
Lemma wo_bind : forall A B l (m : io K A) (f : A -> io K B), writes_only l m -> (forall a, writes_only l (f a)) -> writes_only l (bind_io m f).
Proof.
  intros A B l m f H1 H2 s p N. unfold bind_io. specialize (H1 s p N). destruct (m s) as [s1 [a|e]]; cbn in *; auto.
  rewrite <- H1. apply H2. auto.
Qed.

(** programs whose behaviour does not depend on one file *)
Definition agree (path : string) (s1 s2 : files K) : Prop := forall p, p <> path -> s1 p = s2 p.
Definition ignores {A} (path : string) (m : io K A) : Prop :=
  forall s1 s2, agree path s1 s2 -> snd (m s1) = snd (m s2) /\ agree path (fst (m s1)) (fst (m s2)).
Lemma ig_lift : forall A path (r : res A), ignores path (lift r).
Proof. intros A path r s1 s2 H. split; [reflexivity|exact H]. Qed.
Lemma ig_load : forall path p, p <> path -> ignores path (load p).
Proof. intros path p N s1 s2 H. cbn. rewrite (H p N). split; [reflexivity|exact H]. Qed.
Lemma ig_save : forall path p c, ignores path (save p c).
Proof. intros path p c s1 s2 H. cbn. split; [reflexivity|]. intros q N. destruct (String.eqb q p); auto. Qed.
Lemma ig_bind : forall A B path (m : io K A) (f : A -> io K B), ignores path m -> (forall a, ignores path (f a)) -> ignores path (bind_io m f).
Proof.
  intros A B path m f H1 H2 s1 s2 H. unfold bind_io. destruct (H1 s1 s2 H) as [E A1].
  destruct (m s1) as [t1 r1]. destruct (m s2) as [t2 r2]. cbn in *. subst r2. destruct r1 as [a|e]; cbn; [apply H2; auto|auto].
Qed.
End IO.

Ltac wo := repeat first
  [ apply wo_lift | apply wo_load | (apply wo_save; cbn; tauto)
  | (apply wo_bind; [|intro]) | match goal with
    | |- writes_only _ (match ?x with _ => _ end) => destruct x
    | |- writes_only _ (if ?x then _ else _) => destruct x
    end ].
Ltac ig := repeat first
  [ apply ig_lift | apply ig_save | (apply ig_load; (assumption || congruence))
  | (apply ig_bind; [|intro]) | match goal with
    | |- ignores _ (match ?x with _ => _ end) => destruct x
    | |- ignores _ (if ?x then _ else _) => destruct x
    end ].

(** ** file names *)
Lemma append_inj_l : forall p a b, (p ++ a = p ++ b)%string -> a = b.
Proof. induction p as [|c p IH]; cbn; intros a b H; [auto|]. inversion H. auto. Qed.
Lemma length_append : forall a b, String.length (a ++ b)%string = String.length a + String.length b.
Proof. induction a as [|c a IH]; intros b; cbn; [reflexivity|]. rewrite IH. reflexivity. Qed.
Ltac path_diff := let H := fresh in intro H; unfold simulation_path, standard_path, bayesian_path, reference_path in H;
  apply (f_equal String.length) in H; rewrite !length_append in H; cbn [String.length] in H; lia.
Lemma path_sim_std : forall n, standard_path n <> simulation_path n. Proof. intro n. path_diff. Qed.
Lemma path_sim_bay : forall n, bayesian_path n <> simulation_path n. Proof. intro n. path_diff. Qed.
Lemma path_sim_ref : forall n, reference_path n <> simulation_path n. Proof. intro n. path_diff. Qed.
Lemma path_bay_std : forall n m, bayesian_path n <> standard_path m.
Proof. intros n m H. unfold bayesian_path, standard_path in H. cbn in H. discriminate. Qed.
Lemma path_ref_std : forall n m, reference_path n <> standard_path m.
Proof. intros n m H. unfold reference_path, standard_path in H. cbn in H. discriminate. Qed.
Lemma path_ref_bay : forall n m, reference_path n <> bayesian_path m.
Proof. intros n m H. unfold reference_path, bayesian_path in H. cbn in H. discriminate. Qed.

(** ** labels *)
Lemma nth_is_phase : forall ids p a, nth a (is_phase ids p) false = true <-> nth_error ids a = Some p.
Proof.
  intros ids p a. unfold is_phase. destruct (nth_error ids a) as [q|] eqn:E.
  - rewrite (nth_indep _ false (Z.eqb q p)) by (rewrite map_length; apply nth_error_Some; congruence).
    assert (Hn : nth a (map (fun x => (x =? p)%Z) ids) (Z.eqb q p) = Z.eqb q p).
    { change (Z.eqb q p) with ((fun x => (x =? p)%Z) q) at 1. rewrite map_nth. rewrite (nth_error_nth _ _ _ E). reflexivity. }
    rewrite Hn. rewrite Z.eqb_eq. split; [intros ->; auto|intro H; inversion H; auto].
  - apply nth_error_None in E. rewrite nth_overflow by (rewrite map_length; lia). split; discriminate.
Qed.
Lemma positions_selected : forall ids p idx, positions_of ids p idx <-> idx = selected (is_phase ids p).
Proof.
  intros ids p idx. 
  assert (S : StronglySorted lt (selected (is_phase ids p))) by (apply sorted_filter, sorted_seq).
  assert (I : forall a, In a (selected (is_phase ids p)) <-> nth_error ids a = Some p) by (intro a; rewrite in_selected; apply nth_is_phase).
  split; [intros [S' I']|intros ->; split; auto]. apply sorted_unique; auto. intro a. rewrite I, I'. tauto.
Qed.
Lemma length_is_phase : forall ids p, length (is_phase ids p) = length ids.
Proof. intros. apply map_length. Qed.
