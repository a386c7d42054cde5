(** Whole runs of the batch script. *)
From Coq Require Import String.
From Coq Require Import Bool Arith List Ascii Lia.
From Verif Require Import ModelBatch SpecBatch ProofBatch.
Import ListNotations.
Close Scope string_scope.
Local Open Scope list_scope.
Local Open Scope nat_scope.

Section Run.
Variables c s : list line.
Hypothesis CD : clean_disk c s.
Notation D e := (disk_with e c s).

Lemma file_conf : forall e e', the_seed e = the_seed e' -> the_level e = the_level e' -> file_with e c = file_with e' c.
Proof using CD.
  intros e e' H1 H2. unfold file_with. apply map_ext_in. intros l I. destruct CD as [C _]. unfold clean in C. rewrite Forall_forall in C. specialize (C l I).
  destruct l as [x|k b a]; [reflexivity|]. destruct C as ([<-|[<-|[]]] & _); cbn [line_with]; unfold value; cbn; rewrite ?H1, ?H2; reflexivity.
Qed.
Lemma file_sim : forall e e', the_days e = the_days e' -> file_with e s = file_with e' s.
Proof using CD.
  intros e e' H1. unfold file_with. apply map_ext_in. intros l I. destruct CD as [_ C]. unfold clean in C. rewrite Forall_forall in C. specialize (C l I).
  destruct l as [x|k b a]; [reflexivity|]. destruct C as ([<-|[]] & _). cbn [line_with]. unfold value; cbn. rewrite H1. reflexivity.
Qed.

Lemma exec_seed : forall e old new, numbers e -> settled old (the_seed e) ->
  exec (D e) (Sed ConfPy (seed_key ++ old) (seed_key ++ new)) = D (Set_ (vsed old new (the_seed e)) (the_level e) (the_days e)).
Proof using CD.
  intros e old new N T. unfold exec, disk_with. cbn [conf_py simulation_py]. f_equal.
  - rewrite (sed_file [seed_key; noise_key] seed_key old new e c); [reflexivity| |left; reflexivity|apply CD|exact N|exact T].
    intros k [<-|[<-|[]]]; cbn; auto.
  - apply file_sim. reflexivity.
Qed.
Lemma exec_level : forall e old new, numbers e -> settled old (the_level e) ->
  exec (D e) (Sed ConfPy (noise_key ++ old) (noise_key ++ new)) = D (Set_ (the_seed e) (vsed old new (the_level e)) (the_days e)).
Proof using CD.
  intros e old new N T. unfold exec, disk_with. cbn [conf_py simulation_py]. f_equal.
  - rewrite (sed_file [seed_key; noise_key] noise_key old new e c); [reflexivity| |right; left; reflexivity|apply CD|exact N|exact T].
    intros k [<-|[<-|[]]]; cbn; auto.
  - apply file_sim. reflexivity.
Qed.
Lemma exec_days : forall e old new, numbers e -> settled old (the_days e) ->
  exec (D e) (Sed SimulationPy (days_key ++ old) (days_key ++ new)) = D (Set_ (the_seed e) (the_level e) (vsed old new (the_days e))).
Proof using CD.
  intros e old new N T. unfold exec, disk_with. cbn [conf_py simulation_py]. f_equal.
  - apply file_conf; reflexivity.
  - rewrite (sed_file [days_key] days_key old new e s); [reflexivity| |left; reflexivity|apply CD|exact N|exact T].
    intros k [<-|[]]; cbn; auto.
Qed.

(** *** runs that are not interrupted *)
Definition seen (plan : list (text * settings)) : list (text * disk) := map (fun x => (fst x, D (snd x))) plan.
Record follows (P : settings -> Prop) (e0 : settings) (l : list step) (e1 : settings) (plan : list (text * settings)) : Prop := {
  f_end : exec_all (D e0) l = D e1;
  f_all : forall k, exists e, exec_all (D e0) (firstn k l) = D e /\ P e;
  f_seen : experiments (D e0) l = seen plan }.

Lemma experiments_app : forall l1 l2 d, experiments d (l1 ++ l2) = experiments d l1 ++ experiments (exec_all d l1) l2.
Proof.
  induction l1 as [|x l1 IH]; intros l2 d; [reflexivity|]. change ((x :: l1) ++ l2) with (x :: (l1 ++ l2)). cbn [experiments].
  rewrite IH, <- app_assoc. reflexivity.
Qed.

Lemma follows_app : forall P e0 l1 e1 p1 l2 e2 p2, follows P e0 l1 e1 p1 -> follows P e1 l2 e2 p2 -> follows P e0 (l1 ++ l2) e2 (p1 ++ p2).
Proof.
  intros P e0 l1 e1 p1 l2 e2 p2 [A1 A2 A3] [B1 B2 B3]. constructor.
  - unfold exec_all in *. rewrite fold_left_app, A1. exact B1.
  - intros k. rewrite firstn_app. unfold exec_all in *. rewrite fold_left_app.
    destruct (le_lt_dec k (length l1)) as [L|L].
    + replace (k - length l1) with 0 by lia. cbn [firstn fold_left]. apply A2.
    + rewrite (firstn_all2 l1) by lia. rewrite A1. apply B2.
  - rewrite experiments_app, A1, A3, B3. unfold seen. rewrite map_app. reflexivity.
Qed.

Lemma follows_nil : forall (P : settings -> Prop) e, P e -> follows P e [] e [].
Proof. intros P e H. constructor; [reflexivity| |reflexivity]. intros k. exists e. rewrite firstn_nil. auto. Qed.

Lemma follows_step : forall (P : settings -> Prop) e x e' plan, P e -> P e' -> exec (D e) x = D e' -> experiments (D e) [x] = seen plan -> follows P e [x] e' plan.
Proof.
  intros P e x e' plan H1 H2 H3 H4. constructor; [exact H3| |exact H4]. intros [|k]; [exists e; auto|]. exists e'. cbn [firstn]. rewrite firstn_nil. auto.
Qed.

Lemma follows_flat : forall A (P : settings -> Prop) e (f : A -> list step) g l, P e -> (forall x, In x l -> follows P e (f x) e (g x)) ->
  follows P e (flat_map f l) e (flat_map g l).
Proof.
  intros A P e f g l H. induction l as [|x l IH]; intros F; [apply follows_nil; auto|]. cbn [flat_map].
  eapply follows_app; [apply F; left; reflexivity|apply IH; intros y I; apply F; right; exact I].
Qed.

Lemma follows_program : forall (P : settings -> Prop) e a, P e -> follows P e [Program a] e [(a, e)].
Proof. intros P e a H. apply follows_step; auto. Qed.
Lemma follows_seed : forall (P : settings -> Prop) e old new, P e -> numbers e -> the_seed e = old -> P (Set_ new (the_level e) (the_days e)) ->
  follows P e [Sed ConfPy (seed_key ++ old) (seed_key ++ new)] (Set_ new (the_level e) (the_days e)) [].
Proof using CD.
  intros P e old new H N E H2. apply follows_step; auto. rewrite exec_seed; auto; rewrite E; [rewrite vsed_self; reflexivity|apply settled_self].
Qed.
Lemma follows_level : forall (P : settings -> Prop) e old new, P e -> numbers e -> the_level e = old -> P (Set_ (the_seed e) new (the_days e)) ->
  follows P e [Sed ConfPy (noise_key ++ old) (noise_key ++ new)] (Set_ (the_seed e) new (the_days e)) [].
Proof using CD.
  intros P e old new H N E H2. apply follows_step; auto. rewrite exec_level; auto; rewrite E; [rewrite vsed_self; reflexivity|apply settled_self].
Qed.
Lemma follows_days : forall (P : settings -> Prop) e old new, P e -> numbers e -> the_days e = old -> P (Set_ (the_seed e) (the_level e) new) ->
  follows P e [Sed SimulationPy (days_key ++ old) (days_key ++ new)] (Set_ (the_seed e) (the_level e) new) [].
Proof using CD.
  intros P e old new H N E H2. apply follows_step; auto. rewrite exec_days; auto; rewrite E; [rewrite vsed_self; reflexivity|apply settled_self].
Qed.

Lemma numbers_original : number (txt "131") /\ number (txt "1") /\ number (txt "7").
Proof. repeat split; discriminate. Qed.

Lemma follows_cons : forall P e0 x e1 p1 l e2 p2, follows P e0 [x] e1 p1 -> follows P e1 l e2 p2 -> follows P e0 (x :: l) e2 (p1 ++ p2).
Proof. intros. change (x :: l) with ([x] ++ l). eapply follows_app; eauto. Qed.

Ltac side := match goal with
  | |- among _ _ _ _ => unfold among; cbn [the_seed the_level the_days original]; repeat split; cbn [In]; auto 10
  | |- numbers _ => unfold numbers; cbn [the_seed the_level the_days original]; split; [|split]; auto
  | |- _ = _ => reflexivity end.

Lemma follows_noise : forall seeds levels days, Forall number seeds -> Forall number levels ->
  follows (among seeds levels days) original (noise_branch seeds levels) original (noise_plan seeds levels).
Proof using CD.
  intros seeds levels days HS HL. rewrite Forall_forall in HS, HL. pose proof numbers_original as (N1 & N2 & N3).
  unfold noise_branch, noise_plan. apply follows_flat; [side|]. intros seed I.
  change ((txt "simulate_network.py -vqte --network ieee123center", Set_ seed (txt "1") (txt "7")) :: _) with
    ([] ++ [(txt "simulate_network.py -vqte --network ieee123center", Set_ seed (txt "1") (txt "7"))] ++
     flat_map (fun i => map (fun a => (a, Set_ seed i (txt "7"))) [txt "simulate_network.py -qtde --network ieee123center"; identify_args; plot_args]) levels).
  rewrite <- (app_nil_r (flat_map _ levels)) at 1. cbn [app].
  eapply (follows_cons _ _ _ (Set_ seed (txt "1") (txt "7")) []).
  { apply (follows_seed _ original (txt "131") seed); side. }
  eapply (follows_cons _ _ _ _ [_]).
  { apply follows_program. side. }
  eapply follows_app.
  - apply follows_flat; [side|]. intros i J.
    eapply (follows_cons _ _ _ (Set_ seed i (txt "7")) []).
    { apply (follows_level _ (Set_ seed (txt "1") (txt "7")) (txt "1") i); side. }
    eapply (follows_cons _ _ _ _ [_]); [apply follows_program; side|].
    eapply (follows_cons _ _ _ _ [_]); [apply follows_program; side|].
    eapply (follows_cons _ _ _ _ [_]); [apply follows_program; side|].
    apply (follows_level _ (Set_ seed i (txt "7")) i (txt "1")); side.
  - apply (follows_seed _ (Set_ seed (txt "1") (txt "7")) seed (txt "131")); side.
Qed.

Lemma follows_size : forall seeds levels days, Forall number seeds -> Forall number days ->
  follows (among seeds levels days) original (size_branch seeds days) original (size_plan seeds days).
Proof using CD.
  intros seeds levels days HS HL. rewrite Forall_forall in HS, HL. pose proof numbers_original as (N1 & N2 & N3).
  unfold size_branch, size_plan. apply follows_flat; [side|]. intros seed I.
  rewrite <- (app_nil_r (flat_map _ days)) at 1. 
  change ([Sed ConfPy (txt "seed = 131") (txt "seed = " ++ seed)] ++ ?x) with (Sed ConfPy (txt "seed = 131") (txt "seed = " ++ seed) :: x).
  eapply (follows_cons _ _ _ (Set_ seed (txt "1") (txt "7")) []).
  { apply (follows_seed _ original (txt "131") seed); side. }
  eapply follows_app.
  - apply follows_flat; [side|]. intros i J.
    eapply (follows_cons _ _ _ (Set_ seed (txt "1") i) []).
    { apply (follows_days _ (Set_ seed (txt "1") (txt "7")) (txt "7") i); side. }
    eapply (follows_cons _ _ _ _ [_]); [apply follows_program; side|].
    eapply (follows_cons _ _ _ _ [_]); [apply follows_program; side|].
    eapply (follows_cons _ _ _ _ [_]); [apply follows_program; side|].
    apply (follows_days _ (Set_ seed (txt "1") i) i (txt "7")); side.
  - apply (follows_seed _ (Set_ seed (txt "1") (txt "7")) seed (txt "131")); side.
Qed.
End Run.
