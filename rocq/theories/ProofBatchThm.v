(** Interrupted runs of the batch script, and running it again. *)
From Coq Require Import String.
From Coq Require Import Bool Arith List Ascii Lia.
From Verif Require Import ModelBatch SpecBatch ProofBatch ProofBatchRun.
Import ListNotations.
Close Scope string_scope.
Local Open Scope list_scope.
Local Open Scope nat_scope.

(** *** the script on settings instead of files *)
Inductive vstep := VSeed (old new : text) | VLevel (old new : text) | VDays (old new : text) | VProgram (a : text).
Definition conc (x : vstep) : step :=
  match x with
  | VSeed o n => Sed ConfPy (seed_key ++ o) (seed_key ++ n)
  | VLevel o n => Sed ConfPy (noise_key ++ o) (noise_key ++ n)
  | VDays o n => Sed SimulationPy (days_key ++ o) (days_key ++ n)
  | VProgram a => Program a
  end.
Definition vexec (e : settings) (x : vstep) : settings :=
  match x with
  | VSeed o n => Set_ (vsed o n (the_seed e)) (the_level e) (the_days e)
  | VLevel o n => Set_ (the_seed e) (vsed o n (the_level e)) (the_days e)
  | VDays o n => Set_ (the_seed e) (the_level e) (vsed o n (the_days e))
  | VProgram _ => e
  end.
Definition digits (o : text) : bool := forallb (fun c => number_char c && negb (Ascii.eqb c "."%char)) o.
Definition settledb (old v : text) : bool := digits old || (length old <=? length v) ||
  match old, v with c :: _, d :: _ => negb (Ascii.eqb c "."%char) && negb (Ascii.eqb c d) | _, _ => false end.
Lemma settledb_ok : forall old v, settledb old v = true -> settled old v.
Proof.
  intros old v H. unfold settledb in H. apply orb_true_iff in H. destruct H as [H|H]; [apply orb_true_iff in H; destruct H as [H|H]|].
  - apply settled_digits. exact H.
  - apply settled_short. apply Nat.leb_le. exact H.
  - destruct old as [|c old]; [discriminate|]. destruct v as [|d v]; [discriminate|]. apply andb_true_iff in H. destruct H as [H1 H2].
    apply settled_first; apply negb_true_iff; auto.
Qed.
Definition numberb (v : text) : bool := match v with [] => false | _ => forallb number_char v end.
Lemma numberb_ok : forall v, numberb v = true -> number v.
Proof. intros [|c v] H; [discriminate|]. split; [discriminate|exact H]. Qed.
Definition fine (e : settings) (x : vstep) : bool :=
  match x with VSeed o n => settledb o (the_seed e) && numberb n | VLevel o n => settledb o (the_level e) && numberb n
  | VDays o n => settledb o (the_days e) && numberb n | VProgram _ => true end.
Fixpoint all_fine (e : settings) (l : list vstep) : bool := match l with [] => true | x :: l' => fine e x && all_fine (vexec e x) l' end.

Lemma vsed_number : forall o n v, number n -> number v -> number (vsed o n v).
Proof.
  intros o n v [N1 N2] [V1 V2]. unfold vsed. destruct (smatch o v) as [r|] eqn:E; [|split; auto].
  destruct (smatch_suffix _ _ _ E) as (x & -> & _). rewrite forallb_app in V2. apply andb_true_iff in V2. destruct V2 as [_ V2].
  split; [destruct n; [contradiction|discriminate]|]. rewrite forallb_app, N2, V2. reflexivity.
Qed.
Lemma vexec_numbers : forall e x, numbers e -> fine e x = true -> numbers (vexec e x).
Proof.
  intros e x (H1 & H2 & H3) F. destruct x as [o n|o n|o n|a]; cbn [fine] in F; [| | |split; auto];
    apply andb_true_iff in F; destruct F as [_ F]; apply numberb_ok in F; (split; [|split]); cbn [vexec the_seed the_level the_days]; auto using vsed_number.
Qed.

Lemma exec_conc : forall c s e x, clean_disk c s -> numbers e -> fine e x = true -> exec (disk_with e c s) (conc x) = disk_with (vexec e x) c s.
Proof.
  intros c s e x CD N F. destruct x as [o n|o n|o n|a]; cbn [fine] in F; cbn [conc]; [| | |reflexivity];
    apply andb_true_iff in F; destruct F as [F _]; apply settledb_ok in F.
  - apply exec_seed; auto.
  - apply exec_level; auto.
  - apply exec_days; auto.
Qed.

Lemma exec_all_conc : forall c s l e, clean_disk c s -> numbers e -> all_fine e l = true ->
  exec_all (disk_with e c s) (map conc l) = disk_with (fold_left vexec l e) c s /\ numbers (fold_left vexec l e).
Proof.
  intros c s. induction l as [|x l IH]; intros e CD N F; [auto|]. cbn [all_fine] in F. apply andb_true_iff in F. destruct F as [F1 F2].
  cbn [map fold_left exec_all]. unfold exec_all. cbn [fold_left]. rewrite (exec_conc c s e x CD N F1). apply IH; auto. apply vexec_numbers; auto.
Qed.

Lemma all_fine_firstn : forall l k e, all_fine e l = true -> all_fine e (firstn k l) = true.
Proof.
  induction l as [|x l IH]; intros [|k] e H; try reflexivity. cbn [firstn all_fine] in *. apply andb_true_iff in H. destruct H as [H1 H2].
  rewrite H1. apply IH. exact H2.
Qed.

Definition vnoise (seeds levels : list text) : list vstep :=
  flat_map (fun seed => [VSeed (txt "131") seed; VProgram (txt "simulate_network.py -vqte --network ieee123center")] ++
    flat_map (fun i => [VLevel (txt "1") i; VProgram (txt "simulate_network.py -qtde --network ieee123center"); VProgram identify_args; VProgram plot_args; VLevel i (txt "1")]) levels ++
    [VSeed seed (txt "131")]) seeds.
Definition vsize (seeds days : list text) : list vstep :=
  flat_map (fun seed => [VSeed (txt "131") seed] ++
    flat_map (fun i => [VDays (txt "7") i; VProgram (txt "simulate_network.py -qte --network ieee123center"); VProgram identify_args; VProgram plot_args; VDays i (txt "7")]) days ++
    [VSeed seed (txt "131")]) seeds.
Definition vscript (n s : bool) : list vstep :=
  (if n then vnoise [txt "11"] [txt "0.1"] else []) ++
  (if s then vsize [txt "11"; txt "13"; txt "111"; txt "131"] [txt "1"; txt "2"; txt "3"; txt "5"; txt "7"; txt "10"; txt "15"; txt "21"; txt "30"; txt "45"; txt "60"] else []).
Lemma vscript_ok : forall n s, script n s = map conc (vscript n s).
Proof. intros [] []; vm_compute; reflexivity. Qed.

Definition text_eqb (a b : text) : bool := if list_eq_dec ascii_dec a b then true else false.
Definition healedb (e : settings) : bool :=
  negb (text_eqb (the_seed e) (txt "111")) && negb (existsb (text_eqb (the_days e)) [txt "10"; txt "15"; txt "21"; txt "30"]).
Definition set_eqb (e e' : settings) : bool := text_eqb (the_seed e) (the_seed e') && text_eqb (the_level e) (the_level e') && text_eqb (the_days e) (the_days e').
Lemma text_eqb_ok : forall a b, text_eqb a b = true <-> a = b.
Proof. intros a b. unfold text_eqb. destruct (list_eq_dec ascii_dec a b); split; auto; discriminate. Qed.
Lemma healedb_ok : forall e, healedb e = true <-> healed e.
Proof.
  intros e. unfold healedb, healed. rewrite andb_true_iff, !negb_true_iff. split; intros [H1 H2]; split.
  - intros E. apply text_eqb_ok in E. congruence.
  - intros I. assert (X : existsb (text_eqb (the_days e)) [txt "10"; txt "15"; txt "21"; txt "30"] = true).
    { apply existsb_exists. exists (the_days e). split; [exact I|apply text_eqb_ok; reflexivity]. } congruence.
  - destruct (text_eqb (the_seed e) (txt "111")) eqn:E; auto. apply text_eqb_ok in E. contradiction.
  - destruct (existsb (text_eqb (the_days e)) _) eqn:E; auto. apply existsb_exists in E. destruct E as (x & I & X). apply text_eqb_ok in X. subst x. contradiction.
Qed.

(** computed for every step at which the script may stop *)
Definition check (n s : bool) : bool :=
  all_fine original (vscript n s) &&
  forallb (fun k => let e := fold_left vexec (firstn k (vscript n s)) original in
     all_fine e (vscript n s) && Bool.eqb (set_eqb (fold_left vexec (vscript n s) e) original) (healedb e) &&
     Bool.eqb (text_eqb (the_seed (fold_left vexec (vscript n s) e)) (txt "131") && text_eqb (the_days (fold_left vexec (vscript n s) e)) (txt "7")) (healedb e))
    (seq 0 (S (length (vscript n s)))).
Lemma checked : forall n s, check n s = true.
Proof. intros [] []; vm_compute; reflexivity. Qed.

Lemma value_inj_conf : forall c e e', mentions seed_key c -> file_with e c = file_with e' c -> the_seed e = the_seed e'.
Proof.
  intros c e e' (b & a & I) H. unfold file_with in H. apply In_nth_error in I. destruct I as [i I].
  assert (X : nth_error (map (line_with e) c) i = nth_error (map (line_with e') c) i) by (rewrite H; reflexivity).
  rewrite !nth_error_map, I in X. cbn [option_map line_with] in X. injection X as X.
  apply app_inv_head in X. cbn in X. injection X as X. apply app_inv_tail in X. exact X.
Qed.
Lemma value_inj_sim : forall s e e', mentions days_key s -> file_with e s = file_with e' s -> the_days e = the_days e'.
Proof.
  intros c e e' (b & a & I) H. unfold file_with in H. apply In_nth_error in I. destruct I as [i I].
  assert (X : nth_error (map (line_with e) c) i = nth_error (map (line_with e') c) i) by (rewrite H; reflexivity).
  rewrite !nth_error_map, I in X. cbn [option_map line_with] in X. injection X as X.
  apply app_inv_head in X. cbn in X. injection X as X. apply app_inv_tail in X. exact X.
Qed.

Lemma original_numbers : numbers original.
Proof. pose proof numbers_original as (H1 & H2 & H3). split; [|split]; auto. Qed.

Theorem p_rerun_batch : forall n z k c s e, clean_disk c s -> mentions seed_key c -> mentions days_key s ->
  interrupted k (disk_with original c s) (script n z) = disk_with e c s ->
  (exec_all (interrupted k (disk_with original c s) (script n z)) (script n z) = disk_with original c s <-> healed e).
Proof.
  intros n z k c s e CD M1 M2 H. pose proof (checked n z) as C. unfold check in C. apply andb_true_iff in C. destruct C as [C1 C2].
  set (k' := Nat.min k (length (vscript n z))).
  assert (E : interrupted k (disk_with original c s) (script n z) = disk_with (fold_left vexec (firstn k' (vscript n z)) original) c s /\
    numbers (fold_left vexec (firstn k' (vscript n z)) original)).
  { unfold interrupted. rewrite vscript_ok. rewrite firstn_map.
    replace (firstn k (vscript n z)) with (firstn k' (vscript n z)).
    - apply exec_all_conc; auto using original_numbers, all_fine_firstn.
    - unfold k'. destruct (Nat.min_spec k (length (vscript n z))) as [[L ->]|[L ->]]; [reflexivity|]. rewrite firstn_all, firstn_all2 by lia. reflexivity. }
  rewrite forallb_forall in C2. specialize (C2 k'). rewrite in_seq in C2. specialize (C2 ltac:(unfold k'; lia)). cbv zeta in C2.
  set (e1 := fold_left vexec (firstn k' (vscript n z)) original) in *. destruct E as [E NE].
  apply andb_true_iff in C2. destruct C2 as [C2 C4]. apply andb_true_iff in C2. destruct C2 as [C2 C3].
  apply eqb_prop in C3. apply eqb_prop in C4.
  rewrite E in H. assert (S1 : the_seed e1 = the_seed e) by (apply (value_inj_conf c); auto; injection H; auto).
  assert (S2 : the_days e1 = the_days e) by (apply (value_inj_sim s); auto; injection H; auto).
  assert (HE : healed e1 <-> healed e) by (unfold healed; rewrite S1, S2; reflexivity).
  rewrite E. rewrite vscript_ok. destruct (exec_all_conc c s (vscript n z) e1 CD NE C2) as [-> _].
  rewrite <- HE, <- healedb_ok. split.
  - intros X. rewrite <- C4. assert (X1 : the_seed (fold_left vexec (vscript n z) e1) = txt "131") by (change (txt "131") with (the_seed original); apply (value_inj_conf c); auto; injection X; auto).
    assert (X2 : the_days (fold_left vexec (vscript n z) e1) = txt "7") by (change (txt "7") with (the_days original); apply (value_inj_sim s); auto; injection X; auto).
    apply andb_true_iff. split; apply text_eqb_ok; auto.
  - intros X. rewrite X in C3. unfold set_eqb in C3. rewrite !andb_true_iff, !text_eqb_ok in C3. destruct C3 as [[X1 X2] X3].
    destruct (fold_left vexec (vscript n z) e1) as [a b d]. cbn in X1, X2, X3. subst. reflexivity.
Qed.

Theorem p_uninterrupted : forall c s seeds levels seeds2 days, clean_disk c s -> Forall number (seeds ++ levels ++ seeds2 ++ days) ->
  exec_all (disk_with original c s) (noise_branch seeds levels ++ size_branch seeds2 days) = disk_with original c s.
Proof.
  intros c s seeds levels seeds2 days CD H. rewrite !Forall_app in H. destruct H as (H1 & H2 & H3 & H4).
  unfold exec_all. rewrite fold_left_app. fold (exec_all (disk_with original c s) (noise_branch seeds levels)).
  destruct (follows_noise c s CD seeds levels [] H1 H2) as [-> _ _]. apply (follows_size c s CD seeds2 [] days H3 H4).
Qed.

Theorem p_announced : forall c s seeds levels seeds2 days, clean_disk c s -> Forall number (seeds ++ levels ++ seeds2 ++ days) ->
  experiments (disk_with original c s) (noise_branch seeds levels ++ size_branch seeds2 days) =
  map (fun x => (fst x, disk_with (snd x) c s)) (noise_plan seeds levels ++ size_plan seeds2 days).
Proof.
  intros c s seeds levels seeds2 days CD H. rewrite !Forall_app in H. destruct H as (H1 & H2 & H3 & H4).
  rewrite experiments_app. destruct (follows_noise c s CD seeds levels [] H1 H2) as [-> _ ->].
  destruct (follows_size c s CD seeds2 [] days H3 H4) as [_ _ ->]. rewrite map_app. reflexivity.
Qed.

Lemma among_incl : forall a1 b1 c1 a2 b2 c2 e, incl a1 a2 -> incl b1 b2 -> incl c1 c2 -> among a1 b1 c1 e -> among a2 b2 c2 e.
Proof. intros a1 b1 c1 a2 b2 c2 e HA HB HC (H1 & H2 & H3). repeat split; [destruct H1|destruct H2|destruct H3]; try (left; assumption); right; auto. Qed.

Theorem p_interrupted : forall c s seeds levels seeds2 days k, clean_disk c s -> Forall number (seeds ++ levels ++ seeds2 ++ days) ->
  exists e, interrupted k (disk_with original c s) (noise_branch seeds levels ++ size_branch seeds2 days) = disk_with e c s /\ among (seeds ++ seeds2) levels days e.
Proof.
  intros c s seeds levels seeds2 days k CD H. rewrite !Forall_app in H. destruct H as (H1 & H2 & H3 & H4).
  destruct (follows_noise c s CD seeds levels days H1 H2) as [A1 A2 _].
  destruct (follows_size c s CD seeds2 levels days H3 H4) as [_ B2 _].
  unfold interrupted. rewrite firstn_app. unfold exec_all. rewrite fold_left_app.
  destruct (le_lt_dec k (length (noise_branch seeds levels))) as [L|L].
  - replace (k - length (noise_branch seeds levels)) with 0 by lia. cbn [firstn fold_left]. destruct (A2 k) as (e & E1 & E2). exists e. split; [exact E1|].
    revert E2. apply among_incl; auto using incl_refl, incl_appl.
  - rewrite (firstn_all2 (noise_branch seeds levels)) by lia. fold (exec_all (disk_with original c s) (noise_branch seeds levels)). rewrite A1.
    destruct (B2 (k - length (noise_branch seeds levels))) as (e & E1 & E2). exists e. split; [exact E1|].
    revert E2. apply among_incl; auto using incl_refl, incl_appr.
Qed.
