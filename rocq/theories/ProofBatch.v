(** The batch script on configuration files. *)
From Coq Require Import String.
From Coq Require Import Bool Arith List Ascii Lia.
From Verif Require Import ModelBatch SpecBatch.
Import ListNotations.
Close Scope string_scope.
Local Open Scope list_scope.
Local Open Scope nat_scope.

(** *** matching *)
Definition plain_key (k : text) : Prop := k <> [] /\ forallb (fun c => negb (number_char c)) k = true.

Lemma plain_cons : forall c k, forallb (fun c => negb (number_char c)) (c :: k) = true -> number_char c = false /\ forallb (fun c => negb (number_char c)) k = true.
Proof. intros c k H. cbn [forallb] in H. apply andb_true_iff in H. destruct H as [H1 H2]. apply negb_true_iff in H1. auto. Qed.

Lemma plain_in : forall k c, forallb (fun c => negb (number_char c)) k = true -> number_char c = true -> ~ In c k.
Proof. intros k c H N I. rewrite forallb_forall in H. specialize (H c I). rewrite N in H. discriminate. Qed.

Lemma not_dot : forall c, number_char c = false -> Ascii.eqb c "."%char = false.
Proof. intros c H. destruct (Ascii.eqb c "."%char) eqn:E; auto. unfold number_char in H. rewrite E, orb_true_r in H. discriminate. Qed.

Lemma smatch_key : forall k old s r, forallb (fun c => negb (number_char c)) k = true -> smatch (k ++ old) s = Some r ->
  exists s2, s = k ++ s2 /\ smatch old s2 = Some r.
Proof.
  induction k as [|c k IH]; intros old s r H E; [exists s; auto|].
  apply plain_cons in H. destruct H as [H1 H2]. destruct s as [|d s]; cbn [app smatch] in E; [discriminate|].
  rewrite (not_dot c H1) in E. cbn [orb] in E. destruct (Ascii.eqb c d) eqn:X; [|discriminate].
  apply Ascii.eqb_eq in X. subst d. destruct (IH old s r H2 E) as (s2 & -> & E2). exists s2. auto.
Qed.

Lemma smatch_app_key : forall k old s, forallb (fun c => negb (number_char c)) k = true -> smatch (k ++ old) (k ++ s) = smatch old s.
Proof.
  induction k as [|c k IH]; intros old s H; [reflexivity|]. apply plain_cons in H. destruct H as [H1 H2].
  cbn [app smatch]. rewrite (not_dot c H1), Ascii.eqb_refl. cbn [orb]. apply IH; auto.
Qed.

Lemma smatch_self : forall old s, smatch old (old ++ s) = Some s.
Proof. induction old as [|c old IH]; intros s; [reflexivity|]. cbn [app smatch]. rewrite Ascii.eqb_refl, orb_true_r. apply IH. Qed.

Lemma smatch_suffix : forall p s r, smatch p s = Some r -> exists x, s = x ++ r /\ length x = length p.
Proof.
  induction p as [|c p IH]; intros s r H; [injection H as <-; exists []; auto|]. destruct s as [|d s]; [discriminate|].
  cbn [smatch] in H. destruct (_ || _); [|discriminate]. destruct (IH s r H) as (x & -> & L). exists (d :: x). cbn. auto.
Qed.

Lemma subst_skip : forall pat rep p s r, smatch p s = Some r -> subst pat rep (length p) s = subst pat rep 0 r.
Proof.
  intros pat rep. induction p as [|c p IH]; intros s r H; [injection H as <-; reflexivity|]. destruct s as [|d s]; [discriminate|].
  cbn [smatch] in H. destruct (_ || _); [|discriminate]. cbn [length subst]. apply IH. exact H.
Qed.

Lemma subst_match : forall pat rep s r, pat <> [] -> smatch pat s = Some r -> subst pat rep 0 s = rep ++ subst pat rep 0 r.
Proof.
  intros pat rep s r P H. destruct pat as [|c p]; [contradiction|]. destruct s as [|d s]; [discriminate|].
  change (subst (c :: p) rep 0 (d :: s)) with (match smatch (c :: p) (d :: s) with Some _ => rep ++ subst (c :: p) rep (length (c :: p) - 1) s | None => d :: subst (c :: p) rep 0 s end).
  rewrite H. cbn [length]. rewrite Nat.sub_succ, Nat.sub_0_r. f_equal.
  apply (subst_skip (c :: p) rep p s r). cbn [smatch] in H. destruct (_ || _); [exact H|discriminate].
Qed.

Lemma subst_none : forall k old rep s, forallb (fun c => negb (number_char c)) k = true -> k <> [] -> ~ occurs k s -> subst (k ++ old) rep 0 s = s.
Proof.
  intros k old rep s P N. induction s as [|d s IH]; intros H; [reflexivity|].
  cbn [subst]. destruct (smatch (k ++ old) (d :: s)) as [r|] eqn:E.
  - exfalso. destruct (smatch_key k old _ r P E) as (s2 & E2 & _). apply H. exists [], s2. auto.
  - f_equal. apply IH. intros (a & b & ->). apply H. exists (d :: a), b. reflexivity.
Qed.

(** *** occurrences around a character that is not in the key *)
Lemma occurs_around : forall k x c y, ~ In c k -> occurs k (x ++ c :: y) -> occurs k x \/ occurs k y.
Proof.
  intros k x c y N (a & b & E).
  destruct (le_lt_dec (length a + length k) (length x)) as [L|L].
  - left. exists a, (skipn (length a + length k) x).
    assert (F : firstn (length a + length k) (x ++ c :: y) = a ++ k).
    { rewrite E, app_assoc, firstn_app, app_length. replace (length a + length k - (length a + length k)) with 0 by lia.
      rewrite firstn_all2 by (rewrite app_length; lia). cbn. apply app_nil_r. }
    rewrite firstn_app in F. replace (length a + length k - length x) with 0 in F by lia. rewrite firstn_O, app_nil_r in F.
    rewrite app_assoc, <- F. symmetry. apply firstn_skipn.
  - destruct (le_lt_dec (length a) (length x)) as [M|M].
    + exfalso. apply N. assert (F : nth_error (x ++ c :: y) (length x) = Some c) by (rewrite nth_error_app2, Nat.sub_diag by lia; reflexivity).
      rewrite E in F. rewrite nth_error_app2 in F by lia. rewrite nth_error_app1 in F by lia. eapply nth_error_In; eauto.
    + right. exists (skipn (S (length x)) a), b.
      assert (F : skipn (S (length x)) (x ++ c :: y) = y).
      { rewrite skipn_app. rewrite (skipn_all2 x) by lia. replace (S (length x) - length x) with 1 by lia. reflexivity. }
      rewrite <- F, E. rewrite skipn_app. replace (S (length x) - length a) with 0 by lia. reflexivity.
Qed.

Lemma occurs_numbers : forall k v x y, forallb (fun c => negb (number_char c)) k = true -> number v -> occurs k (x ++ v ++ y) -> occurs k x \/ occurs k y.
Proof.
  intros k v x y P [N V]. revert x. induction v as [|c v IH]; intros x H; [contradiction|].
  cbn [forallb] in V. apply andb_true_iff in V. destruct V as [V1 V2]. change ((c :: v) ++ y) with (c :: (v ++ y)) in H.
  destruct (occurs_around k x c (v ++ y) (plain_in k c P V1) H) as [A|A]; [left; exact A|]. right.
  destruct v as [|d v]; [exact A|]. destruct (IH ltac:(discriminate) V2 [] A) as [(a & b & B)|B]; [|exact B].
  symmetry in B. apply app_eq_nil in B. destruct B as [-> B]. apply app_eq_nil in B. destruct B as [-> _]. exists [], y. reflexivity.
Qed.

Lemma occurs_after_numbers : forall k v y, plain_key k -> forallb number_char v = true -> occurs k (v ++ y) -> occurs k y.
Proof.
  intros k v y [N P] V H. destruct v as [|c v]; [exact H|].
  assert (NV : number (c :: v)) by (split; [discriminate|exact V]).
  destruct (occurs_numbers k (c :: v) [] y P NV H) as [(a & b & B)|B]; [|exact B].
  symmetry in B. apply app_eq_nil in B. destruct B as [-> B]. apply app_eq_nil in B. destruct B as [-> _]. contradiction.
Qed.

(** *** one substitution on one line *)
Lemma subst_setting_at : forall k old new v a, plain_key k -> number v -> ~ occurs k a ->
  subst (k ++ old) (k ++ new) 0 (k ++ v ++ a) = k ++ match smatch old (v ++ a) with Some r => new ++ r | None => v ++ a end.
Proof.
  intros k old new v a P V A. pose proof P as [N Q].
  assert (NV : ~ occurs k (v ++ a)) by (intros X; apply A; eapply occurs_after_numbers; eauto; apply V).
  destruct (smatch old (v ++ a)) as [r|] eqn:E.
  - rewrite (subst_match (k ++ old) (k ++ new) (k ++ v ++ a) r).
    + rewrite subst_none; auto; [rewrite app_assoc; reflexivity|].
      intros (x & y & X). apply NV. destruct (smatch_suffix _ _ _ E) as (z & Z & _). exists (z ++ x), y. rewrite Z, X, <- !app_assoc. reflexivity.
    + destruct k; [contradiction|discriminate].
    + rewrite smatch_app_key; auto.
  - destruct k as [|c k]; [contradiction|].
    change (subst ((c :: k) ++ old) ((c :: k) ++ new) 0 ((c :: k) ++ v ++ a)) with
      (match smatch ((c :: k) ++ old) ((c :: k) ++ v ++ a) with Some _ => ((c :: k) ++ new) ++ subst ((c :: k) ++ old) ((c :: k) ++ new) (length ((c :: k) ++ old) - 1) (k ++ v ++ a)
       | None => c :: subst ((c :: k) ++ old) ((c :: k) ++ new) 0 (k ++ v ++ a) end).
    rewrite smatch_app_key, E by auto. cbn [app]. f_equal. change (c :: k ++ old) with ((c :: k) ++ old). apply subst_none; auto.
    intros H. destruct (occurs_numbers (c :: k) v k a Q V H) as [(x & y & X)|X]; [|contradiction].
    apply (f_equal (@length ascii)) in X. rewrite !app_length in X. cbn in X. lia.
Qed.

Lemma subst_before : forall k old rep b z, plain_key k -> (forall x y, b ++ k = x ++ k ++ y -> y = []) ->
  subst (k ++ old) rep 0 (b ++ k ++ z) = b ++ subst (k ++ old) rep 0 (k ++ z).
Proof.
  intros k old rep b z [N P]. induction b as [|c b IH]; intros H; [reflexivity|].
  change ((c :: b) ++ k ++ z) with (c :: (b ++ k ++ z)). cbn [subst].
  destruct (smatch (k ++ old) (c :: b ++ k ++ z)) as [r|] eqn:E.
  - exfalso. destruct (smatch_key k old _ r P E) as (s2 & E2 & _).
    assert (F : firstn (length k) ((c :: b) ++ k ++ z) = k) by (cbn [app]; rewrite E2, firstn_app, Nat.sub_diag, firstn_all, firstn_O; apply app_nil_r).
    rewrite app_assoc, firstn_app in F. replace (length k - length ((c :: b) ++ k)) with 0 in F by (rewrite app_length; cbn; lia).
    rewrite firstn_O, app_nil_r in F.
    assert (X : skipn (length k) ((c :: b) ++ k) = []).
    { apply (H []). cbn [app]. rewrite <- (firstn_skipn (length k) ((c :: b) ++ k)) at 1. rewrite F. reflexivity. }
    apply (f_equal (@length ascii)) in X. rewrite skipn_length, app_length in X. cbn [length] in X. lia.
  - cbn [app]. f_equal. apply IH. intros x y E2. apply (H (c :: x) y). cbn [app]. f_equal. exact E2.
Qed.

Definition resolved (old new v a : text) : text := match smatch old (v ++ a) with Some r => new ++ r | None => v ++ a end.

Lemma subst_own : forall ks k b a old new v, clean_line ks (Setting k b a) -> plain_key k -> number v ->
  subst (k ++ old) (k ++ new) 0 (b ++ k ++ v ++ a) = b ++ k ++ resolved old new v a.
Proof.
  intros ks k b a old new v (K & C1 & C2 & C3 & C4) P V. rewrite (subst_before k old (k ++ new) b (v ++ a)); auto.
  f_equal. rewrite subst_setting_at; auto.
Qed.

Lemma subst_other : forall ks k k' b a old rep v, clean_line ks (Setting k b a) -> In k' ks -> k' <> k -> plain_key k' -> number v ->
  subst (k' ++ old) rep 0 (b ++ k ++ v ++ a) = b ++ k ++ v ++ a.
Proof.
  intros ks k k' b a old rep v (K & C1 & C2 & C3 & C4) K' D P V. apply subst_none; try apply P. intros H.
  rewrite app_assoc in H. destruct (occurs_numbers k' v (b ++ k) a (proj2 P) V H) as [X|X]; [apply (C1 k'); auto|apply (C2 k'); auto].
Qed.

(** *** changing one setting *)
Definition with_value (k v : text) (e : settings) : settings :=
  if list_eq_dec ascii_dec k seed_key then Set_ v (the_level e) (the_days e)
  else if list_eq_dec ascii_dec k noise_key then Set_ (the_seed e) v (the_days e) else Set_ (the_seed e) (the_level e) v.

Definition keys := [seed_key; noise_key; days_key].
Lemma keys_plain : forall k, In k keys -> plain_key k.
Proof. intros k [<-|[<-|[<-|[]]]]; (split; [discriminate|vm_compute; reflexivity]). Qed.

Lemma value_same : forall k v e, In k keys -> value k (with_value k v e) = v.
Proof. intros k v e [<-|[<-|[<-|[]]]]; reflexivity. Qed.
Lemma value_diff : forall k k' v e, In k keys -> In k' keys -> k <> k' -> value k (with_value k' v e) = value k e.
Proof. intros k k' v e [<-|[<-|[<-|[]]]] [<-|[<-|[<-|[]]]] D; try contradiction; reflexivity. Qed.
Lemma value_number : forall k e, In k keys -> numbers e -> number (value k e).
Proof. intros k e [<-|[<-|[<-|[]]]] (H1 & H2 & H3); assumption. Qed.
Lemma numbers_with : forall k v e, number v -> numbers e -> numbers (with_value k v e).
Proof.
  intros k v e V (H1 & H2 & H3). unfold with_value, numbers. destruct (list_eq_dec ascii_dec k seed_key); [cbn; auto|].
  destruct (list_eq_dec ascii_dec k noise_key); cbn; auto.
Qed.

(** what a substitution does to a value, when the text after the value does not interfere *)
Definition vsed (old new v : text) : text := match smatch old v with Some r => new ++ r | None => v end.
Definition settled (old v : text) : Prop := forall a, match a with [] => True | c :: _ => number_char c = false end ->
  smatch old (v ++ a) = match smatch old v with Some r => Some (r ++ a) | None => None end.

Lemma sed_file : forall ks k old new e f, (forall k', In k' ks -> In k' keys) -> In k ks -> clean ks f -> numbers e -> settled old (value k e) ->
  sed (k ++ old) (k ++ new) (file_with e f) = file_with (with_value k (vsed old new (value k e)) e) f.
Proof.
  intros ks k old new e f S K C N T. unfold sed, file_with. rewrite map_map. apply map_ext_in. intros l I.
  unfold clean in C. rewrite Forall_forall in C. specialize (C l I). destruct l as [s|k2 b a].
  - cbn [line_with]. apply subst_none; try (apply keys_plain; auto). apply C. exact K.
  - pose proof C as (K2 & _ & _ & _ & C4). cbn [line_with]. destruct (list_eq_dec ascii_dec k k2) as [<-|D].
    + rewrite (subst_own ks k b a old new (value k e) C); [|apply keys_plain; auto|apply value_number; auto].
      rewrite value_same by auto. f_equal. f_equal. unfold resolved, vsed. rewrite (T a C4).
      destruct (smatch old (value k e)); [rewrite app_assoc; reflexivity|reflexivity].
    + rewrite (subst_other ks k2 k b a old (k ++ new) (value k2 e) C); auto; [|apply keys_plain; auto|apply value_number; auto].
      rewrite value_diff; auto.
Qed.

Lemma smatch_refl : forall v, smatch v v = Some [].
Proof. intros v. rewrite <- (smatch_self v []). rewrite app_nil_r. reflexivity. Qed.
Lemma settled_self : forall v, settled v v.
Proof. intros v a _. rewrite smatch_self, smatch_refl. reflexivity. Qed.
Lemma vsed_self : forall v new, vsed v new v = new.
Proof. intros v new. unfold vsed. rewrite smatch_refl. apply app_nil_r. Qed.

(** a pattern without dots *)
Lemma settled_digits : forall old v, forallb (fun c => number_char c && negb (Ascii.eqb c "."%char)) old = true -> settled old v.
Proof.
  intros old v. revert v. induction old as [|c old IH]; intros v H a A; [reflexivity|].
  cbn [forallb] in H. apply andb_true_iff in H. destruct H as [H1 H2]. apply andb_true_iff in H1. destruct H1 as [H1 H3]. apply negb_true_iff in H3.
  destruct v as [|d v].
  - cbn [app smatch]. destruct a as [|g a]; [reflexivity|]. rewrite H3. cbn [orb]. destruct (Ascii.eqb c g) eqn:X; [|reflexivity].
    apply Ascii.eqb_eq in X. subst g. rewrite H1 in A. discriminate.
  - cbn [app smatch]. destruct (_ || _); [|reflexivity]. apply IH; auto.
Qed.
(** a pattern not longer than the value *)
Lemma settled_short : forall old v, length old <= length v -> settled old v.
Proof.
  intros old. induction old as [|c old IH]; intros v H a A; [reflexivity|]. destruct v as [|d v]; [cbn in H; lia|].
  cbn [app smatch]. destruct (_ || _); [|reflexivity]. apply IH; auto. cbn in H. lia.
Qed.
Lemma settled_first : forall c old d v, Ascii.eqb c "."%char = false -> Ascii.eqb c d = false -> settled (c :: old) (d :: v).
Proof. intros c old d v H1 H2 a _. cbn [app smatch]. rewrite H1, H2. reflexivity. Qed.
