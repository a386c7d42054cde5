(** C111: the conductors of the shipped networks. *)
From Coq Require Import String.
From Coq Require Import Bool Arith List ZArith Lia QArith Qcanon.
From Verif Require Import BasePy BaseFld BaseOrd BaseSum BaseMat BaseEx ModelNet ModelTemplates SpecNet SpecTemplates SpecConductor ProofDec ProofNetBuild ProofTemplates ProofTemplatesRun ProofTemplatesSame.
Import ListNotations.
Close Scope Qc_scope. Close Scope Q_scope. Close Scope string_scope. Open Scope list_scope. Open Scope nat_scope.

Section Lemmas.
Context {K : Type} {O : Ops K} {F : Fld K} {O2 : OrdOps K} {OF : OrdFld K}.
Add Field Kfcond : (@k_field K O F).
Lemma dec_le : forall a b c d, (a * d <= c * b)%positive -> (dec a b <=! (dec c d : K))%K.
Proof.
  intros a b c d H. destruct (Pos.eq_dec (a * d) (c * b)) as [E|N]; [rewrite (dec_eq a b c d E); apply kle_refl|].
  assert (L : (a * d < c * b)%positive) by lia. apply Pos.lt_iff_add in L. destruct L as (r & L).
  assert (E : (dec c d = dec a b + dec r (b * d) :> K)%K) by (rewrite dec_add; apply dec_eq; lia).
  rewrite E. apply (proj2 (kle_sub _ _)). replace (dec a b + dec r (b * d) - dec a b)%K with (dec r (b * d) : K) by ring. apply dec_nonneg.
Qed.
(** a row of a table *)
Definition row_wired (tol : K) (cs : list conductor) (l : line_data (K := K)) : Prop :=
  exists c, In c cs /\ near tol (ld_r l / ld_length l)%K (fst c) /\ near tol (ld_x l / ld_length l)%K (snd c).
Lemma rows_wired : forall tol cs name ns ls n, template1 name = Some (ns, ls) -> NetData (Some ns) (Some ls) None = Ok n -> Forall (row_wired tol cs) ls -> wired tol cs n.
Proof.
  intros tol cs name ns ls n T H R. destruct (template1_nice name ns ls T) as (q & N & _).
  destruct (p_build_only ns ls n (n_single _ _ _ N) H) as [ND G]. destruct (p_build ns ls (n_single _ _ _ N) ND G) as (n' & E & _ & _ & _ & _ & _ & L).
  rewrite H in E. injection E as <-. intros l Hl. assert (I : In (seen_line l) (map wanted_line (filter active ls))) by (rewrite <- L; apply in_map; exact Hl).
  apply in_map_iff in I. destruct I as (m & E & Hm). apply filter_In in Hm. rewrite Forall_forall in R. destruct (R m (proj1 Hm)) as (c & Hc & A & B).
  exists c. split; [exact Hc|]. unfold wanted_line, seen_line in E. injection E as _ _ E0 E1 E2.
  destruct (G m (proj1 Hm) (proj2 Hm)) as (_ & _ & NZ). rewrite E1, E0 in A. rewrite E2, E0 in B. rewrite E0 in NZ.
  replace (n_r l * n_len l / n_len l)%K with (n_r l) in A by (field; exact NZ). replace (n_x l * n_len l / n_len l)%K with (n_x l) in B by (field; exact NZ). split; assumption.
Qed.
End Lemmas.
Ltac le := repeat (rewrite ?dec_add, ?dec_mul, ?dec_div); apply dec_le; vm_compute; intro; discriminate.
Ltac near_row := first [eexists; split; [left; reflexivity|cbn [fst snd ld_r ld_x ld_length line]; split; split; le] | eexists; split; [right; left; reflexivity|cbn [fst snd ld_r ld_x ld_length line]; split; split; le]].
Section Rows.
Context {K : Type} {O : Ops K} {F : Fld K} {O2 : OrdOps K} {OF : OrdFld K}.
Add Field Kfrows : (@k_field K O F).
Notation branches := (list (line_data (K := K))).
Lemma wired56 : Forall (row_wired (dec 1 10000000000) [main_conductor; thin_conductor]) (bolognani56_net : branches).
Proof. unfold bolognani56_net, main_conductor, thin_conductor. repeat (apply Forall_cons; [near_row|]). apply Forall_nil. Qed.
Lemma wired33 : Forall (row_wired (dec 1 10000000000) [main_conductor; thin_conductor]) (bolognani33_net : branches).
Proof.
  rewrite Forall_forall. intros l Hl. destruct p_sub33 as (_ & S & _). destruct (S l Hl) as (m & Hm & _ & E1 & E2 & E3 & _).
  pose proof wired56 as W. rewrite Forall_forall in W. destruct (W m Hm) as (c & Hc & A & B). exists c. rewrite E1, E2, E3. split; [exact Hc|]. split; assumption.
Qed.
Lemma wired21 : Forall (row_wired (dec 1 10000000000) [main_conductor]) (bolognani21_net : branches).
Proof. unfold bolognani21_net, main_conductor. repeat (apply Forall_cons; [near_row|]). apply Forall_nil. Qed.
Lemma wired_cigre : Forall (row_wired 0%K [cigre_cable]) (cigre_mv_feeder1_net : branches).
Proof.
  assert (N : forall x y : K, x = y -> near 0%K x y). { intros x y ->. split; (replace (y + 0)%K with y by ring; apply kle_refl). }
  unfold cigre_mv_feeder1_net, cigre_cable. repeat (apply Forall_cons; [eexists; split; [left; reflexivity|]; cbn [fst snd ld_r ld_x ld_length line]; split; apply N; decs|]). apply Forall_nil.
Qed.
Lemma near_0 : forall x y : K, near 0%K x y -> x = y.
Proof. intros x y [A B]. apply kle_antisym; [|replace x with (x + 0)%K by ring; exact A]. replace y with (y + 0)%K by ring. exact B. Qed.
End Rows.

(** every line of the networks bolognani56 and bolognani33 is made of one of the two conductors: its impedance is its length times theirs, up to the rounding in the tables *)
Theorem C111_two_conductors : forall K (O : Ops K) (F : Fld K) (O2 : OrdOps K) (OF : OrdFld K) name ns ls (n : net (K := K)),
  name = "bolognani56"%string \/ name = "bolognani33"%string -> template1 name = Some (ns, ls) -> NetData (Some ns) (Some ls) None = Ok n ->
  wired (dec 1 10000000000) [main_conductor; thin_conductor] n.
Proof.
  intros K O F O2 OF name ns ls n [-> | ->] T H; refine (rows_wired _ _ _ ns ls n T H _); cbv [template1] in T; cbn in T.
  - injection T as <- <-. exact wired56.
  - injection T as <- <-. exact wired33.
Qed.
(** those of bolognani21 are made of the first one *)
Theorem C111_one_conductor : forall K (O : Ops K) (F : Fld K) (O2 : OrdOps K) (OF : OrdFld K) ns ls (n : net (K := K)),
  template1 "bolognani21" = Some (ns, ls) -> NetData (Some ns) (Some ls) None = Ok n -> wired (dec 1 10000000000) [main_conductor] n.
Proof. intros K O F O2 OF ns ls n T H. refine (rows_wired _ _ _ ns ls n T H _). cbn in T. injection T as <- <-. exact wired21. Qed.
(** all lines of cigre_mv_feeder1 have 0.501 and 0.716 ohms per kilometre, exactly *)
Theorem C111_cigre : forall K (O : Ops K) (F : Fld K) (O2 : OrdOps K) (OF : OrdFld K) ns ls (n : net (K := K)) l,
  template1 "cigre_mv_feeder1" = Some (ns, ls) -> NetData (Some ns) (Some ls) None = Ok n -> In l (lines n) -> n_r l = dec 501 1000 /\ n_x l = dec 716 1000.
Proof.
  intros K O F O2 OF ns ls n l T H Hl. destruct (rows_wired 0%K [cigre_cable] _ ns ls n T H) with (l := l) as (c & [<-|[]] & A & B); [cbn in T; injection T as <- <-; exact wired_cigre|exact Hl|].
  split; apply near_0; assumption.
Qed.
Print Assumptions C111_two_conductors.
Print Assumptions C111_one_conductor.
Print Assumptions C111_cigre.

(** the constructor accepts the tables, and the lines are there; no line has both conductors *)
Example C111_ex : forall name, In name ["bolognani56"; "bolognani33"; "bolognani21"; "cigre_mv_feeder1"]%string ->
  exists ns ls n, template1 name = Some (ns, ls) /\ NetData (Some ns) (Some ls) None = Ok (n : net (K := Qc)) /\ 10 < length (lines n).
Proof.
  intros name Hn. assert (T : exists ns ls, template1 (K := Qc) name = Some (ns, ls)) by (cbn [In] in Hn; intuition; subst name; cbn; eauto).
  destruct T as (ns & ls & T). destruct (template1_nice name ns ls T) as (q & N & _).
  destruct (p_build ns ls (n_single _ _ _ N) (nice_NoDup _ _ _ N)) as (n & E & _ & _ & _ & _ & _ & L); [exact (n_ends _ _ _ N)|].
  exists ns, ls, n. split; [exact T|]. split; [exact E|]. rewrite <- (map_length seen_line), L, map_length.
  cbn [In] in Hn. intuition; subst name; cbn in T; injection T as <- <-; vm_compute; lia.
Qed.
Example C111_conductors_differ : ~ near (dec 1 1000000) (fst main_conductor : Qc) (fst thin_conductor).
Proof. intros [A _]. vm_compute in A. discriminate A. Qed.
