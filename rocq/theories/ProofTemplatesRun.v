(** What the facts about the shipped networks mean for the simulation program. *)
From Coq Require Import String.
From Coq Require Import Bool Arith List ZArith Lia Sorted.
From Verif Require Import BasePy ProofSet BaseFld BaseOrd BaseSum BaseMat BaseLin ModelNet ModelReduce ModelScript ModelTemplates SpecNet SpecKron SpecReduce SpecPassive SpecScriptData SpecTemplates
  ProofNet ProofNetBuild ProofReduce ProofDec ProofPassive ProofPassiveRun ProofTemplates.
Import ListNotations.
Close Scope string_scope. Open Scope list_scope. Open Scope nat_scope.

Section Facts.
Context {K : Type} {O : Ops K} {F : Fld K} {O2 : OrdOps K} {OF : OrdFld K}.
Notation CK := (cplx K).
Notation nodes := (list (bus_data (K := K))).
Notation branches := (list (line_data (K := K))).

Lemma template1_cases : forall name (t : nodes * branches), template1 name = Some t ->
  (name = "bolognani56"%string /\ t = (bolognani56_bus, bolognani56_net)) \/ (name = "bolognani33"%string /\ t = (bolognani33_bus, bolognani33_net)) \/
  (name = "bolognani21"%string /\ t = (bolognani21_bus, bolognani21_net)) \/ (name = "cigre_mv_feeder1"%string /\ t = (cigre_mv_feeder1_bus, cigre_mv_feeder1_net)) \/
  (name = "ieee_33"%string /\ t = (ieee_33_bus, ieee_33_net)).
Proof.
  intros name t H. unfold template1 in H.
  destruct (String.eqb_spec name "bolognani56") as [E|_]; [injection H as <-; tauto|].
  destruct (String.eqb_spec name "bolognani33") as [E|_]; [injection H as <-; tauto|].
  destruct (String.eqb_spec name "bolognani21") as [E|_]; [injection H as <-; tauto|].
  destruct (String.eqb_spec name "cigre_mv_feeder1") as [E|_]; [injection H as <-; tauto|].
  destruct (String.eqb_spec name "ieee_33") as [E|_]; [injection H as <-; tauto|discriminate H].
Qed.
Lemma template1_nice : forall name (ns : nodes) (ls : branches), template1 name = Some (ns, ls) ->
  exists s, nice ns ls s /\ s < length ns /\ (name <> "ieee_33"%string -> s = length ns - 1) /\ (name = "ieee_33"%string -> s = 0).
Proof.
  intros name ns ls H. apply template1_cases in H.
  destruct H as [[-> E]|[[-> E]|[[-> E]|[[-> E]|[-> E]]]]]; injection E as -> ->.
  - exists 55. split; [exact bolognani56_nice|]. split; [cbn; lia|]. split; [reflexivity|discriminate].
  - exists 32. split; [exact bolognani33_nice|]. split; [cbn; lia|]. split; [reflexivity|discriminate].
  - exists 20. split; [exact bolognani21_nice|]. split; [cbn; lia|]. split; [reflexivity|discriminate].
  - exists 9. split; [exact cigre_mv_feeder1_nice|]. split; [cbn; lia|]. split; [reflexivity|discriminate].
  - exists 0. split; [exact ieee_33_nice|]. split; [cbn; lia|]. split; [intro N; destruct (N eq_refl)|reflexivity].
Qed.
Lemma path_leads : forall m J s E k, s < m -> ~ In s E -> path J k s -> leads_out m J E k.
Proof. intros m J s E k Hs N P. induction P as [a|a b c Hab _ IH]; [apply already_out; assumption|]. eapply one_link; [exact Hab|apply IH; assumption]. Qed.
Lemma nice_leads : forall (ns : nodes) (ls : branches) s E, nice ns ls s -> s < length ns ->
  (forall k, In k E -> exists b, nth_error ns k = Some b /\ bd_type b <> 3) -> forall k, In k E -> leads_out (length ns) (linked ns ls) E k.
Proof.
  intros ns ls s E N Hs HE k Hk. apply (path_leads _ _ s); [exact Hs| |].
  - intro B. destruct (HE s B) as (b & Eb & T). destruct (n_only _ _ _ N) as [(b' & Eb' & T') _]. rewrite Eb in Eb'. injection Eb' as <-. exact (T T').
  - apply (n_conn _ _ _ N). destruct (HE k Hk) as (b & Eb & _). apply nth_error_Some. rewrite Eb. discriminate.
Qed.
Lemma nice_NoDup : forall (ns : nodes) (ls : branches) s, nice ns ls s -> NoDup (map bd_id ns).
Proof. intros ns ls s N. rewrite (n_labels _ _ _ N). apply seq_NoDup. Qed.
Lemma filter_only : forall (ns : nodes) s o, (exists b, nth_error ns s = Some b /\ bd_type b = 3) -> (forall k b, nth_error ns k = Some b -> k <> s -> bd_type b = 1) ->
  map bd_id ns = seq o (length ns) -> map bd_id (filter (fun b => bd_type b =? 3) ns) = [o + s].
Proof.
  induction ns as [|b ns IH]; intros s o (c & Hc & Tc) H1 HL; [destruct s; discriminate Hc|].
  cbn [map length seq] in HL. injection HL as Hb HL. cbn [filter]. destruct s as [|s].
  - injection Hc as <-. rewrite Tc. cbn [Nat.eqb map]. rewrite Hb, Nat.add_0_r. f_equal.
    assert (Z : filter (fun x : bus_data => bd_type x =? 3) ns = []).
    { assert (Q : forall x, In x ns -> bd_type x = 1). { intros x Hx. apply In_nth_error in Hx. destruct Hx as (k & Hk). apply (H1 (S k) x Hk). lia. }
      clear - Q. induction ns as [|x ns IH]; [reflexivity|]. cbn [filter]. rewrite (Q x (or_introl eq_refl)). cbn. apply IH. intros y Hy. apply Q. right. exact Hy. }
    rewrite Z. reflexivity.
  - rewrite (H1 0 b eq_refl ltac:(lia)). cbn [Nat.eqb]. rewrite (IH s (S o)); [f_equal; lia|exists c; split; assumption| |exact HL].
    intros k x Hk N. apply (H1 (S k) x Hk). lia.
Qed.
Theorem p_networks : forall name (ns : nodes) (ls : branches), template1 name = Some (ns, ls) ->
  exists n Y s, NetData (Some ns) (Some ls) None = Ok n /\ make_y_bus n = Ok Y /\ consistent n /\ ids n = seq 1 (length ns) /\ grids n = [S s] /\
    only_substation ns s /\ connected ns ls s /\ (name <> "ieee_33"%string -> s = length ns - 1) /\ (name = "ieee_33"%string -> s = 0).
Proof.
  intros name ns ls H. apply template1_nice in H. destruct H as (s & N & Hs & L1 & L2).
  destruct (p_build ns ls (n_single _ _ _ N) (nice_NoDup _ _ _ N) (n_ends _ _ _ N)) as (n & EN & C & EB & _ & _ & EG & _).
  assert (G : grids n = [S s]). { rewrite EG. destruct (n_only _ _ _ N) as [A B]. rewrite (filter_only ns s 1 A B (n_labels _ _ _ N)). reflexivity. }
  destruct (y_matrix_shape n) as (Y & EY & _); [rewrite G; discriminate|].
  exists n, Y, s. split; [exact EN|]. split; [exact EY|]. split; [exact C|]. split; [|split; [exact G|split; [exact (n_only _ _ _ N)|split; [exact (n_conn _ _ _ N)|split; [exact L1|exact L2]]]]].
  unfold ids. rewrite <- (n_labels _ _ _ N). apply (f_equal (map fst)) in EB. rewrite !map_map in EB. exact EB.
Qed.
Theorem p_eliminate : forall name (ns : nodes) (ls : branches) n Y E, template1 name = Some (ns, ls) -> NetData (Some ns) (Some ls) None = Ok n -> make_y_bus n = Ok Y ->
  NoDup E -> (forall k, In k E -> exists b, nth_error ns k = Some b /\ bd_type b <> 3) -> invertible (length E) (block_of Y E E).
Proof.
  intros name ns ls n Y E H EN EY ND HE. apply template1_nice in H. destruct H as (s & N & Hs & _).
  destruct (tables_net ns ls n (n_single _ _ _ N) EN) as (C & _ & L & R & J).
  apply (p_block n C (R (n_res _ _ _ N)) Y E EY ND). intros k Hk. rewrite L.
  apply (leads_mono (length ns) (linked ns ls) (joined n) E E); [intros a b; apply J|auto|]. apply (nice_leads ns ls s E N Hs HE k Hk).
Qed.
Lemma elim_types : forall hidden (ns : nodes) E, eliminated hidden ns E -> forall k, In k E -> exists b, nth_error ns k = Some b /\ bd_type b <> 3.
Proof. intros hidden ns E [_ H] k Hk. apply H in Hk. destruct Hk as (b & Eb & T & _). eauto. Qed.
Lemma only_substations : forall (ns : nodes) s, only_substation ns s -> substations ns [s].
Proof.
  intros ns s [(c & Hc & Tc) H] k. split.
  - intros [<-|[]]. eauto.
  - intros (b & Hb & Tb). left. destruct (Nat.eq_dec k s) as [->|N]; [reflexivity|]. specialize (H k b Hb N). congruence.
Qed.
Lemma elim_before : forall hidden (ns : nodes) s E, eliminated hidden ns E -> only_substation ns s -> s = length ns - 1 -> all_before E [s].
Proof.
  intros hidden ns s E HE HS Es x p Hx [<-|[]]. destruct (elim_types _ _ _ HE x Hx) as (b & Hb & T).
  assert (L : x < length ns) by (apply nth_error_Some; rewrite Hb; discriminate).
  assert (x <> s). { intros ->. destruct HS as [(c & Hc & Tc) _]. rewrite Hb in Hc. injection Hc as <-. exact (T Tc). } lia.
Qed.

(** ** which buses stay *)
(** [zs] tells which buses of the table have no load *)
Definition loadless (ns : nodes) (zs : list bool) : Prop := Forall2 (fun b z => z = true <-> (number (bd_p b) = 0%K /\ number (bd_q b) = 0%K)) ns zs.
Definition staysb (hidden : list nat) (lap : bool) (bz : bus_data (K := K) * bool) : bool :=
  negb (existsb (Nat.eqb (bd_id (fst bz))) hidden) && (if bd_type (fst bz) =? 3 then lap else negb (snd bz)).
Definition staying_positions (hidden : list nat) (lap : bool) (ns : nodes) (zs : list bool) : list nat :=
  map fst (filter (fun p => staysb hidden lap (snd p)) (combine (seq 0 (length ns)) (combine ns zs))).
Definition elimb (hidden : list nat) (bz : bus_data (K := K) * bool) : bool :=
  negb (bd_type (fst bz) =? 3) && (existsb (Nat.eqb (bd_id (fst bz))) hidden || snd bz).
Definition eliminated_positions (hidden : list nat) (ns : nodes) (zs : list bool) : list nat :=
  map fst (filter (fun p => elimb hidden (snd p)) (combine (seq 0 (length ns)) (combine ns zs))).
Lemma positions_sorted : forall {A} (f : A -> bool) l o, StronglySorted lt (map fst (filter (fun p => f (snd p)) (combine (seq o (length l)) l))) /\
  forall k, In k (map fst (filter (fun p => f (snd p)) (combine (seq o (length l)) l))) <-> o <= k /\ exists x, nth_error l (k - o) = Some x /\ f x = true.
Proof.
  intros A f l. induction l as [|a l IH]; intro o.
  - cbn. split; [constructor|]. intro k. split; [intros []|]. intros (_ & x & E & _). destruct (k - o); discriminate E.
  - cbn [length seq combine filter snd]. destruct (IH (S o)) as [I1 I2].
    assert (M : forall k, k <> o -> (o <= k /\ (exists x, nth_error (a :: l) (k - o) = Some x /\ f x = true)) <-> (S o <= k /\ exists x, nth_error l (k - S o) = Some x /\ f x = true)).
    { intros k N. split; intros (L & x & E & Fx); (split; [lia|]); exists x; (split; [|exact Fx]).
      - replace (k - o) with (S (k - S o)) in E by lia. exact E.
      - replace (k - o) with (S (k - S o)) by lia. exact E. }
    destruct (f a) eqn:Fa; cbn [map fst].
    + split.
      * constructor; [exact I1|]. apply Forall_forall. intros x Hx. apply I2 in Hx. lia.
      * intro k. cbn [In]. destruct (Nat.eq_dec k o) as [->|N].
        -- split; [intros _|auto]. split; [lia|]. exists a. rewrite Nat.sub_diag. auto.
        -- rewrite (M k N), I2. split; [intros [Q|Q]; [lia|exact Q]|auto].
    + split; [exact I1|]. intro k. destruct (Nat.eq_dec k o) as [->|N].
      * rewrite I2. split; [lia|]. intros (_ & x & E & Fx). rewrite Nat.sub_diag in E. injection E as <-. congruence.
      * rewrite (M k N), I2. tauto.
Qed.
Lemma loadless_at : forall ns zs k, loadless ns zs -> forall bz, nth_error (combine ns zs) k = Some bz ->
  nth_error ns k = Some (fst bz) /\ (snd bz = true <-> (number (bd_p (fst bz)) = 0%K /\ number (bd_q (fst bz)) = 0%K)).
Proof.
  intros ns zs k H. revert k. induction H as [|b z ns zs Hb H IH]; intros k bz E; [destruct k; discriminate E|].
  destruct k as [|k]; [injection E as <-; cbn; auto|]. exact (IH k bz E).
Qed.
Lemma loadless_at' : forall ns zs k b, loadless ns zs -> nth_error ns k = Some b -> exists z, nth_error (combine ns zs) k = Some (b, z).
Proof.
  intros ns zs k b H. revert k. induction H as [|c z ns zs Hb H IH]; intros k E; [destruct k; discriminate E|].
  destruct k as [|k]; [injection E as ->; cbn; eauto|]. exact (IH k E).
Qed.
Lemma combine_len : forall (ns : nodes) zs, loadless ns zs -> length ns = length (combine ns zs).
Proof. intros ns zs H. induction H as [|b z ns zs _ H IH]; [reflexivity|]. cbn [combine length]. rewrite IH. reflexivity. Qed.
Lemma in_eqb : forall x l, existsb (Nat.eqb x) l = true <-> In x l.
Proof. intros x l. rewrite existsb_exists. split; [intros (y & Hy & E); apply Nat.eqb_eq in E; congruence|intro H; exists x; split; [exact H|apply Nat.eqb_refl]]. Qed.
Lemma stay_ok : forall hidden lap ns zs, loadless ns zs -> stay hidden lap ns (staying_positions hidden lap ns zs).
Proof.
  intros hidden lap ns zs L. unfold stay, staying_positions. rewrite (combine_len ns zs L). destruct (positions_sorted (staysb hidden lap) (combine ns zs) 0) as [S1 S2].
  split; [exact S1|]. intro k. rewrite S2, Nat.sub_0_r. split.
  - intros (_ & bz & E & T). destruct (loadless_at ns zs k L bz E) as [E1 Z]. exists (fst bz). split; [exact E1|]. unfold staysb in T. apply andb_prop in T. destruct T as [T1 T2].
    split; [|split].
    + intro H. apply in_eqb in H. rewrite H in T1. discriminate T1.
    + intro E3. rewrite E3 in T2. exact T2.
    + intro N3. apply Nat.eqb_neq in N3. rewrite N3 in T2. destruct (snd bz); [discriminate T2|].
      destruct (keqb (number (bd_p (fst bz))) 0%K) eqn:K1; [|left; apply keqb_neq; exact K1]. apply keqb_eq in K1.
      right. intro K2. assert (X : false = true) by (apply Z; auto). discriminate X.
  - intros (b & E & H1 & H2 & H3). split; [lia|]. destruct (loadless_at' ns zs k b L E) as (z & Ez). exists (b, z). split; [exact Ez|].
    destruct (loadless_at ns zs k L (b, z) Ez) as [_ Z]. cbn [fst snd] in Z. unfold staysb. cbn [fst snd]. apply andb_true_intro. split.
    + destruct (existsb (Nat.eqb (bd_id b)) hidden) eqn:EE; [|reflexivity]. apply in_eqb in EE. destruct (H1 EE).
    + destruct (bd_type b =? 3) eqn:E3; [apply H2, Nat.eqb_eq, E3|]. apply Nat.eqb_neq in E3. destruct z; [|reflexivity]. destruct (proj1 Z eq_refl) as [Z1 Z2]. destruct (H3 E3) as [N|N]; [destruct (N Z1)|destruct (N Z2)].
Qed.
Lemma sorted_NoDup : forall l, StronglySorted lt l -> NoDup l.
Proof. intros l H. induction H as [|a l H IH HF]; constructor; [|exact IH]. intro I. rewrite Forall_forall in HF. specialize (HF a I). lia. Qed.
Lemma eliminated_ok : forall hidden ns zs, loadless ns zs -> eliminated hidden ns (eliminated_positions hidden ns zs).
Proof.
  intros hidden ns zs L. unfold eliminated, eliminated_positions. rewrite (combine_len ns zs L). destruct (positions_sorted (elimb hidden) (combine ns zs) 0) as [S1 S2].
  split; [apply sorted_NoDup; exact S1|]. intro k. rewrite S2, Nat.sub_0_r. split.
  - intros (_ & bz & E & T). destruct (loadless_at ns zs k L bz E) as [E1 Z]. exists (fst bz). split; [exact E1|]. unfold elimb in T. apply andb_prop in T. destruct T as [T1 T2].
    split; [apply Nat.eqb_neq; destruct (bd_type (fst bz) =? 3); [discriminate T1|reflexivity]|]. apply orb_prop in T2. destruct T2 as [T2|T2]; [left; apply in_eqb; exact T2|right; apply Z; exact T2].
  - intros (b & E & H1 & H2). split; [lia|]. destruct (loadless_at' ns zs k b L E) as (z & Ez). exists (b, z). split; [exact Ez|].
    destruct (loadless_at ns zs k L (b, z) Ez) as [_ Z]. cbn [fst snd] in Z. unfold elimb. cbn [fst snd]. apply Nat.eqb_neq in H1. rewrite H1. cbn [negb andb].
    destruct H2 as [H2|H2]; [apply in_eqb in H2; rewrite H2; reflexivity|]. apply Z in H2. rewrite H2. apply orb_true_r.
Qed.
Lemma stay_unique : forall hidden lap (ns : nodes) k1 k2, stay hidden lap ns k1 -> stay hidden lap ns k2 -> k1 = k2.
Proof. intros hidden lap ns k1 k2 [S1 M1] [S2 M2]. apply sorted_unique; auto. intro x. rewrite M1, M2. tauto. Qed.
Ltac load_rows := repeat (apply Forall2_cons; [split; [first [discriminate|intros _; split; reflexivity]|first [reflexivity|intros [E _]; exfalso; revert E; apply dec_neq0]]|]); apply Forall2_nil.
Lemma bolognani56_loadless : loadless bolognani56_bus [false; false; false; false; false; false; true; false; false; false; false; false; false; false; false; false; false; false; false; false; true; false; false; false; false; false; false; false; false; false; false; false; true; false; false; false; false; false; false; false; false; false; false; false; false; false; false; false; false; false; false; false; false; false; false; false].
Proof. unfold bolognani56_bus. load_rows. Qed.
Lemma cigre_mv_feeder1_loadless : loadless cigre_mv_feeder1_bus [false; false; false; false; false; false; false; false; false; false].
Proof. unfold cigre_mv_feeder1_bus. load_rows. Qed.
End Facts.
