(** The shipped three-phase networks in the simulation program. *)
From Coq Require Import String.
From Coq Require Import Bool Arith List ZArith Lia Sorted Permutation Reals.
From Verif Require Import BasePy ProofSet BaseFld BaseOrd BaseSum BaseMat BaseLin BaseReal ModelErrorMetrics ModelNet ModelReduce ModelReduce3 ModelResample ModelMeasure ModelScript ModelTemplates
  SpecNet SpecKron SpecReduce SpecReduce3 SpecMeasure SpecPassive SpecScriptData SpecTemplates
  ProofNet ProofNetBuild ProofNet3 ProofReduce ProofReduce3 ProofLines ProofThree ProofThreeSeq ProofScript ProofScriptData ProofScriptLap ProofDec ProofTemplatesRun.
Import ListNotations.
Close Scope R_scope. Close Scope string_scope. Open Scope list_scope. Open Scope nat_scope.

(** ** networks built from three-phase tables *)
Section Tables.
Context {K : Type} {O : Ops K} {F : Fld K}.
Notation nodes := (list (bus_data (K := K))).
Notation branches := (list (line_data (K := K))).

Record tables3 (ts : list (string * (K * K))) (ns : nodes) (ls : branches) : Prop := Tables3 {
  t_loads : forall b, In b ns -> bd_type b = 1 -> both three b;
  t_subs : forall b, In b ns -> bd_type b = 3 -> is_single (bd_p b);
  t_nodup : NoDup (map bd_id ns);
  t_types : forall b, In b ns -> bd_type b = 1 \/ bd_type b = 3;
  t_ends : forall l, In l ls -> active l = true -> In (ld_start l) (map bd_id ns) /\ In (ld_end l) (map bd_id ns) /\ exists s p, ld_type l = Some s /\ type_of ts s = Some p }.

Lemma same_bus3 : forall (ns : nodes) b c, NoDup (map bd_id ns) -> In b ns -> In c ns -> bd_id b = bd_id c -> b = c.
Proof.
  induction ns as [|a ns IH]; intros b c N Hb Hc E; [destruct Hb|]. cbn [map] in N. apply NoDup_cons_iff in N. destruct N as [NA N].
  destruct Hb as [->|Hb], Hc as [->|Hc]; [reflexivity| | |exact (IH b c N Hb Hc E)].
  - destruct NA. rewrite E. apply in_map. exact Hc.
  - destruct NA. rewrite <- E. apply in_map. exact Hb.
Qed.
Lemma net3 : forall ts ns ls, tables3 ts ns ls -> exists n, NetData3P ts (Some ns) (Some ls) None = Ok n /\ consistent n /\ ids n = map bd_id ns /\ length (buses n) = length ns /\
  grids n = map bd_id (filter (fun b => bd_type b =? 3) ns) /\
  forall b ph, In b ns -> ph < 3 -> (idle n ph (bd_id b) <-> bd_type b <> 3 /\ phase_power (bd_p b) ph = 0%K /\ phase_power (bd_q b) ph = 0%K).
Proof.
  intros ts ns ls T.
  destruct (p_build3 ts ns ls) as (n & EN & C & EB & EL & EA & EG & _).
  - intros b Hb. split; [intro E; right; exact (t_loads _ _ _ T b Hb E)|exact (t_subs _ _ _ T b Hb)].
  - exact (t_nodup _ _ _ T).
  - exact (t_ends _ _ _ T).
  - exists n. split; [exact EN|]. split; [exact C|].
    assert (EI : ids n = map bd_id ns). { unfold ids. apply (f_equal (map fst)) in EB. rewrite !map_map in EB. exact EB. }
    split; [exact EI|]. split; [apply (f_equal (@length _)) in EB; rewrite !map_length in EB; exact EB|]. split; [exact EG|].
    intros b ph Hb Hp. assert (GT : In (bd_id b) (grids n) <-> bd_type b = 3).
    { rewrite EG, in_map_iff. split.
      - intros (c & E & Hc). apply filter_In in Hc. destruct Hc as [Hc X]. apply Nat.eqb_eq in X. rewrite <- (same_bus3 ns c b (t_nodup _ _ _ T) Hc Hb E). exact X.
      - intro X. exists b. split; [reflexivity|]. apply filter_In. split; [exact Hb|]. apply Nat.eqb_eq. exact X. }
    unfold idle. rewrite GT. destruct (t_types _ _ _ T b Hb) as [T1|T3]; [|split; [intros [N _]; destruct (N T3)|intros [N _]; destruct (N T3)]].
    destruct (t_loads _ _ _ T b Hb T1) as [(x1 & x2 & x3 & Ep) (y1 & y2 & y3 & Eq)].
    assert (NL : forall l, In l (loads n) -> l_bus l <> bd_id b).
    { intros l Hl E. apply (in_map seen_load) in Hl. rewrite EL in Hl. apply in_map_iff in Hl. destruct Hl as (c & Ec & Hc). apply filter_In in Hc. destruct Hc as [Hc Lc].
      assert (I : bd_id c = bd_id b). { rewrite <- E. apply (f_equal (fun t => fst (fst t))) in Ec. unfold wanted_load, seen_load in Ec. destruct (bd_type c =? 1); exact Ec. }
      rewrite (same_bus3 ns c b (t_nodup _ _ _ T) Hc Hb I) in Lc. unfold has_load3 in Lc. rewrite Ep, T1 in Lc. discriminate Lc. }
    assert (AS : exists a, In a (asyms n) /\ seen_asym a = wanted_asym b).
    { assert (I : In (wanted_asym b) (map seen_asym (asyms n))). { rewrite EA. apply in_map. apply filter_In. split; [exact Hb|]. unfold is_asym. rewrite Ep, T1. reflexivity. }
      apply in_map_iff in I. destruct I as (a & E & Ha). eauto. }
    assert (AV : forall a, seen_asym a = wanted_asym b -> a_bus a = bd_id b /\ a_p a ph = phase_power (bd_p b) ph /\ a_q a ph = phase_power (bd_q b) ph).
    { intros a E. unfold seen_asym, wanted_asym in E. rewrite Ep, Eq in E. injection E as E0 E1 E2 E3 E4 E5 E6. rewrite Ep, Eq. split; [exact E0|].
      destruct ph as [|[|[|ph]]]; [..|lia]; cbn [phase_power]; auto. }
    destruct AS as (a & Ha & Ea). destruct (AV a Ea) as (A0 & A1 & A2). split.
    + intros (N & _ & H). split; [exact N|]. rewrite <- A1, <- A2. apply H; assumption.
    + intros (N & P0 & Q0). split; [exact N|]. split; [intros l Hl E; destruct (NL l Hl E)|].
      intros l Hl E. assert (I : In (seen_asym l) (map seen_asym (asyms n))) by (apply in_map; exact Hl). rewrite EA in I. apply in_map_iff in I. destruct I as (c & Ec & Hc). apply filter_In in Hc. destruct Hc as [Hc _].
      assert (J : bd_id c = bd_id b) by (rewrite <- E; exact (f_equal (fun t => fst (fst t)) Ec)).
      rewrite (same_bus3 ns c b (t_nodup _ _ _ T) Hc Hb J) in Ec. destruct (AV l (eq_sym Ec)) as (_ & -> & ->). auto.
Qed.
End Tables.

(** ** labels that do not exist *)
Lemma for_each_all : forall {A S} (l : list A) (f : S -> A -> res S) (P : A -> Prop) s s', (forall s a s', f s a = Ok s' -> P a) -> for_each l s f = Ok s' -> forall a, In a l -> P a.
Proof.
  intros A S l f P s s' H. revert s. induction l as [|x l IH]; intros s E a Ha; [destruct Ha|]. cbn [for_each] in E. apply bind_ok in E. destruct E as (s1 & E1 & E).
  destruct Ha as [<-|Ha]; [exact (H _ _ _ E1)|exact (IH s1 E a Ha)].
Qed.
Lemma position_id : forall {K} (n : net (K := K)) i p, position n i = Some p -> In i (ids n).
Proof.
  intros K n i. unfold position, ids. generalize 0. induction (buses n) as [|b l IH]; intros k p H; [discriminate H|]. cbn [position_from] in H.
  destruct (Nat.eqb_spec (b_id b) i) as [E|_]; [left; exact E|right; exact (IH _ _ H)].
Qed.
Lemma positions_ids : forall {K} (n : net (K := K)) l ps, positions n l = Ok ps -> forall x, In x l -> In x (ids n).
Proof.
  intros K n l. induction l as [|i l IH]; intros ps H x Hx; [destruct Hx|]. cbn [positions] in H. destruct (position n i) as [p|] eqn:E; [|discriminate H].
  apply bind_ok in H. destruct H as (q & Hq & _). destruct Hx as [<-|Hx]; [exact (position_id n i p E)|exact (IH q Hq x Hx)].
Qed.
Lemma reduce_ids : forall {K} {O : Ops K} pinv (n : net (K := K)) V I hidden lap r, reduce_network pinv n V I hidden lap = Ok r -> forall x, In x hidden -> In x (ids n).
Proof.
  intros K O pinv n V I hidden lap r H. unfold reduce_network in H. apply bind_ok in H. destruct H as (Y & _ & H). apply bind_ok in H. destruct H as (f & _ & H).
  apply bind_ok in H. destruct H as (Pa & _ & H). apply bind_ok in H. destruct H as (Hi & EH & _). exact (positions_ids n hidden Hi EH).
Qed.
Lemma reduce3_ids : forall pinv ys (n : net (K := R)) V I hidden single r, reduce_network3 pinv ys n V I hidden single = Ok r -> forall x, In x hidden -> In x (ids n).
Proof.
  intros pinv ys n V I hidden single r H. unfold reduce_network3 in H. apply bind_ok in H. destruct H as (Y & _ & H). apply bind_ok in H. destruct H as ([d y] & _ & H).
  apply bind_ok in H. destruct H as (pa & _ & H). apply bind_ok in H. destruct H as ([re sh] & H & _). unfold to_reduce in H. cbn [range seq for_each] in H.
  apply bind_ok in H. destruct H as (s1 & H & _). apply bind_ok in H. destruct H as (p0 & _ & H). unfold add_hidden in H.
  intros x Hx. refine (for_each_all hidden _ (fun x => In x (ids n)) _ _ _ H x Hx). intros [l v] a s' E. destruct (position n a) as [p|] eqn:Q; [exact (position_id n a p Q)|discriminate E].
Qed.

(** ** the program *)
Section Absent.
Context {K : Type} {O : Ops K} {F : Fld K} {O2 : OrdOps K} {OF : OrdFld K}.
Notation CK := (cplx K).
Context (pinv : mat CK -> mat CK) (rnd : K -> Z) (root : K -> K) (polar : K -> K -> CK).
Context {St : Type} (randint : nat -> nat -> St -> list nat * St) (gauss : St -> K * St) (noise : @noise_fun K St K) (seeded : St).
Context (flow1 : net (K := K) -> mat K -> mat K -> res (mat K * mat K)).
Context (flow3 : net (K := K) -> mat K -> mat K -> list (mat K) -> res ((mat K * mat K) * (mat K * mat K) * (mat K * mat K))).
Context (y_bus3 : net (K := K) -> res (mat CK)).
Context (reduce3 : net (K := K) -> mat CK -> mat CK -> list nat -> bool -> res (list nat * mat CK)).
Context (seq_measurement seq_admittance : mat CK -> res (mat CK)).
Notation run := (simulate pinv rnd root polar randint gauss noise seeded flow1 flow3 y_bus3 reduce3 seq_measurement seq_admittance).

Lemma hidden_kept : forall (ns : list (bus_data (K := K))) lap hidden x, In x hidden -> In x (with_substations ns lap hidden).
Proof. intros ns lap hidden x H. unfold with_substations. destruct lap; [exact H|]. apply in_or_app. left. exact H. Qed.
Theorem p_absent : forall conf o ts ns ls s s' x, three_phased o = false -> (forall b, In b ns -> both is_single b) ->
  In x (hidden_nodes conf) -> ~ In x (map bd_id ns) -> run conf o ts (Some (ns, ls)) s <> (s', Ok tt).
Proof.
  intros conf o ts ns ls s s' x H3 SN Hx NX H. apply (run_ok pinv rnd root polar randint gauss noise seeded flow1 flow3 y_bus3 reduce3 seq_measurement seq_admittance) in H.
  destruct H as (n & ns' & lp & lf & r & m & P & f & todel & y & out & (EN & _ & _ & _ & _ & ER & _) & _).
  unfold network in EN. rewrite H3 in EN. unfold make_net in EN. apply bind_ok in EN. destruct EN as (n0 & EN & E0). injection E0 as -> <-.
  unfold reduced in ER. rewrite H3 in ER. unfold hidden_list in ER. rewrite H3 in ER. apply reduce_ids with (x := x) in ER; [|apply hidden_kept; exact Hx].
  destruct (ProofPassiveRun.tables_net ns ls n SN EN) as (_ & EI & _). rewrite EI in ER. exact (NX ER).
Qed.
End Absent.

Section Three.
Context (pinv1 pinv : mat C -> mat C) (rnd : R -> Z) (root : R -> R) (polar : R -> R -> C).
Context {St : Type} (randint : nat -> nat -> St -> list nat * St) (gauss : St -> R * St) (noise : @noise_fun R St R) (seeded : St).
Context (flow1 : net (K := R) -> mat R -> mat R -> res (mat R * mat R)).
Context (flow3 : net (K := R) -> mat R -> mat R -> list (mat R) -> res ((mat R * mat R) * (mat R * mat R) * (mat R * mat R))).
Context (ys : net (K := R) -> nat -> mat C).
Notation seqs n := (ys n 0, ys n 1, ys n 2).
Context (seq_measurement seq_admittance : mat C -> res (mat C)).
Notation run := (simulate pinv1 rnd root polar randint gauss noise seeded flow1 flow3 (fun n => make_y_bus3 (seqs n))
  (fun n v i h single => reduce_network3 pinv (seqs n) n v i h single) seq_measurement seq_admittance).

Theorem p_absent3 : forall conf o ts ns ls n s s' x, three_phased o = true -> NetData3P ts (Some ns) (Some ls) None = Ok n ->
  In x (hidden_nodes conf) -> ~ In x (ids n) -> run conf o ts (Some (ns, ls)) s <> (s', Ok tt).
Proof.
  intros conf o ts ns ls n s s' x H3 EN0 Hx NX H. eapply (run_ok pinv1 rnd root polar randint gauss noise seeded flow1 flow3) in H.
  destruct H as (n' & ns' & lp & lf & r & m & P & f & todel & y & out & (EN & _ & _ & _ & _ & ER & _) & _).
  unfold network in EN. rewrite H3 in EN. unfold make_net3 in EN. rewrite EN0 in EN. cbn [bind] in EN. injection EN as <- <-.
  unfold reduced in ER. rewrite H3 in ER. unfold hidden_list in ER. rewrite H3 in ER. apply reduce3_ids with (x := x) in ER; [exact (NX ER)|exact Hx].
Qed.
Lemma shape_bus3 : forall (n : net (K := R)) Y, (forall k, k < 3 -> shape (ys n k) (length (buses n)) (length (buses n))) -> make_y_bus3 (seqs n) = Ok Y -> shape Y (3 * length (buses n)) (3 * length (buses n)).
Proof.
  intros n Y Hy EY. unfold make_y_bus3 in EY. rewrite (sum_kron_asm (ys n) _ Hy) in EY. cbn [bind] in EY. rewrite (seq_to_phase_eq (length (buses n))) in EY by (apply shape_asm; auto). injection EY as <-.
  rewrite Nat.mul_comm. apply shape_conj3, shape_asm; auto.
Qed.

Lemma elements_list : forall (P : nat -> Prop) N, (forall k, P k \/ ~ P k) -> exists E, NoDup E /\ forall k, In k E <-> k < N /\ P k.
Proof.
  intros P N D. induction N as [|N (E & ND & IH)]; [exists []; split; [constructor|]; intro k; cbn; lia|]. destruct (D N) as [Y|NY].
  - exists (N :: E). split; [constructor; [intro I; apply IH in I; lia|exact ND]|]. intro k. cbn [In]. rewrite IH. split; [intros [<-|[L Q]]; [split; [lia|exact Y]|split; [lia|exact Q]]|].
    intros [L Q]. destruct (Nat.eq_dec k N) as [->|NE]; [left; reflexivity|right; split; [lia|exact Q]].
  - exists E. split; [exact ND|]. intro k. rewrite IH. split; [intros [L Q]; split; [lia|exact Q]|]. intros [L Q]. split; [|exact Q]. destruct (Nat.eq_dec k N) as [->|NE]; [destruct (NY Q)|lia].
Qed.
Lemma removed_exists : forall hidden (ns : list (bus_data (K := R))) ph, exists E, removed_on hidden ns ph E.
Proof.
  intros hidden ns ph. destruct (elements_list (fun k => exists b, nth_error ns k = Some b /\ bd_type b <> 3 /\ (In (bd_id b) hidden \/ (phase_power (bd_p b) ph = 0%K /\ phase_power (bd_q b) ph = 0%K))) (length ns)) as (E & ND & H).
  - intro k. destruct (nth_error ns k) as [b|] eqn:Eb; [|right; intros (b & X & _); discriminate X].
    destruct (Nat.eq_dec (bd_type b) 3) as [T|T]; [right; intros (c & X & T' & _); injection X as <-; exact (T' T)|].
    destruct (in_dec Nat.eq_dec (bd_id b) hidden) as [I|I]; [left; eauto 6|].
    destruct (k_eq_dec (phase_power (bd_p b) ph) 0%K) as [P0|P0]; [|right; intros (c & X & _ & [J|[J _]]); injection X as <-; auto].
    destruct (k_eq_dec (phase_power (bd_q b) ph) 0%K) as [Q0|Q0]; [|right; intros (c & X & _ & [J|[_ J]]); injection X as <-; auto].
    left. eauto 8.
  - exists E. split; [exact ND|]. intro k. rewrite H. split; [tauto|]. intros (b & Eb & X). split; [apply nth_error_Some; rewrite Eb; discriminate|eauto].
Qed.
Lemma removed_length : forall hidden (ns : list (bus_data (K := R))) ph E E', removed_on hidden ns ph E -> removed_on hidden ns ph E' -> length E = length E'.
Proof. intros hidden ns ph E E' [N H] [N' H']. apply Permutation_length, NoDup_Permutation; auto. intro k. rewrite H, H'. tauto. Qed.
Lemma located_exists : forall (n : net (K := R)) l, (forall x, In x l -> In x (ids n)) -> exists H, located n l H.
Proof.
  intros n l. induction l as [|x l IH]; intro A; [exists []; constructor|]. destruct IH as (H & L); [intros y Hy; apply A; right; exact Hy|].
  destruct (In_nth_error _ _ (A x (or_introl eq_refl))) as (p & Ep). exists (p :: H). constructor; assumption.
Qed.
(** the substation is the last bus *)
Theorem p_uneven_run : forall conf o ts ns ls s s' ph ph' E E', three_phased o = true -> sequence o = false -> recomputes o -> tables3 ts ns ls -> only_substation ns (length ns - 1) ->
  shown (hidden_nodes conf) ns -> (forall n k, k < 3 -> shape (ys n k) (length (buses n)) (length (buses n))) -> (forall r A, shape A r r -> shape (pinv A) r r) ->
  ph < 3 -> ph' < 3 -> removed_on (hidden_nodes conf) ns ph E -> removed_on (hidden_nodes conf) ns ph' E' -> length E <> length E' ->
  run conf o ts (Some (ns, ls)) s <> (s', Ok tt).
Proof.
  intros conf o ts ns ls s s' ph ph' E E' H3 HQ HR T OS SH HY HP Hp Hp' RE RE' NE RUN. pose proof RUN as RUN0.
  apply (p_alignment3 pinv1 rnd root polar randint gauss noise seeded flow1 flow3 _ _ seq_measurement seq_admittance) in RUN0; auto; [|intros n y EY; apply (shape_bus3 n y (HY n) EY)].
  destruct RUN0 as (n & kept & nv & ni & v & i & y & P & f & EN & FI & _ & _ & CV & CI & _).
  destruct (net3 ts ns ls T) as (n' & EN' & CN & EI & EL & EG & ID). rewrite EN in EN'. injection EN' as <-.
  eapply (run_ok pinv1 rnd root polar randint gauss noise seeded flow1 flow3) in RUN.
  destruct RUN as (n' & ns' & lp & lf & r & m & P' & f' & todel & y' & out & (EN' & _ & _ & _ & _ & ER & _) & ->).
  unfold network in EN'. rewrite H3 in EN'. unfold make_net3 in EN'. rewrite EN in EN'. cbn [bind] in EN'. injection EN' as <- <-.
  cbn [f_filtered] in FI. injection FI as ->. cbn [fst snd] in ER.
  unfold reduced in ER. rewrite H3 in ER. unfold hidden_list in ER. rewrite H3, HQ in ER. cbn [negb] in ER. pose proof (reduce3_ids _ _ _ _ _ _ _ _ ER) as HI.
  destruct (located_exists n (hidden_nodes conf) HI) as (H & LH). destruct (removed_exists (hidden_nodes conf) ns 0) as (E0 & R0). destruct (removed_exists (hidden_nodes conf) ns 1) as (E1 & R1). destruct (removed_exists (hidden_nodes conf) ns 2) as (E2 & R2).
  set (ER3 := fun k => match k with 0 => E0 | 1 => E1 | _ => E2 end).
  assert (RR : forall k, k < 3 -> removed_on (hidden_nodes conf) ns k (ER3 k)) by (intros [|[|[|k]]] Hk; [exact R0|exact R1|exact R2|lia]).
  assert (NI : NoDup (ids n)) by apply CN.
  assert (GS : located n (grids n) [length ns - 1]).
  { rewrite EG. destruct OS as [(b & Eb & Tb) OT]. assert (FE : filter (fun b => bd_type b =? 3) ns = [b]).
    { apply nth_error_split in Eb. destruct Eb as (l1 & l2 & -> & L1). rewrite app_length in L1. cbn [length] in L1. assert (l2 = []) by (destruct l2; [reflexivity|cbn in L1; lia]). subst l2.
      rewrite filter_app. cbn [filter]. rewrite Tb. cbn [Nat.eqb]. assert (Z : filter (fun b => bd_type b =? 3) l1 = []); [|rewrite Z; reflexivity].
      assert (Q : forall x, In x l1 -> bd_type x = 1). { intros x Hx. apply In_nth_error in Hx. destruct Hx as (k & Hk). assert (k < length l1) by (apply nth_error_Some; rewrite Hk; discriminate).
        apply (OT k); [rewrite nth_error_app1 by assumption; exact Hk|rewrite app_length; cbn [length]; lia]. }
      clear - Q. induction l1 as [|x l IH]; [reflexivity|]. cbn [filter]. rewrite (Q x (or_introl eq_refl)). cbn. apply IH. intros y Hy. apply Q. right. exact Hy. }
    rewrite FE. cbn [map]. constructor; [|constructor]. rewrite EI, nth_error_map, Eb. reflexivity. }
  rewrite (p_uneven3 pinv n v i (hidden_nodes conf) (ys n) H [length ns - 1] ER3 ph ph') in ER; try assumption; try (rewrite Nat.mul_comm; assumption).
  - discriminate ER.
  - intros k Hk. exact (HY n k Hk).
  - intros k Hk. destruct (RR k Hk) as [ND HE]. split; [exact ND|]. intro x. rewrite HE, (located_In n _ H x LH NI), EI. split.
    + intros (b & Eb & Tb & [I|Z]); [left|right]; exists (bd_id b); (split; [rewrite nth_error_map, Eb; reflexivity|]); [exact I|]. apply ID; [apply (nth_error_In _ _ Eb)|exact Hk|tauto].
    + intros [(j & Ej & I)|(j & Ej & I)]; rewrite nth_error_map in Ej; destruct (nth_error ns x) as [b|] eqn:Eb; try discriminate Ej; injection Ej as <-; exists b; (split; [reflexivity|]).
      * split; [|left; exact I]. intro T3. exact (SH b (nth_error_In _ _ Eb) T3 I).
      * apply ID in I; [|apply (nth_error_In _ _ Eb)|exact Hk]. tauto.
  - split; [intros q []|exact Logic.I].
  - intros k Hk x p Hx [<-|[]]. apply (RR k Hk) in Hx. destruct Hx as (b & Eb & Tb & _). assert (x < length ns) by (apply nth_error_Some; rewrite Eb; discriminate).
    destruct OS as [(c & Ec & Tc) _]. assert (x <> length ns - 1) by (intros ->; rewrite Eb in Ec; injection Ec as ->; exact (Tb Tc)). lia.
  - rewrite (removed_length _ _ _ _ _ (RR ph Hp) RE), (removed_length _ _ _ _ _ (RR ph' Hp') RE'). exact NE.
Qed.
End Three.

(** ** the shipped tables *)
Section Shipped.
Context {K : Type} {O : Ops K} {F : Fld K} {O2 : OrdOps K} {OF : OrdFld K}.
Notation nodes := (list (bus_data (K := K))).
Notation branches := (list (line_data (K := K))).
(** [zs] tells which buses have no load on phase [ph] *)
Definition unloaded_on (ph : nat) (ns : nodes) (zs : list bool) : Prop := Forall2 (fun b z => z = true <-> (phase_power (bd_p b) ph = 0%K /\ phase_power (bd_q b) ph = 0%K)) ns zs.
Definition tablesb (ts : list (string * (K * K))) (ns : nodes) (ls : branches) : bool :=
  forallb (fun b => match bd_type b with 1 => match bd_p b, bd_q b with Phases _ _ _, Phases _ _ _ => true | _, _ => false end | 3 => match bd_p b with Single _ => true | _ => false end | _ => false end) ns &&
  (if list_eq_dec Nat.eq_dec (map bd_id ns) (seq 1 (length ns)) then true else false) &&
  forallb (fun l => existsb (Nat.eqb (ld_start l)) (map bd_id ns) && existsb (Nat.eqb (ld_end l)) (map bd_id ns) && match ld_type l with Some s => match type_of ts s with Some _ => true | None => false end | None => false end) ls.
Lemma tables_ok : forall ts ns ls, tablesb ts ns ls = true -> tables3 ts ns ls.
Proof.
  intros ts ns ls H. unfold tablesb in H. apply andb_prop in H. destruct H as [H H3]. apply andb_prop in H. destruct H as [H1 H2]. rewrite forallb_forall in H1, H3.
  assert (B : forall b, In b ns -> (bd_type b = 1 /\ both three b) \/ (bd_type b = 3 /\ is_single (bd_p b))).
  { intros b Hb. specialize (H1 b Hb). destruct (bd_type b) as [|[|[|[|t]]]]; try discriminate H1.
    - left. split; [reflexivity|]. unfold both, three. destruct (bd_p b), (bd_q b); try discriminate H1. split; repeat eexists.
    - right. split; [reflexivity|]. unfold is_single. destruct (bd_p b); [eauto|discriminate H1]. }
  split.
  - intros b Hb T. destruct (B b Hb) as [[_ X]|[X _]]; [exact X|congruence].
  - intros b Hb T. destruct (B b Hb) as [[X _]|[_ X]]; [congruence|exact X].
  - destruct (list_eq_dec Nat.eq_dec (map bd_id ns) (seq 1 (length ns))) as [E|]; [|discriminate H2]. rewrite E. apply seq_NoDup.
  - intros b Hb. destruct (B b Hb) as [[X _]|[X _]]; auto.
  - intros l Hl _. specialize (H3 l Hl). apply andb_prop in H3. destruct H3 as [H3 H4]. apply andb_prop in H3. destruct H3 as [H3 H5]. apply in_eqb in H3, H5. split; [exact H3|]. split; [exact H5|].
    destruct (ld_type l) as [t|]; [|discriminate H4]. destruct (type_of ts t) as [q|] eqn:E; [|discriminate H4]. eauto.
Qed.
Lemma removed_ok : forall hidden ns zs ph, unloaded_on ph ns zs -> removed_on hidden ns ph (eliminated_positions hidden ns zs).
Proof.
  intros hidden ns zs ph L. unfold removed_on, eliminated_positions.
  assert (LL : length ns = length (combine ns zs)) by (clear - L; induction L as [|b z ns zs _ H IH]; [reflexivity|]; cbn [combine length]; rewrite IH; reflexivity).
  assert (AT : forall k bz, nth_error (combine ns zs) k = Some bz -> nth_error ns k = Some (fst bz) /\ (snd bz = true <-> (phase_power (bd_p (fst bz)) ph = 0%K /\ phase_power (bd_q (fst bz)) ph = 0%K))).
  { clear - L. induction L as [|b z ns zs Hb H IH]; intros k bz E; [destruct k; discriminate E|]. destruct k as [|k]; [injection E as <-; cbn; auto|]. exact (IH k bz E). }
  assert (AT' : forall k b, nth_error ns k = Some b -> exists z, nth_error (combine ns zs) k = Some (b, z)).
  { clear - L. induction L as [|c z ns zs Hb H IH]; intros k b E; [destruct k; discriminate E|]. destruct k as [|k]; [injection E as ->; cbn; eauto|]. exact (IH k b E). }
  rewrite LL. destruct (positions_sorted (elimb hidden) (combine ns zs) 0) as [S1 S2].
  split; [apply sorted_NoDup; exact S1|]. intro k. rewrite S2, Nat.sub_0_r. split.
  - intros (_ & bz & E & T). destruct (AT k bz E) as [E1 Z]. exists (fst bz). split; [exact E1|]. unfold elimb in T. apply andb_prop in T. destruct T as [T1 T2].
    split; [apply Nat.eqb_neq; destruct (bd_type (fst bz) =? 3); [discriminate T1|reflexivity]|]. apply orb_prop in T2. destruct T2 as [T2|T2]; [left; apply in_eqb; exact T2|right; apply Z; exact T2].
  - intros (b & E & H1 & H2). split; [lia|]. destruct (AT' k b E) as (z & Ez). exists (b, z). split; [exact Ez|].
    destruct (AT k (b, z) Ez) as [_ Z]. cbn [fst snd] in Z. unfold elimb. cbn [fst snd]. apply Nat.eqb_neq in H1. rewrite H1. cbn [negb andb].
    destruct H2 as [H2|H2]; [apply in_eqb in H2; rewrite H2; reflexivity|]. apply Z in H2. rewrite H2. apply orb_true_r.
Qed.
Ltac idle_rows := repeat (apply Forall2_cons; [split; [first [discriminate|intros _; split; reflexivity]|first [reflexivity|intros [E _]; exfalso; revert E; apply dec_neq0]]|]); apply Forall2_nil.
Lemma cigre_mv_feeder3_idle0 : unloaded_on 0 cigre_mv_feeder3_bus [false; false; false; false; false; false; false; false; false; false].
Proof. unfold cigre_mv_feeder3_bus. idle_rows. Qed.
Lemma cigre_mv_feeder3_idle1 : unloaded_on 1 cigre_mv_feeder3_bus [false; false; false; false; false; false; false; false; false; false].
Proof. unfold cigre_mv_feeder3_bus. idle_rows. Qed.
Lemma cigre_mv_feeder3_idle2 : unloaded_on 2 cigre_mv_feeder3_bus [false; false; false; false; false; false; false; false; false; false].
Proof. unfold cigre_mv_feeder3_bus. idle_rows. Qed.
Lemma cigre_mv_feeder3_tables : tables3 ieee123_types cigre_mv_feeder3_bus cigre_mv_feeder3_net.
Proof. unfold cigre_mv_feeder3_bus, cigre_mv_feeder3_net. apply tables_ok; vm_compute; reflexivity. Qed.
Lemma cigre_mv_feeder3_substation : only_substation cigre_mv_feeder3_bus 9.
Proof. apply ProofTemplates.types_ok; [vm_compute; reflexivity|cbn; lia]. Qed.
Lemma test_3phase_idle0 : unloaded_on 0 test_3phase_bus [false; false; false; true; false].
Proof. unfold test_3phase_bus. idle_rows. Qed.
Lemma test_3phase_idle1 : unloaded_on 1 test_3phase_bus [false; false; true; false; false].
Proof. unfold test_3phase_bus. idle_rows. Qed.
Lemma test_3phase_idle2 : unloaded_on 2 test_3phase_bus [false; false; true; true; false].
Proof. unfold test_3phase_bus. idle_rows. Qed.
Lemma test_3phase_tables : tables3 ieee123_types test_3phase_bus test_3phase_net.
Proof. unfold test_3phase_bus, test_3phase_net. apply tables_ok; vm_compute; reflexivity. Qed.
Lemma test_3phase_substation : only_substation test_3phase_bus 4.
Proof. apply ProofTemplates.types_ok; [vm_compute; reflexivity|cbn; lia]. Qed.
Lemma ieee123center_idle0 : unloaded_on 0 ieee123center_bus [false; false; false; true; false; false; true; false; true; true; false; true; false; true; false; true; false; true; false; true; true; false; true; true; false; true; true; false; true; true; false; true; true; false; true; true; true; true; false; false; true; true; false; false; false; true; false; true; false; false; false; false; false; true; false; false].
Proof. unfold ieee123center_bus. idle_rows. Qed.
Lemma ieee123center_idle1 : unloaded_on 1 ieee123center_bus [false; true; false; true; true; true; true; true; false; false; true; true; true; false; false; true; true; true; false; false; true; true; false; true; true; true; false; false; false; true; true; false; true; true; false; true; true; false; true; true; false; true; true; true; true; true; false; true; false; true; false; false; false; true; true; false].
Proof. unfold ieee123center_bus. idle_rows. Qed.
Lemma ieee123center_idle2 : unloaded_on 2 ieee123center_bus [false; true; true; false; true; true; true; true; true; true; true; false; true; true; false; false; true; false; false; true; true; true; true; false; true; false; true; true; true; false; true; true; true; true; true; false; false; true; true; true; true; false; false; true; true; false; true; false; true; true; false; false; false; false; true; false].
Proof. unfold ieee123center_bus. idle_rows. Qed.
Lemma ieee123center_tables : tables3 ieee123_types ieee123center_bus ieee123center_net.
Proof. unfold ieee123center_bus, ieee123center_net. apply tables_ok; vm_compute; reflexivity. Qed.
Lemma ieee123center_substation : only_substation ieee123center_bus 55.
Proof. apply ProofTemplates.types_ok; [vm_compute; reflexivity|cbn; lia]. Qed.
Lemma template3_cases : forall name (t : nodes * branches), template3 name = Some t ->
  (name = "cigre_mv_feeder3"%string /\ t = (cigre_mv_feeder3_bus, cigre_mv_feeder3_net)) \/ (name = "test_3phase"%string /\ t = (test_3phase_bus, test_3phase_net)) \/
  (name = "ieee123center"%string /\ t = (ieee123center_bus, ieee123center_net)).
Proof.
  intros name t H. unfold template3 in H.
  destruct (String.eqb_spec name "cigre_mv_feeder3") as [E|_]; [left; split; [exact E|congruence]|].
  destruct (String.eqb_spec name "test_3phase") as [E|_]; [right; left; split; [exact E|congruence]|].
  destruct (String.eqb_spec name "ieee123center") as [E|_]; [right; right; split; [exact E|congruence]|discriminate H].
Qed.
Lemma template3_tables : forall name (ns : nodes) (ls : branches), template3 name = Some (ns, ls) -> tables3 ieee123_types ns ls.
Proof.
  intros name ns ls H. apply template3_cases in H. destruct H as [[_ E]|[[_ E]|[_ E]]]; injection E as -> ->;
  [exact cigre_mv_feeder3_tables|exact test_3phase_tables|exact ieee123center_tables].
Qed.
Lemma shown_ok : forall hidden (ns : nodes), forallb (fun b => negb ((bd_type b =? 3) && existsb (Nat.eqb (bd_id b)) hidden)) ns = true -> shown hidden ns.
Proof.
  intros hidden ns H b Hb T I. rewrite forallb_forall in H. specialize (H b Hb). rewrite T in H. apply in_eqb in I. rewrite I in H. discriminate H.
Qed.
End Shipped.
