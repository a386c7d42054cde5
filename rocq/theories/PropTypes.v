(** C120: the impedances of the line types of the three-phase networks. *)
From Coq Require Import String.
From Coq Require Import Arith List Lia Reals Lra Ring Field.
From Verif Require Import BasePy BaseFld BaseSum BaseMat BaseLin BaseReal ModelErrorMetrics ModelSet ModelNet ModelScript ModelTemplates ModelTypes ModelLines ModelReduce3 SpecTypes ProofLines ProofTypes.
Import ListNotations.
Close Scope R_scope. Close Scope string_scope. Open Scope list_scope. Open Scope nat_scope.

Lemma dec_R : forall a b : positive, (dec a b : R) = (IZR (Zpos a) / IZR (Zpos b))%R.
Proof.
  assert (P : forall p : positive, (of_pos p : R) = IZR (Zpos p)).
  { induction p as [p IH|p IH|]; cbn [of_pos]; rewrite ?IH; [rewrite Pos2Z.inj_xI, plus_IZR, mult_IZR|rewrite Pos2Z.inj_xO, mult_IZR|]; cbv [kadd kmul k1 R_ops]; runfold; lra. }
  intros a b. unfold dec. rewrite !P. reflexivity.
Qed.
Definition three_phase_types : list string := ["OG3"%string; "UG3"%string].
Lemma joins_as : forall base len z y i j (w : C), joins base len z y i j -> (Cx len 0 * Cx (fst z) (snd z) = w)%K -> (get y i j * w = - Cx base 0)%K.
Proof. intros base len z y i j w H <-. exact H. Qed.
(** The overhead lines and cables with three phases have the documented impedances: between two nodes that are joined by such a line
    the admittances of the phases are the inverse of the documented matrix of impedances. *)
Theorem C120_documented : forall name z1 z0 own mutual n y0 y1 Y i j base len, In name three_phase_types ->
  In (name, (z1, z0)) (sequence_types (K := R)) -> In (name, (own, mutual)) documented ->
  shape y0 n n -> shape y1 n n -> i < n -> j < n -> joins base len z1 y1 i j -> joins base len z0 y0 i j ->
  make_y_bus3 (y0, y1, y1) = Ok Y -> phase_line base (phase_impedance own mutual len) Y i j.
Proof.
  intros name z1 z0 own mutual n y0 y1 Y i j base len HN HT HD S0 S1 Hi Hj J1 J0 E. set (k := (Cx (len / (3 / 10))%R 0%R) : C).
  assert (G : (Cx len 0 * Cx (fst z1) (snd z1) = k * own - k * mutual)%K /\ (Cx len 0 * Cx (fst z0) (snd z0) = k * own + (1 + 1) * (k * mutual))%K).
  { destruct HN as [<-|[<-|[]]]; cbn [sequence_types documented In] in HT, HD; repeat (destruct HT as [HT|HT]; [try discriminate HT|]); try contradiction; repeat (destruct HD as [HD|HD]; [try discriminate HD|]); try contradiction;
      inversion HT; inversion HD; subst; unfold k, Z3_1_og, Z3_0_og, Z3_1_ug, Z3_0_ug; cbn [fst snd]; rewrite !dec_R; cbv [kadd kmul ksub kopp kdiv k0 k1 cplx_ops cadd cmul csub copp re im R_ops]; split; f_equal; runfold; field. }
  destruct G as [G1 G0]. unfold phase_line. apply (line_entry n y0 y1 Y i j (k * own)%K (k * mutual)%K (Cx base 0%R) (phase_impedance own mutual len) S0 S1 E Hi Hj).
  - exact (joins_as _ _ _ _ _ _ _ J0 G0).
  - exact (joins_as _ _ _ _ _ _ _ J1 G1).
  - intros p q. unfold phase_impedance. fold k. destruct (Nat.eqb p q); reflexivity.
Qed.
(** Whatever the type of a line is, the phases of the two nodes do not influence each other exactly if the two impedances of the type agree. *)
Theorem C120_no_coupling_iff : forall z1 z0 n y0 y1 Y i j base len,
  shape y0 n n -> shape y1 n n -> i < n -> j < n -> base <> 0%R -> joins base len z1 y1 i j -> joins base len z0 y0 i j -> make_y_bus3 (y0, y1, y1) = Ok Y ->
  ((forall p q, p < 3 -> q < 3 -> p <> q -> get Y (i * 3 + p) (j * 3 + q) = 0%K) <-> z1 = z0).
Proof.
  intros z1 z0 n y0 y1 Y i j base len S0 S1 Hi Hj HB J1 J0 E. unfold joins in J0, J1.
  assert (NB : (- Cx base 0 : C)%K <> 0%K) by (intro Z; apply (f_equal re) in Z; cbn in Z; revert Z; runfold; lra).
  assert (NL : len <> 0%R) by (intros ->; apply NB; rewrite <- J1; cbv [kmul kopp k0 cplx_ops cmul copp re im R_ops]; destruct (get y1 i j) as [u v]; cbn [re im]; f_equal; runfold; ring).
  assert (ENT : forall p q, p < 3 -> q < 3 -> p <> q -> get Y (i * 3 + p) (j * 3 + q) = (third * (get y0 i j - get y1 i j))%K).
  { intros p q Hp Hq N. rewrite (phase_entry n y0 y1 Y i j p q S0 S1 E Hi Hj Hp Hq). apply Nat.eqb_neq in N. rewrite N. reflexivity. }
  assert (NT : third <> (0%K : C)) by (intro Z; pose proof third_3 as Q; rewrite Z in Q; apply (f_equal re) in Q; cbn in Q; revert Q; runfold; lra).
  split.
  - intro H. assert (EQ : get y0 i j = get y1 i j).
    { specialize (H 0 1 ltac:(lia) ltac:(lia) ltac:(lia)). rewrite ENT in H by lia. apply kmul_integral in H. destruct H as [H|H]; [contradiction|].
      transitivity ((get y0 i j - get y1 i j) + get y1 i j)%K; [ring|rewrite H; ring]. }
    assert (N1 : get y1 i j <> 0%K) by (intro Z; apply NB; rewrite <- J1, Z; ring).
    assert (E2 : (get y1 i j * (Cx len 0 * (Cx (fst z1) (snd z1) - Cx (fst z0) (snd z0))) = 0)%K).
    { transitivity (get y1 i j * (Cx len 0 * Cx (fst z1) (snd z1)) - get y0 i j * (Cx len 0 * Cx (fst z0) (snd z0)))%K; [rewrite EQ; ring|rewrite J0, J1; ring]. }
    apply kmul_integral in E2. destruct E2 as [E2|E2]; [contradiction|]. apply kmul_integral in E2. destruct E2 as [E2|E2]; [exfalso; apply NL; apply (f_equal re) in E2; exact E2|].
    destruct z1 as [a b], z0 as [c d]. cbn [fst snd] in E2. pose proof (f_equal re E2) as Er. pose proof (f_equal im E2) as Ei. cbn in Er, Ei. revert Er Ei. runfold. intros Er Ei. f_equal; lra.
  - intros <- p q Hp Hq N. rewrite ENT by assumption.
    assert (E2 : ((get y0 i j - get y1 i j) * (Cx len 0 * Cx (fst z1) (snd z1)) = 0)%K) by (transitivity (get y0 i j * (Cx len 0 * Cx (fst z1) (snd z1)) - get y1 i j * (Cx len 0 * Cx (fst z1) (snd z1)))%K; [ring|rewrite J0, J1; ring]).
    apply kmul_integral in E2. destruct E2 as [E2|E2]; [rewrite E2; ring|]. exfalso. apply NB. rewrite <- J1, E2. ring.
Qed.
(** ** A line of one kilometre between two nodes *)
Definition ohms (z : R * R) : C := Cx (fst z) (snd z).
Definition edge (z : R * R) : mat C := mk 2 2 (fun i j => if Nat.eqb i j then (1 / ohms z)%K else (- (1 / ohms z))%K).
Lemma edge_joins : forall z, fst z <> 0%R -> joins 1 1 z (edge z) 0 1.
Proof.
  intros z N. assert (Z : ohms z <> 0%K) by (intro Z; apply N; exact (f_equal re Z)). unfold joins, edge. rewrite get_mk by lia. cbn [Nat.eqb]. change (Cx (fst z) (snd z)) with (ohms z).
  change (Cx 1%R 0%K) with (1%K : C). field. exact Z.
Qed.
Lemma edge_ok : forall z1 z0, exists Y, make_y_bus3 (edge z0, edge z1, edge z1) = Ok Y.
Proof. intros z1 z0. eexists. unfold make_y_bus3, sum_kron. cbn [edge same_shape nr nc mk Nat.eqb andb bind]. apply (seq_to_phase_eq 2). apply shape_assemble; reflexivity. Qed.
Lemma types_positive : forall name z1 z0, In (name, (z1, z0)) (sequence_types (K := R)) -> fst z1 <> 0%R /\ fst z0 <> 0%R.
Proof.
  assert (W : forall t, In t (sequence_types (K := R)) -> (0 < fst (fst (snd t)) /\ 0 < fst (snd (snd t)))%R).
  { intros t H. cbn [sequence_types In] in H. destruct H as [<-|[<-|[<-|[<-|[]]]]]; cbn [fst snd]; unfold Z3_1_og, Z3_0_og, Z1_0_og, Z1_1_og, Z3_1_ug, Z3_0_ug; cbn [fst snd]; rewrite !dec_R; cbv [kadd kmul ksub kdiv R_ops]; runfold; split; lra. }
  intros name z1 z0 H. destruct (W _ H) as [A B]. cbn [fst snd] in A, B. split; lra.
Qed.
(** The line with one phase is documented with two equal impedances, so that no phase influences another.  Its zero-sequence impedance is
    divided twice by 0.3, and the phases do influence each other. *)
Theorem C120_single_phase_refuted : exists z1 z0 own mutual y0 y1 Y, In ("OG1"%string, (z1, z0)) (sequence_types (K := R)) /\ In ("OG1"%string, (own, mutual)) documented /\
  shape y0 2 2 /\ shape y1 2 2 /\ joins 1 1 z1 y1 0 1 /\ joins 1 1 z0 y0 0 1 /\ make_y_bus3 (y0, y1, y1) = Ok Y /\ ~ phase_line 1 (phase_impedance own mutual 1) Y 0 1.
Proof.
  set (z1 := Z1_1_og : R * R). set (z0 := Z1_0_og : R * R). destruct (edge_ok z1 z0) as [Y EY].
  assert (HT : In ("OG1"%string, (z1, z0)) (sequence_types (K := R))) by (right; right; left; reflexivity).
  destruct (types_positive _ _ _ HT) as [N1 N0]. pose proof (edge_joins z1 N1) as J1. pose proof (edge_joins z0 N0) as J0.
  exists z1, z0, (Cx (25 / 100)%R (25 / 100)%R), (Cx 0%R 0%R), (edge z0), (edge z1), Y. split; [exact HT|]. split; [right; right; left; reflexivity|]. split; [apply shape_mk|]. split; [apply shape_mk|]. split; [exact J1|]. split; [exact J0|]. split; [exact EY|].
  intro PL. assert (NE : z1 <> z0).
  { intro Q. apply (f_equal fst) in Q. revert Q. unfold z1, z0, Z1_0_og, Z1_1_og. cbn [fst snd]. rewrite !dec_R. cbv [kdiv R_ops]. runfold. lra. }
  apply NE. apply (C120_no_coupling_iff z1 z0 2 (edge z0) (edge z1) Y 0 1 1%R 1%R (shape_mk _ _ _) (shape_mk _ _ _) ltac:(lia) ltac:(lia) ltac:(lra) J1 J0 EY).
  intros p q Hp Hq N. specialize (PL p q Hp Hq). rewrite sumn_three in PL by reflexivity. unfold phase_impedance in PL. change (Cx 0%R 0%R) with (0%K : C) in PL.
  set (k := (Cx (1%R / (3%R / 10%R)) 0)%K) in PL. set (own := (Cx (25 / 100)%R (25 / 100)%R : C)) in PL.
  assert (NK : (k * own)%K <> 0%K) by (intro Z; apply (f_equal re) in Z; unfold k, own in Z; cbn in Z; revert Z; runfold; lra).
  assert (G : (get Y (0 * 3 + p) (1 * 3 + q) * (k * own) = 0)%K).
  { assert (NB : Nat.eqb p q = false) by (apply Nat.eqb_neq; exact N). rewrite NB in PL. rewrite <- PL. cases3 q Hq; cbn [Nat.eqb]; ring. }
  apply kmul_integral in G. destruct G as [G|G]; [exact G|contradiction].
Qed.
Print Assumptions C120_documented.
Print Assumptions C120_no_coupling_iff.
Print Assumptions C120_single_phase_refuted.

(** ** Examples *)
(** both types with three phases are in both tables, and two nodes can be joined by them *)
Example C120_documented_ex : forall name, In name three_phase_types -> exists z1 z0 own mutual Y, In (name, (z1, z0)) (sequence_types (K := R)) /\ In (name, (own, mutual)) documented /\
  shape (edge z0) 2 2 /\ shape (edge z1) 2 2 /\ joins 1 1 z1 (edge z1) 0 1 /\ joins 1 1 z0 (edge z0) 0 1 /\ make_y_bus3 (edge z0, edge z1, edge z1) = Ok Y /\ mutual <> 0%K.
Proof.
  assert (W : forall name z1 z0 own mutual, In (name, (z1, z0)) (sequence_types (K := R)) -> In (name, (own, mutual)) documented -> mutual <> 0%K -> exists z1 z0 own mutual Y, In (name, (z1, z0)) (sequence_types (K := R)) /\ In (name, (own, mutual)) documented /\
    shape (edge z0) 2 2 /\ shape (edge z1) 2 2 /\ joins 1 1 z1 (edge z1) 0 1 /\ joins 1 1 z0 (edge z0) 0 1 /\ make_y_bus3 (edge z0, edge z1, edge z1) = Ok Y /\ mutual <> 0%K).
  { intros name z1 z0 own mutual HT HD NM. destruct (edge_ok z1 z0) as [Y EY]. destruct (types_positive _ _ _ HT) as [N1 N0]. exists z1, z0, own, mutual, Y.
    split; [exact HT|]. split; [exact HD|]. split; [apply shape_mk|]. split; [apply shape_mk|]. split; [apply edge_joins; exact N1|]. split; [apply edge_joins; exact N0|]. split; [exact EY|exact NM]. }
  intros name [<-|[<-|[]]].
  - eapply W; [left; reflexivity|left; reflexivity|]. intro Z. apply (f_equal re) in Z. cbn in Z. revert Z. runfold. lra.
  - eapply W; [right; left; reflexivity|right; left; reflexivity|]. intro Z. apply (f_equal re) in Z. cbn in Z. revert Z. runfold. lra.
Qed.
(** the positive-sequence values are those of the table the networks are built with *)
Example C120_same_table : map (fun t => (fst t, fst (snd t))) (sequence_types (K := R)) = ieee123_types.
Proof. reflexivity. Qed.
(** a line without coupling; C120_single_phase_refuted has one with coupling *)
Example C120_no_coupling_ex : exists Y, shape (edge (1, 2)%R) 2 2 /\ 1%R <> 0%R /\ joins 1 1 (1, 2)%R (edge (1, 2)%R) 0 1 /\ make_y_bus3 (edge (1, 2)%R, edge (1, 2)%R, edge (1, 2)%R) = Ok Y /\ get Y 0 4 = 0%K.
Proof.
  destruct (edge_ok (1, 2)%R (1, 2)%R) as [Y EY]. assert (J : joins 1 1 (1, 2)%R (edge (1, 2)%R) 0 1) by (apply edge_joins; cbn; lra). exists Y. split; [apply shape_mk|]. split; [lra|]. split; [exact J|]. split; [exact EY|].
  exact (proj2 (C120_no_coupling_iff (1, 2)%R (1, 2)%R 2 _ _ Y 0 1 1%R 1%R (shape_mk _ _ _) (shape_mk _ _ _) ltac:(lia) ltac:(lia) ltac:(lra) J J EY) eq_refl 0 1 ltac:(lia) ltac:(lia) ltac:(lia)).
Qed.
