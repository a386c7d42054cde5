(** Block diagonal transformations and node phases. *)
From Coq Require Import Bool Arith Lia List Permutation Reals Ring Field.
From Verif Require Import BasePy BaseFld BaseSum BaseMat BaseLin BaseReal ModelErrorMetrics ModelSet ModelKron ModelLines ModelNet ModelReduce ModelReduce3
  SpecMatrix SpecLS SpecLines SpecKron SpecNet SpecReduce SpecReduce3 ProofMatrixOps ProofSet ProofKron ProofLines ProofReduce.
Import ListNotations.
Local Open Scope K_scope.
Add Field CfThree : (@k_field C _ _).

(** ** positions *)
Lemma phases3_length : forall l, length (phases3 l) = (length l * 3)%nat.
Proof. unfold phases3. induction l as [|a l IH]; [reflexivity|]. cbn [flat_map]. rewrite app_length, IH. cbn [length]. lia. Qed.
Lemma phases3_In : forall l x, In x (phases3 l) <-> In (x / 3)%nat l.
Proof.
  intros l x. unfold phases3. rewrite in_flat_map. split.
  - intros (i & I & [<-|[<-|[<-|[]]]]); replace (_ / 3)%nat with i; auto.
    + rewrite Nat.mul_comm, Nat.div_mul by lia; auto.
    + apply (Nat.div_unique _ 3 i 1); lia.
    + apply (Nat.div_unique _ 3 i 2); lia.
  - intro I. exists (x / 3)%nat. split; [auto|]. pose proof (Nat.div_mod x 3 ltac:(lia)). pose proof (Nat.mod_upper_bound x 3 ltac:(lia)). cbn [In]. lia.
Qed.
Lemma phases3_nth : forall l k p, (k < length l)%nat -> (p < 3)%nat -> nth (k * 3 + p) (phases3 l) 0%nat = (nth k l 0 * 3 + p)%nat.
Proof.
  induction l as [|a l IH]; intros k p Hk Hp; [cbn in Hk; lia|]. unfold phases3. cbn [flat_map].
  destruct k as [|k].
  - cbn [Nat.mul Nat.add nth]. destruct p as [|[|[|p]]]; [| | |lia]; cbn [app nth]; lia.
  - replace (S k * 3 + p)%nat with (3 + (k * 3 + p))%nat by lia. cbn [app nth Nat.add]. fold (phases3 l). rewrite IH by (cbn in Hk; lia). reflexivity.
Qed.
Lemma at_phases3 : forall s i, (i < length s * 3)%nat -> at_ (phases3 s) i = (at_ s (i / 3) * 3 + i mod 3)%nat.
Proof.
  intros s i H. unfold at_. pose proof (Nat.div_mod i 3 ltac:(lia)). pose proof (Nat.mod_upper_bound i 3 ltac:(lia)).
  rewrite <- phases3_nth by (try apply Nat.div_lt_upper_bound; lia). f_equal. lia.
Qed.
Lemma map_at_phases3 : forall s l, (forall x, In x l -> (x < length s)%nat) -> map (at_ (phases3 s)) (phases3 l) = phases3 (map (at_ s) l).
Proof.
  intros s l H. induction l as [|a l IH]; [reflexivity|]. cbn [map]. unfold phases3. cbn [flat_map]. fold (phases3 l). fold (phases3 (map (at_ s) l)).
  rewrite map_app. fold (phases3 s). rewrite IH by (intros; apply H; cbn; auto). f_equal.
  assert (Ha : (a < length s)%nat) by (apply H; cbn; auto). cbn [map]. rewrite !at_phases3 by lia.
  assert (D : forall p, (p < 3)%nat -> ((3 * a + p) / 3 = a /\ (3 * a + p) mod 3 = p)%nat).
  { intros p Hp. split; [symmetry; apply (Nat.div_unique _ 3 a p); lia|symmetry; apply (Nat.mod_unique _ 3 a p); lia]. }
  destruct (D 0%nat) as [D0 M0]; [lia|]. destruct (D 1%nat) as [D1 M1]; [lia|]. destruct (D 2%nat) as [D2 M2]; [lia|].
  rewrite Nat.add_0_r in D0, M0. rewrite D0, M0, D1, M1, D2, M2. f_equal; [lia|]. f_equal; [lia|]. f_equal. lia.
Qed.
Lemma existsb_In : forall x l, existsb (Nat.eqb x) l = true <-> In x l.
Proof. intros. rewrite existsb_exists. split; [intros (y & I & E); apply Nat.eqb_eq in E; subst; auto|intro; exists x; split; auto; apply Nat.eqb_refl]. Qed.
Lemma existsb_same : forall x l y l', (In x l <-> In y l') -> existsb (Nat.eqb x) l = existsb (Nat.eqb y) l'.
Proof. intros. apply eq_iff_eq_true. rewrite !existsb_In. auto. Qed.
Lemma seq_three : forall n a, seq (a * 3) (n * 3) = phases3 (seq a n).
Proof.
  induction n as [|n IH]; intros a; [reflexivity|]. cbn [Nat.mul Nat.add seq]. unfold phases3. cbn [flat_map]. fold (phases3 (seq (S a) n)).
  rewrite <- IH. cbn [app Nat.mul Nat.add]. replace (a + (a + (a + 0)))%nat with (a * 3)%nat by lia.
  replace (a * 3 + 1)%nat with (S (a * 3)) by lia. replace (a * 3 + 2)%nat with (S (S (a * 3))) by lia. reflexivity.
Qed.
Lemma filter_phases3 : forall (q : nat -> bool) l, filter (fun i => q (i / 3)%nat) (phases3 l) = phases3 (filter q l).
Proof.
  intros q l. induction l as [|a l IH]; [reflexivity|]. unfold phases3. cbn [flat_map]. fold (phases3 l). rewrite filter_app, IH.
  cbn [filter]. assert (D : forall p, (p < 3)%nat -> ((3 * a + p) / 3 = a)%nat) by (intros p Hp; symmetry; apply (Nat.div_unique _ 3 a p); lia).
  pose proof (D 0%nat ltac:(lia)) as D0. rewrite Nat.add_0_r in D0. rewrite D0, (D 1%nat), (D 2%nat) by lia. destruct (q a); reflexivity.
Qed.
Lemma kept_phases3 : forall N l, kept_ascending (N * 3) (phases3 l) = phases3 (kept_ascending N l).
Proof.
  intros N l. unfold kept_ascending. change (seq 0 (N * 3)) with (seq (0 * 3) (N * 3)). rewrite seq_three. rewrite <- filter_phases3. apply filter_ext. intro i. f_equal.
  apply existsb_same. apply phases3_In.
Qed.

(** ** the same 3x3 matrix at every node *)
Definition loc (n : nat) (b : mat C) : mat C := mkron (meye n) b.
Section Loc.
Variables (b : mat C).
Hypothesis Sb : shape b 3 3.
Lemma shape_loc : forall n, shape (loc n b) (n * 3) (n * 3).
Proof. intro n. destruct Sb as (_ & R & C). split; [apply wf_mk|]. cbn. rewrite R, C. auto. Qed.
Lemma get_loc : forall n i j p q, (i < n)%nat -> (j < n)%nat -> (p < 3)%nat -> (q < 3)%nat ->
  get (loc n b) (i * 3 + p) (j * 3 + q) = if (i =? j)%nat then get b p q else 0.
Proof.
  intros n i j p q Hi Hj Hp Hq. destruct Sb as (_ & R & C). unfold loc.
  pose proof (get_mkron (meye n) b i j p q) as G. rewrite R, C in G. rewrite G by (cbn; auto). rewrite get_meye by auto. destruct (i =? j)%nat; ring.
Qed.
Lemma loc_r : forall n (V : mat C) t i q, nc V = (n * 3)%nat -> (t < nr V)%nat -> (i < n)%nat -> (q < 3)%nat ->
  get (mmul V (loc n b)) t (i * 3 + q) = sumn 3 (fun p => get V t (i * 3 + p) * get b p q).
Proof.
  intros n V t i q CV Ht Hi Hq. destruct (shape_loc n) as (_ & RL & CL). rewrite get_mmul by lia. rewrite CV, sumn_mul.
  rewrite (sumn_single _ i); auto.
  - apply sumn_ext. intros p Hp. rewrite get_loc by auto. rewrite Nat.eqb_refl. reflexivity.
  - intros j Hj Ne. apply sumn_zero. intros p Hp. rewrite get_loc by auto. destruct (Nat.eqb_spec j i); [congruence|]. ring.
Qed.
Lemma loc_l : forall n (V : mat C) t i q, nr V = (n * 3)%nat -> (t < nc V)%nat -> (i < n)%nat -> (q < 3)%nat ->
  get (mmul (loc n b) V) (i * 3 + q) t = sumn 3 (fun p => get b q p * get V (i * 3 + p) t).
Proof.
  intros n V t i q RV Ht Hi Hq. destruct (shape_loc n) as (_ & RL & CL). rewrite get_mmul by lia. rewrite CL, sumn_mul.
  rewrite (sumn_single _ i); auto.
  - apply sumn_ext. intros p Hp. rewrite get_loc by auto. rewrite Nat.eqb_refl. reflexivity.
  - intros j Hj Ne. apply sumn_zero. intros p Hp. rewrite get_loc by auto. destruct (Nat.eqb_spec i j); [congruence|]. ring.
Qed.
Lemma cols_loc : forall n (V : mat C) l, nc V = (n * 3)%nat -> (forall x, In x l -> (x < n)%nat) ->
  cols_of (mmul V (loc n b)) (phases3 l) = mmul (cols_of V (phases3 l)) (loc (length l) b).
Proof.
  intros n V l CV Hl. pose proof (shape_loc (length l)) as (_ & RL & CL).
  apply (gshape_ext _ _ (nr V) (length l * 3)).
  - split; [apply wf_mk|]. cbn. rewrite phases3_length. auto.
  - split; [apply wf_mk|]. cbn [nr nc mmul mk cols_of]. split; [reflexivity|exact CL].
  - intros t j Ht Hj. pose proof (Nat.div_mod j 3 ltac:(lia)). pose proof (Nat.mod_upper_bound j 3 ltac:(lia)).
    assert (Hk : (j / 3 < length l)%nat) by (apply Nat.div_lt_upper_bound; lia).
    replace j with (j / 3 * 3 + j mod 3)%nat by lia. set (k := (j / 3)%nat) in *. set (q := (j mod 3)%nat) in *.
    rewrite loc_r; auto; [|cbn; rewrite phases3_length; auto].
    unfold cols_of at 1. rewrite get_mk by (rewrite ?phases3_length; cbn [nr nc mmul mk]; lia). rewrite phases3_nth by auto.
    rewrite loc_r by (auto; apply Hl, nth_In; auto). apply sumn_ext. intros p Hp. unfold cols_of.
    rewrite get_mk by (try rewrite phases3_length; lia). rewrite phases3_nth by auto. reflexivity.
Qed.
End Loc.
Lemma TA_loc : forall n, TA n = loc n block_abc. Proof. reflexivity. Qed.
Lemma TS_loc : forall n, TS n = loc n block_012. Proof. reflexivity. Qed.

Ltac split3 j n := let H1 := fresh in let H2 := fresh in pose proof (Nat.div_mod j 3 ltac:(lia)) as H1; pose proof (Nat.mod_upper_bound j 3 ltac:(lia)) as H2;
  assert (j / 3 < n)%nat by (apply Nat.div_lt_upper_bound; lia).

Lemma get_block : forall (Y : mat C) ri ci i j, (i < length ri)%nat -> (j < length ci)%nat -> get (block_of Y ri ci) i j = get Y (nth i ri 0%nat) (nth j ci 0%nat).
Proof. intros. unfold block_of. rewrite get_mk by auto. reflexivity. Qed.
Lemma block_loc : forall a b n (X : mat C) l, shape a 3 3 -> shape b 3 3 -> shape X (n * 3) (n * 3) -> (forall x, In x l -> (x < n)%nat) ->
  block_of (mmul (mmul (loc n a) X) (loc n b)) (phases3 l) (phases3 l) =
  mmul (mmul (loc (length l) a) (block_of X (phases3 l) (phases3 l))) (loc (length l) b).
Proof.
  intros a b n X l Sa Sb (WX & RX & CX) Hl.
  pose proof (shape_loc a Sa (length l)) as (_ & RLa & CLa). pose proof (shape_loc b Sb (length l)) as (_ & RLb & CLb).
  pose proof (shape_loc a Sa n) as (_ & RNa & CNa). pose proof (shape_loc b Sb n) as (_ & RNb & CNb).
  apply (gshape_ext _ _ (length l * 3) (length l * 3)).
  - split; [apply wf_mk|]. cbn. rewrite phases3_length. auto.
  - split; [apply wf_mk|]. cbn [nr nc mmul mk]. auto.
  - intros i j Hi Hj. split3 i (length l). split3 j (length l).
    replace i with (i / 3 * 3 + i mod 3)%nat by lia. replace j with (j / 3 * 3 + j mod 3)%nat by lia.
    set (i' := (i / 3)%nat) in *. set (p := (i mod 3)%nat) in *. set (j' := (j / 3)%nat) in *. set (q := (j mod 3)%nat) in *.
    rewrite get_block by (rewrite phases3_length; lia). rewrite !phases3_nth by auto.
    assert (nth i' l 0 < n)%nat by (apply Hl, nth_In; auto). assert (nth j' l 0 < n)%nat by (apply Hl, nth_In; auto).
    rewrite (loc_r b Sb n) by (auto; cbn [nr nc mmul mk]; lia).
    rewrite (loc_r b Sb (length l)) by (auto; cbn [nr nc mmul mk block_of]; rewrite ?phases3_length; lia).
    apply sumn_ext. intros r Hr. f_equal.
    rewrite (loc_l a Sa n) by (auto; lia).
    rewrite (loc_l a Sa (length l)) by (auto; cbn [nr nc mk block_of]; rewrite ?phases3_length; lia).
    apply sumn_ext. intros s Hs. f_equal. rewrite get_block by (rewrite phases3_length; lia). rewrite !phases3_nth by auto. reflexivity.
Qed.
Lemma loc_loc : forall n a b, shape a 3 3 -> shape b 3 3 -> mmul (loc n a) (loc n b) = loc n (mmul a b).
Proof.
  intros n a b (_ & Ra & Ca) (_ & Rb & Cb). unfold loc. rewrite mmul_mkron by (cbn; congruence). rewrite mmul_1_l' by (try apply wf_mk; reflexivity). reflexivity.
Qed.

(** ** [describes] with matrices *)
Section Describes.
Lemma describes_matrix : forall n order idx (Y Z : mat C), shape Y n n ->
  describes n order idx Y Z <->
  (shape Z (length order) (length order) /\
   (forall V, nc V = n -> wf V -> no_injection idx V Y -> cols_of (mmul V Y) order = mmul (cols_of V order) Z) /\
   (forall T W, shape W T (length order) -> exists V, shape V T n /\ no_injection idx V Y /\ cols_of V order = W)).
Proof.
  intros n order idx Y Z (WY & RY & CY). unfold describes. split.
  - intros (SZ & A & B). split; [auto|]. destruct SZ as (WZ & RZ & CZ). split.
    + intros V CV WV NV. apply (gshape_ext _ _ (nr V) (length order)).
      * split; [apply wf_mk|cbn; auto].
      * split; [apply wf_mk|]. cbn [nr nc mmul mk cols_of]. auto.
      * intros t k Ht Hk. unfold cols_of at 1. rewrite get_mk by (cbn; auto). rewrite (A V CV WV NV t k Ht Hk).
        rewrite get_mmul by (cbn [nr nc cols_of mk]; lia). apply sumn_ext. intros j Hj. cbn [nc cols_of mk] in Hj. unfold cols_of. rewrite get_mk by auto. reflexivity.
    + intros T W SW. destruct (B T W SW) as (V & SV & NV & EV). exists V. split; [auto|]. split; [auto|].
      destruct SV as (WV & RV & CV). apply (gshape_ext _ _ T (length order)); [split; [apply wf_mk|cbn; auto]|auto|].
      intros t k Ht Hk. unfold cols_of. rewrite get_mk by lia. apply EV; auto.
  - intros (SZ & A & B). split; [auto|]. destruct SZ as (WZ & RZ & CZ). split.
    + intros V CV WV NV t k Ht Hk. pose proof (f_equal (fun M => get M t k) (A V CV WV NV)) as G. cbn beta in G.
      unfold cols_of at 1 in G. rewrite get_mk in G by (cbn; auto). rewrite G.
      rewrite get_mmul by (cbn [nr nc cols_of mk]; lia). apply sumn_ext. intros j Hj. cbn [nc cols_of mk] in Hj. unfold cols_of. rewrite get_mk by auto. reflexivity.
    + intros T W SW. destruct (B T W SW) as (V & (WV & RV & CV) & NV & EV). exists V. split; [split; auto|]. split; [auto|].
      intros t k Ht Hk. rewrite <- EV. unfold cols_of. rewrite get_mk by lia. reflexivity.
Qed.

Lemma no_injection_loc : forall n b b' (X : mat C) l, shape b 3 3 -> shape b' 3 3 -> mmul b b' = meye 3 -> shape X (n * 3) (n * 3) -> (forall x, In x l -> (x < n)%nat) ->
  forall U, nc U = (n * 3)%nat -> (no_injection (phases3 l) U X -> no_injection (phases3 l) U (mmul X (loc n b))) /\
   (no_injection (phases3 l) U (mmul X (loc n b)) -> no_injection (phases3 l) U X).
Proof.
  intros n b b' X l Sb Sb' E (WX & RX & CX) Hl U CU.
  assert (FW : forall a (M : mat C), shape a 3 3 -> nc M = (n * 3)%nat -> nr M = nr U -> (forall t i, (t < nr U)%nat -> In i (phases3 l) -> get M t i = 0) ->
    forall t i, (t < nr U)%nat -> In i (phases3 l) -> get (mmul M (loc n a)) t i = 0).
  { intros a M Sa CM RM H t i Ht Hi. apply phases3_In in Hi. pose proof (Hl _ Hi) as Hn.
    pose proof (Nat.div_mod i 3 ltac:(lia)). pose proof (Nat.mod_upper_bound i 3 ltac:(lia)). replace i with (i / 3 * 3 + i mod 3)%nat by lia.
    rewrite (loc_r a Sa n) by (auto; lia). apply sumn_zero. intros p Hp. rewrite H; [ring|auto|]. apply phases3_In.
    replace ((i / 3 * 3 + p) / 3)%nat with (i / 3)%nat; [auto|]. apply (Nat.div_unique _ 3 (i / 3) p); lia. }
  pose proof (shape_loc b Sb n) as (_ & RLb & CLb).
  assert (A : mmul U (mmul X (loc n b)) = mmul (mmul U X) (loc n b)) by (rewrite mmul_assoc by congruence; reflexivity).
  split; intros H t i Ht Hi.
  - rewrite A. apply (FW b (mmul U X)); auto.
  - assert (E2 : mmul (mmul U (mmul X (loc n b))) (loc n b') = mmul U X).
    { rewrite A. pose proof (shape_loc b' Sb' n) as (_ & RLb' & _). rewrite mmul_assoc by (cbn [nc mmul mk]; congruence). rewrite loc_loc by auto. rewrite E. unfold loc. rewrite mkron_eye. apply mmul_1_r'; [apply wf_mk|cbn; auto]. }
    rewrite <- E2. apply (FW b' (mmul U (mmul X (loc n b)))); auto.
Qed.

(** changing the coordinates of every node *)
Lemma conj_describes : forall a b n order idx (X Z : mat C), shape a 3 3 -> shape b 3 3 -> mmul a b = meye 3 -> mmul b a = meye 3 ->
  shape X (n * 3) (n * 3) -> (forall x, In x order -> (x < n)%nat) -> (forall x, In x idx -> (x < n)%nat) ->
  describes (n * 3) (phases3 order) (phases3 idx) X Z ->
  describes (n * 3) (phases3 order) (phases3 idx) (mmul (mmul (loc n a) X) (loc n b)) (mmul (mmul (loc (length order) a) Z) (loc (length order) b)).
Proof.
  intros a b n order idx X Z Sa Sb Eab Eba SX Ho Hi D.
  pose proof SX as (WX & RX & CX).
  pose proof (shape_loc a Sa n) as (_ & RNa & CNa). pose proof (shape_loc b Sb n) as (WNb & RNb & CNb).
  pose proof (shape_loc a Sa (length order)) as (_ & RLa & CLa). pose proof (shape_loc b Sb (length order)) as (WLb & RLb & CLb).
  apply (describes_matrix (n * 3)) in D; [|auto]. destruct D as (SZ & A & B). rewrite phases3_length in SZ. destruct SZ as (WZ & RZ & CZ).
  apply (describes_matrix (n * 3)).
  { split; [apply wf_mk|]. cbn [nr nc mmul mk]. auto. }
  rewrite phases3_length. split; [split; [apply wf_mk|cbn [nr nc mmul mk]; auto]|]. split.
  - intros V CV WV NV.
    assert (AS : mmul V (mmul (mmul (loc n a) X) (loc n b)) = mmul (mmul (mmul V (loc n a)) X) (loc n b)).
    { rewrite !mmul_assoc by (cbn [nr nc mmul mk]; congruence). reflexivity. }
    assert (NU : no_injection (phases3 idx) (mmul V (loc n a)) X).
    { apply (no_injection_loc n b a X idx Sb Sa Eba SX Hi); [cbn; auto|]. intros t i Ht I.
      rewrite <- mmul_assoc by (cbn [nr nc mmul mk]; congruence). rewrite <- AS. apply NV; auto. }
    rewrite AS. rewrite cols_loc by (auto; cbn; auto). rewrite (A (mmul V (loc n a))) by (auto; apply wf_mk).
    rewrite cols_loc by auto. rewrite !mmul_assoc by (cbn [nr nc mmul mk cols_of]; rewrite ?phases3_length; congruence). reflexivity.
  - intros T W SW. destruct SW as (WW & RW & CW).
    destruct (B T (mmul W (loc (length order) a))) as (V & (WV & RV & CV) & NV & EV).
    { rewrite phases3_length. split; [apply wf_mk|]. cbn [nr nc mmul mk]. auto. }
    exists (mmul V (loc n b)). split; [split; [apply wf_mk|cbn [nr nc mmul mk]; auto]|]. split.
    + assert (AS : mmul (mmul V (loc n b)) (mmul (mmul (loc n a) X) (loc n b)) = mmul V (mmul X (loc n b))).
      { rewrite !mmul_assoc by (cbn [nr nc mmul mk]; congruence). rewrite <- (mmul_assoc (loc n b)) by (cbn [nr nc mmul mk]; congruence). rewrite loc_loc by auto.
        rewrite Eba. unfold loc at 1. rewrite mkron_eye. rewrite mmul_1_l'; [reflexivity|apply wf_mk|cbn; auto]. }
      intros t i Ht I. rewrite AS. apply (no_injection_loc n b a X idx Sb Sa Eba SX Hi); auto.
    + rewrite cols_loc by auto. rewrite EV. rewrite mmul_assoc by congruence. rewrite loc_loc by auto. rewrite Eab. unfold loc. rewrite mkron_eye. apply mmul_1_r'; auto.
Qed.
End Describes.
