(** Total least squares finds the smallest correction: the estimate. *)
From Coq Require Import Bool Arith List Lia Ring Field.
From Verif Require Import BasePy BaseFld BaseOrd BaseSum BaseMat BaseNumpy BaseLin ModelMatrixOps ModelLS SpecMatrix SpecLS SpecTLS SpecOrder ProofMatrixOps ProofLS ProofTLS ProofOrder4 ProofTLSOpt.
Import ListNotations.
Local Open Scope nat_scope.

Section Opt.
Context {K : Type} {O : Ops K} {F : Fld K} {O2 : OrdOps K} {OF : OrdFld K}.
Notation CK := (cplx K).
Add Field KfldT2 : (@k_field K O F).
Add Field CfldT2 : (@k_field CK _ _).
Ltac dm := repeat match goal with
  | |- context [nr (mmul ?a ?b)] => change (nr (mmul a b)) with (nr a)
  | |- context [nc (mmul ?a ?b)] => change (nc (mmul a b)) with (nc b)
  | |- context [nr (ctr ?a)] => change (nr (ctr a)) with (nc a)
  | |- context [nc (ctr ?a)] => change (nc (ctr a)) with (nr a)
  | |- context [nr (mopp ?a)] => change (nr (mopp a)) with (nr a)
  | |- context [nc (mopp ?a)] => change (nc (mopp a)) with (nc a)
  | |- context [nr (madd ?a ?b)] => change (nr (madd a b)) with (nr a)
  | |- context [nc (madd ?a ?b)] => change (nc (madd a b)) with (nc a)
  | |- context [nr (hstack2 ?a ?b)] => change (nr (hstack2 a b)) with (nr a)
  | |- context [nc (hstack2 ?a ?b)] => change (nc (hstack2 a b)) with (nc a + nc b)
  | |- context [nr (vstack2 ?a ?b)] => change (nr (vstack2 a b)) with (nr a + nr b)
  | |- context [nc (vstack2 ?a ?b)] => change (nc (vstack2 a b)) with (nc a)
  | |- context [nr (meye ?a)] => change (nr (meye a)) with a
  | |- context [nc (meye ?a)] => change (nc (meye a)) with a
  end; first [assumption|reflexivity|congruence|lia].
Definition coef (m : nat) (b : mat CK) : mat CK := vstack2 b (mopp (meye m)).
Lemma shape_coef : forall n m b, shape b n m -> shape (coef m b) (n + m) m.
Proof. intros n m b (W & R & C). split; [apply wf_mk|]. unfold coef. split; dm. Qed.
Lemma inj_coef : forall n m b, shape b n m -> inj (coef m b).
Proof.
  intros n m b (W & R & C). apply (left_inverse_inj (coef m b) (hstack2 (mzeros m n) (mopp (meye m))) m (n + m)); [apply shape_coef; split; auto|split; [apply wf_mk|split; reflexivity]|].
  unfold coef. rewrite mmul_hv by (first [dm|cbn; congruence]). apply (gshape_ext _ _ m m); [split; [apply wf_mk|split; dm]|apply shape_meye|]. intros i j Hi Hj. rewrite get_madd by dm. rewrite get_mmul by dm. rewrite (sumn_zero (nc (mzeros m n))) by (intros k Hk; unfold mzeros; rewrite get_mk by assumption; ring).
  rewrite get_mmul by dm. change (nc (mopp (meye m))) with m. rewrite (sumn_single m i); [|exact Hi|].
  - rewrite !get_mopp by assumption. rewrite !get_meye, Nat.eqb_refl by assumption. ring.
  - intros k Hk Hne. rewrite get_mopp by assumption. rewrite (get_meye m i k) by assumption. replace (i =? k) with false by (symmetry; apply Nat.eqb_neq; congruence). ring.
Qed.
Lemma hstack_madd : forall x y dx dy : mat CK, nr x = nr y -> nc x = nc dx -> nr x = nr dx -> nr y = nr dy -> nc y = nc dy -> madd (hstack2 x y) (hstack2 dx dy) = hstack2 (madd x dx) (madd y dy).
Proof.
  intros x y dx dy H1 H2 H3 H4 H5. apply gmat_ext; try apply wf_mk; [dm|dm|]. intros i j Hi Hj. change (nr (madd (hstack2 x y) (hstack2 dx dy))) with (nr x) in Hi. change (nc (madd (hstack2 x y) (hstack2 dx dy))) with (nc x + nc y) in Hj.
  rewrite get_madd by dm. rewrite !get_hstack2 by dm. change (nc (madd x dx)) with (nc x). rewrite <- H2. destruct (Nat.ltb_spec j (nc x)); rewrite get_madd by dm; reflexivity.
Qed.
Lemma corrects_iff : forall T n m (x y b dx dy : mat CK), shape x T n -> shape y T m -> shape b n m -> shape dx T n -> shape dy T m ->
  (corrects T n m x y b dx dy <-> mmul (madd (hstack2 x y) (hstack2 dx dy)) (coef m b) = mzeros T m).
Proof.
  intros T n m x y b dx dy (WX & RX & CX) (WY & RY & CY) HB (WDX & RDX & CDX) (WDY & RDY & CDY). pose proof HB as (WB & RB & CB).
  rewrite hstack_madd by dm. unfold coef. rewrite mmul_hv by dm. rewrite mmul_mopp_r by dm. rewrite mmul_1_r' by (first [apply wf_mk|dm]).
  assert (S1 : shape (mmul (madd x dx) b) T m) by (apply shape_mmul with (m := n); dm). assert (S2 : shape (madd y dy) T m) by (split; [apply wf_mk|split; dm]). split.
  - intros (_ & _ & _ & E). rewrite E. apply (gshape_ext _ _ T m); [split; [apply wf_mk|split; dm]|apply shape_mk|]. intros i j Hi Hj. rewrite get_madd by dm. rewrite get_mopp by dm. unfold mzeros. rewrite get_mk by assumption. ring.
  - intro E. split; [exact HB|]. split; [split; auto|]. split; [split; auto|]. apply (gshape_ext _ _ T m S1 S2). intros i j Hi Hj. assert (E1 := f_equal (fun z => get z i j) E). cbv beta in E1. unfold mzeros in E1. rewrite get_mk in E1 by assumption. rewrite get_madd in E1 by dm. rewrite get_mopp in E1 by dm.
    transitivity ((get (mmul (madd x dx) b) i j + - get (madd y dy) i j) + get (madd y dy) i j)%K; [ring|rewrite E1; ring].
Qed.
Section Data.
Variables (T n m : nat) (x y u vh : mat CK) (s : list K).
Hypothesis (HX : shape x T n) (HY : shape y T m).
Let M := n + m.
Let a := hstack2 x y.
Hypothesis HS : is_svd T M a u s vh.
Let Vx := mslice (ctr vh) 0 n n M.
Let Vy := mslice (ctr vh) n M n M.
Let V2 := mslice (ctr vh) 0 M n M.
Lemma shVx : shape Vx n m. Proof. unfold Vx, mslice. replace (M - n) with m by lia. rewrite Nat.sub_0_r. apply shape_mk. Qed.
Lemma shVy : shape Vy m m. Proof. unfold Vy, mslice. replace (M - n) with m by lia. apply shape_mk. Qed.
Lemma V2_stack : V2 = vstack2 Vx Vy.
Proof.
  destruct shVx as (W1 & R1 & C1). destruct shVy as (W2 & R2 & C2). apply (gshape_ext _ _ M m); [unfold V2, mslice; replace (M - n) with m by lia; rewrite Nat.sub_0_r; apply shape_mk|split; [apply wf_mk|split; dm]|]. intros i j Hi Hj.
  rewrite get_vstack2 by dm. rewrite R1. unfold V2, Vx, Vy, mslice. rewrite get_mk by lia. destruct (Nat.ltb_spec i n); rewrite get_mk by lia; f_equal; lia.
Qed.
Variable i : mat CK.
Hypothesis HI : kinverse Vy = Ok i.
Let b := mmul (mopp Vx) i.
Lemma shI : shape i m m. Proof. apply (kinverse_sound Vy m i shVy HI). Qed.
Lemma shB : shape b n m. Proof. destruct shVx as (W1 & R1 & C1). destruct shI as (W & R & C). apply shape_mmul with (m := m); dm. Qed.
Lemma coef_b : coef m b = mmul V2 (mopp i).
Proof.
  destruct shVx as (W1 & R1 & C1). destruct shVy as (W2 & R2 & C2). destruct shI as (W & R & C). destruct (kinverse_sound Vy m i shVy HI) as (_ & I1 & I2). rewrite V2_stack. rewrite mmul_vstack_l by dm. unfold coef, b. rewrite !mmul_mopp_r by dm. rewrite mmul_mopp_l, I1. reflexivity.
Qed.
Lemma tls_least : exists dx dy, corrects T n m x y b dx dy /\ effort dx dy = small n m s /\ forall b' dx' dy', corrects T n m x y b' dx' dy' -> (small n m s <=! effort dx' dy')%K.
Proof.
  set (E := best n m a vh). pose proof (shape_best T n m a u vh s HS) as HE. fold M E in HE. pose proof HE as (WE & RE & CE). pose proof HX as (WX & RX & CX). pose proof HY as (WY & RY & CY).
  set (dx := mslice E 0 T 0 n). set (dy := mslice E 0 T n M). assert (SX : shape dx T n) by (unfold dx, mslice; rewrite !Nat.sub_0_r; apply shape_mk). assert (SY : shape dy T m) by (unfold dy, mslice; rewrite Nat.sub_0_r; replace (M - n) with m by lia; apply shape_mk).
  pose proof SX as (W1 & R1 & C1). pose proof SY as (W2 & R2 & C2).
  assert (HE' : hstack2 dx dy = E).
  { apply (gshape_ext _ _ T M); [split; [apply wf_mk|split; dm]|exact HE|]. intros p q Hp Hq. rewrite get_hstack2 by dm. rewrite C1. unfold dx, dy, mslice. destruct (Nat.ltb_spec q n); rewrite get_mk by lia; f_equal; lia. }
  exists dx, dy. split; [|split].
  - apply corrects_iff; auto using shB. rewrite HE'. fold a. rewrite coef_b. destruct (shape_V2 n m vh) as (W3 & R3 & C3). fold M V2 in W3, R3, C3. destruct shI as (W & R & C).
    rewrite <- mmul_assoc by (unfold a; dm). unfold E. change (mmul (madd a (best n m a vh)) V2) with (mmul (madd a (best n m a vh)) (mslice (ctr vh) 0 (n + m) n (n + m))). rewrite (best_consistent T n m a u vh s HS). apply (gshape_ext _ _ T m); [apply shape_mmul with (m := m); dm|apply shape_mk|]. intros p q Hp Hq.
    rewrite get_mmul by (first [exact Hp|dm]). rewrite sumn_zero; [unfold mzeros; rewrite get_mk by assumption; reflexivity|]. intros k Hk. unfold mzeros. rewrite get_mk by assumption. ring.
  - unfold effort. rewrite <- fro2_hstack by dm. rewrite HE'. apply (fro2_best T n m a u vh s HS).
  - intros b' dx' dy' HC. pose proof HC as (HB' & SX' & SY' & _). apply (proj1 (corrects_iff T n m x y b' dx' dy' HX HY HB' SX' SY')) in HC. pose proof SX' as (W1' & R1' & C1'). pose proof SY' as (W2' & R2' & C2').
    destruct (lower_bound T n m a u vh s HS (coef m b') (hstack2 dx' dy')) as (q & Q0 & Q1 & L & _); [apply shape_coef; exact HB'|apply (inj_coef n); exact HB'|split; [apply wf_mk|split; dm]|exact HC|].
    unfold effort. rewrite <- fro2_hstack by dm. apply (kle_trans _ (small n m s + (excess1 n s q + excess2 n m s q))%K); [|exact L]. apply kle_sub. replace (small n m s + (excess1 n s q + excess2 n m s q) - small n m s)%K with (excess1 n s q + excess2 n m s q)%K by ring.
    apply kle_0_add; [apply (excess1_nonneg T n m a u vh s HS); exact Q0|apply (excess2_nonneg T n m a u vh s HS); exact Q1].
Qed.
Lemma tls_least_correction : least_correction T n m x y b.
Proof. destruct tls_least as (dx & dy & HC & HE & L). exists dx, dy. split; [exact HC|]. rewrite HE. exact L. Qed.
Lemma tls_unique : 0 < m -> apart n M s -> forall b', least_correction T n m x y b' -> b' = b.
Proof.
  intros Hm SEP b' (dx' & dy' & HC & L). destruct tls_least as (dx & dy & HC0 & HE0 & _). specialize (L b dx dy HC0). rewrite HE0 in L.
  pose proof HC as (HB' & SX' & SY' & _). apply (proj1 (corrects_iff T n m x y b' dx' dy' HX HY HB' SX' SY')) in HC. pose proof SX' as (W1' & R1' & C1'). pose proof SY' as (W2' & R2' & C2'). pose proof HX as (WX & RX & CX). pose proof HY as (WY & RY & CY). pose proof HB' as (WB' & RB' & CB').
  assert (SN : shape (coef m b') M m) by (apply shape_coef; exact HB'). pose proof SN as (WN & RN & CN). 
  destruct (lower_bound T n m a u vh s HS (coef m b') (hstack2 dx' dy')) as (q & Q0 & Q1 & L' & Z); [exact SN|apply (inj_coef n); exact HB'|split; [apply wf_mk|split; dm]|exact HC|].
  unfold effort in L. rewrite <- fro2_hstack in L by dm. pose proof (kle_trans _ _ _ L' L) as B. pose proof (excess1_nonneg T n m a u vh s HS q Q0) as E1. pose proof (excess2_nonneg T n m a u vh s HS q Q1) as E2.
  assert (Z0 : (excess1 n s q + excess2 n m s q)%K = 0%K).
  { apply kle_antisym; [|apply kle_0_add; assumption]. apply kle_sub. apply kle_sub in B. replace (0 - (excess1 n s q + excess2 n m s q))%K with (small n m s - (small n m s + (excess1 n s q + excess2 n m s q)))%K by ring. exact B. }
  destruct (kle_add_zero _ _ E1 E2 Z0) as [X1 _].
  assert (Q : forall k, k < n -> q k = 0%K).
  { intros k Hk. assert (Y : ((vget s k * vget s k - vget s n * vget s n) * q k)%K = 0%K).
    { apply (sumn_nonneg_zero n (fun k => ((vget s k * vget s k - vget s n * vget s n) * q k)%K)); [|exact X1|exact Hk]. intros l Hl. apply kle_mul; [|apply Q0; lia]. apply (proj1 (kle_sub _ _)). apply (sq_sorted T n m a u vh s HS). lia. }
    apply kmul_integral in Y. destruct Y as [Y|Y]; [exfalso|exact Y]. pose proof (SEP k n Hk (le_n n) ltac:(lia)) as G. apply klt_spec2 in G. destruct G as [_ G]. apply G. symmetry. apply sq_inj; [apply (sv_nonneg _ _ _ _ _ _ HS)|apply (sv_nonneg _ _ _ _ _ _ HS)|].
    transitivity ((vget s k * vget s k - vget s n * vget s n) + vget s n * vget s n)%K; [ring|rewrite Y; ring]. }
  pose proof HS as (_ & _ & SV & _ & V1 & _). pose proof SV as (WV & RV & CV). set (C := mk m m (fun k j => get (mmul vh (coef m b')) (n + k) j)).
  assert (EN : coef m b' = mmul V2 C).
  { destruct (shape_V2 n m vh) as (W3 & R3 & C3). fold M V2 in W3, R3, C3. transitivity (mmul (ctr vh) (mmul vh (coef m b'))); [rewrite <- mmul_assoc by dm; rewrite V1, mmul_1_l' by dm; reflexivity|].
    apply (gshape_ext _ _ M m); [apply shape_mmul with (m := M); dm|apply shape_mmul with (m := m); first [dm|reflexivity]|]. intros p r Hp Hr. rewrite !get_mmul by (first [dm|rewrite R3; exact Hp|exact Hr]). change (nc (ctr vh)) with (nr vh). rewrite RV, C3. unfold M. rewrite sumn_plus.
    rewrite (sumn_zero n) by (intros k Hk; rewrite (Z k) by (first [lia|apply Q; exact Hk]); ring). transitivity (sumn m (fun k => (get (ctr vh) p (n + k)%nat * get (mmul vh (coef m b')) (n + k)%nat r)%K)); [ring|]. apply sumn_ext. intros k Hk.
    unfold C. rewrite get_mk by assumption. f_equal. unfold V2, mslice. rewrite get_mk by lia. reflexivity. }
  rewrite V2_stack in EN. destruct shVx as (W1 & R1 & C1). destruct shVy as (W2 & R2 & C2). rewrite mmul_vstack_l in EN by dm. destruct (kinverse_sound Vy m i shVy HI) as (SI & I1 & I2). pose proof SI as (WI & RI & CI). assert (SC : shape C m m) by apply shape_mk. pose proof SC as (WC & RC & CC).
  assert (EB : b' = mmul Vx C).
  { apply (gshape_ext _ _ n m HB'); [apply shape_mmul with (m := m); dm|]. intros p r Hp Hr. assert (E := f_equal (fun z => get z p r) EN). cbv beta in E. unfold coef in E. rewrite !get_vstack2_l in E by dm. exact E. }
  assert (EI : mopp (meye m) = mmul Vy C).
  { apply (gshape_ext _ _ m m); [split; [apply wf_mk|split; reflexivity]|apply shape_mmul with (m := m); dm|]. intros p r Hp Hr. assert (E := f_equal (fun z => get z (n + p) r) EN). cbv beta in E. unfold coef in E. rewrite <- RB' in E at 1. rewrite get_vstack2_r in E by dm. replace (n + p) with (nr (mmul Vx C) + p) in E by (f_equal; exact R1). rewrite get_vstack2_r in E by dm. exact E. }
  assert (EC : C = mopp i). { rewrite <- (mmul_1_l' m C) by dm. rewrite <- I2. rewrite mmul_assoc by dm. rewrite <- EI. rewrite mmul_mopp_r by dm. rewrite mmul_1_r' by dm. reflexivity. }
  rewrite EB, EC. unfold b. rewrite mmul_mopp_r by dm. rewrite mmul_mopp_l. reflexivity.
Qed.
End Data.
Lemma okk_inj : forall A (p q : A), Ok p = Ok q -> p = q.
Proof. intros A p q H. injection H. auto. Qed.
Lemma tls_result : forall svd T n m (x y : mat CK) r, shape x T n -> shape y T m -> (let '(u, s, vh) := svd (hstack2 x y) in is_svd T (n + m) (hstack2 x y) u s vh) -> tls_fit svd x (A2 y) = Ok r ->
  let '(_, _, vh) := svd (hstack2 x y) in exists i, kinverse (mslice (ctr vh) n (n + m) n (n + m)) = Ok i /\
    r = let b := mmul (mopp (mslice (ctr vh) 0 n n (n + m))) i in if 1 <? m then A2 b else A1 (concat (dat b)).
Proof.
  intros svd T n m x y r (WX & RX & CX) (WY & RY & CY) HS H. unfold tls_fit, np_block2 in H. rewrite RX, RY, Nat.eqb_refl in H. cbn [bind] in H. destruct (svd (hstack2 x y)) as [[u s] vh]. pose proof HS as (_ & _ & (Wv & Rv & Cv) & _).
  change (mk (nc vh) (nr vh) (fun i j => conj (get vh j i))) with (ctr vh) in H. change (nc (ctr vh)) with (nr vh) in H. change (nr (ctr vh)) with (nc vh) in H. rewrite Rv, Cv, CX in H.
  destruct (kinverse (mslice (ctr vh) n (n + m) n (n + m))) as [i|] eqn:EI; [|discriminate]. cbn [bind] in H. exists i. split; [reflexivity|]. unfold matmul in H. destruct (_ =? _); [|discriminate]. cbn [bind] in H. apply okk_inj in H. rewrite <- H. cbv zeta.
  assert (C : nc i = m). { destruct (kinverse_sound _ m i (shVy n m vh) EI) as ((_ & _ & C) & _). exact C. }
  set (z := mmul (mopp (mslice (ctr vh) 0 n n (n + m))) i). assert (Z : nc z = m) by exact C. clearbody z. rewrite Z. reflexivity.
Qed.
End Opt.
