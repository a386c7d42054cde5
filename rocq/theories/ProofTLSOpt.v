(** Total least squares finds the smallest correction. *)
From Coq Require Import Bool Arith List Lia Ring Field.
From Verif Require Import BasePy BaseFld BaseOrd BaseSum BaseMat BaseNumpy BaseLin ModelMatrixOps ModelLS SpecMatrix SpecLS SpecTLS ProofMatrixOps ProofLS ProofTLS ProofOrder4.
Import ListNotations.
Local Open Scope nat_scope.

Section Opt.
Context {K : Type} {O : Ops K} {F : Fld K} {O2 : OrdOps K} {OF : OrdFld K}.
Notation CK := (cplx K).
Add Field KfldT : (@k_field K O F).
Add Field CfldT : (@k_field CK _ _).
Ltac dm := repeat match goal with
  | |- context [nr (mmul ?a ?b)] => change (nr (mmul a b)) with (nr a)
  | |- context [nc (mmul ?a ?b)] => change (nc (mmul a b)) with (nc b)
  | |- context [nr (ctr ?a)] => change (nr (ctr a)) with (nc a)
  | |- context [nc (ctr ?a)] => change (nc (ctr a)) with (nr a)
  | |- context [nr (squares ?a ?b)] => change (nr (squares a b)) with a
  | |- context [nc (squares ?a ?b)] => change (nc (squares a b)) with a
  | |- context [nr (mopp ?a)] => change (nr (mopp a)) with (nr a)
  | |- context [nc (mopp ?a)] => change (nc (mopp a)) with (nc a)
  | |- context [nr (madd ?a ?b)] => change (nr (madd a b)) with (nr a)
  | |- context [nc (madd ?a ?b)] => change (nc (madd a b)) with (nc a)
  | |- context [nr (msubt ?a ?b)] => change (nr (msubt a b)) with (nr a)
  | |- context [nc (msubt ?a ?b)] => change (nc (msubt a b)) with (nc a)
  | |- context [nr (meye ?a)] => change (nr (meye a)) with a
  | |- context [nc (meye ?a)] => change (nc (meye a)) with a
  end; first [assumption|reflexivity|congruence|lia].

(** *** squared norms *)
Lemma cre_inj : forall a b : K, cre a = cre b :> CK -> a = b.
Proof. intros a b H. exact (f_equal re H). Qed.
Lemma cnorm2_conj' : forall z : CK, cnorm2 (conj z) = cnorm2 z.
Proof. intro z. unfold cnorm2. cbn. ring. Qed.
Lemma cnorm2_opp : forall z : CK, cnorm2 (- z)%K = cnorm2 z.
Proof. intro z. unfold cnorm2. cbn. ring. Qed.
Lemma fro2_ctr : forall a : mat CK, fro2 (ctr a) = fro2 a.
Proof.
  intro a. unfold fro2. change (nr (ctr a)) with (nc a). change (nc (ctr a)) with (nr a). rewrite sumn_swap. apply sumn_ext. intros i Hi. apply sumn_ext. intros j Hj. rewrite get_ctr by assumption. apply cnorm2_conj'.
Qed.
Lemma fro2_mopp : forall a : mat CK, fro2 (mopp a) = fro2 a.
Proof. intro a. unfold fro2. apply sumn_ext. intros i Hi. apply sumn_ext. intros j Hj. rewrite get_mopp by assumption. apply cnorm2_opp. Qed.
Lemma fro2_isometry : forall (q a : mat CK) r, mmul (ctr q) q = meye r -> nc q = nr a -> nr a = r -> wf a -> fro2 (mmul q a) = fro2 a.
Proof.
  intros q a r U H R W. apply cre_inj. rewrite !fro2_mdot. rewrite mdot_adj by dm. rewrite <- mmul_assoc by dm. rewrite U, mmul_1_l' by auto. reflexivity.
Qed.
Lemma fro2_projected : forall M (P b : mat CK), shape P M M -> ctr P = P -> mmul P P = P -> nr b = M -> wf b -> (fro2 (mmul P b) <=! fro2 b)%K.
Proof.
  intros M P b (WP & RP & CP) H I R W. assert (E : b = madd (mmul P b) (msubt b (mmul P b))).
  { apply gmat_ext; [exact W|apply wf_mk|dm|dm|]. intros i j Hi Hj. rewrite get_madd by dm. rewrite get_msubt by assumption. ring. }
  rewrite E at 2. rewrite fro2_add.
  - apply kle_sub. replace (fro2 (mmul P b) + fro2 (msubt b (mmul P b)) - fro2 (mmul P b))%K with (fro2 (msubt b (mmul P b))) by ring. apply fro2_nonneg.
  - dm.
  - dm.
  - rewrite mdot_conj by dm. rewrite mdot_adj by dm. rewrite H. rewrite mmul_msubt_r by dm. rewrite <- mmul_assoc by dm. rewrite I. rewrite mdot_zero_r; [cbn; apply cplx_eq; cbn; ring|].
    intros i j Hi Hj. rewrite get_msubt by dm. ring.
Qed.
Lemma fro2_hstack : forall dx dy : mat CK, nr dx = nr dy -> fro2 (hstack2 dx dy) = (fro2 dx + fro2 dy)%K.
Proof.
  intros dx dy H. unfold fro2. change (nr (hstack2 dx dy)) with (nr dx). change (nc (hstack2 dx dy)) with (nc dx + nc dy). rewrite <- H, <- sumn_add. apply sumn_ext. intros i Hi. rewrite sumn_plus. f_equal; apply sumn_ext; intros j Hj.
  - rewrite get_hstack2_l by assumption. reflexivity.
  - rewrite get_hstack2_r by assumption. reflexivity.
Qed.
Section Data.
Variables (T n m : nat) (a u vh : mat CK) (s : list K).
Let M := n + m.
Hypothesis HS : is_svd T M a u s vh.
Let sq i := (vget s i * vget s i)%K.
Let row (B : mat CK) i := sumn (nc B) (fun j => cnorm2 (get (mmul vh B) i j)).
Lemma vshape : shape vh M M. Proof. apply HS. Qed.
Lemma ashape : shape a T M. Proof. apply HS. Qed.
Lemma fro2_data : forall B, nr B = M -> fro2 (mmul a B) = sumn M (fun i => (sq i * row B i)%K).
Proof.
  intros B HB. destruct vshape as (WV & RV & CV). destruct ashape as (WA & RA & CA). apply cre_inj. rewrite fro2_mdot. rewrite mdot_adj by dm. rewrite <- mmul_assoc by dm. rewrite (svd_gram _ _ _ _ _ _ HS).
  rewrite (mmul_assoc (ctr vh)) by dm. rewrite (mmul_assoc (squares M s)) by dm. set (Z := mmul vh B). rewrite <- mdot_adj by (unfold Z; dm). fold Z. unfold mdot. change (nr Z) with (nr vh). change (nc Z) with (nc B). rewrite RV, cre_sumn. apply sumn_ext. intros i Hi. unfold row.
  transitivity (cre (sq i) * cre (sumn (nc B) (fun j => cnorm2 (get (mmul vh B) i j))))%K; [|apply cplx_eq; cbn; ring]. rewrite cre_sumn, <- sumn_scal_l. apply sumn_ext. intros j Hj.
  rewrite (get_mmul (squares M s)) by (unfold Z; dm). change (nc (squares M s)) with M.
  rewrite (sumn_single M i); [|exact Hi|intros k Hk Hne; unfold squares; rewrite get_mk by assumption; replace (i =? k) with false by (symmetry; apply Nat.eqb_neq; congruence); ring].
  unfold squares. rewrite get_mk, Nat.eqb_refl by assumption. unfold Z. rewrite cnorm2_conj. unfold sq. ring.
Qed.
(** *** the lower bound *)
Section Lower.
Variables (N : mat CK).
Hypothesis (HN : shape N M m) (IN : inj N).
Lemma projector : exists P, shape P M M /\ ctr P = P /\ mmul P P = P /\ mmul P N = N /\ fro2 P = knat m /\ forall B : mat CK, nc B = M -> mmul B N = mzeros (nr B) m -> mmul B P = mzeros (nr B) M.
Proof.
  destruct HN as (WN & RN & CN). set (G := mmul (ctr N) N). assert (SG : shape G m m) by (apply shape_mmul with (m := M); dm). pose proof (gram_inj N M m HN IN) as IG. fold G in IG.
  destruct (inj_kinverse G m SG IG) as [H EH]. destruct (kinverse_sound G m H SG EH) as (SH & H1 & H2). pose proof SH as (WH & RH & CH). pose proof SG as (WG & RG & CG).
  assert (GH : ctr G = G) by (unfold G; rewrite ctr_mmul, ctr_ctr by dm; reflexivity).
  assert (HH : ctr H = H).
  { assert (X : mmul G (ctr H) = meye m) by (rewrite <- GH, <- ctr_mmul, H2 by dm; apply ctr_meye). rewrite <- (mmul_1_l' m (ctr H)) by (try apply wf_mk; dm). rewrite <- H2. rewrite mmul_assoc by dm. rewrite X, mmul_1_r' by dm. reflexivity. }
  set (NH := mmul N H). exists (mmul NH (ctr N)).
  assert (PN : mmul (mmul NH (ctr N)) N = N). { rewrite mmul_assoc by (unfold NH; dm). fold G. unfold NH. rewrite mmul_assoc by dm. rewrite H2, mmul_1_r' by dm. reflexivity. }
  assert (PH : ctr (mmul NH (ctr N)) = mmul NH (ctr N)).
  { rewrite ctr_mmul by (unfold NH; dm). rewrite ctr_ctr by exact WN. unfold NH. rewrite ctr_mmul by dm. rewrite HH, <- mmul_assoc by dm. reflexivity. }
  assert (PP : mmul (mmul NH (ctr N)) (mmul NH (ctr N)) = mmul NH (ctr N)).
  { unfold NH at 2. rewrite (mmul_assoc N H) by dm. rewrite <- (mmul_assoc (mmul NH (ctr N)) N) by (unfold NH; dm). rewrite PN. rewrite <- mmul_assoc by dm. reflexivity. }
  split; [apply shape_mmul with (m := m); unfold NH; dm|]. split; [exact PH|]. split; [exact PP|]. split; [exact PN|]. split.
  - apply cre_inj. rewrite fro2_mdot. set (P := mmul NH (ctr N)) in *. assert (E1 : mdot P P = mdot (ctr N) (mmul (ctr NH) P)) by (unfold P at 1; apply mdot_adj; unfold P, NH; dm).
    assert (E2 : mmul (ctr NH) P = mmul H (ctr N)).
    { rewrite <- PH. rewrite <- ctr_mmul by (unfold P, NH; dm). unfold NH at 1. rewrite <- mmul_assoc by (unfold P, NH; dm). rewrite PN. rewrite ctr_mmul by dm. rewrite HH. reflexivity. }
    rewrite E1, E2. assert (E3 : mdot (ctr N) (mmul H (ctr N)) = mdot NH N).
    { unfold mdot. change (nr (ctr N)) with (nc N). change (nc (ctr N)) with (nr N). change (nr NH) with (nr N). change (nc NH) with (nc H). rewrite CH, CN, RN. rewrite sumn_swap. apply sumn_ext. intros i Hi. apply sumn_ext. intros j Hj.
      assert (E4 : mmul H (ctr N) = ctr NH) by (unfold NH; rewrite ctr_mmul by dm; rewrite HH; reflexivity). rewrite E4. rewrite !get_ctr by (unfold NH; dm). apply cplx_eq; cbn; ring. }
    rewrite E3. unfold NH. rewrite mdot_adj by dm.
    assert (E5 : mdot H (mmul (ctr N) N) = mdot (mmul (ctr H) (meye m)) (mmul (ctr N) N)) by (rewrite HH, mmul_1_r' by dm; reflexivity).
    rewrite E5. rewrite mdot_adj by (rewrite ?HH; dm). rewrite ctr_ctr by exact WH. fold G. rewrite H2. unfold mdot. change (nr (meye m)) with m. change (nc (meye m)) with m.
    replace (knat m : K) with (sumn m (fun _ => 1%K : K)) by (rewrite sumn_const; ring). rewrite cre_sumn. apply sumn_ext. intros i Hi.
    rewrite (sumn_single m i); [rewrite get_meye, Nat.eqb_refl by assumption; apply cplx_eq; cbn; ring|exact Hi|]. intros j Hj Hne. rewrite !get_meye by assumption. replace (i =? j) with false by (symmetry; apply Nat.eqb_neq; congruence). apply cplx_eq; cbn; ring.
  - intros B CB Z. rewrite <- (mmul_assoc B) by (unfold NH; dm). unfold NH. rewrite <- (mmul_assoc B) by dm. rewrite Z. apply (gshape_ext _ _ (nr B) M); [apply shape_mmul with (m := m); dm|apply shape_mk|]. intros i j Hi Hj.
    replace (get (mzeros (nr B) M) i j) with (0%K : CK) by (unfold mzeros; rewrite get_mk by assumption; reflexivity). rewrite get_mmul by (first [exact Hi|dm]). apply sumn_zero. intros k Hk. rewrite get_mmul by (first [exact Hi|exact Hk|dm]). rewrite sumn_zero; [ring|]. intros l Hl. unfold mzeros. rewrite get_mk by assumption. ring.
Qed.
End Lower.
(** rows of the projector in the basis of the singular vectors *)
Lemma row_le_1 : forall P : mat CK, shape P M M -> ctr P = P -> mmul P P = P -> forall i, i < M -> (row P i <=! 1)%K.
Proof.
  intros P HP PH PP i Hi. destruct vshape as (WV & RV & CV). pose proof HP as (WP & RP & CP). set (b := mk M 1 (fun k _ => conj (get vh i k)) : mat CK).
  assert (E : row P i = fro2 (mmul P b)).
  { unfold row, fro2. change (nr (mmul P b)) with (nr P). change (nc (mmul P b)) with 1. rewrite RP, CP. apply sumn_ext. intros j Hj. cbn [sumn]. rewrite !get_mmul by (first [rewrite RP; exact Hj|rewrite RV; exact Hi|dm|cbn; lia]). rewrite CV, CP.
    rewrite <- cnorm2_conj', conj_sumn. transitivity (0 + cnorm2 (sumn M (fun k => get P j k * get b k 0)))%K; [|reflexivity]. transitivity (cnorm2 (sumn M (fun k => get P j k * get b k 0)))%K; [|ring]. f_equal. apply sumn_ext. intros k Hk.
    unfold b. rewrite get_mk by lia. rewrite conj_mul'. assert (X : conj (get P k j) = get P j k) by (rewrite <- PH at 2; rewrite get_ctr by dm; reflexivity). rewrite X. ring. }
  rewrite E. apply (kle_trans _ (fro2 b)); [apply (fro2_projected M); auto; apply wf_mk|]. assert (E1 : fro2 b = 1%K).
  { pose proof HS as (_ & _ & _ & _ & _ & V2 & _). apply cre_inj. assert (X := f_equal (fun z => get z i i) V2). cbv beta in X. rewrite get_meye, Nat.eqb_refl in X by assumption. change (cre 1%K : CK) with (1%K : CK). rewrite <- X. rewrite get_mmul by dm. rewrite CV.
    unfold fro2. change (nr b) with M. change (nc b) with 1. rewrite cre_sumn. apply sumn_ext. intros k Hk. cbn [sumn]. unfold b. rewrite get_mk by lia. rewrite get_ctr by dm. rewrite cnorm2_conj'. transitivity (cre (cnorm2 (get vh i k))); [f_equal; ring|]. rewrite cnorm2_conj. ring. }
  rewrite E1. apply kle_refl.
Qed.
Lemma row_sum : forall P : mat CK, shape P M M -> sumn M (row P) = fro2 P.
Proof.
  intros P (WP & RP & CP). destruct vshape as (WV & RV & CV). pose proof HS as (_ & _ & _ & _ & V1 & _). rewrite <- (fro2_isometry vh P M V1) by dm. unfold fro2, row. change (nr (mmul vh P)) with (nr vh). change (nc (mmul vh P)) with (nc P). rewrite RV. reflexivity.
Qed.
Lemma row_nonneg : forall (P : mat CK) i, (0 <=! row P i)%K.
Proof. intros P i. apply sumn_nonneg. intros j Hj. apply cnorm2_nonneg. Qed.
Definition small : K := sumn m (fun k => sq (n + k)%nat).
Definition excess1 (q : nat -> K) : K := sumn n (fun i => ((sq i - sq n) * q i)%K).
Definition excess2 (q : nat -> K) : K := sumn m (fun k => ((sq n - sq (n + k)%nat) * (1 - q (n + k)%nat))%K).
Lemma excess : forall q : nat -> K, sumn M q = knat m -> sumn M (fun i => (sq i * q i)%K) = (small + (excess1 q + excess2 q))%K.
Proof.
  intros q H. unfold small, excess1, excess2. unfold M in *. rewrite sumn_plus in *.
  assert (H1 : sumn n q = (knat m - sumn m (fun k => q (n + k)%nat))%K) by (rewrite <- H; ring).
  assert (A1 : sumn n (fun i => ((sq i - sq n) * q i)%K) = (sumn n (fun i => (sq i * q i)%K) - sq n * sumn n q)%K) by (rewrite <- sumn_scal_l, <- sumn_sub; apply sumn_ext; intros; ring).
  assert (A2 : sumn m (fun k => ((sq n - sq (n + k)%nat) * (1 - q (n + k)%nat))%K) = (sq n * knat m - sumn m (fun k => sq (n + k)%nat) - sq n * sumn m (fun k => q (n + k)%nat) + sumn m (fun k => (sq (n + k)%nat * q (n + k)%nat)%K))%K).
  { replace (sq n * knat m)%K with (sumn m (fun _ => sq n)) by (rewrite sumn_const; ring). rewrite <- sumn_scal_l, <- !sumn_sub, <- sumn_add. apply sumn_ext. intros; ring. }
  rewrite A1, A2, H1. ring.
Qed.
Lemma sq_sorted : forall i j, i <= j -> (sq j <=! sq i)%K.
Proof.
  intros i j Hij. pose proof (sv_sorted _ _ _ _ _ _ HS i j Hij) as H. pose proof (sv_nonneg _ _ _ _ _ _ HS i) as Pi. pose proof (sv_nonneg _ _ _ _ _ _ HS j) as Pj. apply kle_sub in H. apply kle_sub. unfold sq. replace (vget s i * vget s i - vget s j * vget s j)%K with ((vget s i - vget s j) * (vget s i + vget s j))%K by ring.
  apply kle_mul; [exact H|apply kle_0_add; assumption].
Qed.
Lemma excess1_nonneg : forall q, (forall i, i < M -> (0 <=! q i)%K) -> (0 <=! excess1 q)%K.
Proof. intros q Hq. apply sumn_nonneg. intros i Hi. apply kle_mul; [apply (proj1 (kle_sub _ _)); apply sq_sorted; lia|apply Hq; lia]. Qed.
Lemma excess2_nonneg : forall q, (forall i, i < M -> (q i <=! 1)%K) -> (0 <=! excess2 q)%K.
Proof. intros q Hq. apply sumn_nonneg. intros i Hi. apply kle_mul; [apply (proj1 (kle_sub _ _)); apply sq_sorted; lia|apply (proj1 (kle_sub _ _)); apply Hq; lia]. Qed.
(** every correction that makes the data consistent is at least as large as the small singular values *)
Lemma lower_bound : forall N E : mat CK, shape N M m -> inj N -> shape E T M -> mmul (madd a E) N = mzeros T m ->
  exists q, (forall i, i < M -> (0 <=! q i)%K) /\ (forall i, i < M -> (q i <=! 1)%K) /\ (small + (excess1 q + excess2 q) <=! fro2 E)%K /\ (forall i, i < M -> q i = 0%K -> forall j, j < m -> get (mmul vh N) i j = 0%K).
Proof.
  intros N E HN IN HE Z. destruct (projector N HN IN) as (P & HP & PH & PP & PN & FP & PZ). pose proof HP as (WP & RP & CP). pose proof HE as (WE & RE & CE). destruct ashape as (WA & RA & CA). destruct vshape as (WV & RV & CV). pose proof HN as (WN & RN & CN).
  exists (row P). split; [intros; apply row_nonneg|]. split; [apply row_le_1; assumption|]. split.
  - rewrite <- (excess (row P)) by (rewrite row_sum by exact HP; exact FP). rewrite <- (fro2_data P RP).
    assert (X : mmul a P = mopp (mmul E P)).
    { assert (Y := PZ (madd a E) ltac:(dm)). change (nr (madd a E)) with (nr a) in Y. rewrite RA in Y. specialize (Y Z). rewrite mmul_madd_l in Y by dm. apply (gshape_ext _ _ T M); [apply shape_mmul with (m := M); dm|split; [apply wf_mk|split; dm]|].
      intros i j Hi Hj. assert (Y1 := f_equal (fun z => get z i j) Y). cbv beta in Y1. unfold mzeros in Y1. rewrite get_mk in Y1 by assumption. rewrite get_madd in Y1 by dm. rewrite get_mopp by dm. transitivity ((get (mmul a P) i j + get (mmul E P) i j) - get (mmul E P) i j)%K; [ring|]. rewrite Y1. ring. }
    rewrite X, fro2_mopp. rewrite <- (fro2_ctr (mmul E P)), <- (fro2_ctr E). rewrite ctr_mmul by dm. rewrite PH. apply (fro2_projected M); first [assumption|apply wf_mk|dm].
  - intros i Hi Hq j Hj. rewrite <- PN. rewrite <- mmul_assoc by dm. rewrite get_mmul by dm. apply sumn_zero. intros k Hk. change (nc (mmul vh P)) with (nc P) in Hk.
    assert (Y : cnorm2 (get (mmul vh P) i k) = 0%K) by (apply (sumn_nonneg_zero (nc P) (fun j => cnorm2 (get (mmul vh P) i j))); [intros; apply cnorm2_nonneg|exact Hq|exact Hk]).
    rewrite (cnorm2_zero _ Y). ring.
Qed.
(** *** the bound is attained *)
Let V2 := mslice (ctr vh) 0 M n M.
Lemma shape_V2 : shape V2 M m. Proof. unfold V2, mslice. replace (M - n) with m by lia. rewrite Nat.sub_0_r. apply shape_mk. Qed.
Lemma vh_V2 : forall i j, i < M -> j < m -> get (mmul vh V2) i j = if i =? n + j then 1%K else 0%K.
Proof.
  intros i j Hi Hj. destruct vshape as (WV & RV & CV). destruct shape_V2 as (W2 & R2 & C2). pose proof HS as (_ & _ & _ & _ & _ & V2' & _). assert (X := f_equal (fun z => get z i (n + j)) V2'). cbv beta in X. rewrite get_meye in X by lia. rewrite <- X. rewrite !get_mmul by dm. apply sumn_ext. intros k Hk. f_equal.
  unfold V2, mslice. rewrite get_mk by lia. reflexivity.
Qed.
Lemma V2_isometry : mmul (ctr V2) V2 = meye m.
Proof.
  destruct vshape as (WV & RV & CV). destruct shape_V2 as (W2 & R2 & C2). pose proof HS as (_ & _ & _ & _ & V1 & _).
  assert (E : mmul (ctr V2) V2 = mmul (ctr (mmul vh V2)) (mmul vh V2)). { rewrite ctr_mmul by dm. rewrite mmul_assoc by dm. rewrite <- (mmul_assoc (ctr vh) vh) by dm. rewrite V1, mmul_1_l' by dm. reflexivity. }
  rewrite E. apply (gshape_ext _ _ m m); [apply shape_mmul with (m := M); dm|apply shape_meye|]. intros i j Hi Hj. rewrite get_mmul by dm. change (nc (ctr (mmul vh V2))) with (nr vh). rewrite RV, get_meye by assumption.
  rewrite (sumn_single M (n + j)); [|lia|].
  - rewrite get_ctr by dm. rewrite !vh_V2 by lia. rewrite Nat.eqb_refl. replace (n + j =? n + i) with (i =? j) by (destruct (Nat.eqb_spec i j), (Nat.eqb_spec (n + j) (n + i)); auto; lia). destruct (i =? j); apply cplx_eq; cbn; ring.
  - intros k Hk Hne. rewrite (vh_V2 k j) by lia. replace (k =? n + j) with false by (symmetry; apply Nat.eqb_neq; congruence). ring.
Qed.
Lemma fro2_small : fro2 (mmul a V2) = small.
Proof.
  destruct shape_V2 as (W2 & R2 & C2). rewrite (fro2_data V2 R2). unfold small, M. rewrite sumn_plus.
  rewrite (sumn_zero n).
  - transitivity (sumn m (fun k => sq (n + k)%nat)); [|reflexivity]. transitivity (0 + sumn m (fun k => sq (n + k)%nat))%K; [|ring]. f_equal. apply sumn_ext. intros k Hk. unfold row. rewrite C2. rewrite (sumn_single m k); [|exact Hk|].
    + rewrite vh_V2, Nat.eqb_refl by lia. unfold cnorm2. cbn. ring.
    + intros j Hj Hne. rewrite vh_V2 by lia. replace (n + k =? n + j) with false by (symmetry; apply Nat.eqb_neq; lia). unfold cnorm2. cbn. ring.
  - intros i Hi. unfold row. rewrite sumn_zero; [ring|]. intros j Hj. rewrite C2 in Hj. rewrite vh_V2 by lia. replace (i =? n + j) with false by (symmetry; apply Nat.eqb_neq; lia). unfold cnorm2. cbn. ring.
Qed.
Definition best : mat CK := mopp (mmul (mmul a V2) (ctr V2)).
Lemma shape_best : shape best T M.
Proof. destruct ashape as (WA & RA & CA). destruct shape_V2 as (W2 & R2 & C2). split; [apply wf_mk|]. split; unfold best; dm. Qed.
Lemma best_consistent : mmul (madd a best) V2 = mzeros T m.
Proof.
  destruct ashape as (WA & RA & CA). destruct shape_V2 as (W2 & R2 & C2). destruct shape_best as (WB & RB & CB). rewrite mmul_madd_l by dm. unfold best. rewrite mmul_mopp_l. rewrite (mmul_assoc (mmul a V2)) by dm. rewrite V2_isometry. rewrite mmul_1_r' by (first [apply wf_mk|dm]).
  apply (gshape_ext _ _ T m); [split; [apply wf_mk|split; dm]|apply shape_mk|]. intros i j Hi Hj. rewrite get_madd by dm. rewrite get_mopp by dm. unfold mzeros. rewrite get_mk by assumption. ring.
Qed.
Lemma fro2_best : fro2 best = small.
Proof.
  destruct ashape as (WA & RA & CA). destruct shape_V2 as (W2 & R2 & C2). unfold best. rewrite fro2_mopp, <- fro2_ctr. rewrite ctr_mmul by dm. rewrite ctr_ctr by exact W2. rewrite (fro2_isometry V2 _ m V2_isometry) by (first [apply wf_mk|dm]). rewrite fro2_ctr. exact fro2_small.
Qed.
End Data.
End Opt.
