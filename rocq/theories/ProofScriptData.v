(** Proofs about the data saved by simulate_network.py for one phase. *)
From Coq Require Import String.
From Coq Require Import Bool Arith List ZArith Lia Ring Field Permutation Sorted.
From Verif Require Import BasePy BaseFld BaseOrd BaseSum BaseMat BaseLin BaseNumpy ModelErrorMetrics ModelSet ModelKron ModelNet ModelReduce
  ModelResample ModelLoads ModelMeasure ModelRun ModelScript SpecMatrix SpecLS SpecKron SpecNet SpecReduce SpecResample SpecLoads SpecMeasure SpecRun SpecScript SpecScriptData
  ProofNet ProofNetBuild ProofSet ProofKron ProofReduce
  ProofResample ProofLoads ProofLoadsSmall ProofLoadsMain ProofMeasure ProofMeasure3 ProofMeasureMain ProofMeasureApi ProofScript ProofRerun2.
Import ListNotations.
Close Scope string_scope.
Local Open Scope K_scope.

(** ** averages of a product *)
Section Averages.
Context {K : Type} {O : Ops K} {F : Fld K} {O2 : OrdOps K} {OF : OrdFld K}.
Add Field Kfld : (@k_field K O F).
Notation CK := (cplx K).
(** weights of two neighbouring points *)
Lemma interpolates_at : forall (x : list K) y v w j, increasing x -> (S j < length x)%nat -> vget x j <=! v -> v <=! vget x (S j) -> interpolates x y v w ->
  w * (vget x (S j) - vget x j) = y j * (vget x (S j) - v) + y (S j) * (v - vget x j).
Proof.
  intros x y v w j HI Hj H1 H2 H.
  assert (N : vget x (S j) - vget x j <> 0). { intro E. apply ksub_eq0 in E. pose proof (HI j (S j) ltac:(lia) Hj) as L. apply klt_spec2 in L. destruct L as [_ L]. congruence. }
  assert (Q : w = (y j * (vget x (S j) - v) + y (S j) * (v - vget x j)) / (vget x (S j) - vget x j)).
  { apply (interpolates_unique x y v); [exact HI|exact H|]. exists j. split; [exact Hj|]. split; [exact H1|]. split; [exact H2|]. field. exact N. }
  rewrite Q. field. exact N.
Qed.
(** finite sums of broken lines *)
Lemma interpolates_sum : forall (x : list K) n (y : nat -> nat -> K) (w c : nat -> K) v j, increasing x -> (S j < length x)%nat -> vget x j <=! v -> v <=! vget x (S j) ->
  (forall i, (i < n)%nat -> interpolates x (y i) v (w i)) -> interpolates x (fun r => sumn n (fun i => c i * y i r)) v (sumn n (fun i => c i * w i)).
Proof.
  intros x n y w c v j HI Hj H1 H2 H. exists j. split; [exact Hj|]. split; [exact H1|]. split; [exact H2|].
  rewrite <- !sumn_scal_r, <- sumn_add.
  apply sumn_ext. intros i Hi. pose proof (interpolates_at _ _ _ _ j HI Hj H1 H2 (H i Hi)) as E.
  transitivity (c i * (w i * (vget x (S j) - vget x j))); [ring|]. rewrite E. ring.
Qed.
Lemma re_sumn' : forall n (f : nat -> CK), re (sumn n f) = sumn n (fun i => re (f i)).
Proof. induction n; intro f; [reflexivity|]. cbn [sumn]. rewrite re_cadd', IHn. reflexivity. Qed.
Lemma im_sumn' : forall n (f : nat -> CK), im (sumn n f) = sumn n (fun i => im (f i)).
Proof. induction n; intro f; [reflexivity|]. cbn [sumn]. rewrite im_cadd', IHn. reflexivity. Qed.

Definition value_at (M : mat CK) old (v : K) (i : nat) : CK := interp_at old (mcol M i) v.
Lemma value_interpolates : forall M old v i, increasing old -> (2 <= length old)%nat -> nr M = length old -> vget old 0 <=! v -> v <=! vget old (length old - 1) ->
  interpolates old (fun r => re (get M r i)) v (re (value_at M old v i)) /\ interpolates old (fun r => im (get M r i)) v (im (value_at M old v i)).
Proof.
  intros M old v i HI HL HM H1 H2. destruct (interp_at_re old (mcol M i) v HI HL H1 H2) as [A B]. split.
  - eapply interpolates_ext; [|exact A]. intros j Hj. cbv beta. unfold mcol. rewrite vget_mkv by lia. reflexivity.
  - eapply interpolates_ext; [|exact B]. intros j Hj. cbv beta. unfold mcol. rewrite vget_mkv by lia. reflexivity.
Qed.
Lemma averages_mmul : forall (M Y : mat CK) old new f out, increasing old -> (2 <= length old)%nat -> nr M = length old -> within old new -> (0 < f)%nat ->
  nr Y = nc M -> averages M old new f out -> averages (mmul M Y) old new f (mmul out Y).
Proof.
  intros M Y old new f out HI HL HM HW Hf HY [HS HA]. pose proof HS as (WS & RS & CS). split.
  - destruct HS as (A & B & C). split; [apply wf_mk|]. split; [exact B|reflexivity].
  - intros t c Ht Hc. cbn [nc mmul mk] in Hc. change (nc (mmul M Y)) with (nc Y) in Hc.
    set (x := fun k i => value_at M old (vget new (t * f + k)) i).
    assert (IN : forall k, (k < f)%nat -> In (vget new (t * f + k)) new). { intros k Hk. apply nth_In. pose proof (row_fits _ _ _ Hf Ht). nia. }
    assert (VI : forall k i, (k < f)%nat -> interpolates old (fun r => re (get M r i)) (vget new (t * f + k)) (re (x k i)) /\ interpolates old (fun r => im (get M r i)) (vget new (t * f + k)) (im (x k i))).
    { intros k i Hk. destruct (HW _ (IN k Hk)) as [H1 H2]. apply value_interpolates; auto. }
    assert (X : forall i, (i < nc M)%nat -> knat f * re (get out t i) = sumn f (fun k => re (x k i)) /\ knat f * im (get out t i) = sumn f (fun k => im (x k i))).
    { intros i Hi. destruct (HA t i Ht Hi) as (a & b & HAB & EA & EB). rewrite EA, EB. split; apply sumn_ext; intros k Hk; destruct (HAB k Hk) as [A B]; destruct (VI k i Hk) as [A' B'];
      [exact (interpolates_unique _ _ _ _ _ HI A A')|exact (interpolates_unique _ _ _ _ _ HI B B')]. }
    assert (GM : forall r, (r < length old)%nat -> get (mmul M Y) r c = sumn (nc M) (fun i => get M r i * get Y i c)).
    { intros r Hr. unfold mmul. rewrite get_mk by (auto; lia). reflexivity. }
    assert (GO : get (mmul out Y) t c = sumn (nc M) (fun i => get out t i * get Y i c)).
    { unfold mmul. rewrite get_mk by (auto; lia). rewrite CS. reflexivity. }
    exists (fun k => re (sumn (nc M) (fun i => x k i * get Y i c))), (fun k => im (sumn (nc M) (fun i => x k i * get Y i c))). split; [|split].
    + intros k Hk. destruct (HW _ (IN k Hk)) as [H1 H2]. destruct (interval old (vget new (t * f + k)) HI HL H1 H2) as (J1 & J2 & J3 & J4).
      set (hi := clip 1 (length old - 1) (search old (vget new (t * f + k)))) in *.
      assert (J5 : S (hi - 1) = hi) by lia. rewrite <- J5 in J4. assert (J6 : (S (hi - 1) < length old)%nat) by lia.
      split.
      * eapply (interpolates_ext old (fun r => sumn (nc M) (fun i => re (get Y i c) * re (get M r i)) + sumn (nc M) (fun i => - im (get Y i c) * im (get M r i)))).
        { intros r Hr. rewrite GM, re_sumn', <- sumn_add by auto. apply sumn_ext. intros i Hi. rewrite re_cmul'. ring. }
        replace (re (sumn (nc M) (fun i => x k i * get Y i c))) with (1 * sumn (nc M) (fun i => re (get Y i c) * re (x k i)) + 1 * sumn (nc M) (fun i => - im (get Y i c) * im (x k i))).
        { pose proof (interpolates_lin old _ _ (vget new (t * f + k)) _ _ 1 1 HI
            (interpolates_sum old (nc M) (fun i r => re (get M r i)) (fun i => re (x k i)) (fun i => re (get Y i c)) _ _ HI J6 J3 J4 (fun i _ => proj1 (VI k i Hk)))
            (interpolates_sum old (nc M) (fun i r => im (get M r i)) (fun i => im (x k i)) (fun i => - im (get Y i c)) _ _ HI J6 J3 J4 (fun i _ => proj2 (VI k i Hk)))) as L.
          eapply interpolates_ext; [|exact L]. intros r Hr. cbv beta. ring. }
        rewrite re_sumn'. transitivity (sumn (nc M) (fun i => re (get Y i c) * re (x k i)) + sumn (nc M) (fun i => - im (get Y i c) * im (x k i))); [ring|].
        rewrite <- sumn_add. apply sumn_ext. intros i Hi. rewrite re_cmul'. ring.
      * eapply (interpolates_ext old (fun r => sumn (nc M) (fun i => im (get Y i c) * re (get M r i)) + sumn (nc M) (fun i => re (get Y i c) * im (get M r i)))).
        { intros r Hr. rewrite GM, im_sumn', <- sumn_add by auto. apply sumn_ext. intros i Hi. rewrite im_cmul'. ring. }
        replace (im (sumn (nc M) (fun i => x k i * get Y i c))) with (1 * sumn (nc M) (fun i => im (get Y i c) * re (x k i)) + 1 * sumn (nc M) (fun i => re (get Y i c) * im (x k i))).
        { pose proof (interpolates_lin old _ _ (vget new (t * f + k)) _ _ 1 1 HI
            (interpolates_sum old (nc M) (fun i r => re (get M r i)) (fun i => re (x k i)) (fun i => im (get Y i c)) _ _ HI J6 J3 J4 (fun i _ => proj1 (VI k i Hk)))
            (interpolates_sum old (nc M) (fun i r => im (get M r i)) (fun i => im (x k i)) (fun i => re (get Y i c)) _ _ HI J6 J3 J4 (fun i _ => proj2 (VI k i Hk)))) as L.
          eapply interpolates_ext; [|exact L]. intros r Hr. cbv beta. ring. }
        rewrite im_sumn'. transitivity (sumn (nc M) (fun i => im (get Y i c) * re (x k i)) + sumn (nc M) (fun i => re (get Y i c) * im (x k i))); [ring|].
        rewrite <- sumn_add. apply sumn_ext. intros i Hi. rewrite im_cmul'. ring.
    + rewrite GO, re_sumn', <- sumn_scal_l. rewrite (sumn_ext f _ (fun k => sumn (nc M) (fun i => re (x k i * get Y i c)))) by (intros; apply re_sumn'). rewrite sumn_swap.
      apply sumn_ext. intros i Hi. destruct (X i Hi) as [XA XB]. rewrite re_cmul'.
      transitivity (knat f * re (get out t i) * re (get Y i c) + - (knat f * im (get out t i)) * im (get Y i c)); [ring|]. rewrite XA, XB.
      transitivity (re (get Y i c) * sumn f (fun k => re (x k i)) + - im (get Y i c) * sumn f (fun k => im (x k i))); [ring|]. rewrite <- !sumn_scal_l, <- sumn_add.
      apply sumn_ext. intros k Hk. rewrite re_cmul'. ring.
    + rewrite GO, im_sumn', <- sumn_scal_l. rewrite (sumn_ext f _ (fun k => sumn (nc M) (fun i => im (x k i * get Y i c)))) by (intros; apply im_sumn'). rewrite sumn_swap.
      apply sumn_ext. intros i Hi. destruct (X i Hi) as [XA XB]. rewrite im_cmul'.
      transitivity (knat f * re (get out t i) * im (get Y i c) + knat f * im (get out t i) * re (get Y i c)); [ring|]. rewrite XA, XB.
      transitivity (im (get Y i c) * sumn f (fun k => re (x k i)) + re (get Y i c) * sumn f (fun k => im (x k i))); [ring|]. rewrite <- !sumn_scal_l, <- sumn_add.
      apply sumn_ext. intros k Hk. rewrite im_cmul'. ring.
Qed.
End Averages.

(** ** a successful single-phase run *)
Section OnePhase.
Context {K : Type} {O : Ops K} {F : Fld K} {O2 : OrdOps K} {OF : OrdFld K}.
Add Field Kfld2 : (@k_field K O F).
Notation CK := (cplx K).
Lemma resample_stds : forall {St D} (M : mat CK) old new steps f (nf : @noise_fun K St D) sm sp cols s r i,
  resample_columns M old new steps f (Some nf) (Some sm) (Some sp) cols s = Ok r -> In i cols -> exists d, std_at sp i = Ok d.
Proof.
  intros St D M old new steps f nf sm sp cols. induction cols as [|c cols IH]; intros s r i H HI; [destruct HI|]. cbn [resample_columns] in H.
  apply bind_ok in H. destruct H as (tmp & H1 & H). apply bind_ok in H. destruct H as ([w s1] & H2 & H). cbn zeta in H.
  apply bind_ok in H. destruct H as ([rest s2] & H3 & H). destruct HI as [<-|HI].
  - unfold add_noise in H2. apply bind_ok in H2. destruct H2 as (a & _ & H2). apply bind_ok in H2. destruct H2 as (b & E & _). eauto.
  - eapply IH; [exact H3|exact HI].
Qed.
Lemma positions_located : forall (n : net (K := K)) l ps, NoDup (ids n) -> positions n l = Ok ps -> located n l ps.
Proof.
  intros n l. induction l as [|i l IH]; intros ps HN H; cbn [positions] in H; [injection H as <-; constructor|].
  destruct (position n i) as [p|] eqn:E; [|discriminate]. apply bind_ok in H. destruct H as (q & Hq & H). injection H as <-.
  constructor; [apply position_spec; auto|apply IH; auto].
Qed.
Lemma reduce_located : forall pinv (n : net (K := K)) V I hidden lap todel Z, consistent n -> reduce_network pinv n V I hidden lap = Ok (todel, Z) ->
  exists Y H G, make_y_bus n = Ok Y /\ located n hidden H /\ located n (grids n) G /\
    forall x, In x todel <-> In x H \/ exists i, nth_error (ids n) x = Some i /\ idle n 0 i.
Proof.
  intros pinv n V I hidden lap todel Z C H. pose proof H as H0. unfold reduce_network in H. apply bind_ok in H. destruct H as (Y & EY & H).
  apply bind_ok in H. destruct H as (f & Ef & H). apply bind_ok in H. destruct H as (Pa & EP & H).
  apply bind_ok in H. destruct H as (Hi & EH & H). apply bind_ok in H. destruct H as (G & EG & _).
  assert (N : NoDup (ids n)) by apply C. apply positions_located in EH, EG; auto. exists Y, Hi, G. split; [exact EY|]. split; [exact EH|]. split; [exact EG|].
  destruct (reduce_start pinv n V I hidden Hi G C EH EG) as (P & IP & _ & RS). rewrite (RS lap Y EY) in H0. cbv zeta in H0.
  apply bind_ok in H0. destruct H0 as ([[yb a] b] & _ & H0). apply bind_ok in H0. destruct H0 as (sh & _ & H0). apply bind_ok in H0. destruct H0 as (yr & _ & H0).
  injection H0 as <- _. intro x. rewrite union_list_In. rewrite (IP x). reflexivity.
Qed.
Lemma kept_sorted : forall n l, StronglySorted lt (kept_ascending n l).
Proof.
  intros n l. unfold kept_ascending. assert (G : forall k a, StronglySorted lt (filter (fun i => negb (existsb (Nat.eqb i) l)) (seq a k)) /\ Forall (fun x => (a <= x)%nat) (filter (fun i => negb (existsb (Nat.eqb i) l)) (seq a k))).
  { induction k as [|k IH]; intro a; [split; constructor|]. cbn [seq filter]. destruct (IH (S a)) as [A B]. destruct (negb (existsb (Nat.eqb a) l)).
    - split; constructor; auto; (eapply Forall_impl; [|exact B]; intros; cbv beta in *; lia).
    - split; [exact A|]. eapply Forall_impl; [|exact B]. intros; cbv beta in *; lia. }
  apply G.
Qed.
Lemma delete_list_kept : forall A (v : list A) d idx r, delete_list v d idx = Ok r -> r = map (fun i => nth i v d) (kept_ascending (length v) idx).
Proof. intros A v d idx r H. unfold delete_list in H. destruct (forallb _ idx); [|discriminate]. injection H as <-. rewrite staying_kept. reflexivity. Qed.
Lemma delete_cols_kept : forall (m : mat CK) idx r, delete_cols m idx = Ok r -> r = columns m (kept_ascending (nc m) idx).
Proof. intros m idx r H. unfold delete_cols in H. destruct (forallb _ idx); [|discriminate]. cbv zeta in H. injection H as <-. rewrite staying_kept. reflexivity. Qed.
Context (rnd : K -> Z) (root : K -> K) {St : Type} (noise : @noise_fun K St K) (seeded : St).
Lemma measure_fits : forall P (prm : @noise_params K P) ratings (V I : mat CK) times last ts fmeas g m f,
  measure rnd root noise seeded prm ratings V I times last ts fmeas g = Ok (m, f) -> (0 < nc V)%nat ->
  nr V = length times /\ nr I = length times /\ (nc V + nc I <= 2 * length ratings)%nat.
Proof.
  intros P prm ratings V I times last ts fmeas g m f H HV. unfold measure in H.
  apply bind_ok in H. destruct H as ([[[[[new vm] im] vp] ip] fp] & HU & H). cbv zeta in H.
  apply bind_ok in H. destruct H as (both & HB & H). apply bind_ok in H. destruct H as ([noisy s] & HN & H). clear H HU.
  unfold side_by_side in HB. destruct (Nat.eqb_spec (nr V) (nr I)) as [ER|]; [|discriminate]. injection HB as HB.
  assert (Cb : nc both = (nc V + nc I)%nat) by (rewrite <- HB; reflexivity). assert (Rb : nr both = nr V) by (rewrite <- HB; reflexivity).
  assert (Hf : (0 < fp)%nat) by (destruct fp; [discriminate HN|lia]).
  assert (RL : nr both = length times).
  { destruct (Nat.eq_dec (nr both) (length times)) as [E|NE]; [exact E|]. rewrite p_resample_length in HN by (auto; lia). discriminate HN. }
  split; [lia|]. split; [lia|]. unfold filter_and_resample_measurement in HN. destruct (Nat.eqb_spec fp 0); [lia|].
  apply bind_ok in HN. destruct HN as ([cols s'] & HN & _).
  destruct (resample_stds _ _ _ _ _ _ _ _ _ _ _ (nc V + nc I - 1)%nat HN) as (d & E); [apply in_seq; lia|].
  cbn [std_at] in E. destruct (nth_error _ _) eqn:EN in E; [|discriminate].
  match type of EN with nth_error ?l ?i = _ => assert (L : (i < length l)%nat) by (apply nth_error_Some; congruence) end.
  rewrite app_length, !map_length, length_range in L. lia.
Qed.
(** every bus has a load if there are as many loads as buses *)
Lemma all_loaded : forall (ns : list (bus_data (K := K))) ls n, (forall b, In b ns -> both is_single b) -> NetData (Some ns) (Some ls) None = Ok n ->
  (length (buses n) <= length (loads n))%nat ->
  consistent n /\ ids n = map bd_id ns /\ (forall b, In b ns -> has_load b = true) /\ map seen_load (loads n) = map wanted_load ns /\ asyms n = [] /\
  grids n = map bd_id (filter (fun b => bd_type b =? 3)%nat ns).
Proof.
  intros ns ls n HS HN HL. destruct (p_build_only ns ls n HS HN) as [ND GL]. destruct (p_build ns ls HS ND GL) as (n' & HN' & C & B & L & A & G & _).
  rewrite HN in HN'. injection HN' as <-. split; [exact C|].
  assert (LB : length (buses n) = length ns) by (rewrite <- (map_length (fun b => (b_id b, b_kv b)) (buses n)), B; apply map_length).
  assert (LL : length (loads n) = length (filter has_load ns)) by (rewrite <- (map_length seen_load), L; apply map_length).
  assert (ALL : forall b, In b ns -> has_load b = true).
  { assert (Q : (length ns <= length (filter has_load ns))%nat) by lia. clear - Q. induction ns as [|b ns IH]; [intros b []|].
    assert (F1 : forall l : list (bus_data (K := K)), (length (filter has_load l) <= length l)%nat).
    { induction l as [|x l IHl]; [cbn; lia|]. cbn [filter]. destruct (has_load x); cbn [length]; lia. }
    cbn [filter] in Q. destruct (has_load b) eqn:E; cbn [length] in Q; [|pose proof (F1 ns); lia].
    intros x [<-|Hx]; [exact E|]. apply IH; [lia|exact Hx]. }
  assert (EF : filter has_load ns = ns).
  { clear - ALL. induction ns as [|b ns IH]; [reflexivity|]. cbn [filter]. rewrite ALL by (left; auto). f_equal. apply IH. intros; apply ALL; right; auto. }
  split; [|split; [exact ALL|split; [rewrite L, EF; reflexivity|split; [exact A|exact G]]]].
  unfold ids. transitivity (map fst (map (fun b => (b_id b, b_kv b)) (buses n))); [rewrite map_map; reflexivity|]. rewrite B, map_map. reflexivity.
Qed.
End OnePhase.

Section Run.
Context {K : Type} {O : Ops K} {F : Fld K} {O2 : OrdOps K} {OF : OrdFld K}.
Add Field Kfld3 : (@k_field K O F).
Notation CK := (cplx K).
Add Field Cfld3 : (@k_field CK _ _).
Context (pinv : mat CK -> mat CK) (rnd : K -> Z) (root : K -> K) (polar : K -> K -> CK).
Context {St : Type} (randint : nat -> nat -> St -> list nat * St) (gauss : St -> K * St) (noise : @noise_fun K St K) (seeded : St).
Context (flow1 : net (K := K) -> mat K -> mat K -> res (mat K * mat K)).
Context (flow3 : net (K := K) -> mat K -> mat K -> list (mat K) -> res ((mat K * mat K) * (mat K * mat K) * (mat K * mat K))).
Context (y_bus3 : net (K := K) -> res (mat CK)).
Context (reduce3 : net (K := K) -> mat CK -> mat CK -> list nat -> bool -> res (list nat * mat CK)).
Context (seq_measurement seq_admittance : mat CK -> res (mat CK)).
Notation run := (simulate pinv rnd root polar randint gauss noise seeded flow1 flow3 y_bus3 reduce3 seq_measurement seq_admittance).
Notation ok := (run_ok pinv rnd root polar randint gauss noise seeded flow1 flow3 y_bus3 reduce3 seq_measurement seq_admittance).

Lemma recomputes_redo : forall o : options K, recomputes o -> rs o = true /\ rd o = true.
Proof. intros o [(A & B)|(A & B & C)]; unfold rs, rd, redo; [rewrite A, B|rewrite A, B, C]; auto. Qed.

Lemma measure_columns : forall P (prm : @noise_params K P) ratings (V I : mat CK) times last ts fmeas g nv ni v i f,
  measure rnd root noise seeded prm ratings V I times last ts fmeas g = Ok ((nv, ni, v, i), f) -> nc I = nc V ->
  nc nv = nc V /\ nc ni = nc V /\ nc v = nc V /\ nc i = nc V /\ wf v /\ wf i.
Proof.
  intros P prm ratings V I times last ts fmeas g nv ni v i f H HV. unfold measure in H.
  apply bind_ok in H. destruct H as ([[[[[new vm] im] vp] ip] fp] & HU & H). cbv zeta in H.
  apply bind_ok in H. destruct H as (both & HB & H). apply bind_ok in H. destruct H as ([noisy s] & HN & H).
  apply bind_ok in H. destruct H as ([a b] & HH & H). apply bind_ok in H. destruct H as ([clean s2] & HC & H).
  apply bind_ok in H. destruct H as ([c d] & HH2 & H). injection H as <- <- <- <- _.
  unfold side_by_side in HB. destruct (Nat.eqb_spec (nr V) (nr I)) as [ER|]; [|discriminate]. injection HB as HB.
  assert (Cb : nc both = (nc V + nc V)%nat) by (rewrite <- HB; cbn [nc mk]; lia).
  assert (R : forall nf sm sp s0 m s1, filter_and_resample_measurement (St := St) (D := K) both (Some times) (Some new) fp sm sp nf s0 = Ok (m, s1) -> nc m = (nc V + nc V)%nat).
  { intros nf sm sp s0 m s1 E. unfold filter_and_resample_measurement in E. destruct (fp =? 0)%nat; [discriminate|]. apply bind_ok in E. destruct E as ([cols s'] & _ & E).
    injection E as <- _. exact Cb. }
  pose proof (R _ _ _ _ _ _ HN) as C1. pose proof (R _ _ _ _ _ _ HC) as C2.
  destruct (halves_ok _ _ _ _ C1 HH) as ((_ & _ & A1) & (_ & _ & A2) & _). destruct (halves_ok _ _ _ _ C2 HH2) as ((W1 & _ & A3) & (W2 & _ & A4) & _). auto 10.
Qed.

(** everything computed by a run which simulates and measures one phase *)
Record facts (conf : settings K) (o : options K) (ns : list (bus_data (K := K))) ls (s' : data_files K) n lf V Y nv ni v i P f todel y last tsq fm : Prop := {
  fa_net : NetData (Some ns) (Some ls) None = Ok n;
  fa_cons : consistent n;
  fa_ids : ids n = map bd_id ns;
  fa_loaded : forall b, In b ns -> has_load b = true;
  fa_loads : map seen_load (loads n) = map wanted_load ns;
  fa_asyms : asyms n = [];
  fa_grids : grids n = map bd_id (filter (fun b => bd_type b =? 3)%nat ns);
  fa_y : make_y_bus n = Ok Y;
  fa_sy : shape Y (length ns) (length ns);
  fa_rv : nr V = length (lf_t lf);
  fa_cv : nc V = length ns;
  fa_wf : wf V;
  fa_files : s' = DataFiles (Some lf) (Some (V, mmul V Y, Y)) (Some (nv, ni, v, i))
    (Some (Simulation (columns ni (kept_ascending (length ns) todel)) (columns nv (kept_ascending (length ns) todel))
      (columns i (kept_ascending (length ns) todel)) (columns v (kept_ascending (length ns) todel)) y
      (map (vget P) (kept_ascending (length ns) todel)) (knat f) (repeat 1%Z (length (kept_ascending (length ns) todel)))));
  fa_p : P = grid_ratings n (base_ratings (safety_factor conf) n);
  fa_sampling : sampling rnd (seconds (lf_t lf)) (measurement_frequency conf) (time_steps conf) = Ok (last, tsq, f);
  fa_measure : measure rnd root noise seeded (NoiseParams (s_voltage_magnitude_sd conf) (s_current_magnitude_sd conf)
    (s_voltage_phase_sd conf) (s_current_phase_sd conf) (equivalent_noise o) (safety_factor conf)) P V (mmul V Y) (seconds (lf_t lf)) last tsq
    (measurement_frequency conf) f = Ok ((nv, ni, v, i), fm);
  fa_cols : nc nv = length ns /\ nc ni = length ns /\ nc v = length ns /\ nc i = length ns /\ wf v /\ wf i;
  fa_reduce : reduce_network pinv n v i (with_substations ns (ModelScript.laplacian o) (hidden_nodes conf)) (ModelScript.laplacian o) = Ok (todel, y);
  fa_bound : forall x, In x todel -> (x < length ns)%nat }.

Lemma nth_concat_one : forall n (l : list nat), (forall i, In i l -> (i < n)%nat) -> map (fun i => nth i (concat (repeat [1%Z] n)) 0%Z) l = repeat 1%Z (length l).
Proof.
  assert (E : forall n, concat (repeat [1%Z] n) = repeat 1%Z n) by (induction n; cbn; [reflexivity|rewrite IHn; reflexivity]).
  intros n l. rewrite E. induction l as [|x l IH]; intro H; [reflexivity|]. cbn [map length repeat]. f_equal.
  - pose proof (H x (or_introl eq_refl)) as Hx. assert (In (nth x (repeat 1%Z n) 0%Z) (repeat 1%Z n)) as I by (apply nth_In; rewrite repeat_length; auto). apply repeat_spec in I. exact I.
  - apply IH. intros i Hi. apply H. right. exact Hi.
Qed.

Theorem run_facts : forall conf o ts ns ls s s', three_phased o = false -> sequence o = false -> recomputes o -> (forall b, In b ns -> both is_single b) ->
  run conf o ts (Some (ns, ls)) s = (s', Ok tt) ->
  exists n lf V Y nv ni v i P f todel y last tsq fm, facts conf o ns ls s' n lf V Y nv ni v i P f todel y last tsq fm.
Proof.
  intros conf o ts ns ls s s' H3 HQ HR HS H. destruct (recomputes_redo _ HR) as [Rs Rd]. apply ok in H.
  destruct H as (n & ns' & lp & lf & [[V I] Y] & [[[nv ni] v] i] & P & f & todel & y & out & (EN & EC & L & R & M & ER & EO) & ->).
  unfold network in EN. rewrite H3 in EN. unfold make_net in EN. apply bind_ok in EN. destruct EN as (n0 & EN & E0). injection E0 as -> <-.
  rewrite Rs, H3 in R. unfold new_results in R. apply bind_ok in R. destruct R as (Y' & EY & R). apply bind_ok in R. destruct R as ([V' I'] & RV & R). injection R as -> -> ->.
  apply bind_ok in RV. destruct RV as ([mm aa] & _ & RV). unfold get_current_and_voltage in RV. apply bind_ok in RV. destruct RV as (V0 & EV & RV).
  rewrite EY in RV. cbn [bind] in RV. apply bind_ok in RV. destruct RV as (I0 & EI & RV). injection RV as -> ->.
  unfold currents in EI. destruct (Nat.eqb_spec (nc V) (nr Y)) as [CV|]; [|discriminate]. injection EI as <-. cbn [fst snd] in *.
  assert (SY0 : shape Y (length (buses n)) (length (buses n)) /\ (0 < length (buses n))%nat \/ length (buses n) = 0%nat).
  { unfold make_y_bus in EY. destruct (grids n); [discriminate|]. injection EY as <-. destruct (Nat.eq_dec (length (buses n)) 0); [right; auto|left; split; [apply shape_mk|lia]]. }
  assert (NB : length (buses n) <> 0%nat).
  { intro E. destruct (p_build_only ns ls n HS EN) as [ND GL]. destruct (p_build ns ls HS ND GL) as (n' & EN' & C & B & _ & _ & G & _). rewrite EN in EN'. injection EN' as <-.
    assert (LB : length (buses n) = length ns) by (rewrite <- (map_length (fun b => (b_id b, b_kv b)) (buses n)), B; apply map_length).
    rewrite E in LB. destruct ns; [|discriminate LB]. cbn in G. unfold make_y_bus in EY. rewrite G in EY. discriminate. }
  destruct SY0 as [[SY PB]|]; [|contradiction]. assert (CV2 : nc V = length (buses n)) by (destruct SY as (_ & RY & _); lia).
  unfold measurements in M. rewrite H3, Rd in M. cbn [noise_settings] in M.
  apply run_inv in M. destruct M as (EP & last & tsq & HSa & _ & fm & HM). cbn [pmu_safety_factor] in EP.
  destruct (measure_fits rnd root noise seeded _ _ _ _ _ _ _ _ _ _ _ _ HM ltac:(lia)) as (RV & RI & LC).
  assert (LP : length P = length (loads n)) by (rewrite EP; apply p_ratings).
  assert (CI : nc (mmul V Y) = nc V) by (cbn [nc mmul mk]; destruct SY as (_ & _ & CY); lia).
  destruct (all_loaded ns ls n HS EN ltac:(lia)) as (C & EI & AL & EL & EA & EG).
  assert (LN : length ns = length (buses n)) by (transitivity (length (ids n)); [rewrite EI, map_length; reflexivity|unfold ids; apply map_length]).
  pose proof (measure_columns _ _ _ _ _ _ _ _ _ _ _ _ _ _ _ HM CI) as CC.
  unfold ModelScript.reduced, hidden_list in ER. rewrite H3 in ER. cbn [fst snd] in ER.
  destruct (reduce_located _ _ _ _ _ _ _ _ C ER) as (Y2 & Hh & Gg & _ & LH & _ & HT).
  assert (BD : forall x, In x todel -> (x < length ns)%nat).
  { intros x Hx. apply HT in Hx. rewrite LN. destruct Hx as [Hx|(j & Hj & _)]; [apply (located_lt _ _ _ _ LH Hx)|].
    assert (Q : nth_error (ids n) x <> None) by congruence. apply nth_error_Some in Q. unfold ids in Q. rewrite map_length in Q. exact Q. }
  assert (WV : wf V). { unfold voltages in EV. destruct ((nr mm =? nr aa)%nat && (nc mm =? nc aa)%nat); [|discriminate]. injection EV as <-. apply wf_mk. }
  unfold remaining_data in EO. rewrite HQ, H3 in EO.
  apply bind_ok in EO. destruct EO as (a1 & D1 & EO). apply bind_ok in EO. destruct EO as (a2 & D2 & EO). apply bind_ok in EO. destruct EO as (a3 & D3 & EO).
  apply bind_ok in EO. destruct EO as (a4 & D4 & EO). apply bind_ok in EO. destruct EO as (a5 & D5 & EO). apply bind_ok in EO. destruct EO as (a6 & D6 & EO). injection EO as <-.
  apply delete_cols_kept in D1, D2, D3, D4. apply delete_list_kept in D5, D6. destruct CC as (C1 & C2 & C3 & C4 & W1 & W2).
  assert (LPN : length P = length ns).
  { assert (Q : length (map seen_load (loads n)) = length (map wanted_load ns)) by (rewrite EL; reflexivity). rewrite !map_length in Q. lia. }
  rewrite C1, CV2, <- LN in D1. rewrite C2, CV2, <- LN in D2. rewrite C3, CV2, <- LN in D3. rewrite C4, CV2, <- LN in D4. rewrite LPN in D5. subst a1 a2 a3 a4 a5.
  rewrite <- LN in D6. assert (LQ : length (concat (repeat [1%Z] (length ns))) = length ns).
  { generalize (length ns) as k. induction k; cbn; [reflexivity|rewrite IHk; reflexivity]. }
  rewrite LQ in D6. rewrite nth_concat_one in D6 by (intros x Hx; apply kept_In in Hx; tauto). subst a6.
  exists n, lf, V, Y, nv, ni, v, i, P, f, todel, y, last, tsq, fm. constructor; auto.
  - rewrite LN. exact SY.
  - unfold seconds in RV. rewrite map_length in RV. exact RV.
  - lia.
  - rewrite C1, C2, C3, C4, CV2, LN. auto 10.
Qed.

Section Facts.
Variables (conf : settings K) (o : options K) (ns : list (bus_data (K := K))) (ls : list (line_data (K := K))) (s' : data_files K) (n : net (K := K)) (lf : loads_file K)
  (V Y nv ni v i : mat CK) (P : list K) (f : nat) (todel : list nat) (y : mat CK) (last : K) (tsq : list K) (fm : nat).
Hypothesis FA : facts conf o ns ls s' n lf V Y nv ni v i P f todel y last tsq fm.
Hypothesis SN : forall b, In b ns -> both is_single b.
Lemma facts_size : length (buses n) = length ns.
Proof. transitivity (length (ids n)); [unfold ids; rewrite map_length; reflexivity|]. rewrite (fa_ids _ _ _ _ _ _ _ _ _ _ _ _ _ _ _ _ _ _ _ _ FA). apply map_length. Qed.
Lemma facts_NoDup : NoDup (map bd_id ns).
Proof. rewrite <- (fa_ids _ _ _ _ _ _ _ _ _ _ _ _ _ _ _ _ _ _ _ _ FA). apply (fa_cons _ _ _ _ _ _ _ _ _ _ _ _ _ _ _ _ _ _ _ _ FA). Qed.
Lemma same_bus : forall a b, In a ns -> In b ns -> bd_id a = bd_id b -> a = b.
Proof.
  intros a b Ha Hb E. apply In_nth_error in Ha, Hb. destruct Ha as [p Hp], Hb as [q Hq].
  assert (p = q); [|congruence]. apply (proj1 (NoDup_nth_error (map bd_id ns)) facts_NoDup).
  - apply nth_error_Some. rewrite nth_error_map, Hp. discriminate.
  - rewrite !nth_error_map, Hp, Hq. cbn. congruence.
Qed.
Lemma grid_type : forall b, In b ns -> (In (bd_id b) (grids n) <-> bd_type b = 3%nat).
Proof.
  intros b Hb. rewrite (fa_grids _ _ _ _ _ _ _ _ _ _ _ _ _ _ _ _ _ _ _ _ FA), in_map_iff. split.
  - intros (c & E & Hc). apply filter_In in Hc. destruct Hc as [Hc T]. apply Nat.eqb_eq in T. rewrite <- (same_bus c b Hc Hb E). exact T.
  - intro T. exists b. split; [reflexivity|]. apply filter_In. split; [exact Hb|]. apply Nat.eqb_eq. exact T.
Qed.
Lemma load_at : forall k b, nth_error ns k = Some b -> exists l, nth_error (loads n) k = Some l /\ l_bus l = bd_id b /\
  (bd_type b <> 3%nat -> l_p l = number (bd_p b) /\ l_q l = number (bd_q b)) /\ (bd_type b = 3%nat -> l_p l = 0 /\ l_q l = 0).
Proof.
  intros k b Hb. pose proof (f_equal (fun l => nth_error l k) (fa_loads _ _ _ _ _ _ _ _ _ _ _ _ _ _ _ _ _ _ _ _ FA)) as E. cbv beta in E. rewrite !nth_error_map, Hb in E. cbn [option_map] in E.
  destruct (nth_error (loads n) k) as [l|]; [|discriminate]. cbn [option_map] in E. injection E as E. exists l. split; [reflexivity|].
  pose proof (fa_loaded _ _ _ _ _ _ _ _ _ _ _ _ _ _ _ _ _ _ _ _ FA b (nth_error_In _ _ Hb)) as HL. unfold has_load in HL. unfold wanted_load in E. unfold seen_load in E.
  destruct (Nat.eqb_spec (bd_type b) 1) as [T1|T1]; injection E as E1 E2 E3; (split; [exact E1|]); split; intro T; try lia; auto.
  destruct (Nat.eqb_spec (bd_type b) 3); [contradiction|discriminate].
Qed.
Lemma idle_bus : forall k b, nth_error ns k = Some b -> (idle n 0 (bd_id b) <-> bd_type b <> 3%nat /\ number (bd_p b) = 0 /\ number (bd_q b) = 0).
Proof.
  intros k b Hb. destruct (load_at k b Hb) as (l & El & Bl & L1 & L3). pose proof (nth_error_In _ _ Hb) as Ib. unfold idle. rewrite (grid_type b Ib). split.
  - intros (T & HL & _). split; [exact T|]. destruct (L1 T) as [<- <-]. apply HL; [apply (nth_error_In _ _ El)|exact Bl].
  - intros (T & Hp & Hq). split; [exact T|]. split.
    + intros l' Il' Bl'. destruct (fa_cons _ _ _ _ _ _ _ _ _ _ _ _ _ _ _ _ _ _ _ _ FA) as (_ & _ & _ & _ & NL & _).
      apply In_nth_error in Il'. destruct Il' as [q Hq']. assert (q = k).
      { apply (proj1 (NoDup_nth_error (map l_bus (loads n))) NL); [apply nth_error_Some; rewrite nth_error_map, Hq'; discriminate|].
        rewrite !nth_error_map, Hq', El. cbn. congruence. }
      subst q. rewrite El in Hq'. injection Hq' as <-. destruct (L1 T) as [-> ->]. auto.
    + intros a Ha. rewrite (fa_asyms _ _ _ _ _ _ _ _ _ _ _ _ _ _ _ _ _ _ _ _ FA) in Ha. destruct Ha.
Qed.
Lemma removed_bus : forall k b, nth_error ns k = Some b -> (In k todel <-> ~ stays (hidden_nodes conf) (ModelScript.laplacian o) b).
Proof.
  intros k b Hb. pose proof (nth_error_In _ _ Hb) as Ib. destruct (fa_cons _ _ _ _ _ _ _ _ _ _ _ _ _ _ _ _ _ _ _ _ FA) as (NI & _).
  destruct (reduce_located _ _ _ _ _ _ _ _ (fa_cons _ _ _ _ _ _ _ _ _ _ _ _ _ _ _ _ _ _ _ _ FA) (fa_reduce _ _ _ _ _ _ _ _ _ _ _ _ _ _ _ _ _ _ _ _ FA)) as (_ & H & G & _ & LH & _ & HT).
  assert (Ek : nth_error (ids n) k = Some (bd_id b)) by (rewrite (fa_ids _ _ _ _ _ _ _ _ _ _ _ _ _ _ _ _ _ _ _ _ FA), nth_error_map, Hb; reflexivity).
  rewrite HT. rewrite (located_In n _ H k LH NI). unfold stays.
  assert (W : In (bd_id b) (with_substations ns (ModelScript.laplacian o) (hidden_nodes conf)) <-> In (bd_id b) (hidden_nodes conf) \/ (bd_type b = 3%nat /\ ModelScript.laplacian o = false)).
  { destruct (p_hides_substations K O F ns ls n (hidden_nodes conf) SN (fa_net _ _ _ _ _ _ _ _ _ _ _ _ _ _ _ _ _ _ _ _ FA)) as [W0 W1]. destruct (ModelScript.laplacian o).
    - rewrite W1. intuition discriminate.
    - rewrite W0, (grid_type b Ib). intuition. }
  assert (A : (exists i0, nth_error (ids n) k = Some i0 /\ In i0 (with_substations ns (ModelScript.laplacian o) (hidden_nodes conf))) <-> In (bd_id b) (hidden_nodes conf) \/ (bd_type b = 3%nat /\ ModelScript.laplacian o = false)).
  { rewrite <- W. split; [intros (j & Ej & Ij); congruence|]. intro I0. exists (bd_id b). auto. }
  assert (B : (exists i0, nth_error (ids n) k = Some i0 /\ idle n 0 i0) <-> bd_type b <> 3%nat /\ number (bd_p b) = 0 /\ number (bd_q b) = 0).
  { rewrite <- (idle_bus k b Hb). split; [intros (j & Ej & Ij); congruence|]. intro I0. exists (bd_id b). auto. }
  rewrite A, B. destruct (in_dec Nat.eq_dec (bd_id b) (hidden_nodes conf)); [tauto|].
  destruct (Nat.eq_dec (bd_type b) 3) as [T|T].
  - destruct (ModelScript.laplacian o); intuition discriminate.
  - destruct (k_eq_dec (number (bd_p b)) 0), (k_eq_dec (number (bd_q b)) 0); intuition.
Qed.
Lemma p_stay : stay (hidden_nodes conf) (ModelScript.laplacian o) ns (kept_ascending (length ns) todel).
Proof.
  split; [apply kept_sorted|]. intro k. rewrite kept_In. split.
  - intros [Hk HN]. destruct (nth_error ns k) as [b|] eqn:E; [|apply nth_error_None in E; lia]. exists b. split; [reflexivity|]. rewrite (removed_bus k b E) in HN.
    unfold stays in *. destruct (in_dec Nat.eq_dec (bd_id b) (hidden_nodes conf)) as [I0|I0]; [exfalso; apply HN; tauto|]. split; [exact I0|].
    destruct (Nat.eq_dec (bd_type b) 3) as [T|T]; (split; [intro T'|intro T']); try contradiction.
    + destruct (ModelScript.laplacian o); [reflexivity|]. exfalso. apply HN. intros (_ & Q & _). discriminate (Q T).
    + destruct (k_eq_dec (number (bd_p b)) 0) as [E1|E1]; [|left; exact E1]. destruct (k_eq_dec (number (bd_q b)) 0) as [E2|E2]; [|right; exact E2].
      exfalso. apply HN. intros (_ & _ & Q). destruct (Q T); contradiction.
  - intros (b & E & S0). split; [apply nth_error_Some; congruence|]. rewrite (removed_bus k b E). tauto.
Qed.
Lemma p_rated : forall k, (k < length ns)%nat -> rated (safety_factor conf) ns k (vget P k).
Proof.
  intros k Hk. destruct (nth_error ns k) as [b|] eqn:E; [|apply nth_error_None in E; lia]. exists b. split; [exact E|]. pose proof (nth_error_In _ _ E) as Ib.
  destruct (load_at k b E) as (l & El & Bl & L1 & L3). rewrite (fa_p _ _ _ _ _ _ _ _ _ _ _ _ _ _ _ _ _ _ _ _ FA).
  set (r := grid_ratings n (base_ratings (safety_factor conf) n)).
  destruct (p_ratings (safety_factor conf) n) as [RL R]. fold r in RL, R.
  assert (SB : forall j c, nth_error ns j = Some c -> (at_substation n j <-> bd_type c = 3%nat)).
  { intros j c Ec. destruct (load_at j c Ec) as (lc & Elc & Blc & _). rewrite <- (grid_type c (nth_error_In _ _ Ec)). unfold at_substation. split.
    - intros (l' & El' & Il'). rewrite Elc in El'. injection El' as <-. rewrite <- Blc. exact Il'.
    - intro I0. exists lc. rewrite Blc. auto. }
  assert (RV : forall j c, nth_error ns j = Some c -> bd_type c <> 3%nat -> vget r j = safety_factor conf * squared_power c).
  { intros j c Ec T. destruct (load_at j c Ec) as (lc & Elc & Blc & A1 & _). rewrite (proj1 (R j lc Elc)) by (rewrite (SB j c Ec); exact T). destruct (A1 T) as [-> ->]. reflexivity. }
  split; [apply (RV k b E)|]. intros T U.
  assert (LL : length (loads n) = length ns).
  { pose proof (f_equal (@length _) (fa_loads _ _ _ _ _ _ _ _ _ _ _ _ _ _ _ _ _ _ _ _ FA)) as Q. rewrite !map_length in Q. exact Q. }
  pose proof (p_one_substation (safety_factor conf) n k l El (proj2 (SB k b E) T)) as PO. cbv zeta in PO. fold r in PO. rewrite PO; clear PO.
  - rewrite LL, lsum_nth, map_length. apply sumn_ext. intros j Hj. destruct (nth_error ns j) as [c|] eqn:Ec; [|apply nth_error_None in Ec; lia].
    assert (Q : nth j (map (fun c => if (bd_type c =? 3)%nat then 0 else safety_factor conf * squared_power c) ns) 0 = if (bd_type c =? 3)%nat then 0 else safety_factor conf * squared_power c).
    { apply nth_error_nth. rewrite nth_error_map, Ec. reflexivity. }
    rewrite Q. destruct (Nat.eqb_spec j k) as [->|NE].
    + rewrite E in Ec. injection Ec as <-. rewrite T. reflexivity.
    + destruct (Nat.eqb_spec (bd_type c) 3) as [T3|T3]; [exfalso; apply NE; apply (U j c Ec T3)|]. apply (RV j c Ec T3).
  - intros j Hj. destruct (nth_error ns j) as [c|] eqn:Ec.
    + apply (U j c Ec). apply (SB j c Ec). exact Hj.
    + exfalso. destruct Hj as (l' & El' & _). assert (Q : nth_error (loads n) j <> None) by congruence. apply nth_error_Some in Q. apply nth_error_None in Ec. lia.
  - apply L3. exact T.
  - apply L3. exact T.
Qed.

Hypothesis TM : timed s'.
Hypothesis KL : keeps_length noise.
Notation times := (seconds (lf_t lf) : list K).
Lemma facts_times : increasing times /\ (2 <= length times)%nat /\ vget times 0 = 0.
Proof.
  rewrite (fa_files _ _ _ _ _ _ _ _ _ _ _ _ _ _ _ _ _ _ _ _ FA) in TM. destruct (TM lf eq_refl) as (A & B & C). split; [exact A|].
  split; [unfold seconds; rewrite map_length; exact B|]. rewrite vget_seconds by (eapply Nat.lt_le_trans; [|exact B]; repeat constructor). rewrite C. reflexivity.
Qed.
Lemma facts_averages : exists new scale, (0 < fm)%nat /\ within times new /\ averages V times new fm v /\ averages (mmul V Y) times new fm i /\
  measured noise seeded V (mmul V Y) times new fm
      (fun _ => s_voltage_magnitude_sd conf / scale) (fun c => s_current_magnitude_sd conf / scale * vget P c)
      (fun _ => s_voltage_phase_sd conf / scale) (fun _ => s_current_phase_sd conf / scale) (nv, ni, v, i).
Proof.
  destruct facts_times as (TI & T2 & T0). destruct FA. destruct (sampling_ok _ _ _ _ _ _ _ TI T2 fa_sampling0) as (EL & EB & _).
  assert (RVT : nr V = length times) by (unfold seconds; rewrite map_length; auto).
  assert (LP : length P = length ns).
  { rewrite fa_p0. rewrite (proj1 (p_ratings _ _)). pose proof (f_equal (@length _) fa_loads0) as Q. rewrite !map_length in Q. exact Q. }
  assert (CP : nc V = length P) by congruence.
  assert (CP2 : nc (mmul V Y) = length P) by (destruct fa_sy0 as (_ & _ & Q); change (nc (mmul V Y)) with (nc Y); congruence).
  destruct (p_measure rnd root noise seeded _ _ _ _ _ _ _ _ _ _ _ _ TI T2 T0 EL EB RVT (RVT : nr (mmul V Y) = length times) CP CP2 KL fa_measure0)
    as (new & scale & Hf & Hu & Hsp & HR).
  pose proof HR as HR'. cbn [measured] in HR'. destruct HR' as (_ & _ & AV & AI & _). exists new, scale. split; [exact Hf|]. split; [|split; [exact AV|split; [exact AI|exact HR]]].
  assert (L0 : 0 <! last) by (subst last; apply last_pos; auto).
  intros w Hw. rewrite T0. unfold used in Hu. cbn [use_equivalent_noise] in Hu. rewrite <- EL.
  destruct (equivalent_noise o).
  - destruct Hu as (_ & HL & _). apply (linspace_ok _ _ _ HL); auto. apply klt_le; auto.
  - destruct Hu as (-> & _). apply (linspace_ok _ _ _ EB); auto. apply klt_le; auto.
Qed.
Lemma facts_rows : nr v = nr i.
Proof. destruct facts_averages as (new & _ & _ & _ & ((_ & A & _) & _) & ((_ & B & _) & _) & _). congruence. Qed.
Lemma p_currents : i = mmul v Y.
Proof.
  destruct facts_times as (TI & T2 & T0). destruct facts_averages as (new & _ & Hf & HW & AV & AI & _).
  apply (p_averages_unique (mmul V Y) times new fm); auto. apply averages_mmul; auto.
  - unfold seconds. rewrite map_length. destruct FA; auto.
  - destruct FA. destruct fa_sy0 as (_ & Q & _). lia.
Qed.
Lemma facts_constant : forall x u, (x < length ns)%nat -> (forall t, (t < nr V)%nat -> get V t x = u) -> forall t, (t < nr v)%nat -> get v t x = u.
Proof.
  intros x u Hx Hu. destruct facts_times as (TI & T2 & T0). destruct facts_averages as (new & _ & Hf & HW & AV & AI & _).
  apply (p_averages_constant V times new fm v x u TI Hf); auto; destruct FA; [unfold seconds; rewrite map_length; auto|lia].
Qed.
Lemma facts_no_current : forall E, (forall x, In x E -> (x < length ns)%nat) -> no_current E (mmul V Y) -> no_current E i.
Proof.
  intros E HE H t x Ht Hx. destruct facts_times as (TI & T2 & T0). destruct facts_averages as (new & _ & Hf & HW & AV & AI & _).
  apply (p_averages_constant (mmul V Y) times new fm i x 0 TI Hf); auto.
  - destruct FA. cbn [nr mmul mk]. unfold seconds. rewrite map_length. auto.
  - destruct FA. destruct fa_sy0 as (_ & _ & Q). cbn [nc mmul mk]. rewrite Q. auto.
Qed.

Let ks := kept_ascending (length ns) todel.
Lemma loaded_nothing : forall N (Z A B : mat CK) H, shape Z N N -> (forall x, In x H -> forall t, (t < nr B)%nat -> get B t x = 0) -> loaded Z A B H = Z.
Proof.
  intros N Z A B H SZ HB. apply (gshape_ext _ _ N N); [apply loaded_shape; auto|exact SZ|]. intros a b Ha Hb. unfold loaded. rewrite get_mk by (destruct SZ as (_ & -> & _); auto).
  destruct ((a =? b)%nat && existsb (Nat.eqb a) H)%bool eqn:Q; [|ring]. apply andb_true_iff in Q. destruct Q as [_ Q]. apply existsb_exists in Q. destruct Q as (x & Hx & Ex). apply Nat.eqb_eq in Ex. subst x.
  assert (M : mean_at B a = 0). { unfold mean_at. rewrite (sumn_ext _ _ (fun _ => 0)) by (intros; apply HB; auto). rewrite sumn_zero by reflexivity. rewrite kdiv_def. ring. }
  rewrite M, kdiv_def. ring.
Qed.
Variable E : list nat.
Hypothesis EE : eliminated (hidden_nodes conf) ns E.
Hypothesis NC : no_current E (mmul V Y).
Hypothesis SO : solvable pinv Y E.
Hypothesis MN : forall k b, nth_error ns k = Some b -> bd_type b <> 3%nat -> In (bd_id b) (hidden_nodes conf) -> mean_at v k <> 0.
Lemma elim_lt : forall x, In x E -> (x < length ns)%nat.
Proof. intros x Hx. apply EE in Hx. destruct Hx as (b & Eb & _). apply nth_error_Some. congruence. Qed.
Lemma i_zero : forall t x, (t < nr i)%nat -> In x E -> get i t x = 0.
Proof. exact (facts_no_current E elim_lt NC). Qed.
Lemma bus_position : forall k b, nth_error ns k = Some b -> nth_error (ids n) k = Some (bd_id b).
Proof. intros k b Hb. destruct FA. rewrite fa_ids0, nth_error_map, Hb. reflexivity. Qed.
Lemma position_bus : forall k j, nth_error (ids n) k = Some j -> exists b, nth_error ns k = Some b /\ bd_id b = j.
Proof. intros k j Hj. destruct FA. rewrite fa_ids0, nth_error_map in Hj. destruct (nth_error ns k) as [b|]; [|discriminate]. injection Hj as <-. eauto. Qed.
Lemma elim_idle : forall x, (exists j, nth_error (ids n) x = Some j /\ idle n 0 j) <-> exists b, nth_error ns x = Some b /\ bd_type b <> 3%nat /\ number (bd_p b) = 0 /\ number (bd_q b) = 0.
Proof.
  intro x. split.
  - intros (j & Ej & Ij). destruct (position_bus x j Ej) as (b & Eb & <-). exists b. split; [exact Eb|]. apply (idle_bus x b Eb). exact Ij.
  - intros (b & Eb & H). exists (bd_id b). split; [apply bus_position; exact Eb|]. apply (idle_bus x b Eb). exact H.
Qed.
Lemma v_draws : forall x, In x E -> proportional v i x 0 /\ draws v Y x 0.
Proof.
  intros x Hx. split; intros t Ht.
  - rewrite i_zero by (auto; rewrite <- facts_rows; auto). ring.
  - rewrite <- p_currents. rewrite i_zero by (auto; rewrite <- facts_rows; auto). ring.
Qed.
(** the matrix is a Laplacian *)
Section Laplacian.
Hypothesis LA : ModelScript.laplacian o = true.
Hypothesis SW : shown (hidden_nodes conf) ns.
Hypothesis OR : orderly (length ns) (length ks).
Lemma laplacian_setup : exists H G B, consistent n /\ make_y_bus n = Ok Y /\ located n (hidden_nodes conf) H /\ located n (grids n) G /\
  (forall x, In x H -> ~ In x G) /\ (forall x, In x E <-> In x H \/ exists j, nth_error (ids n) x = Some j /\ idle n 0 j) /\
  (forall x, In x H -> mean_at v x <> 0) /\ loaded Y v i H = Y /\ shape B (length E) (length E) /\ mmul (block_of Y E E) B = meye (length E) /\
  kept_ascending (length ns) E = ks.
Proof.
  pose proof (fun k b H => grid_type b (nth_error_In ns k H)) as GT.
  destruct (reduce_located _ _ _ _ _ _ _ _ (fa_cons _ _ _ _ _ _ _ _ _ _ _ _ _ _ _ _ _ _ _ _ FA) (fa_reduce _ _ _ _ _ _ _ _ _ _ _ _ _ _ _ _ _ _ _ _ FA)) as (Y2 & H & G & _ & LH & LG & HT).
  pose proof FA as FA'. destruct FA'. pose proof (proj1 fa_cons0) as NI. rewrite LA in *. cbn [with_substations] in *.
  assert (HB : forall x, In x H <-> exists b, nth_error ns x = Some b /\ In (bd_id b) (hidden_nodes conf)).
  { intro x. rewrite (located_In n _ H x LH NI). split.
    - intros (j & Ej & Ij). destruct (position_bus x j Ej) as (b & Eb & <-). eauto.
    - intros (b & Eb & Ib). exists (bd_id b). split; [apply bus_position; exact Eb|exact Ib]. }
  assert (GB : forall x, In x G <-> exists b, nth_error ns x = Some b /\ bd_type b = 3%nat).
  { intro x. rewrite (located_In n _ G x LG NI). split.
    - intros (j & Ej & Ij). destruct (position_bus x j Ej) as (b & Eb & <-). exists b. split; [exact Eb|]. apply (GT x b Eb). exact Ij.
    - intros (b & Eb & Tb). exists (bd_id b). split; [apply bus_position; exact Eb|]. apply (GT x b Eb). exact Tb. }
  assert (HE : forall x, In x E <-> In x H \/ exists j, nth_error (ids n) x = Some j /\ idle n 0 j).
  { intro x. rewrite (proj2 EE x), HB, elim_idle. split.
    - intros (b & Eb & Tb & [I0|I0]); [left|right]; exists b; auto.
    - intros [(b & Eb & Ib)|(b & Eb & Tb & I0)]; exists b; (split; [exact Eb|]); auto. split; [|auto]. intro Tb. apply (SW b (nth_error_In _ _ Eb) Tb Ib). }
  destruct SO as ((B & SB & EB) & _). exists H, G, B. split; [exact fa_cons0|]. split; [exact fa_y0|]. split; [exact LH|]. split; [exact LG|].
  split. { intros x Hx Gx. apply GB in Gx. apply HB in Hx. destruct Gx as (b & Eb & Tb), Hx as (b' & Eb' & Ib'). rewrite Eb in Eb'. injection Eb' as <-. apply (SW b (nth_error_In _ _ Eb) Tb Ib'). }
  split; [exact HE|]. split. { intros x Hx. apply HB in Hx. destruct Hx as (b & Eb & Ib). apply (MN x b Eb); [intro Tb; apply (SW b (nth_error_In _ _ Eb) Tb Ib)|exact Ib]. }
  split. { apply (loaded_nothing (length ns)); [exact fa_sy0|]. intros x Hx t Ht. apply i_zero; auto. apply HE. auto. }
  split; [exact SB|]. split; [exact EB|].
  unfold ks, kept_ascending. apply filter_ext_In. intros x _. f_equal. rewrite <- !mem_existsb. apply eq_true_iff_eq. rewrite !mem_In. rewrite (HT x). apply HE.
Qed.
Lemma laplacian_data : forall W, nc W = length ns -> wf W -> (forall x, In x E -> draws W Y x 0) -> mmul (columns W ks) y = columns (mmul W Y) ks.
Proof.
  intros W CW WW DW. pose proof facts_size as SZ. destruct laplacian_setup as (H & G & B & C & EY & LH & LG & HG & HE & HM & LD & SB & EB & EKS).
  pose proof FA as FA'. destruct FA'. rewrite LA in *. cbn [with_substations] in *. destruct fa_cols0 as (C1 & C2 & C3 & C4 & W1 & W2). destruct SO as (_ & PB).
  destruct (p_reduced_data_laplacian pinv n v i W (hidden_nodes conf) Y H G E B) as (todel' & Z & Wr & Jr & ER & D1 & D2 & EQ);
    rewrite ?LD, ?SZ, ?EKS; auto.
  - apply facts_rows.
  - apply EE.
  - intros x Hx. exists 0. assert (In x E) by (apply HE; auto). split; [apply v_draws; auto|apply DW; auto].
  - rewrite ER in fa_reduce0. injection fa_reduce0 as -> ->. rewrite (delete_columns W (length ns) todel CW fa_bound0) in D1. injection D1 as <-.
    rewrite (delete_columns (mmul W Y) (length ns) todel (proj2 (proj2 fa_sy0)) fa_bound0) in D2. injection D2 as <-. exact EQ.
Qed.
Lemma laplacian_shape : shape y (length ks) (length ks).
Proof.
  pose proof facts_size as SZ. destruct laplacian_setup as (H & G & B & C & EY & LH & LG & HG & HE & HM & LD & SB & EB & EKS).
  pose proof FA as FA'. destruct FA'. rewrite LA in *. cbn [with_substations] in *. destruct fa_cols0 as (C1 & C2 & C3 & C4 & W1 & W2). destruct SO as (_ & PB).
  destruct (p_reduce_laplacian pinv n v i (hidden_nodes conf) Y H G E B) as (todel' & Z & order & ER & HT & PO & _ & (SZZ & _));
    rewrite ?LD, ?SZ, ?EKS; auto; [apply EE|].
  rewrite ER in fa_reduce0. injection fa_reduce0 as -> ->. rewrite SZ in PO. apply Permutation_length in PO. fold ks in PO. rewrite <- PO. exact SZZ.
Qed.
Theorem p_laplacian_obeys : mmul (columns v ks) y = columns i ks.
Proof.
  destruct (fa_cols _ _ _ _ _ _ _ _ _ _ _ _ _ _ _ _ _ _ _ _ FA) as (C1 & C2 & C3 & C4 & W1 & W2).
  rewrite (laplacian_data v C3 W1); [rewrite <- p_currents; reflexivity|]. intros x Hx. apply v_draws. exact Hx.
Qed.
Theorem p_laplacian_sums : zero_column_sums (length ns) (length ns) Y -> zero_column_sums (length ks) (length ks) y.
Proof.
  intros ZS j Hj. pose proof laplacian_shape as SY. pose proof (fa_sy _ _ _ _ _ _ _ _ _ _ _ _ _ _ _ _ _ _ _ _ FA) as SYY.
  set (W := mk 1 (length ns) (fun _ _ => 1 : CK)).
  assert (WY : forall x, (x < length ns)%nat -> get (mmul W Y) 0 x = 0).
  { intros x Hx. rewrite get_mmul by (cbn; destruct SYY as (_ & _ & Q); lia). cbn [nc W mk]. rewrite <- (ZS x Hx). apply sumn_ext. intros k Hk. unfold W. rewrite get_mk by lia. ring. }
  assert (D : forall x, In x E -> draws W Y x 0).
  { intros x Hx t Ht. cbn in Ht. assert (t = 0%nat) by lia. subst t. rewrite WY by (apply elim_lt; auto). ring. }
  pose proof (laplacian_data W eq_refl (wf_mk _ _ _) D) as Q. apply (f_equal (fun m => get m 0 j)) in Q.
  assert (Lk : forall k, (k < length ks)%nat -> (nth k ks 0 < length ns)%nat) by (intros k Hk; apply (kept_In (length ns) todel), nth_In; exact Hk).
  unfold columns in Q at 2. rewrite get_mk in Q by (cbn; auto). rewrite WY in Q by auto. rewrite get_mmul in Q by (cbn; destruct SY as (_ & _ & SY); lia).
  rewrite <- Q. cbn [nc columns mk]. apply sumn_ext. intros k Hk. unfold columns. rewrite get_mk by auto. unfold W. rewrite get_mk by (auto; lia). ring.
Qed.
End Laplacian.

(** the substations are left out *)
Section Grounded.
Variable G0 : list nat.
Hypothesis LA : ModelScript.laplacian o = false.
Hypothesis SG : substations ns G0.
Hypothesis AB : all_before E G0.
Hypothesis SV : steady G0 V.
Hypothesis OR : orderly (length (kept_ascending (length ns) G0)) (length ks).
Lemma grounded_setup : exists H G B, consistent n /\ make_y_bus n = Ok Y /\ located n (with_substations ns false (hidden_nodes conf)) H /\ located n (grids n) G /\
  (forall x, In x G <-> In x G0) /\
  (forall x, In x G -> In x H) /\ (forall x, In x E <-> In x (non_grid G H) \/ exists j, nth_error (ids n) x = Some j /\ idle n 0 j) /\
  (forall x, In x (non_grid G H) -> mean_at v x <> 0) /\ loaded Y v i (non_grid G H) = Y /\ shape B (length E) (length E) /\ mmul (block_of Y E E) B = meye (length E) /\
  kept_ascending (length ns) (G ++ E) = ks.
Proof.
  pose proof (fun k b H => grid_type b (nth_error_In ns k H)) as GT.
  destruct (reduce_located _ _ _ _ _ _ _ _ (fa_cons _ _ _ _ _ _ _ _ _ _ _ _ _ _ _ _ _ _ _ _ FA) (fa_reduce _ _ _ _ _ _ _ _ _ _ _ _ _ _ _ _ _ _ _ _ FA)) as (Y2 & H & G & _ & LH & LG & HT).
  pose proof FA as FA'. destruct FA'. pose proof (proj1 fa_cons0) as NI. rewrite LA in *.
  destruct (p_hides_substations K O F ns ls n (hidden_nodes conf) SN fa_net0) as [W0 _].
  assert (HB : forall x, In x H <-> exists b, nth_error ns x = Some b /\ (In (bd_id b) (hidden_nodes conf) \/ bd_type b = 3%nat)).
  { intro x. rewrite (located_In n _ H x LH NI). split.
    - intros (j & Ej & Ij). destruct (position_bus x j Ej) as (b & Eb & <-). apply W0 in Ij. rewrite (GT x b Eb) in Ij. eauto.
    - intros (b & Eb & Ib). exists (bd_id b). split; [apply bus_position; exact Eb|]. apply W0. rewrite (GT x b Eb). exact Ib. }
  assert (GB : forall x, In x G <-> exists b, nth_error ns x = Some b /\ bd_type b = 3%nat).
  { intro x. rewrite (located_In n _ G x LG NI). split.
    - intros (j & Ej & Ij). destruct (position_bus x j Ej) as (b & Eb & <-). exists b. split; [exact Eb|]. apply (GT x b Eb). exact Ij.
    - intros (b & Eb & Tb). exists (bd_id b). split; [apply bus_position; exact Eb|]. apply (GT x b Eb). exact Tb. }
  assert (HN : forall x, In x (non_grid G H) <-> exists b, nth_error ns x = Some b /\ bd_type b <> 3%nat /\ In (bd_id b) (hidden_nodes conf)).
  { intro x. rewrite non_grid_In, HB, GB. split.
    - intros ((b & Eb & [Ib|Tb]) & NG); [exists b|exfalso; apply NG; eauto]. split; [exact Eb|]. split; [intro Tb; apply NG; eauto|exact Ib].
    - intros (b & Eb & Tb & Ib). split; [exists b; auto|]. intros (b' & Eb' & Tb'). congruence. }
  assert (HE : forall x, In x E <-> In x (non_grid G H) \/ exists j, nth_error (ids n) x = Some j /\ idle n 0 j).
  { intro x. rewrite (proj2 EE x), HN, elim_idle. split.
    - intros (b & Eb & Tb & [I0|I0]); [left|right]; exists b; auto.
    - intros [(b & Eb & Ib)|(b & Eb & Tb & I0)]; exists b; (split; [exact Eb|]); tauto. }
  destruct SO as ((B & SB & EB) & _). exists H, G, B. split; [exact fa_cons0|]. split; [exact fa_y0|]. split; [exact LH|]. split; [exact LG|].
  split; [intro x; rewrite GB, (SG x); reflexivity|].
  split. { intros x Gx. apply GB in Gx. apply HB. destruct Gx as (b & Eb & Tb). eauto. }
  split; [exact HE|]. split. { intros x Hx. apply HN in Hx. destruct Hx as (b & Eb & Tb & Ib). apply (MN x b Eb); auto. }
  split. { apply (loaded_nothing (length ns)); [exact fa_sy0|]. intros x Hx t Ht. apply i_zero; auto. apply HE. auto. }
  split; [exact SB|]. split; [exact EB|].
  unfold ks, kept_ascending. apply filter_ext_In. intros x _. f_equal. rewrite <- !mem_existsb. apply eq_true_iff_eq. rewrite !mem_In. rewrite (HT x), in_app_iff, HE.
  rewrite non_grid_In. destruct (in_dec Nat.eq_dec x G) as [Gx|Gx]; [|tauto]. split; [intros _; left; apply HB; apply GB in Gx; destruct Gx as (b & Eb & Tb); eauto|auto].
Qed.
Lemma grounded_data : forall W, nc W = length ns -> wf W -> grounded G0 W -> (forall x, In x E -> draws W Y x 0) -> mmul (columns W ks) y = columns (mmul W Y) ks.
Proof.
  intros W CW WW GW DW. pose proof facts_size as SZ. destruct grounded_setup as (H & G & B & C & EY & LH & LG & GG & HG & HE & HM & LD & SB & EB & EKS).
  pose proof FA as FA'. destruct FA'. rewrite LA in *. destruct fa_cols0 as (C1 & C2 & C3 & C4 & W1 & W2). destruct SO as (_ & PB).
  assert (EK2 : kept_ascending (length ns) G = kept_ascending (length ns) G0).
  { unfold kept_ascending. apply filter_ext_In. intros x _. f_equal. rewrite <- !mem_existsb. apply eq_true_iff_eq. rewrite !mem_In. apply GG. }
  destruct (p_reduced_data_substation pinv n v i W (with_substations ns false (hidden_nodes conf)) Y H G E B) as (todel' & Z & Wr & Jr & ER & D1 & D2 & EQ);
    rewrite ?LD, ?SZ, ?EKS, ?EK2; auto.
  - apply facts_rows.
  - apply EE.
  - intros x p Hx Hp. apply AB; [apply HE; auto|apply GG; auto].
  - intros x Hx. left. intros p Hp. apply AB; [auto|apply GG; auto].
  - intros t x Ht Hx. apply GW; [auto|apply GG; auto].
  - intros x Hx. exists 0. assert (In x E) by (apply HE; auto). split; [apply v_draws; auto|apply DW; auto].
  - rewrite ER in fa_reduce0. injection fa_reduce0 as -> ->. rewrite (delete_columns W (length ns) todel CW fa_bound0) in D1. injection D1 as <-.
    rewrite (delete_columns (mmul W Y) (length ns) todel (proj2 (proj2 fa_sy0)) fa_bound0) in D2. injection D2 as <-. exact EQ.
Qed.
Lemma grounded_shape : shape y (length ks) (length ks).
Proof.
  pose proof facts_size as SZ. destruct grounded_setup as (H & G & B & C & EY & LH & LG & GG & HG & HE & HM & LD & SB & EB & EKS).
  pose proof FA as FA'. destruct FA'. rewrite LA in *. destruct fa_cols0 as (C1 & C2 & C3 & C4 & W1 & W2). destruct SO as (_ & PB).
  destruct (p_reduce_substation pinv n v i (with_substations ns false (hidden_nodes conf)) Y H G E B) as (todel' & Z & order & ER & HT & PO & _ & (SZZ & _));
    rewrite ?LD, ?SZ, ?EKS; auto.
  - apply EE.
  - intros x p Hx Hp. apply AB; [apply HE; auto|apply GG; auto].
  - intros x Hx. left. intros p Hp. apply AB; [auto|apply GG; auto].
  - rewrite ER in fa_reduce0. injection fa_reduce0 as -> ->. rewrite SZ in PO. apply Permutation_length in PO. fold ks in PO. rewrite <- PO. exact SZZ.
Qed.
Theorem p_grounded_obeys : exists c, explained (nr v) (length ks) (length ks) (columns v ks) y (columns i ks) c.
Proof.
  pose proof grounded_shape as SYR. pose proof (fa_sy _ _ _ _ _ _ _ _ _ _ _ _ _ _ _ _ _ _ _ _ FA) as SYY.
  destruct (fa_cols _ _ _ _ _ _ _ _ _ _ _ _ _ _ _ _ _ _ _ _ FA) as (C1 & C2 & C3 & C4 & W1 & W2).
  assert (Lk : forall k, (k < length ks)%nat -> (nth k ks 0 < length ns)%nat) by (intros k Hk; apply (kept_In (length ns) todel), nth_In; exact Hk).
  set (W := mk (nr v) (length ns) (fun t k => get v t k - get v 0 k)).
  assert (WY : forall t x, (t < nr v)%nat -> (x < length ns)%nat -> get (mmul W Y) t x = get i t x - get i 0 x).
  { intros t x Ht Hx. rewrite p_currents. destruct SYY as (_ & _ & CY). rewrite !get_mmul by (cbn; lia). cbn [nc W mk]. rewrite C3.
    transitivity (sumn (length ns) (fun k => get v t k * get Y k x + - (get v 0 k * get Y k x))).
    - apply sumn_ext. intros k Hk. unfold W. rewrite get_mk by auto. ring.
    - rewrite sumn_add, sumn_opp. ring. }
  assert (GW : grounded G0 W).
  { intros t x Ht Hx. cbn in Ht. assert (Hx' : (x < length ns)%nat) by (apply SG in Hx; destruct Hx as (b & Eb & _); apply nth_error_Some; congruence).
    unfold W. rewrite get_mk by auto. destruct (SV x Hx) as (u & Hu). rewrite !(facts_constant x u Hx' Hu) by lia. ring. }
  assert (DW : forall x, In x E -> draws W Y x 0).
  { intros x Hx t Ht. cbn in Ht. rewrite WY by (auto; apply elim_lt; auto). rewrite !i_zero by (auto; rewrite <- facts_rows; lia). ring. }
  pose proof (grounded_data W eq_refl (wf_mk _ _ _) GW DW) as Q.
  exists (fun j => get i 0 (nth j ks 0%nat) - sumn (length ks) (fun k => get v 0 (nth k ks 0%nat) * get y k j)).
  split; [apply shape_mk|]. split; [exact SYR|]. split; [rewrite facts_rows; apply shape_mk|]. intros t j Ht Hj.
  apply (f_equal (fun m => get m t j)) in Q. destruct SYR as (_ & _ & CR). rewrite get_mmul in Q by (cbn; lia). cbn [nc columns mk] in Q.
  unfold columns at 2 in Q. rewrite get_mk in Q by (cbn; auto). rewrite WY in Q by auto.
  unfold columns at 1. rewrite get_mk by (auto; rewrite <- facts_rows; auto).
  transitivity (get i t (nth j ks 0%nat) - get i 0 (nth j ks 0%nat) + get i 0 (nth j ks 0%nat)); [ring|]. rewrite <- Q.
  assert (S1 : sumn (length ks) (fun k => get (columns W ks) t k * get y k j) = sumn (length ks) (fun k => get (columns v ks) t k * get y k j) - sumn (length ks) (fun k => get v 0 (nth k ks 0%nat) * get y k j)).
  { transitivity (sumn (length ks) (fun k => get (columns v ks) t k * get y k j + - (get v 0 (nth k ks 0%nat) * get y k j))).
    - apply sumn_ext. intros k Hk. unfold columns. rewrite !get_mk by (cbn; auto). unfold W. rewrite get_mk by auto. ring.
    - rewrite sumn_add, sumn_opp. ring. }
  rewrite S1. ring.
Qed.
End Grounded.
End Facts.
End Run.
