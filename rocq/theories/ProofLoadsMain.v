(** Proofs about [generate_loads]. *)
From Coq Require Import Bool Arith List ZArith Lia Permutation.
From Coq Require Import Ring Field.
From Verif Require Import BasePy BaseFld BaseOrd BaseSum BaseMat BaseLin BaseNumpy ModelNet ModelLoads SpecLoads ProofLoads ProofLoadsFloat.
Import ListNotations.
Local Open Scope K_scope.

Section Main.
Context {K : Type} {O : Ops K} {F : Fld K} {O2 : OrdOps K} {OF : OrdFld K} {St : Type}.
Variables (rnd : K -> Z) (randint : nat -> nat -> St -> list nat * St) (gauss : St -> K * St).
Add Field Kfld : (@k_field K O F).

Lemma refs_nth : forall (n : net (K := K)) i l, nth_error (loads n) i = Some l ->
  nth i (refs_of n) (0, 0) = (l_p l, l_q l) /\ (i < length (refs_of n))%nat /\
  nth i (map l_bus (loads n)) 0%nat = l_bus l /\ vget (map l_p (loads n)) i = l_p l /\ vget (map l_q (loads n)) i = l_q l.
Proof.
  intros n i l H. assert (L : (i < length (loads n))%nat) by (apply nth_error_Some; congruence).
  assert (E : nth i (loads n) l = l) by (apply nth_error_nth with (d := l); auto).
  unfold refs_of. rewrite map_length. repeat split; auto.
  - rewrite nth_indep with (d' := (l_p l, l_q l)) by (rewrite map_length; auto).
    rewrite (map_nth (fun l => (l_p l, l_q l))), E. reflexivity.
  - rewrite nth_indep with (d' := l_bus l) by (rewrite map_length; auto). rewrite map_nth, E. reflexivity.
  - rewrite (vget_map _ l_p _ l) by auto. rewrite E. reflexivity.
  - rewrite (vget_map _ l_q _ l) by auto. rewrite E. reflexivity.
Qed.

Definition listed (const : option (list nat)) (b : nat) : bool := match const with None => false | Some l => isin b l end.
Lemma blend_shape : forall a const buses nominal (m : mat K) r c, shape m r c -> shape (blend a const buses nominal m) r c.
Proof.
  intros a const buses nominal m r c H. destruct const as [l|]; simpl; auto.
  destruct H as (_ & <- & <-). apply shape_mk.
Qed.
Lemma blend_get : forall a const buses nominal (m : mat K) t i, (t < nr m)%nat -> (i < nc m)%nat ->
  get (blend a const buses nominal m) t i = if listed const (nth i buses 0%nat) then (1 - a) * get m t i + a * vget nominal i else get m t i.
Proof.
  intros a const buses nominal m t i Ht Hi. destruct const as [l|]; simpl; auto. rewrite get_mk by auto. reflexivity.
Qed.

Lemma normal_inv : forall sd n (refs : list K) s m s', normal_load gauss sd n refs s = Ok (m, s') ->
  shape m n (length refs) /\ exists z : nat -> nat -> K, forall t i, (t < n)%nat -> (i < length refs)%nat ->
    get m t i = vget refs i + vget refs i * sd * z t i.
Proof.
  intros sd n refs s m s' H. unfold normal_load in H. destruct (existsb _ refs); [discriminate|].
  destruct (normals gauss (n * length refs) s) as [g s2] eqn:E. injection H as <- <-. split; [apply shape_mk|].
  exists (fun t i => vget g (t * length refs + i)). intros t i Ht Hi. rewrite get_mk by auto. reflexivity.
Qed.

(** what a fresh run of [generate_loads] did *)
Lemma generate_inv : forall a seeded n prm saved s P Q times saved' s',
  generate_loads rnd randint gauss a seeded n (Some prm) saved s = Ok ((P, Q, times), saved', s') ->
  saved' = Some (P, Q, times) /\
  exists P0 Q0 const, P = blend a const (map l_bus (loads n)) (map l_p (loads n)) P0 /\
    Q = blend a const (map l_bus (loads n)) (map l_q (loads n)) Q0 /\
    match prm with
    | FromProfiles active reactive weeks days c => const = c /\ times = time_stamps days /\ exists len,
        lines_per_week days (length weeks) = Ok len /\
        load_profile_from_numpy rnd randint active reactive (skip_lines weeks) len (refs_of n) seeded = Ok (P0, Q0, s')
    | FromStd sd days c => const = c /\ times = time_stamps days /\
        generate_gaussian_load gauss sd (length (time_stamps days)) (refs_of n) seeded = Ok (P0, Q0, s')
    end.
Proof.
  intros a seeded n prm saved s P Q times saved' s' H. unfold generate_loads in H.
  destruct (bind_ok _ _ _ _ _ H) as [[[[[P0 Q0] tm] const] s2] [A B]]. clear H.
  injection B as <- <- <- <- <-. split; [reflexivity|]. exists P0, Q0, const. split; [reflexivity|]. split; [reflexivity|].
  destruct prm as [active reactive weeks days c|sd days c].
  - destruct (bind_ok _ _ _ _ _ A) as [len [A1 A2]]. destruct (bind_ok _ _ _ _ _ A2) as [[[p q] s3] [A3 A4]].
    injection A4 as <- <- <- <- <-. split; [reflexivity|]. split; [reflexivity|]. exists len. split; auto.
  - destruct (bind_ok _ _ _ _ _ A) as [[[p q] s3] [A3 A4]].
    injection A4 as <- <- <- <- <-. repeat split; auto.
Qed.

Lemma blend_zero : forall a const buses nominal (m : mat K) t i, (t < nr m)%nat -> (i < nc m)%nat ->
  get m t i = 0 -> vget nominal i = 0 -> get (blend a const buses nominal m) t i = 0.
Proof. intros a const buses nominal m t i Ht Hi H1 H2. rewrite blend_get by auto. rewrite H1, H2. destruct (listed const _); ring. Qed.

Lemma fill_zero : forall (A B P0 Q0 : mat K) refs s s', rounds rnd -> fill_loads rnd randint A B refs s = Ok (P0, Q0, s') ->
  forall i, (i < length refs)%nat ->
  (fst (nth i refs (0, 0)) = 0 -> forall t, (t < nr P0)%nat -> get P0 t i = 0) /\
  (snd (nth i refs (0, 0)) = 0 -> forall t, (t < nr Q0)%nat -> get Q0 t i = 0).
Proof.
  intros A B P0 Q0 refs s s' R H i Hi. destruct (fill_loads_inv rnd randint _ _ _ _ _ _ _ H) as (S1 & S2 & N).
  destruct (N i Hi) as [(s1 & s2 & c & E & G) (s3 & s4 & d & E2 & G2)]. split; intros Z t Ht.
  - rewrite Z in E. destruct S1 as (_ & S1 & _). rewrite S1 in Ht. rewrite G by auto. eapply assign_zero; eauto.
  - rewrite Z in E2. destruct S2 as (_ & S2 & _). rewrite S2 in Ht. rewrite G2 by auto. eapply assign_zero; eauto.
Qed.

Lemma no_load_one_phase : forall a seeded n prm saved s P Q times saved' s', rounds rnd ->
  generate_loads rnd randint gauss a seeded n (Some prm) saved s = Ok ((P, Q, times), saved', s') ->
  forall i l, nth_error (loads n) i = Some l ->
  (l_p l = 0 -> forall t, (t < nr P)%nat -> get P t i = 0) /\ (l_q l = 0 -> forall t, (t < nr Q)%nat -> get Q t i = 0).
Proof.
  intros a seeded n prm saved s P Q times saved' s' R H i l Hl.
  destruct (generate_inv _ _ _ _ _ _ _ _ _ _ _ H) as (_ & P0 & Q0 & const & -> & -> & E).
  destruct (refs_nth n i l Hl) as (E1 & E2 & E3 & E4 & E5).
  destruct prm as [active reactive weeks days c|sd days c].
  - destruct E as (-> & _ & len & _ & E). unfold load_profile_from_numpy in E.
    destruct (fill_loads_inv rnd randint _ _ _ _ _ _ _ E) as (S1 & S2 & _).
    destruct (fill_zero _ _ _ _ _ _ _ R E i E2) as [Z1 Z2]. rewrite E1 in Z1, Z2.
    split; intros Z t Ht.
    + destruct (blend_shape a c (map l_bus (loads n)) (map l_p (loads n)) _ _ _ S1) as (_ & B & _). rewrite B in Ht.
      destruct S1 as (_ & S1 & S3). apply blend_zero; [lia|lia|apply Z1; [auto|lia]|congruence].
    + destruct (blend_shape a c (map l_bus (loads n)) (map l_q (loads n)) _ _ _ S2) as (_ & B & _). rewrite B in Ht.
      destruct S2 as (_ & S2 & S3). apply blend_zero; [lia|lia|apply Z2; [auto|lia]|congruence].
  - destruct E as (-> & _ & E). unfold generate_gaussian_load in E.
    destruct (bind_ok _ _ _ _ _ E) as [[p s1] [A1 A2]]. destruct (bind_ok _ _ _ _ _ A2) as [[q s2] [A3 A4]].
    injection A4 as <- <- <-. destruct (normal_inv _ _ _ _ _ _ A1) as (S1 & z1 & G1). destruct (normal_inv _ _ _ _ _ _ A3) as (S2 & z2 & G2).
    assert (V1 : vget (map fst (refs_of n)) i = l_p l).
    { rewrite (vget_map _ fst _ (0, 0)) by auto. rewrite E1. reflexivity. }
    assert (V2 : vget (map snd (refs_of n)) i = l_q l).
    { rewrite (vget_map _ snd _ (0, 0)) by auto. rewrite E1. reflexivity. }
    rewrite !map_length in *.
    split; intros Z t Ht.
    + destruct (blend_shape a c (map l_bus (loads n)) (map l_p (loads n)) _ _ _ S1) as (_ & B & _). rewrite B in Ht.
      destruct S1 as (_ & S1 & S3). apply blend_zero; [lia|lia| |congruence].
      rewrite G1 by auto. rewrite V1, Z. ring.
    + destruct (blend_shape a c (map l_bus (loads n)) (map l_q (loads n)) _ _ _ S2) as (_ & B & _). rewrite B in Ht.
      destruct S2 as (_ & S2 & S3). apply blend_zero; [lia|lia| |congruence].
      rewrite G2 by auto. rewrite V2, Z. ring.
Qed.

(** ** Rows and columns *)
Lemma length_times : forall days, length (time_stamps days) = (1440 * days)%nat.
Proof. intro days. unfold time_stamps. rewrite map_length, length_range. lia. Qed.
Lemma nth_times : forall days k, (k < 1440 * days)%nat -> nth k (time_stamps days) 0%Z = (60 * Z.of_nat k)%Z.
Proof.
  intros days k Hk. unfold time_stamps. rewrite nth_map_range by lia. lia.
Qed.

(** the blended column *)
Definition mixed (a nominal : K) (const : option (list nat)) (b : nat) (x : K) : K :=
  if listed const b then (1 - a) * x + a * nominal else x.

Lemma profile_rows : forall a seeded n active reactive weeks days const saved s P Q times saved' s' len,
  rounds rnd -> fair randint ->
  lines_per_week days (length weeks) = Ok (Z.of_nat len) ->
  long_enough active weeks len -> long_enough reactive weeks len ->
  generate_loads rnd randint gauss a seeded n (Some (FromProfiles active reactive weeks days const)) saved s = Ok ((P, Q, times), saved', s') ->
  shape P (length weeks * len) (length (loads n)) /\ shape Q (length weeks * len) (length (loads n)) /\
  times = time_stamps days /\
  exists MP MQ sp sq, selects active weeks len MP /\ selects reactive weeks len MQ /\
    (loads n <> [] -> typical_share MP sp /\ typical_share MQ sq) /\
    forall i l, nth_error (loads n) i = Some l -> exists p q,
      sum_of_households MP sp (l_p l) p /\ sum_of_households MQ sq (l_q l) q /\
      forall t, (t < length weeks * len)%nat -> get P t i = mixed a (l_p l) const (l_bus l) (p t) /\ get Q t i = mixed a (l_q l) const (l_bus l) (q t).
Proof.
  intros a seeded n active reactive weeks days const saved s P Q times saved' s' len R FA HL L1 L2 H.
  destruct (generate_inv _ _ _ _ _ _ _ _ _ _ _ H) as (_ & P0 & Q0 & const' & -> & -> & -> & -> & len' & HL' & E).
  rewrite HL in HL'. injection HL' as <-. unfold load_profile_from_numpy in E.
  set (MP := read_profile (nr active) active (skip_lines weeks) (Z.of_nat len)) in *.
  set (MQ := read_profile (nr active) reactive (skip_lines weeks) (Z.of_nat len)) in *.
  assert (SP : selects active weeks len MP) by (apply read_profile_selects; auto).
  assert (SQ : selects reactive weeks len MQ) by (apply read_profile_selects; auto).
  destruct (fill_loads_inv rnd randint _ _ _ _ _ _ _ E) as (S1 & S2 & N).
  destruct SP as ((W1 & R1 & C1) & G1) eqn:SPE. destruct SQ as ((W2 & R2 & C2) & G2) eqn:SQE. clear SPE SQE.
  rewrite R1 in S1. rewrite R2 in S2. unfold refs_of in S1, S2. rewrite map_length in S1, S2.
  split; [apply blend_shape; auto|]. split; [apply blend_shape; auto|]. split; [reflexivity|].
  exists MP, MQ, (mean_percentile MP), (mean_percentile MQ).
  split; [split; [split; auto|exact G1]|]. split; [split; [split; auto|exact G2]|]. split.
  - intro NE. destruct (loads n) as [|l0 ls] eqn:EL; [congruence|].
    destruct (N 0%nat) as [(s1 & s2 & c & A & _) (s3 & s4 & d & B & _)]; [unfold refs_of; rewrite EL; simpl; lia|].
    destruct (assign_inv rnd randint _ _ _ _ _ A) as (X1 & X2 & _). destruct (assign_inv rnd randint _ _ _ _ _ B) as (Y1 & Y2 & _).
    split; apply mean_percentile_sound; auto.
  - intros i l Hl. destruct (refs_nth n i l Hl) as (E1 & E2 & E3 & E4 & E5).
    destruct (N i E2) as [(s1 & s2 & c & A & GA) (s3 & s4 & d & B & GB)]. rewrite E1 in A, B. simpl in A, B.
    exists (vget c), (vget d). split; [eapply assign_households; eauto|]. split; [eapply assign_households; eauto|].
    intros t Ht. unfold refs_of in E2. rewrite map_length in E2.
    destruct S1 as (_ & S1 & S3). destruct S2 as (_ & S2 & S4).
    split; rewrite blend_get by lia; unfold mixed; rewrite E3.
    + rewrite E4, GA by lia. reflexivity.
    + rewrite E5, GB by lia. reflexivity.
Qed.

(** ** Success and failure *)
Lemma share_pos : forall (m : mat K) x c, typical_share m x -> (0 < nr m)%nat -> (0 < nc m)%nat -> 0 <! c ->
  (forall t h, (t < nr m)%nat -> (h < nc m)%nat -> c <=! kabs (get m t h)) -> 0 <! x.
Proof.
  intros m x c (pc & H & E) Hr Hc C G.
  assert (B : knat (nc m) * c <=! knat (nc m) * x).
  { rewrite E, <- sumn_const. apply sumn_le. intros j Hj. eapply percentile_ge; [apply H; auto|].
    intros y Hy. unfold mkv in Hy. apply in_map_iff in Hy. destruct Hy as [t [<- Ht]]. apply in_range in Ht. apply G; auto. }
  assert (N : 0 <! (knat (nc m) : K)) by (apply knat_pos; auto).
  assert (N0 : (knat (nc m) : K) <> 0) by (apply klt_neq; auto).
  apply (klt_trans_le _ c); auto. apply (kle_mul_l (1 / knat (nc m))) in B; [|apply kle_inv; auto].
  replace (1 / knat (nc m) * (knat (nc m) * c)) with c in B by (field; auto).
  replace (1 / knat (nc m) * (knat (nc m) * x)) with x in B by (field; auto). exact B.
Qed.

Lemma million_pos : 0 <! (million : K).
Proof.
  apply klt_spec2. split; [|intro E; apply (million_neq0 (K := K)); auto].
  unfold million. repeat apply kle_mul; apply knat_nonneg.
Qed.
Lemma kabs_div : forall x y : K, 0 <! y -> kabs (x / y) = kabs x / y.
Proof.
  intros x y Hy. assert (N := klt_neq _ Hy). unfold kabs. destruct (kleb 0 x) eqn:A.
  - rewrite (kle_div x y A Hy). reflexivity.
  - destruct (kleb 0 (x / y)) eqn:B; [|field; auto]. exfalso.
    assert (X : 0 <=! x / y * y) by (apply kle_mul; [exact B|apply klt_le; auto]). rewrite kdiv_mul in X by auto.
    unfold kle in X. congruence.
Qed.

(** every value of the file, in the lines read, is at least [c] in absolute value *)
Lemma profile_share : forall size (file : mat K) weeks len c, weeks <> [] -> (0 < len)%nat -> (0 < nc file)%nat -> 0 <! c ->
  long_enough file weeks len -> (forall t h, (t < nr file)%nat -> (h < nc file)%nat -> c <=! kabs (get file t h)) ->
  let m := read_profile size file (skip_lines weeks) (Z.of_nat len) in
  (0 < nr m)%nat /\ (0 < nc m)%nat /\ 0 <! mean_percentile m.
Proof.
  intros size file weeks len c Hw Hl Hc C L G m.
  destruct (read_profile_selects size file weeks len L) as ((W & R & CC) & S). fold m in W, R, CC, S.
  assert (NW : (0 < length weeks)%nat) by (destruct weeks; [congruence|simpl; lia]).
  assert (R0 : (0 < nr m)%nat) by (rewrite R; nia).
  assert (C0 : (0 < nc m)%nat) by lia.
  split; auto. split; auto.
  apply (share_pos m _ (c / million) (mean_percentile_sound m R0 C0) R0 C0).
  - apply klt_spec2. split; [apply kle_div; [apply klt_le; auto|apply million_pos]|].
    intro E. apply klt_neq in C. apply C. rewrite <- (kdiv_mul c million) by apply million_neq0. rewrite <- E. ring.
  - intros t h Ht Hh. rewrite R in Ht. destruct (divmod_bound t (length weeks) len Ht) as (D1 & D2 & D3).
    assert (E : get m t h = get file (Z.to_nat (10080 * nth (t / len) weeks 0%Z) + t mod len) h / million).
    { rewrite <- (S (t / len)%nat (t mod len)%nat h) by (auto; lia). rewrite <- D3.
      change (knat 10 * knat 10 * knat 10 * knat 10 * knat 10 * knat 10) with (million : K). field. apply million_neq0. }
    rewrite E, kabs_div by apply million_pos. apply kle_sub.
    replace (kabs (get file (Z.to_nat (10080 * nth (t / len) weeks 0%Z) + t mod len) h) / million - c / million)
      with ((kabs (get file (Z.to_nat (10080 * nth (t / len) weeks 0%Z) + t mod len) h) - c) / million) by (field; apply million_neq0).
    apply kle_div; [|apply million_pos]. rewrite <- kle_sub. apply G; [|lia].
    destruct (L (nth (t / len) weeks 0%Z)) as [L1 L2]; [apply nth_In; auto|]. lia.
Qed.

Lemma profiles_succeed : forall a seeded n active reactive weeks days const saved s len c,
  rounds rnd -> lines_per_week days (length weeks) = Ok (Z.of_nat len) -> weeks <> [] -> (0 < len)%nat ->
  (0 < nc active)%nat -> (0 < nc reactive)%nat -> 0 <! c ->
  long_enough active weeks len -> long_enough reactive weeks len ->
  (forall t h, (t < nr active)%nat -> (h < nc active)%nat -> c <=! kabs (get active t h)) ->
  (forall t h, (t < nr reactive)%nat -> (h < nc reactive)%nat -> c <=! kabs (get reactive t h)) ->
  (forall l, In l (loads n) -> 0 <=! l_p l /\ 0 <=! l_q l) ->
  exists P Q times saved' s', generate_loads rnd randint gauss a seeded n (Some (FromProfiles active reactive weeks days const)) saved s = Ok ((P, Q, times), saved', s').
Proof.
  intros a seeded n active reactive weeks days const saved s len c R HL Hw Hl Ha Hr C L1 L2 G1 G2 HN.
  destruct (profile_share (nr active) active weeks len c Hw Hl Ha C L1 G1) as (A1 & A2 & A3).
  destruct (profile_share (nr active) reactive weeks len c Hw Hl Hr C L2 G2) as (B1 & B2 & B3).
  unfold generate_loads. rewrite HL. cbn [bind]. unfold load_profile_from_numpy, fill_loads.
  set (MP := read_profile (nr active) active (skip_lines weeks) (Z.of_nat len)) in *.
  set (MQ := read_profile (nr active) reactive (skip_lines weeks) (Z.of_nat len)) in *.
  destruct (assign_all_ok rnd randint (flat_map (fun r => [(MP, fst r); (MQ, snd r)]) (refs_of n)) seeded) as (cols & s' & E).
  - intros m r Hin s0. apply in_flat_map in Hin. destruct Hin as [[p q] [Hin Hr2]].
    unfold refs_of in Hin. apply in_map_iff in Hin. destruct Hin as [l [El Hin]]. injection El as <- <-.
    destruct (HN l Hin) as [N1 N2].
    destruct Hr2 as [E|[E|[]]]; injection E as <- <-; apply assign_ok; auto; try (apply klt_neq; auto).
    + apply (nearest_nonneg (l_p l / mean_percentile MP)); [apply R|apply kle_div; auto].
    + apply (nearest_nonneg (l_q l / mean_percentile MQ)); [apply R|apply kle_div; auto].
  - rewrite E. cbn [bind]. do 5 eexists. reflexivity.
Qed.

(** every failure of an assignment is a ValueError when the shares are not zero *)
Lemma assign_err : forall (m : mat K) r s e, mean_percentile m <> 0 -> assign rnd randint m r s = Err e -> e = ValueError.
Proof.
  intros m r s e N H. unfold assign, households in H.
  destruct ((nr m =? 0)%nat || (nc m =? 0)%nat); [injection H as <-; reflexivity|].
  destruct (keqb (mean_percentile m) 0) eqn:E; [apply keqb_eq in E; contradiction|]. cbn [bind] in H.
  destruct (_ <? 0)%Z; [injection H as <-; reflexivity|].
  destruct (if (_ =? 0)%Z then _ else _) as [picks s']. discriminate.
Qed.
Lemma assign_all_errors : forall l s, (forall m r, In (m, r) l -> mean_percentile m <> 0) ->
  (exists m r, In (m, r) l /\ forall s, assign rnd randint m r s = Err ValueError) -> assign_all rnd randint l s = Err ValueError.
Proof.
  induction l as [|[m r] l IH]; intros s N (m0 & r0 & Hin & H); [destruct Hin|]. simpl.
  destruct (assign rnd randint m r s) as [[c s1]|e] eqn:E; cbn [bind].
  - destruct Hin as [Q|Hin]; [injection Q as -> ->; rewrite H in E; discriminate|].
    rewrite IH; [reflexivity| |exists m0, r0; auto]. intros; apply (N m1 r1); right; auto.
  - f_equal. eapply assign_err; [|exact E]. apply (N m r); left; auto.
Qed.

Lemma negative_loads_fail : forall a seeded n active reactive weeks days const saved s len c l,
  rounds rnd -> lines_per_week days (length weeks) = Ok (Z.of_nat len) -> weeks <> [] -> (0 < len)%nat ->
  (0 < nc active)%nat -> (0 < nc reactive)%nat -> 0 <! c ->
  long_enough active weeks len -> long_enough reactive weeks len ->
  (forall t h, (t < nr active)%nat -> (h < nc active)%nat -> c <=! kabs (get active t h)) ->
  (forall t h, (t < nr reactive)%nat -> (h < nc reactive)%nat -> c <=! kabs (get reactive t h)) ->
  In l (loads n) -> (forall m x, selects active weeks len m -> typical_share m x -> knat 2 * l_p l <! - x) ->
  generate_loads rnd randint gauss a seeded n (Some (FromProfiles active reactive weeks days const)) saved s = Err ValueError.
Proof.
  intros a seeded n active reactive weeks days const saved s len c l R HL Hw Hl Ha Hr C L1 L2 G1 G2 Hin Hneg.
  destruct (profile_share (nr active) active weeks len c Hw Hl Ha C L1 G1) as (A1 & A2 & A3).
  destruct (profile_share (nr active) reactive weeks len c Hw Hl Hr C L2 G2) as (B1 & B2 & B3).
  unfold generate_loads. rewrite HL. cbn [bind]. unfold load_profile_from_numpy, fill_loads.
  assert (SP := read_profile_selects (nr active) active weeks len L1).
  set (MP := read_profile (nr active) active (skip_lines weeks) (Z.of_nat len)) in *.
  set (MQ := read_profile (nr active) reactive (skip_lines weeks) (Z.of_nat len)) in *.
  rewrite assign_all_errors; [reflexivity| |].
  - intros m r Hm. apply in_flat_map in Hm. destruct Hm as [pq [_ Hm]].
    destruct Hm as [E|[E|[]]]; injection E as <- <-; apply klt_neq; auto.
  - exists MP, (l_p l). split.
    + apply in_flat_map. exists (l_p l, l_q l). split; [unfold refs_of; apply in_map_iff; exists l; auto|left; reflexivity].
    + intro s0. unfold assign, households. destruct (Nat.eqb_spec (nr MP) 0); [lia|]. destruct (Nat.eqb_spec (nc MP) 0); [lia|]. cbn [orb].
      assert (N := klt_neq _ A3).
      destruct (keqb (mean_percentile MP) 0) eqn:E; [apply keqb_eq in E; contradiction|]. cbn [bind].
      assert (Z1 : (rnd (l_p l / mean_percentile MP)%K < 0)%Z).
      { apply (nearest_negative (l_p l / mean_percentile MP)); [apply R|].
        specialize (Hneg MP (mean_percentile MP) SP (mean_percentile_sound MP A1 A2)).
        apply klt_spec2 in Hneg. destruct Hneg as [Q1 Q2]. apply klt_spec2. split.
        - apply kle_sub. apply kle_sub in Q1.
          replace (- (1) - knat 2 * (l_p l / mean_percentile MP)) with ((- mean_percentile MP - knat 2 * l_p l) / mean_percentile MP : K) by (field; auto).
          apply kle_div; auto.
        - intro Q. apply Q2. transitivity (knat 2 * (l_p l / mean_percentile MP) * mean_percentile MP); [field; auto|]. rewrite Q. ring. }
      destruct (Z.ltb_spec (rnd (l_p l / mean_percentile MP)%K) 0); [reflexivity|lia].
Qed.

(** ** Three phases *)
Definition asym_nominal (k : nat) (l : asym_row (K := K)) : K := if (k <? 3)%nat then a_p l k else a_q l (k - 3)%nat.
Lemma generate_3ph_inv : forall a seeded n active reactive weeks days const P Q asym times s',
  generate_loads_3ph rnd randint a seeded n (FromProfiles active reactive weeks days const) = Ok (P, Q, asym, times, s') ->
  times = time_stamps days /\ exists len P0 Q0 s1 asym0,
    lines_per_week days (length weeks) = Ok len /\
    load_profile_from_numpy rnd randint active reactive (skip_lines weeks) len (refs_of n) seeded = Ok (P0, Q0, s1) /\
    load_asym_from_numpy rnd randint active reactive (skip_lines weeks) len (map phased_of (asyms n)) s1 = Ok (asym0, s') /\
    P = blend a const (map l_bus (loads n)) (map l_p (loads n)) P0 /\
    Q = blend a const (map l_bus (loads n)) (map l_q (loads n)) Q0 /\
    length asym = 6%nat /\
    forall k d d0, (k < 6)%nat -> nth k asym d = blend a const (map a_bus (asyms n)) (map (asym_nominal k) (asyms n)) (nth k asym0 d0).
Proof.
  intros a seeded n active reactive weeks days const P Q asym times s' H. unfold generate_loads_3ph in H.
  destruct (bind_ok _ _ _ _ _ H) as [len [A1 A2]]. destruct (bind_ok _ _ _ _ _ A2) as [[[P0 Q0] s1] [B1 B2]].
  destruct (bind_ok _ _ _ _ _ B2) as [[asym0 s2] [C1 C2]]. clear H A2 B2. injection C2 as <- <- <- <- <-.
  split; [reflexivity|]. exists len, P0, Q0, s1, asym0. split; [exact A1|]. split; [exact B1|]. split; [exact C1|]. split; [reflexivity|]. split; [reflexivity|].
  split; [reflexivity|].
  assert (L6 : length asym0 = 6%nat).
  { unfold load_asym_from_numpy in C1. apply fill_asym_inv in C1. apply C1. }
  intros k d d0 Hk.
  rewrite (nth_indep asym0 d0 (mk 0 0 (fun _ _ => 0))) by lia.
  do 6 (destruct k as [|k]; [reflexivity|]). lia.
Qed.
Lemma phased_nominal : forall k (l : asym_row (K := K)), (k < 6)%nat -> nominal_of k (phased_of l) = asym_nominal k l.
Proof. intros k l Hk. do 6 (destruct k as [|k]; [reflexivity|]). lia. Qed.

Lemma asyms_nth : forall (n : net (K := K)) i l, nth_error (asyms n) i = Some l -> forall k, (k < 6)%nat ->
  (i < length (map phased_of (asyms n)))%nat /\ nth i (map phased_of (asyms n)) (phased_of l) = phased_of l /\
  nth i (map a_bus (asyms n)) 0%nat = a_bus l /\ vget (map (asym_nominal k) (asyms n)) i = asym_nominal k l.
Proof.
  intros n i l H k Hk. assert (L : (i < length (asyms n))%nat) by (apply nth_error_Some; congruence).
  assert (E : nth i (asyms n) l = l) by (apply nth_error_nth with (d := l); auto).
  rewrite map_length. split; auto. split; [rewrite map_nth, E; reflexivity|]. split.
  - rewrite nth_indep with (d' := a_bus l) by (rewrite map_length; auto). rewrite map_nth, E. reflexivity.
  - rewrite (vget_map _ (asym_nominal k) _ l) by auto. rewrite E. reflexivity.
Qed.

Lemma no_load_three_phases : forall a seeded n active reactive weeks days const P Q asym times s', rounds rnd ->
  generate_loads_3ph rnd randint a seeded n (FromProfiles active reactive weeks days const) = Ok (P, Q, asym, times, s') ->
  (forall i l, nth_error (loads n) i = Some l ->
    (l_p l = 0 -> forall t, (t < nr P)%nat -> get P t i = 0) /\ (l_q l = 0 -> forall t, (t < nr Q)%nat -> get Q t i = 0)) /\
  (forall k i l d, (k < 3)%nat -> nth_error (asyms n) i = Some l ->
    (a_p l k = 0 -> forall t, (t < nr (nth k asym d))%nat -> get (nth k asym d) t i = 0) /\
    (a_q l k = 0 -> forall t, (t < nr (nth (3 + k) asym d))%nat -> get (nth (3 + k) asym d) t i = 0)).
Proof.
  intros a seeded n active reactive weeks days const P Q asym times s' R H.
  destruct (generate_3ph_inv _ _ _ _ _ _ _ _ _ _ _ _ _ H) as (_ & len & P0 & Q0 & s1 & asym0 & HL & E & EA & -> & -> & L6 & G).
  split.
  - intros i l Hl. destruct (refs_nth n i l Hl) as (E1 & E2 & E3 & E4 & E5). unfold load_profile_from_numpy in E.
    destruct (fill_loads_inv rnd randint _ _ _ _ _ _ _ E) as (S1 & S2 & _).
    destruct (fill_zero _ _ _ _ _ _ _ R E i E2) as [Z1 Z2]. rewrite E1 in Z1, Z2.
    split; intros Z t Ht.
    + destruct (blend_shape a const (map l_bus (loads n)) (map l_p (loads n)) _ _ _ S1) as (_ & B & _). rewrite B in Ht.
      destruct S1 as (_ & S1 & S3). apply blend_zero; [lia|lia|apply Z1; [auto|lia]|congruence].
    + destruct (blend_shape a const (map l_bus (loads n)) (map l_q (loads n)) _ _ _ S2) as (_ & B & _). rewrite B in Ht.
      destruct S2 as (_ & S2 & S3). apply blend_zero; [lia|lia|apply Z2; [auto|lia]|congruence].
  - assert (AUX : forall k i l d, (k < 6)%nat -> nth_error (asyms n) i = Some l -> asym_nominal k l = 0 ->
      forall t, (t < nr (nth k asym d))%nat -> get (nth k asym d) t i = 0).
    { intros k i l d Hk Hl Z t Ht. rewrite (G k d d Hk) in *. unfold load_asym_from_numpy in EA.
      destruct (fill_asym_inv rnd randint _ _ _ _ _ _ EA) as (_ & N). destruct (N k d Hk) as (S1 & N1). clear N.
      destruct (asyms_nth n i l Hl k Hk) as (I1 & I2 & I3 & I4).
      destruct (N1 i (phased_of l) I1) as (s2 & s3 & c & A & GC). rewrite I2, phased_nominal, Z in A by auto.
      destruct (blend_shape a const (map a_bus (asyms n)) (map (asym_nominal k) (asyms n)) _ _ _ S1) as (_ & B & _). rewrite B in Ht.
      destruct S1 as (_ & S1 & S3). apply blend_zero; [lia|lia| |congruence].
      rewrite GC by lia. eapply assign_zero; eauto. }
    intros k i l d Hk Hl. split; intros Z t Ht.
    + apply (AUX k i l d); [lia|auto| |auto]. unfold asym_nominal. destruct (Nat.ltb_spec k 3); [auto|lia].
    + apply (AUX (3 + k)%nat i l d); [lia|auto| |auto]. unfold asym_nominal. destruct (Nat.ltb_spec (3 + k) 3); [lia|].
      replace (3 + k - 3)%nat with k by lia. auto.
Qed.

Lemma three_phase_order : forall a seeded n active reactive weeks days const P Q asym times s' len,
  rounds rnd -> fair randint -> lines_per_week days (length weeks) = Ok (Z.of_nat len) ->
  long_enough active weeks len -> long_enough reactive weeks len ->
  generate_loads_3ph rnd randint a seeded n (FromProfiles active reactive weeks days const) = Ok (P, Q, asym, times, s') ->
  length asym = 6%nat /\ exists MP MQ sp sq, selects active weeks len MP /\ selects reactive weeks len MQ /\
    (asyms n <> [] -> typical_share MP sp /\ typical_share MQ sq) /\
    forall k d, (k < 3)%nat ->
      shape (nth k asym d) (length weeks * len) (length (asyms n)) /\ shape (nth (3 + k) asym d) (length weeks * len) (length (asyms n)) /\
      forall i l, nth_error (asyms n) i = Some l -> exists p q,
        sum_of_households MP sp (a_p l k) p /\ sum_of_households MQ sq (a_q l k) q /\
        forall t, (t < length weeks * len)%nat ->
          get (nth k asym d) t i = mixed a (a_p l k) const (a_bus l) (p t) /\
          get (nth (3 + k) asym d) t i = mixed a (a_q l k) const (a_bus l) (q t).
Proof.
  intros a seeded n active reactive weeks days const P Q asym times s' len R FA HL L1 L2 H.
  destruct (generate_3ph_inv _ _ _ _ _ _ _ _ _ _ _ _ _ H) as (_ & len' & P0 & Q0 & s1 & asym0 & HL' & _ & EA & _ & _ & L6 & G).
  rewrite HL in HL'. injection HL' as <-. unfold load_asym_from_numpy in EA. split; auto.
  set (MP := read_profile (nr active) active (skip_lines weeks) (Z.of_nat len)) in *.
  set (MQ := read_profile (nr active) reactive (skip_lines weeks) (Z.of_nat len)) in *.
  assert (SP : selects active weeks len MP) by (apply read_profile_selects; auto).
  assert (SQ : selects reactive weeks len MQ) by (apply read_profile_selects; auto).
  destruct (fill_asym_inv rnd randint _ _ _ _ _ _ EA) as (_ & N).
  exists MP, MQ, (mean_percentile MP), (mean_percentile MQ). split; [exact SP|]. split; [exact SQ|].
  assert (RP : nr MP = (length weeks * len)%nat) by (destruct SP as ((_ & X & _) & _); exact X).
  assert (RQ : nr MQ = (length weeks * len)%nat) by (destruct SQ as ((_ & X & _) & _); exact X).
  assert (AUX : forall k d, (k < 6)%nat -> let M := if (k <? 3)%nat then MP else MQ in
    shape (nth k asym d) (length weeks * len) (length (asyms n)) /\
    forall i l, nth_error (asyms n) i = Some l -> exists c s2 s3, assign rnd randint M (asym_nominal k l) s2 = Ok (c, s3) /\
      forall t, (t < length weeks * len)%nat -> get (nth k asym d) t i = mixed a (asym_nominal k l) const (a_bus l) (vget c t)).
  { intros k d Hk M. destruct (N k d Hk) as (S1 & N1). fold M in S1, N1.
    assert (RM : nr M = (length weeks * len)%nat) by (unfold M; destruct (k <? 3)%nat; auto).
    rewrite RM in *. rewrite map_length in S1. rewrite (G k d d Hk). split; [apply blend_shape; auto|].
    intros i l Hl. destruct (asyms_nth n i l Hl k Hk) as (I1 & I2 & I3 & I4).
    destruct (N1 i (phased_of l) I1) as (s2 & s3 & c & A & GC). rewrite I2, phased_nominal in A by auto.
    exists c, s2, s3. split; auto. intros t Ht. rewrite map_length in I1. destruct S1 as (_ & S1 & S2).
    rewrite blend_get by lia. unfold mixed. rewrite I3, I4, GC by lia. reflexivity. }
  split.
  - intro NE. destruct (asyms n) as [|l0 ls] eqn:EL; [congruence|].
    destruct (AUX 0%nat (mk 0 0 (fun _ _ => 0))) as (_ & A0); [lia|]. destruct (AUX 3%nat (mk 0 0 (fun _ _ => 0))) as (_ & A3); [lia|].
    destruct (A0 0%nat l0 eq_refl) as (c & s2 & s3 & A & _). destruct (A3 0%nat l0 eq_refl) as (d & s4 & s5 & B & _).
    destruct (assign_inv rnd randint _ _ _ _ _ A) as (X1 & X2 & _). destruct (assign_inv rnd randint _ _ _ _ _ B) as (Y1 & Y2 & _).
    split; apply mean_percentile_sound; auto.
  - intros k d Hk. destruct (AUX k d) as (SA & A); [lia|]. destruct (AUX (3 + k)%nat d) as (SB & B); [lia|].
    split; auto. split; auto. intros i l Hl.
    destruct (A i l Hl) as (c & s2 & s3 & A1 & A2). destruct (B i l Hl) as (e & s4 & s5 & B1 & B2).
    destruct (Nat.ltb_spec k 3) as [_|]; [|lia]. destruct (Nat.ltb_spec (3 + k) 3) as [|_]; [lia|].
    assert (N3 : asym_nominal k l = a_p l k) by (unfold asym_nominal; destruct (Nat.ltb_spec k 3); [auto|lia]).
    assert (N4 : asym_nominal (3 + k) l = a_q l k).
    { unfold asym_nominal. destruct (Nat.ltb_spec (3 + k) 3); [lia|]. f_equal. lia. }
    rewrite N3 in A1, A2. rewrite N4 in B1, B2.
    exists (vget c), (vget e). split; [eapply assign_households; eauto|]. split; [eapply assign_households; eauto|].
    intros t Ht. split; auto.
Qed.

(** ** Gaussian loads *)
Lemma normals_drawn : forall n s l s', normals gauss n s = (l, s') -> s' = after gauss s n /\ length l = n /\ forall m, (m < n)%nat -> vget l m = drawn gauss s m.
Proof.
  induction n as [|n IH]; intros s l s' H; simpl in H.
  - injection H as <- <-. split; [reflexivity|]. split; [reflexivity|]. intros m Hm. lia.
  - destruct (gauss s) as [g s1] eqn:E. destruct (normals gauss n s1) as [r s2] eqn:E2. injection H as <- <-.
    destruct (IH _ _ _ E2) as (A & B & C). simpl. rewrite E. simpl. split; [exact A|]. split; [congruence|].
    intros [|m] Hm; [simpl; rewrite E; reflexivity|]. simpl. rewrite E. simpl. rewrite <- C by lia. reflexivity.
Qed.
Lemma drawn_after : forall n s m, drawn gauss (after gauss s n) m = drawn gauss s (n + m).
Proof. induction n as [|n IH]; intros s m; [reflexivity|]. simpl. apply IH. Qed.
Lemma after_after : forall n s m, after gauss (after gauss s n) m = after gauss s (n + m).
Proof. induction n as [|n IH]; intros s m; [reflexivity|]. simpl. apply IH. Qed.
Lemma normal_drawn : forall sd n (refs : list K) s m s', normal_load gauss sd n refs s = Ok (m, s') ->
  shape m n (length refs) /\ s' = after gauss s (n * length refs) /\ forall t i, (t < n)%nat -> (i < length refs)%nat ->
    get m t i = vget refs i + vget refs i * sd * drawn gauss s (t * length refs + i).
Proof.
  intros sd n refs s m s' H. unfold normal_load in H. destruct (existsb _ refs); [discriminate|].
  destruct (normals gauss (n * length refs) s) as [g s2] eqn:E. injection H as <- <-. destruct (normals_drawn _ _ _ _ E) as (A & B & C).
  split; [apply shape_mk|]. split; [exact A|]. intros t i Ht Hi. rewrite get_mk by auto. rewrite C by nia. reflexivity.
Qed.
Lemma gaussian_rows : forall a seeded n sd days const saved s P Q times saved' s',
  generate_loads rnd randint gauss a seeded n (Some (FromStd sd days const)) saved s = Ok ((P, Q, times), saved', s') ->
  let N := length (loads n) in
  shape P (1440 * days) N /\ shape Q (1440 * days) N /\ times = time_stamps days /\
  forall i l t, nth_error (loads n) i = Some l -> (t < 1440 * days)%nat ->
    get P t i = mixed a (l_p l) const (l_bus l) (l_p l + l_p l * sd * drawn gauss seeded (t * N + i)) /\
    get Q t i = mixed a (l_q l) const (l_bus l) (l_q l + l_q l * sd * drawn gauss seeded ((1440 * days + t) * N + i)).
Proof.
  intros a seeded n sd days const saved s P Q times saved' s' H N.
  destruct (generate_inv _ _ _ _ _ _ _ _ _ _ _ H) as (_ & P0 & Q0 & const' & -> & -> & -> & -> & E).
  unfold generate_gaussian_load in E. destruct (bind_ok _ _ _ _ _ E) as [[p s1] [A1 A2]]. destruct (bind_ok _ _ _ _ _ A2) as [[q s2] [A3 A4]].
  injection A4 as <- <- <-. destruct (normal_drawn _ _ _ _ _ _ A1) as (S1 & -> & G1). destruct (normal_drawn _ _ _ _ _ _ A3) as (S2 & _ & G2).
  rewrite length_times in *. unfold refs_of in S1, S2, G1, G2. rewrite !map_length in *. fold N in S1, S2, G1, G2.
  split; [apply blend_shape; auto|]. split; [apply blend_shape; auto|]. split; [reflexivity|].
  intros i l t Hl Ht. destruct (refs_nth n i l Hl) as (E1 & E2 & E3 & E4 & E5). unfold refs_of in E1, E2. rewrite map_length in E2. fold N in E2.
  destruct S1 as (_ & R1 & C1). destruct S2 as (_ & R2 & C2).
  split; rewrite blend_get by lia; unfold mixed; rewrite E3.
  - rewrite E4, G1 by auto. rewrite (vget_map _ fst _ (0, 0)) by (rewrite map_length; auto). rewrite E1. reflexivity.
  - rewrite E5, G2 by auto. rewrite (vget_map _ snd _ (0, 0)) by (rewrite map_length; auto). rewrite E1, drawn_after.
    replace (1440 * days * N + (t * N + i))%nat with ((1440 * days + t) * N + i)%nat by ring. reflexivity.
Qed.
Lemma gaussian_order : forall sd n (refs : list (phased (K := K))) s l s', generate_gaussian_asym gauss sd n refs s = Ok (l, s') ->
  length l = 6%nat /\ forall k d dr, (k < 6)%nat -> shape (nth k l d) n (length refs) /\ forall t i, (t < n)%nat -> (i < length refs)%nat ->
    let r := nth k [pa (nth i refs dr); qa (nth i refs dr); pb (nth i refs dr); qb (nth i refs dr); pc (nth i refs dr); qc (nth i refs dr)] 0 in
    get (nth k l d) t i = r + r * sd * drawn gauss s ((k * n + t) * length refs + i).
Proof.
  intros sd n refs s l s' H. unfold generate_gaussian_asym in H.
  do 6 (match goal with H : bind _ _ = Ok _ |- _ => let x := fresh "x" in let A := fresh "A" in let B := fresh "B" in
    destruct (bind_ok _ _ _ _ _ H) as [[x ?] [A B]]; clear H; cbn beta iota in B end).
  match goal with H : Ok _ = Ok _ |- _ => injection H as <- <- end. split; [reflexivity|].
  intros k d dr Hk.
  assert (V : forall (f : phased (K := K) -> K) i, (i < length refs)%nat -> vget (map f refs) i = f (nth i refs dr)).
  { intros f i Hi. apply vget_map. auto. }
  repeat match goal with A : normal_load _ _ _ (map ?f refs) ?s0 = Ok (?m, ?s1) |- _ =>
    let S := fresh "S" in let Z := fresh "Z" in destruct (normal_drawn _ _ _ _ _ _ A) as (S & -> & Z); clear A; rewrite map_length in S, Z end.
  rewrite ?map_length, ?after_after in *.
  do 6 (destruct k as [|k]; [simpl; split; [assumption|]; intros t i Ht Hi;
    match goal with Z : forall t i, _ -> _ -> get ?m t i = _ |- get ?m _ _ = _ =>
      rewrite (Z t i Ht Hi), (V _ i Hi), ?drawn_after; f_equal; f_equal; f_equal; ring end|]).
  lia.
Qed.
End Main.
