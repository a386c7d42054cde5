(** The households of successive loads come from successive draws. *)
From Coq Require Import Arith List Lia ZArith Field.
From Verif Require Import BasePy BaseFld BaseOrd BaseSum BaseMat ModelNet ModelLoads SpecLoads ProofLoads ProofLoadsFloat ProofLoadsMain.
Import ListNotations.
Local Open Scope K_scope.

Section Draws.
Context {K : Type} {O : Ops K} {F : Fld K} {O2 : OrdOps K} {OF : OrdFld K} {St : Type}.
Variables (rnd : K -> Z) (randint : nat -> nat -> St -> list nat * St) (gauss : St -> K * St).
Hypothesis RND : rounds rnd.
Hypothesis FAIR : fair randint.

Lemma assign_draws : forall (m : mat K) r s c s', assign rnd randint m r s = Ok (c, s') ->
  exists picks, nearest (r / mean_percentile m) (Z.of_nat (length picks)) /\
    (forall l s2, in_turn randint s' l s2 -> in_turn randint s ((nc m, picks) :: l) s2) /\
    forall t, (t < nr m)%nat -> vget c t = lsum (map (fun h => get m t h) picks).
Proof.
  intros m r s c s' H. unfold assign, households in H.
  destruct (Nat.eqb_spec (nr m) 0); [discriminate|]. destruct (Nat.eqb_spec (nc m) 0); [discriminate|]. cbn [orb] in H.
  destruct (keqb (mean_percentile m) 0) eqn:E; [destruct (keqb r 0); discriminate|].
  cbn [bind] in H. set (z := rnd (r / mean_percentile m)) in *. destruct (Z.ltb_spec z 0); [discriminate|].
  assert (N : nearest (r / mean_percentile m) z) by apply RND.
  destruct (Z.eqb_spec z 0) as [Z0|Z0].
  - injection H as <- <-. exists []. cbn [length]. rewrite Z0 in N. split; [exact N|]. split; [auto|].
    intros t Ht. rewrite vget_mkv by auto. reflexivity.
  - destruct (FAIR (nc m) (Z.to_nat z) s) as [L _]; [lia|].
    destruct (randint (nc m) (Z.to_nat z) s) as [picks s2] eqn:RI. injection H as <- <-. cbn [fst] in L.
    exists picks. split; [rewrite L, Z2Nat.id by lia; exact N|]. split.
    + intros l s3 I. cbn [in_turn]. destruct picks as [|h p]; [cbn [length] in L; lia|]. rewrite L, RI. auto.
    + intros t Ht. rewrite vget_mkv by auto. reflexivity.
Qed.

Lemma assign_all_draws : forall l s cols s', assign_all rnd randint l s = Ok (cols, s') ->
  exists pk : nat -> list nat,
    (forall dm l2 s2, in_turn randint s' l2 s2 -> in_turn randint s (map (fun k => (nc (fst (nth k l dm)), pk k)) (seq 0 (length l)) ++ l2) s2) /\
    forall k d dm, (k < length l)%nat -> let m := fst (nth k l dm) in
      nearest (snd (nth k l dm) / mean_percentile m) (Z.of_nat (length (pk k))) /\
      forall t, (t < nr m)%nat -> vget (nth k cols d) t = lsum (map (fun h => get m t h) (pk k)).
Proof.
  induction l as [|[m r] l IH]; intros s cols s' H; simpl in H.
  - injection H as <- <-. exists (fun _ => []). split; [intros; exact H|]. intros k d dm Hk. simpl in Hk. lia.
  - destruct (bind_ok _ _ _ _ _ H) as [[c s1] [A H1]]. cbn beta iota in H1.
    destruct (bind_ok _ _ _ _ _ H1) as [[cs s2] [B H2]]. injection H2 as <- <-.
    destruct (assign_draws _ _ _ _ _ A) as (p0 & N0 & I0 & V0). destruct (IH _ _ _ B) as (pk & I & V).
    exists (fun k => match k with 0%nat => p0 | S k' => pk k' end). split.
    + intros dm l2 s3 I2. cbn [length seq map app nth fst]. apply I0. rewrite <- seq_shift, map_map. apply (I dm). exact I2.
    + intros [|k] d dm Hk; cbn [nth fst snd].
      * split; auto.
      * apply V. simpl in Hk. lia.
Qed.

Lemma seq_add : forall a w b, map (fun j => (a + j)%nat) (seq b w) = seq (a + b) w.
Proof. intros a w. induction w as [|w IH]; intro b; [reflexivity|]. cbn [seq map]. rewrite IH. f_equal. f_equal. lia. Qed.
Lemma map_seq_blocks : forall A (g : nat -> A) w n, map g (seq 0 (w * n)) = flat_map (fun i => map (fun j => g (w * i + j)%nat) (seq 0 w)) (seq 0 n).
Proof.
  intros A g w n. induction n as [|n IH]; [rewrite Nat.mul_0_r; reflexivity|].
  rewrite Nat.mul_succ_r, seq_app, map_app, IH. rewrite (seq_S n 0), flat_map_app. cbn [flat_map Nat.add]. rewrite app_nil_r. f_equal.
  rewrite <- (map_map (fun j => (w * n + j)%nat) g). f_equal. rewrite seq_add. f_equal. lia.
Qed.
Lemma flat_map_ext_in : forall A B (f g : A -> list B) l, (forall a, In a l -> f a = g a) -> flat_map f l = flat_map g l.
Proof. intros A B f g l. induction l as [|a l IH]; intros H; [reflexivity|]. cbn [flat_map]. rewrite H by (left; reflexivity). rewrite IH; [reflexivity|]. intros; apply H; right; auto. Qed.

Lemma fill_loads_draws : forall (P Q A B : mat K) refs s s', fill_loads rnd randint P Q refs s = Ok (A, B, s') ->
  exists dp dq : nat -> list nat,
    (forall l2 s2, in_turn randint s' l2 s2 -> in_turn randint s (flat_map (fun i => [(nc P, dp i); (nc Q, dq i)]) (seq 0 (length refs)) ++ l2) s2) /\
    forall i, (i < length refs)%nat ->
      nearest (fst (nth i refs (0, 0)) / mean_percentile P) (Z.of_nat (length (dp i))) /\
      nearest (snd (nth i refs (0, 0)) / mean_percentile Q) (Z.of_nat (length (dq i))) /\
      (forall t, (t < nr P)%nat -> get A t i = lsum (map (fun h => get P t h) (dp i))) /\
      (forall t, (t < nr Q)%nat -> get B t i = lsum (map (fun h => get Q t h) (dq i))).
Proof.
  intros P Q A B refs s s' H. unfold fill_loads in H. destruct (bind_ok _ _ _ _ _ H) as [[cols s2] [C H1]]. clear H.
  injection H1 as <- <- <-. destruct (assign_all_draws _ _ _ _ C) as (pk & I & V).
  set (f := fun r : K * K => [(P, fst r); (Q, snd r)]) in *.
  assert (W : forall a, length (f a) = 2%nat) by reflexivity.
  assert (LF := flat_map_length' _ _ f 2 refs W). rewrite LF in *.
  exists (fun i => pk (2 * i + 0)%nat), (fun i => pk (2 * i + 1)%nat). split.
  - intros l2 s3 I2. specialize (I (P, 0) l2 s3 I2). rewrite map_seq_blocks in I.
    rewrite (flat_map_ext_in _ _ _ (fun i => [(nc P, pk (2 * i + 0)%nat); (nc Q, pk (2 * i + 1)%nat)])) in I; [exact I|].
    intros i Hi. apply in_seq in Hi. cbn [seq map].
    rewrite (flat_map_nth _ _ f 2 refs i 0 (P, 0) (0, 0) W) by lia. rewrite (flat_map_nth _ _ f 2 refs i 1 (P, 0) (0, 0) W) by lia. reflexivity.
  - intros i Hi. destruct (V (2 * i + 0)%nat [] (P, 0)) as [N1 V1]; [lia|]. destruct (V (2 * i + 1)%nat [] (P, 0)) as [N2 V2]; [lia|].
    rewrite (flat_map_nth _ _ f 2 refs i 0 (P, 0) (0, 0) W) in N1, V1 by lia. rewrite (flat_map_nth _ _ f 2 refs i 1 (P, 0) (0, 0) W) in N2, V2 by lia.
    split; [exact N1|]. split; [exact N2|]. split; intros t Ht; unfold collect; rewrite get_mk by auto; [apply V1|apply V2]; auto.
Qed.

Lemma fill_asym_draws : forall (P Q : mat K) refs s l s', fill_asym rnd randint P Q refs s = Ok (l, s') ->
  exists pk : nat -> nat -> list nat,
    (forall l2 s2, in_turn randint s' l2 s2 -> in_turn randint s (flat_map (fun i => [(nc P, pk i 0%nat); (nc P, pk i 1%nat); (nc P, pk i 2%nat);
       (nc Q, pk i 3%nat); (nc Q, pk i 4%nat); (nc Q, pk i 5%nat)]) (seq 0 (length refs)) ++ l2) s2) /\
    forall i k dm dr, (i < length refs)%nat -> (k < 6)%nat -> let M := if (k <? 3)%nat then P else Q in
      nearest (nominal_of k (nth i refs dr) / mean_percentile M) (Z.of_nat (length (pk i k))) /\
      forall t, (t < nr M)%nat -> get (nth k l dm) t i = lsum (map (fun h => get M t h) (pk i k)).
Proof.
  intros P Q refs s l s' H. unfold fill_asym in H. destruct (bind_ok _ _ _ _ _ H) as [[cols s2] [C H1]]. clear H.
  injection H1 as <- <-. destruct (assign_all_draws _ _ _ _ C) as (pk & I & V).
  set (f := fun r : phased => [(P, pa r); (P, pb r); (P, pc r); (Q, qa r); (Q, qb r); (Q, qc r)]) in *.
  assert (W : forall a, length (f a) = 6%nat) by reflexivity.
  assert (LF := flat_map_length' _ _ f 6 refs W). rewrite LF in *.
  exists (fun i k => pk (6 * i + k)%nat). split.
  - intros l2 s3 I2. specialize (I (P, 0) l2 s3 I2). rewrite map_seq_blocks in I.
    erewrite flat_map_ext_in in I; [exact I|].
    intros i Hi. apply in_seq in Hi. cbn [seq map].
    assert (dr : phased (K := K)) by (exact (Phased 0 0 0 0 0 0)).
    rewrite !(flat_map_nth _ _ f 6 refs i _ (P, 0) dr W) by lia. reflexivity.
  - intros i k dm dr Hi Hk M. destruct (V (6 * i + k)%nat [] (P, 0)) as [N1 V1]; [lia|].
    rewrite (flat_map_nth _ _ f 6 refs i k (P, 0) dr W) in N1, V1 by lia.
    assert (E2 : nth k (f (nth i refs dr)) (P, 0) = (M, nominal_of k (nth i refs dr))).
    { unfold M, f, nominal_of. do 6 (destruct k as [|k]; [reflexivity|]). lia. }
    rewrite E2 in N1, V1. cbn [fst snd] in N1, V1. split; [exact N1|]. intros t Ht. rewrite <- (V1 t Ht).
    unfold M in *. do 6 (destruct k as [|k]; [cbn [nth]; unfold collect; rewrite get_mk by auto; reflexivity|]). lia.
Qed.

(** what a column of the result is, given the households drawn for it *)
Definition sums_up (a : K) (M : mat K) (share nominal : K) (const : option (list nat)) (b : nat) (picks : list nat) (rows : nat) (y : nat -> K) : Prop :=
  nearest (nominal / share) (Z.of_nat (length picks)) /\
  forall t, (t < rows)%nat -> y t = mixed a nominal const b (lsum (map (fun h => get M t h) picks)).

Lemma one_phase_draws : forall a (n : net (K := K)) active reactive weeks const len s P0 Q0 s',
  long_enough active weeks len -> long_enough reactive weeks len ->
  load_profile_from_numpy rnd randint active reactive (skip_lines weeks) (Z.of_nat len) (refs_of n) s = Ok (P0, Q0, s') ->
  let MP := read_profile (nr active) active (skip_lines weeks) (Z.of_nat len) in
  let MQ := read_profile (nr active) reactive (skip_lines weeks) (Z.of_nat len) in
  exists dp dq : nat -> list nat,
    (forall l2 s2, in_turn randint s' l2 s2 ->
       in_turn randint s (flat_map (fun i => [(nc active, dp i); (nc reactive, dq i)]) (seq 0 (length (loads n))) ++ l2) s2) /\
    forall i l, nth_error (loads n) i = Some l ->
      sums_up a MP (mean_percentile MP) (l_p l) const (l_bus l) (dp i) (length weeks * len)
        (fun t => get (blend a const (map l_bus (loads n)) (map l_p (loads n)) P0) t i) /\
      sums_up a MQ (mean_percentile MQ) (l_q l) const (l_bus l) (dq i) (length weeks * len)
        (fun t => get (blend a const (map l_bus (loads n)) (map l_q (loads n)) Q0) t i).
Proof.
  intros a n active reactive weeks const len s P0 Q0 s' L1 L2 E MP MQ. unfold load_profile_from_numpy in E. fold MP MQ in E.
  assert (SP : selects active weeks len MP) by (apply read_profile_selects; auto).
  assert (SQ : selects reactive weeks len MQ) by (apply read_profile_selects; auto).
  destruct SP as ((_ & RP & CP) & _). destruct SQ as ((_ & RQ & CQ) & _).
  destruct (fill_loads_inv rnd randint _ _ _ _ _ _ _ E) as (S1 & S2 & _).
  destruct (fill_loads_draws _ _ _ _ _ _ _ E) as (dp & dq & I & V). rewrite CP, CQ in I. rewrite RP in S1, V. rewrite RQ in S2, V.
  replace (length (refs_of n)) with (length (loads n)) in * by (unfold refs_of; rewrite map_length; reflexivity).
  exists dp, dq. split; [exact I|]. intros i l Hl. destruct (refs_nth n i l Hl) as (E1 & E2 & E3 & E4 & E5).
  assert (Hi : (i < length (loads n))%nat) by (apply nth_error_Some; congruence).
  destruct (V i Hi) as (N1 & N2 & V1 & V2). rewrite E1 in N1, N2. cbn [fst snd] in N1, N2.
  destruct S1 as (_ & S1 & S3). destruct S2 as (_ & S2 & S4).
  split; (split; [assumption|]); intros t Ht; rewrite blend_get by lia; unfold mixed; rewrite E3.
  - rewrite E4, V1 by lia. reflexivity.
  - rewrite E5, V2 by lia. reflexivity.
Qed.

Lemma profile_draws : forall a seeded n active reactive weeks days const saved s P Q times saved' s' len,
  lines_per_week days (length weeks) = Ok (Z.of_nat len) ->
  long_enough active weeks len -> long_enough reactive weeks len ->
  generate_loads rnd randint gauss a seeded n (Some (FromProfiles active reactive weeks days const)) saved s = Ok ((P, Q, times), saved', s') ->
  exists MP MQ sp sq, selects active weeks len MP /\ selects reactive weeks len MQ /\
  (loads n <> [] -> typical_share MP sp /\ typical_share MQ sq) /\
  exists dp dq : nat -> list nat,
    in_turn randint seeded (flat_map (fun i => [(nc active, dp i); (nc reactive, dq i)]) (seq 0 (length (loads n)))) s' /\
    forall i l, nth_error (loads n) i = Some l ->
      sums_up a MP sp (l_p l) const (l_bus l) (dp i) (length weeks * len) (fun t => get P t i) /\
      sums_up a MQ sq (l_q l) const (l_bus l) (dq i) (length weeks * len) (fun t => get Q t i).
Proof.
  intros a seeded n active reactive weeks days const saved s P Q times saved' s' len HL L1 L2 H.
  destruct (profile_rows rnd randint gauss a seeded n active reactive weeks days const saved s P Q times saved' s' len RND FAIR HL L1 L2 H) as (_ & _ & _ & _).
  destruct (generate_inv rnd randint gauss _ _ _ _ _ _ _ _ _ _ _ H) as (_ & P0 & Q0 & const' & -> & -> & -> & -> & len' & HL' & E).
  rewrite HL in HL'. injection HL' as <-.
  destruct (one_phase_draws a n active reactive weeks const len seeded P0 Q0 s' L1 L2 E) as (dp & dq & I & V).
  exists (read_profile (nr active) active (skip_lines weeks) (Z.of_nat len)), (read_profile (nr active) reactive (skip_lines weeks) (Z.of_nat len)).
  eexists _, _. split; [apply read_profile_selects; auto|]. split; [apply read_profile_selects; auto|]. split.
  2: { exists dp, dq. split; [|exact V]. specialize (I [] s' eq_refl). rewrite app_nil_r in I. exact I. }
  intro NE. unfold load_profile_from_numpy in E. destruct (fill_loads_inv rnd randint _ _ _ _ _ _ _ E) as (_ & _ & N).
  destruct (loads n) as [|l0 ls] eqn:EL; [congruence|].
  destruct (N 0%nat) as [(s1 & s2 & c & A & _) (s3 & s4 & d & B & _)]; [unfold refs_of; rewrite EL; simpl; lia|].
  destruct (assign_inv rnd randint _ _ _ _ _ A) as (X1 & X2 & _). destruct (assign_inv rnd randint _ _ _ _ _ B) as (Y1 & Y2 & _).
  split; apply mean_percentile_sound; auto.
Qed.

Lemma three_phase_draws : forall a seeded n active reactive weeks days const P Q asym times s' len,
  lines_per_week days (length weeks) = Ok (Z.of_nat len) ->
  long_enough active weeks len -> long_enough reactive weeks len ->
  generate_loads_3ph rnd randint a seeded n (FromProfiles active reactive weeks days const) = Ok (P, Q, asym, times, s') ->
  exists MP MQ sp sq, selects active weeks len MP /\ selects reactive weeks len MQ /\
  (loads n <> [] \/ asyms n <> [] -> typical_share MP sp /\ typical_share MQ sq) /\
  exists (dp dq : nat -> list nat) (ap aq : nat -> nat -> list nat),
    in_turn randint seeded (flat_map (fun i => [(nc active, dp i); (nc reactive, dq i)]) (seq 0 (length (loads n))) ++
      flat_map (fun i => [(nc active, ap i 0%nat); (nc active, ap i 1%nat); (nc active, ap i 2%nat);
        (nc reactive, aq i 0%nat); (nc reactive, aq i 1%nat); (nc reactive, aq i 2%nat)]) (seq 0 (length (asyms n)))) s' /\
    (forall i l, nth_error (loads n) i = Some l ->
      sums_up a MP sp (l_p l) const (l_bus l) (dp i) (length weeks * len) (fun t => get P t i) /\
      sums_up a MQ sq (l_q l) const (l_bus l) (dq i) (length weeks * len) (fun t => get Q t i)) /\
    (forall i l k d, nth_error (asyms n) i = Some l -> (k < 3)%nat ->
      sums_up a MP sp (a_p l k) const (a_bus l) (ap i k) (length weeks * len) (fun t => get (nth k asym d) t i) /\
      sums_up a MQ sq (a_q l k) const (a_bus l) (aq i k) (length weeks * len) (fun t => get (nth (3 + k) asym d) t i)).
Proof.
  intros a seeded n active reactive weeks days const P Q asym times s' len HL L1 L2 H.
  destruct (generate_3ph_inv rnd randint _ _ _ _ _ _ _ _ _ _ _ _ _ H) as (_ & len' & P0 & Q0 & s1 & asym0 & HL' & E & EA & -> & -> & L6 & G).
  rewrite HL in HL'. injection HL' as <-.
  destruct (one_phase_draws a n active reactive weeks const len seeded P0 Q0 s1 L1 L2 E) as (dp & dq & I & V).
  assert (SP : selects active weeks len (read_profile (nr active) active (skip_lines weeks) (Z.of_nat len))) by (apply read_profile_selects; auto).
  assert (SQ : selects reactive weeks len (read_profile (nr active) reactive (skip_lines weeks) (Z.of_nat len))) by (apply read_profile_selects; auto).
  unfold load_asym_from_numpy in EA.
  assert (TS : loads n <> [] \/ asyms n <> [] -> typical_share (read_profile (nr active) active (skip_lines weeks) (Z.of_nat len)) (mean_percentile (read_profile (nr active) active (skip_lines weeks) (Z.of_nat len))) /\
     typical_share (read_profile (nr active) reactive (skip_lines weeks) (Z.of_nat len)) (mean_percentile (read_profile (nr active) reactive (skip_lines weeks) (Z.of_nat len)))).
  { intros [NE|NE].
    - unfold load_profile_from_numpy in E. destruct (fill_loads_inv rnd randint _ _ _ _ _ _ _ E) as (_ & _ & N).
      destruct (loads n) as [|l0 ls] eqn:EL; [congruence|].
      destruct (N 0%nat) as [(s2 & s3 & c & A & _) (s4 & s5 & d & B & _)]; [unfold refs_of; rewrite EL; simpl; lia|].
      destruct (assign_inv rnd randint _ _ _ _ _ A) as (X1 & X2 & _). destruct (assign_inv rnd randint _ _ _ _ _ B) as (Y1 & Y2 & _).
      split; apply mean_percentile_sound; auto.
    - destruct (fill_asym_inv rnd randint _ _ _ _ _ _ EA) as (_ & N). rewrite map_length in N.
      assert (LA : (0 < length (asyms n))%nat) by (destruct (asyms n); [congruence|simpl; lia]).
      destruct (N 0%nat (mk 0 0 (fun _ _ => 0)) ltac:(lia)) as (_ & N0). destruct (N 3%nat (mk 0 0 (fun _ _ => 0)) ltac:(lia)) as (_ & N3).
      destruct (N0 0%nat (Phased 0 0 0 0 0 0) LA) as (s2 & s3 & c & A & _). destruct (N3 0%nat (Phased 0 0 0 0 0 0) LA) as (s4 & s5 & d & B & _).
      cbn [Nat.ltb Nat.leb] in A, B.
      destruct (assign_inv rnd randint _ _ _ _ _ A) as (X1 & X2 & _). destruct (assign_inv rnd randint _ _ _ _ _ B) as (Y1 & Y2 & _).
      split; apply mean_percentile_sound; auto. }
  set (MP := read_profile (nr active) active (skip_lines weeks) (Z.of_nat len)) in *.
  set (MQ := read_profile (nr active) reactive (skip_lines weeks) (Z.of_nat len)) in *.
  destruct (fill_asym_inv rnd randint _ _ _ _ _ _ EA) as (_ & N).
  destruct (fill_asym_draws _ _ _ _ _ _ EA) as (pk & I3 & V3). rewrite map_length in I3, V3, N.
  assert (RP : nr MP = (length weeks * len)%nat) by (destruct SP as ((_ & X & _) & _); exact X).
  assert (RQ : nr MQ = (length weeks * len)%nat) by (destruct SQ as ((_ & X & _) & _); exact X).
  assert (CP : nc MP = nc active) by (destruct SP as ((_ & _ & X) & _); exact X).
  assert (CQ : nc MQ = nc reactive) by (destruct SQ as ((_ & _ & X) & _); exact X).
  rewrite CP, CQ in I3.
  exists MP, MQ. eexists _, _. split; [exact SP|]. split; [exact SQ|]. split; [exact TS|].
  exists dp, dq, pk, (fun i k => pk i (3 + k)%nat). split; [|split; [exact V|]].
  { apply I. specialize (I3 [] s' eq_refl). rewrite app_nil_r in I3. exact I3. }
  intros i l k d Hl Hk.
  assert (AUX : forall k, (k < 6)%nat -> let M := if (k <? 3)%nat then MP else MQ in
    sums_up a M (mean_percentile M) (asym_nominal k l) const (a_bus l) (pk i k) (length weeks * len) (fun t => get (nth k asym d) t i)).
  { clear k Hk. intros k Hk M. destruct (asyms_nth n i l Hl k Hk) as (J1 & J2 & J3 & J4). rewrite map_length in J1.
    destruct (V3 i k d (phased_of l) J1 Hk) as [N1 V1]. rewrite J2, phased_nominal in N1 by auto. fold M in N1, V1.
    split; [exact N1|]. intros t Ht. rewrite (G k d d Hk). destruct (N k d Hk) as ((_ & S1 & S2) & _). fold M in S1.
    assert (RM : nr M = (length weeks * len)%nat) by (unfold M; destruct (k <? 3)%nat; auto).
    rewrite blend_get by lia. unfold mixed. rewrite J3, J4, V1 by lia. reflexivity. }
  split.
  - specialize (AUX k ltac:(lia)). cbv zeta in AUX. destruct (Nat.ltb_spec k 3) as [_|]; [|lia].
    replace (asym_nominal k l) with (a_p l k) in AUX by (unfold asym_nominal; destruct (Nat.ltb_spec k 3); [auto|lia]). exact AUX.
  - specialize (AUX (3 + k)%nat ltac:(lia)). cbv zeta in AUX. destruct (Nat.ltb_spec (3 + k) 3) as [|_]; [lia|].
    replace (asym_nominal (3 + k) l) with (a_q l k) in AUX by (unfold asym_nominal; destruct (Nat.ltb_spec (3 + k) 3); [lia|f_equal; lia]). exact AUX.
Qed.
End Draws.
