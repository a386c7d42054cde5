(** C119: load profiles read from csv files. *)
From Coq Require Import Bool Arith List Lia ZArith QArith Qcanon.
From Verif Require Import BasePy BaseFld BaseOrd BaseSum BaseMat BaseLin BaseNumpy BaseEx BaseRound ModelNet ModelLoads ModelCsv SpecLoads SpecCsv ProofLoads ProofCsv PropLoads.
Import ListNotations.
Close Scope Qc_scope. Close Scope Q_scope. Close Scope string_scope. Open Scope list_scope. Open Scope nat_scope.

Section C119.
Context {K : Type} {O : Ops K} {F : Fld K} {O2 : OrdOps K} {OF : OrdFld K}.
Context (rnd : K -> Z) {St : Type} (randint : nat -> nat -> St -> list nat * St).

Lemma csv_ok : forall (active reactive : mat K) hs fs p q, csv_profiles active reactive hs fs = Ok (p, q) ->
  hs <> [] /\ length hs <= length fs /\ (forall part, In part (combine hs fs) -> readable (nr active) part /\ readable (nr reactive) part) /\
  lines_of active (kept_lines (nr active) (combine hs fs)) p /\ lines_of reactive (kept_lines (nr reactive) (combine hs fs)) q.
Proof.
  intros active reactive hs fs p q E. assert (N : hs <> []) by (intros ->; discriminate E).
  assert (R : forall part, In part (combine hs fs) -> readable (nr active) part /\ readable (nr reactive) part).
  { intros part Hp. destruct (readable_dec (nr active) part) as [A|A]; [destruct (readable_dec (nr reactive) part) as [B|B]; [auto|]|];
      exfalso; unfold csv_profiles in E; rewrite (parts_bad active reactive hs fs None part Hp) in E by tauto; discriminate E. }
  assert (L : length hs <= length fs) by (destruct (Nat.le_gt_cases (length hs) (length fs)) as [L|L]; [exact L|]; exfalso; unfold csv_profiles in E; rewrite (parts_short active reactive hs fs None L R) in E; discriminate E).
  rewrite (profiles_ok active reactive hs fs N L R) in E. assert (E1 : forall a b : mat K * mat K, Ok a = Ok b -> a = b) by congruence. apply E1 in E. apply pair_equal_spec in E. destruct E as [<- <-]. split; [exact N|]. split; [exact L|]. split; [exact R|]. split; apply pick_lines.
Qed.
(** Every load is a sum of households of the file, over exactly the lines that are neither in the header nor in the footer of a part. *)
Theorem C119_lines : forall (active reactive : mat K) hs fs refs s P Q s', rounds rnd -> fair randint ->
  load_profile_from_csv rnd randint active reactive hs fs refs s = Ok (P, Q, s') ->
  let LP := kept_lines (nr active) (combine hs fs) in let LQ := kept_lines (nr reactive) (combine hs fs) in
  hs <> [] /\ length hs <= length fs /\ shape P (length LP) (length refs) /\ shape Q (length LQ) (length refs) /\
  exists MP MQ sp sq, lines_of active LP MP /\ lines_of reactive LQ MQ /\ (refs <> [] -> typical_share MP sp /\ typical_share MQ sq) /\
    forall i, i < length refs -> sum_of_households MP sp (fst (nth i refs (0%K, 0%K))) (fun t => get P t i) /\ sum_of_households MQ sq (snd (nth i refs (0%K, 0%K))) (fun t => get Q t i).
Proof.
  intros active reactive hs fs refs s P Q s' Hr Hf E LP LQ. unfold load_profile_from_csv in E. destruct (csv_profiles active reactive hs fs) as [[p q]|e] eqn:EP; [|discriminate E]. cbn [bind] in E.
  destruct (csv_ok _ _ _ _ _ _ EP) as (N & L & _ & LA & LR). destruct (fill_loads_inv rnd randint p q refs s P Q s' E) as (SP & SQ & H).
  split; [exact N|]. split; [exact L|]. rewrite (proj1 (proj2 (proj1 LA))) in SP. rewrite (proj1 (proj2 (proj1 LR))) in SQ. split; [exact SP|]. split; [exact SQ|].
  exists p, q, (mean_percentile p), (mean_percentile q). split; [exact LA|]. split; [exact LR|]. split.
  - intro NR. assert (I0 : 0 < length refs) by (destruct refs; [contradiction|cbn; lia]). destruct (H 0 I0) as [(s1 & s2 & c & A & _) (s3 & s4 & d & B & _)].
    destruct (assign_inv rnd randint p _ _ _ _ A) as (A1 & A2 & _). destruct (assign_inv rnd randint q _ _ _ _ B) as (B1 & B2 & _). split; apply mean_percentile_sound; assumption.
  - intros i Hi. destruct (H i Hi) as [(s1 & s2 & c & A & EA) (s3 & s4 & d & B & EB)].
    destruct (assign_households rnd randint p _ _ _ _ Hr Hf A) as (pk & A1 & A2 & A3). destruct (assign_households rnd randint q _ _ _ _ Hr Hf B) as (pk' & B1 & B2 & B3).
    split; [exists pk|exists pk']; (split; [assumption|]); (split; [assumption|]); intros t Ht; [rewrite (EA t Ht); apply A3; exact Ht|rewrite (EB t Ht); apply B3; exact Ht].
Qed.
(** The same for the phases of the loads in networks with three phases: first the active powers of the phases, then the reactive ones. *)
Theorem C119_lines_3ph : forall (active reactive : mat K) hs fs refs s l s', rounds rnd -> fair randint ->
  load_asym_from_csv rnd randint active reactive hs fs refs s = Ok (l, s') ->
  let LP := kept_lines (nr active) (combine hs fs) in let LQ := kept_lines (nr reactive) (combine hs fs) in
  hs <> [] /\ length hs <= length fs /\
  exists P1 P2 P3 Q1 Q2 Q3 MP MQ sp sq, l = [P1; P2; P3; Q1; Q2; Q3] /\ lines_of active LP MP /\ lines_of reactive LQ MQ /\ (refs <> [] -> typical_share MP sp /\ typical_share MQ sq) /\
    (forall X, In X [P1; P2; P3] -> shape X (length LP) (length refs)) /\ (forall X, In X [Q1; Q2; Q3] -> shape X (length LQ) (length refs)) /\
    forall i dr, i < length refs ->
      sum_of_households MP sp (pa (nth i refs dr)) (fun t => get P1 t i) /\ sum_of_households MP sp (pb (nth i refs dr)) (fun t => get P2 t i) /\ sum_of_households MP sp (pc (nth i refs dr)) (fun t => get P3 t i) /\
      sum_of_households MQ sq (qa (nth i refs dr)) (fun t => get Q1 t i) /\ sum_of_households MQ sq (qb (nth i refs dr)) (fun t => get Q2 t i) /\ sum_of_households MQ sq (qc (nth i refs dr)) (fun t => get Q3 t i).
Proof.
  intros active reactive hs fs refs s l s' Hr Hf E LP LQ. unfold load_asym_from_csv in E. destruct (csv_profiles active reactive hs fs) as [[p q]|e] eqn:EP; [|discriminate E]. cbn [bind] in E.
  destruct (csv_ok _ _ _ _ _ _ EP) as (N & L & _ & LA & LR). destruct (fill_asym_inv rnd randint p q refs s l s' E) as (HL & H). pose proof (proj1 (proj2 (proj1 LA))) as NP. pose proof (proj1 (proj2 (proj1 LR))) as NQ.
  split; [exact N|]. split; [exact L|]. destruct l as [|P1 [|P2 [|P3 [|Q1 [|Q2 [|Q3 [|? ?]]]]]]]; try discriminate HL. exists P1, P2, P3, Q1, Q2, Q3, p, q, (mean_percentile p), (mean_percentile q).
  pose proof (H 0 P1 ltac:(lia)) as H0. pose proof (H 1 P1 ltac:(lia)) as H1. pose proof (H 2 P1 ltac:(lia)) as H2. pose proof (H 3 P1 ltac:(lia)) as H3. pose proof (H 4 P1 ltac:(lia)) as H4. pose proof (H 5 P1 ltac:(lia)) as H5. clear H.
  cbn [nth Nat.ltb Nat.leb] in H0, H1, H2, H3, H4, H5. rewrite NP in H0, H1, H2. rewrite NQ in H3, H4, H5. destruct H0 as [S0 H0], H1 as [S1 H1], H2 as [S2 H2], H3 as [S3 H3], H4 as [S4 H4], H5 as [S5 H5].
  split; [reflexivity|]. split; [exact LA|]. split; [exact LR|]. split; [|split; [|split]].
  - intro NR. assert (I0 : 0 < length refs) by (destruct refs; [contradiction|cbn; lia]). destruct refs as [|r0 refs]; [contradiction|]. destruct (H0 0 r0 I0) as (s1 & s2 & c & A & _). destruct (H3 0 r0 I0) as (s3 & s4 & d & B & _).
    destruct (assign_inv rnd randint p _ _ _ _ A) as (A1 & A2 & _). destruct (assign_inv rnd randint q _ _ _ _ B) as (B1 & B2 & _). split; apply mean_percentile_sound; assumption.
  - intros X [<-|[<-|[<-|[]]]]; assumption.
  - intros X [<-|[<-|[<-|[]]]]; assumption.
  - intros i dr Hi.
    assert (W : forall M n r (G : nat -> K), nr M = n -> (exists s1 s2 c, assign rnd randint M r s1 = Ok (c, s2) /\ forall t, t < n -> G t = vget c t) -> sum_of_households M (mean_percentile M) r G).
    { intros M n r G EN (s1 & s2 & c & A & EA). destruct (assign_households rnd randint M _ _ _ _ Hr Hf A) as (pk & A1 & A2 & A3). exists pk. split; [exact A1|]. split; [exact A2|]. intros t Ht. rewrite EA by (rewrite <- EN; exact Ht). apply A3. exact Ht. }
    split; [exact (W p _ _ _ NP (H0 i dr Hi))|]. split; [exact (W p _ _ _ NP (H1 i dr Hi))|]. split; [exact (W p _ _ _ NP (H2 i dr Hi))|].
    split; [exact (W q _ _ _ NQ (H3 i dr Hi))|]. split; [exact (W q _ _ _ NQ (H4 i dr Hi))|]. exact (W q _ _ _ NQ (H5 i dr Hi)).
Qed.
(** With the footers of the parts of [len] lines, and files with the same number of lines, the result is that of the reader of npy files. *)
Theorem C119_same_as_numpy : forall (active reactive : mat K) hs len, nr reactive = nr active -> hs <> [] -> 0 < len -> (forall h, In h hs -> 0 <= h /\ h + Z.of_nat len <= Z.of_nat (nr active))%Z ->
  let fs := map (fun h => Z.of_nat (nr active) - (Z.of_nat len + h))%Z hs in
  (forall refs s, load_profile_from_csv rnd randint active reactive hs fs refs s = load_profile_from_numpy rnd randint active reactive hs (Z.of_nat len) refs s) /\
  (forall refs s, load_asym_from_csv rnd randint active reactive hs fs refs s = load_asym_from_numpy rnd randint active reactive hs (Z.of_nat len) refs s).
Proof.
  intros active reactive hs len E N Hl H fs. pose proof (csv_is_npy active reactive len hs E N Hl H) as C. fold fs in C.
  split; intros refs s; [unfold load_profile_from_csv, load_profile_from_numpy|unfold load_asym_from_csv, load_asym_from_numpy]; rewrite C; reflexivity.
Qed.
(** Which mistakes in the lists of parts are reported, and how. *)
Theorem C119_failures : forall (active reactive : mat K) hs fs,
  let fails e := (forall refs s, load_profile_from_csv rnd randint active reactive hs fs refs s = Err e) /\ (forall refs s, load_asym_from_csv rnd randint active reactive hs fs refs s = Err e) in
  (hs = [] -> fails TypeError) /\
  ((exists part, In part (combine hs fs) /\ ~ (readable (nr active) part /\ readable (nr reactive) part)) -> fails ValueError) /\
  ((forall part, In part (combine hs fs) -> readable (nr active) part /\ readable (nr reactive) part) -> length fs < length hs -> fails IndexError).
Proof.
  intros active reactive hs fs fails.
  assert (W : forall e, csv_profiles active reactive hs fs = Err e -> fails e) by (intros e E; split; intros refs s; [unfold load_profile_from_csv|unfold load_asym_from_csv]; rewrite E; reflexivity).
  split; [|split].
  - intros ->. apply W. reflexivity.
  - intros (part & HI & B). apply W. unfold csv_profiles. rewrite (parts_bad active reactive hs fs None part HI B). reflexivity.
  - intros G L. apply W. unfold csv_profiles. rewrite (parts_short active reactive hs fs None L G). reflexivity.
Qed.
End C119.
Print Assumptions C119_lines.
Print Assumptions C119_lines_3ph.
Print Assumptions C119_same_as_numpy.
Print Assumptions C119_failures.

(** ** Examples *)
(** three households in six minutes; minute [t] of household [h] is t + 1 + h megawatts *)
Definition csv_file (n : nat) : mat Qc := mk n 3 (fun t h => zq ((1 + Z.of_nat t + Z.of_nat h) * 1000000)%Z).
(** the minutes 0, 1 and 3, 4 *)
Example C119_ex : rounds roundq /\ fair draw /\ kept_lines 6 (combine [0; 3]%Z [4; 1]%Z) = [0; 1; 3; 4] /\
  exists P Q s', load_profile_from_csv roundq draw (csv_file 6) (csv_file 6) [0; 3]%Z [4; 1]%Z [(zq 9, zq 5); (zq 0, zq 12)] 0 = Ok (P, Q, s') /\
    shape P 4 2 /\ get P 0 0 <> get P 2 0 /\ get Q 0 1 <> 0%K.
Proof.
  split; [exact roundq_rounds|]. split; [exact draw_fair|]. split; [reflexivity|].
  set (r := load_profile_from_csv roundq draw (csv_file 6) (csv_file 6) [0; 3]%Z [4; 1]%Z [(zq 9, zq 5); (zq 0, zq 12)] 0).
  assert (T : match r with Ok (P, Q, _) => keqb (get P 0 0) (get P 2 0) = false /\ keqb (get Q 0 1) 0%K = false | _ => False end) by (unfold r; vm_compute; auto).
  destruct r as [[[P Q] s']|] eqn:E; [|contradiction]. exists P, Q, s'. split; [reflexivity|]. destruct T as [T1 T2].
  destruct (C119_lines roundq draw _ _ _ _ _ _ _ _ _ roundq_rounds draw_fair E) as (_ & _ & S & _). split; [exact S|].
  split; intro Z; [rewrite Z in T1; rewrite keqb_refl in T1; discriminate T1|rewrite Z in T2; rewrite keqb_refl in T2; discriminate T2].
Qed.
Example C119_same_ex : nr (csv_file 6) = nr (csv_file 6) /\ [0; 3]%Z <> [] /\ 0 < 2 /\ (forall h, In h [0; 3]%Z -> 0 <= h /\ h + Z.of_nat 2 <= Z.of_nat (nr (csv_file 6)))%Z /\
  map (fun h => Z.of_nat (nr (csv_file 6)) - (Z.of_nat 2 + h))%Z [0; 3]%Z = [4; 1]%Z.
Proof. split; [reflexivity|]. split; [discriminate|]. split; [lia|]. split; [intros h [<-|[<-|[]]]; cbn; lia|reflexivity]. Qed.
(** a header as long as the file, a negative footer, a missing footer *)
Example C119_failures_ex : ~ readable (nr (csv_file 6)) (6, 0)%Z /\ ~ readable (nr (csv_file 6)) (0, -1)%Z /\ readable (nr (csv_file 6)) (5, 0)%Z /\ length [0]%Z < length [5; 2]%Z.
Proof. unfold readable. cbn. lia. Qed.
Definition ex_phased : phased (K := Qc) := Phased (zq 9) (zq 0) (zq 5) (zq 3) (zq 12) (zq 0).
Example C119_3ph_ex : exists l s', load_asym_from_csv roundq draw (csv_file 6) (csv_file 6) [0; 3]%Z [4; 1]%Z [ex_phased] 0 = Ok (l, s') /\ length l = 6.
Proof.
  set (r := load_asym_from_csv roundq draw (csv_file 6) (csv_file 6) [0; 3]%Z [4; 1]%Z [ex_phased] 0).
  assert (T : match r with Ok (l, _) => length l = 6 | _ => False end) by (unfold r; vm_compute; reflexivity).
  destruct r as [[l s']|]; [|contradiction]. exists l, s'. auto.
Qed.
(** When the file of the reactive powers has another number of lines, the two readers do not agree: the footer is counted from the end of that
    file in the one and from the end of the file of the active powers in the other, and the reactive powers get more samples than the active ones. *)
Theorem C119_files_of_other_length_refuted : exists (active reactive : mat Qc) (h : Z) (len : nat) (refs : list (Qc * Qc)) P Q s1 P' Q' s2,
  (0 <= h /\ h + Z.of_nat len <= Z.of_nat (nr active) /\ Z.of_nat (nr active) <= Z.of_nat (nr reactive))%Z /\ 0 < len /\
  load_profile_from_csv roundq draw active reactive [h] [(Z.of_nat (nr active) - (Z.of_nat len + h))%Z] refs 0 = Ok (P, Q, s1) /\
  load_profile_from_numpy roundq draw active reactive [h] (Z.of_nat len) refs 0 = Ok (P', Q', s2) /\
  nr P = len /\ nr P' = len /\ nr Q' = len /\ nr Q = 1 + len.
Proof.
  assert (W : forall (r r' : res (mat Qc * mat Qc * nat)), (match r with Ok (P, Q, _) => nr P = 2 /\ nr Q = 3 | _ => False end) -> (match r' with Ok (P, Q, _) => nr P = 2 /\ nr Q = 2 | _ => False end) ->
    exists P Q s1 P' Q' s2, r = Ok (P, Q, s1) /\ r' = Ok (P', Q', s2) /\ nr P = 2 /\ nr P' = 2 /\ nr Q' = 2 /\ nr Q = 1 + 2).
  { intros [[[P Q] s1]|] [[[P' Q'] s2]|] T T'; try contradiction. destruct T, T'. exists P, Q, s1, P', Q', s2. auto 10. }
  set (r := load_profile_from_csv roundq draw (csv_file 5) (csv_file 6) [1%Z] [(Z.of_nat (nr (csv_file 5)) - (Z.of_nat 2 + 1))%Z] [(zq 9, zq 5)] 0).
  set (r' := load_profile_from_numpy roundq draw (csv_file 5) (csv_file 6) [1%Z] (Z.of_nat 2) [(zq 9, zq 5)] 0).
  assert (T : match r with Ok (P, Q, _) => nr P = 2 /\ nr Q = 3 | _ => False end) by (vm_compute; split; reflexivity).
  assert (T' : match r' with Ok (P, Q, _) => nr P = 2 /\ nr Q = 2 | _ => False end) by (vm_compute; split; reflexivity).
  destruct (W r r' T T') as (P & Q & s1 & P' & Q' & s2 & H).
  exists (csv_file 5), (csv_file 6), 1%Z, 2, [(zq 9, zq 5)], P, Q, s1, P', Q', s2. split; [cbn [nr csv_file mk]; lia|]. split; [lia|exact H].
Qed.
Print Assumptions C119_files_of_other_length_refuted.
