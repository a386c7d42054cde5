(** Proofs about the three-phase reduction. *)
From Coq Require Import Bool Arith Lia Lra List Permutation Reals Ring Field.
From Verif Require Import BasePy BaseFld BaseSum BaseMat BaseLin BaseReal ModelErrorMetrics ModelSet ModelKron ModelLines ModelNet ModelReduce ModelReduce3
  SpecMatrix SpecLS SpecLines SpecKron SpecNet SpecReduce SpecReduce3 ProofMatrixOps ProofSet ProofNet ProofNetBuild ProofKron ProofKronDup ProofLines ProofReduce ProofThree ProofThreeSeq.
Import ListNotations.
Local Open Scope K_scope.
Add Field CfRed3 : (@k_field C _ _).

Notation kept3 N l := (kept_ascending (N * 3) (phases3 l)).
Lemma phases3_app : forall a b, phases3 (a ++ b) = phases3 a ++ phases3 b.
Proof. intros. unfold phases3. apply flat_map_app. Qed.

Lemma drop_steps : forall (n : net (K := R)) (Y : mat C) N gs G done, NoDup (ids n) -> shape Y (N * 3) (N * 3) ->
  located n gs G -> descending G -> (forall p q, In p done -> In q G -> (q < p)%nat) -> (forall q, In q G -> (q < N)%nat) -> (forall q, In q done -> (q < N)%nat) ->
  for_each gs (phases3 done, block_of Y (kept3 N done) (kept3 N done)) (fun acc idx =>
    let '(idx_todel, y_bus) := acc in
    match position n idx with
    | None => Err ValueError
    | Some p =>
      let d := [3 * p; 3 * p + 1; 3 * p + 2]%nat in
      a <- delete_cols y_bus d ;; b <- delete_rows a d ;; Ok ((idx_todel ++ d)%list, b)
    end) = Ok (phases3 (done ++ G), block_of Y (kept3 N (done ++ G)) (kept3 N (done ++ G))).
Proof.
  intros n Y N gs G done ND SY L. revert done. induction L as [|i p gs G Lp L IH]; intros done De Hd HG HD.
  - cbn [for_each]. rewrite app_nil_r. reflexivity.
  - cbn [for_each]. assert (P : position n i = Some p) by (apply position_spec; auto). rewrite P. cbv zeta.
    change [(3 * p)%nat; (3 * p + 1)%nat; (3 * p + 2)%nat] with (phases3 [p]).
    set (s := kept3 N done).
    assert (F : forall x, In x (phases3 [p]) -> at_ s x = x /\ (x < length s)%nat).
    { intros x Ix. apply phases3_In in Ix. destruct Ix as [Ex|[]]. apply kept_first.
      - assert (p < N)%nat by (apply HG; cbn; auto). pose proof (Nat.div_mod x 3 ltac:(lia)). pose proof (Nat.mod_upper_bound x 3 ltac:(lia)). lia.
      - intros y Iy. apply phases3_In in Iy. assert (p < y / 3)%nat by (apply Hd; cbn; auto).
        pose proof (Nat.div_mod x 3 ltac:(lia)). pose proof (Nat.mod_upper_bound x 3 ltac:(lia)). pose proof (Nat.div_mod y 3 ltac:(lia)). lia. }
    pose proof (delete_both (block_of Y s s) (length s) (phases3 [p]) (block_shape Y s s) ltac:(intros x Ix; apply F; auto)) as DB.
    destruct (delete_cols (block_of Y s s) (phases3 [p])) as [a|e] eqn:EA; cbn [bind] in DB |- *; [|discriminate].
    rewrite DB. cbn [bind].
    assert (RN : map (at_ s) (kept_ascending (length s) (phases3 [p])) = kept3 N (done ++ [p])).
    { apply kept_renumber; [|intros x Ix; apply F; auto]. intro x. rewrite !phases3_In, in_app_iff. split.
      - intros [I|I]; [auto|]. right. exists x. assert (In x (phases3 [p])) by (apply phases3_In; auto). split; [auto|]. apply F; auto.
      - intros [I|(y & Iy & Ey)]; [auto|]. right. destruct (F y Iy) as [F1 _]. apply phases3_In in Iy. fold s in Ey. rewrite F1 in Ey. subst y. exact Iy. }
    rewrite block_block by (intros x Ix; apply kept_In in Ix; tauto). rewrite RN. rewrite <- phases3_app.
    rewrite IH.
    + rewrite <- app_assoc. reflexivity.
    + apply De.
    + intros a' q Ia Iq. apply in_app_or in Ia. destruct Ia as [Ia|[<-|[]]]; [apply Hd; cbn; auto|]. apply De; auto.
    + intros; apply HG; cbn; auto.
    + intros q Iq. apply in_app_or in Iq. destruct Iq as [Iq|[<-|[]]]; [auto|apply HG; cbn; auto].
Qed.
Lemma drop_ok : forall (n : net (K := R)) (Y : mat C) N G, NoDup (ids n) -> shape Y (N * 3) (N * 3) ->
  located n (grids n) G -> descending G -> (forall q, In q G -> (q < N)%nat) ->
  drop_substations n Y = Ok (phases3 G, block_of Y (kept3 N G) (kept3 N G)).
Proof.
  intros n Y N G ND SY L De HG. unfold drop_substations.
  pose proof (drop_steps n Y N (grids n) G [] ND SY L De ltac:(intros ? ? []) HG ltac:(intros ? [])) as D. cbn [app phases3 flat_map] in D.
  rewrite block_all in D by auto. exact D.
Qed.

(** ** which nodes *)
Definition ratio (V I : mat C) (i : nat) : C := mean_at I i / mean_at V i.
Lemma add_hidden_ok : forall (n : net (K := R)) (V I : mat C) ph hidden H l sh, NoDup (ids n) -> located n hidden H ->
  (forall x, In x H -> (3 * x + ph < nc I)%nat /\ (3 * x + ph < nc V)%nat /\ (3 * x + ph < length sh)%nat) ->
  exists sh', add_hidden n V I ph hidden (l, sh) = Ok (l ++ map (fun p => 3 * p + ph)%nat H, sh') /\ length sh' = length sh /\
    forall k, (k < length sh)%nat -> vget sh' k = if mem k (map (fun p => 3 * p + ph)%nat H) then ratio V I k else vget sh k.
Proof.
  intros n V I ph hidden H l sh ND L. revert l sh. induction L as [|i p hidden H Lp L IH]; intros l sh HB.
  - exists sh. split; [unfold add_hidden; cbn [for_each map]; rewrite app_nil_r; reflexivity|]. split; [reflexivity|]. intros; reflexivity.
  - unfold add_hidden. cbn [for_each]. assert (P : position n i = Some p) by (apply position_spec; auto). rewrite P. cbv zeta.
    destruct (HB p) as (B1 & B2 & B3); [cbn; auto|]. apply Nat.ltb_lt in B1. apply Nat.ltb_lt in B2. apply Nat.ltb_lt in B3. rewrite B1, B2, B3. cbn [andb bind].
    set (sh1 := mkv (length sh) (fun k => if (k =? 3 * p + ph)%nat then col_mean I (3 * p + ph) / col_mean V (3 * p + ph) else vget sh k)).
    assert (L1 : length sh1 = length sh) by apply length_mkv.
    destruct (IH (l ++ [(3 * p + ph)%nat]) sh1) as (sh' & E & LE & GE).
    { intros x Ix. rewrite L1. apply HB. cbn; auto. }
    exists sh'. split; [|split].
    + unfold add_hidden in E. rewrite E. cbn [map]. rewrite <- app_assoc. reflexivity.
    + congruence.
    + intros k Hk. rewrite GE by congruence. unfold sh1. rewrite vget_mkv by auto. cbn [map]. rewrite !mem_existsb. cbn [existsb].
      destruct (Nat.eqb_spec k (3 * p + ph)) as [->|Q]; cbn [orb]; [|reflexivity].
      destruct (existsb _ _); reflexivity.
Qed.
Lemma of_phase_app : forall ph a b, of_phase ph (a ++ b) = of_phase ph a ++ of_phase ph b.
Proof. intros. unfold of_phase. rewrite filter_app, map_app. reflexivity. Qed.
Lemma of_phase_map : forall ph q l, (q < 3)%nat -> of_phase ph (map (fun p => 3 * p + q)%nat l) = if (q =? ph)%nat then l else [].
Proof.
  intros ph q l Hq. unfold of_phase. induction l as [|a l IH]; [destruct (q =? ph)%nat; reflexivity|]. cbn [map filter].
  replace ((3 * a + q) mod 3)%nat with q by (apply (Nat.mod_unique _ 3 a q); lia). destruct (q =? ph)%nat eqn:E.
  - cbn [map]. rewrite IH. f_equal. symmetry. apply (Nat.div_unique _ 3 a q); lia.
  - exact IH.
Qed.
Definition reduce_list (Pa : nat -> list nat) (H : list nat) : list nat :=
  flat_map (fun ph => map (fun p => 3 * p + ph)%nat (Pa ph) ++ map (fun p => 3 * p + ph)%nat H) [0; 1; 2]%nat.
Lemma reduce_list_In : forall Pa H x, In x (reduce_list Pa H) <-> In (x / 3)%nat (Pa (x mod 3)%nat) \/ In (x / 3)%nat H.
Proof.
  intros Pa H x. unfold reduce_list. rewrite in_flat_map. pose proof (Nat.div_mod x 3 ltac:(lia)) as D. pose proof (Nat.mod_upper_bound x 3 ltac:(lia)) as M. split.
  - intros (ph & Iph & Ix). assert (Hp : (ph < 3)%nat) by (cbn in Iph; lia). apply in_app_or in Ix. rewrite !in_map_iff in Ix.
    assert (X : forall p, (3 * p + ph)%nat = x -> p = (x / 3)%nat /\ ph = (x mod 3)%nat).
    { intros p Ep. split; [apply (Nat.div_unique _ 3 p ph); lia|apply (Nat.mod_unique _ 3 p ph); lia]. }
    destruct Ix as [(p & Ep & Ip)|(p & Ep & Ip)]; destruct (X p Ep) as [-> ->]; auto.
  - intro Ix. exists (x mod 3)%nat. split; [clear - M; destruct (x mod 3)%nat as [|[|[|r]]]; cbn [In]; lia|]. apply in_or_app. rewrite !in_map_iff.
    destruct Ix as [Ix|Ix]; [left|right]; exists (x / 3)%nat; split; auto; lia.
Qed.
Lemma of_phase_list : forall Pa H ph, (ph < 3)%nat -> of_phase ph (reduce_list Pa H) = Pa ph ++ H.
Proof.
  intros Pa H ph Hp. unfold reduce_list. cbn [flat_map]. rewrite !of_phase_app, !of_phase_map by lia.
  destruct ph as [|[|[|ph]]]; [| | |lia]; cbn [Nat.eqb app]; rewrite ?app_nil_r; reflexivity.
Qed.
Lemma to_reduce_ok : forall (n : net (K := R)) (V I : mat C) f Pa hidden H size, NoDup (ids n) -> (forall ph, (ph < 3)%nat -> located n (f ph) (Pa ph)) -> located n hidden H ->
  (forall x, In x H -> (3 * x + 2 < nc I)%nat /\ (3 * x + 2 < nc V)%nat /\ (3 * x + 2 < size)%nat) ->
  exists sh, to_reduce n V I f hidden size = Ok (reduce_list Pa H, sh) /\ length sh = size /\
    forall k, (k < size)%nat -> vget sh k = if existsb (Nat.eqb k) (phases3 H) then ratio V I k else 0.
Proof.
  intros n V I f Pa hidden H size ND LP LH HB. unfold to_reduce. change (range 3) with [0; 1; 2]%nat. cbn [for_each].
  unfold passive_indices. rewrite (positions_ok n _ _ ND (LP 0%nat ltac:(lia))), (positions_ok n _ _ ND (LP 1%nat ltac:(lia))), (positions_ok n _ _ ND (LP 2%nat ltac:(lia))).
  cbn [bind fst snd].
  assert (L0 : length (mkv size (fun _ => 0 : C)) = size) by apply length_mkv.
  destruct (add_hidden_ok n V I 0 hidden H ([] ++ map (fun p => 3 * p + 0)%nat (Pa 0%nat)) (mkv size (fun _ => 0)) ND LH) as (s1 & E1 & L1 & G1).
  { intros x Ix. rewrite L0. destruct (HB x Ix). lia. }
  rewrite E1. cbn [bind fst snd].
  destruct (add_hidden_ok n V I 1 hidden H ((([] ++ map (fun p => 3 * p + 0)%nat (Pa 0%nat)) ++ map (fun p => 3 * p + 0)%nat H) ++ map (fun p => 3 * p + 1)%nat (Pa 1%nat)) s1 ND LH) as (s2 & E2 & L2 & G2).
  { intros x Ix. rewrite L1, L0. destruct (HB x Ix). lia. }
  rewrite E2. cbn [bind fst snd].
  match goal with |- context [add_hidden n V I 2 hidden (?l, s2)] => destruct (add_hidden_ok n V I 2 hidden H l s2 ND LH) as (s3 & E3 & L3 & G3) end.
  { intros x Ix. rewrite L2, L1, L0. destruct (HB x Ix). lia. }
  rewrite E3. cbn [bind]. exists s3. split; [|split].
  - f_equal. f_equal. unfold reduce_list. cbn [flat_map]. rewrite app_nil_r. cbn [app]. rewrite <- !app_assoc. reflexivity.
  - rewrite L3, L2, L1. apply length_mkv.
  - intros k Hk. rewrite G3, G2, G1, vget_mkv by (rewrite ?L2, ?L1, ?length_mkv; exact Hk).
    assert (X : forall q, (q < 3)%nat -> mem k (map (fun p => 3 * p + q)%nat H) = (k mod 3 =? q)%nat && existsb (Nat.eqb (k / 3)) H).
    { intros q Hq. apply eq_iff_eq_true. rewrite andb_true_iff, Nat.eqb_eq, existsb_In, mem_existsb, existsb_In, in_map_iff. pose proof (Nat.div_mod k 3 ltac:(lia)). split.
      - intros (p & Ep & Ip). assert (k / 3 = p)%nat by (symmetry; apply (Nat.div_unique _ 3 p q); lia). assert (k mod 3 = q)%nat by (symmetry; apply (Nat.mod_unique _ 3 p q); lia). subst p. auto.
      - intros [Eq Ip]. exists (k / 3)%nat. split; [lia|auto]. }
    rewrite !X by lia. rewrite (existsb_same k (phases3 H) (k / 3)%nat H) by apply phases3_In.
    pose proof (Nat.mod_upper_bound k 3 ltac:(lia)). destruct (k mod 3)%nat as [|[|[|r]]]; [| | |lia]; cbn [Nat.eqb andb]; destruct (existsb _ H); reflexivity.
Qed.

Lemma intersect1d_In : forall a b x, In x (intersect1d a b) <-> In x a /\ In x b.
Proof.
  intros a b x. unfold intersect1d. rewrite filter_In, andb_true_iff, !mem_In. split; [tauto|]. intros [A B]. split; [|auto].
  unfold range. apply in_seq. pose proof (proj1 (list_max_le a (list_max a)) (le_n _)) as M. rewrite Forall_forall in M. specialize (M x A). lia.
Qed.
Lemma three_lists : forall (P : nat -> list nat -> Prop), (forall ph, (ph < 3)%nat -> exists l, P ph l) -> exists f, forall ph, (ph < 3)%nat -> P ph (f ph).
Proof.
  intros P H. destruct (H 0%nat) as (a & A); [lia|]. destruct (H 1%nat) as (b & B); [lia|]. destruct (H 2%nat) as (c & D); [lia|].
  exists (fun ph => match ph with 0%nat => a | 1%nat => b | _ => c end). intros [|[|[|ph]]] Hp; auto. lia.
Qed.
Lemma located_NoDup : forall (n : net (K := R)) l ps, located n l ps -> NoDup l -> NoDup ps.
Proof.
  intros n l ps L. induction L as [|i p l ps Lp L IH]; intro ND; [constructor|]. inversion ND; subst. constructor; [|auto].
  intro Ip. apply H1. clear - L Lp Ip. induction L as [|i' p' l ps Lp' L IH]; [destruct Ip|]. destruct Ip as [->|Ip]; [left; congruence|right; auto].
Qed.
(** positions of the nodes that the code takes for passive *)
Definition idle_at (n : net (K := R)) (single : bool) (ph x : nat) : Prop :=
  if single then exists i, nth_error (ids n) x = Some i /\ idle n ph i else idle_node n x.
Lemma passive3_ok : forall (n : net (K := R)) single, consistent n -> exists f Pa, passive3 n single = Ok f /\
  (forall ph, (ph < 3)%nat -> located n (f ph) (Pa ph)) /\ (forall ph x, (ph < 3)%nat -> (In x (Pa ph) <-> idle_at n single ph x)) /\ (forall ph, (ph < 3)%nat -> NoDup (Pa ph)).
Proof.
  intros n single C. pose proof C as (ND & _). destruct (p_passive n C) as (f & Ef & Hf). unfold passive3. rewrite Ef. cbn [bind].
  set (g := if single then f else fun _ : nat => intersect1d (f 0%nat) (intersect1d (f 1%nat) (f 2%nat))).
  assert (Hg : forall ph i, In i (g ph) <-> In i (ids n) /\ (if single then idle n ph i else idle n 0 i /\ idle n 1 i /\ idle n 2 i)).
  { intros ph i. unfold g. destruct single; [apply Hf|]. rewrite !intersect1d_In, !(proj1 (Hf _)). tauto. }
  destruct (three_lists (fun ph l => located n (g ph) l)) as (Pa & HP).
  { intros ph Hp. apply positions_all; auto. intros i I. apply Hg in I. tauto. }
  exists g, Pa. split; [reflexivity|]. split; [exact HP|]. split.
  2:{ intros ph Hp. apply (located_NoDup n (g ph)); [auto|]. unfold g. destruct single; [destruct (proj2 (Hf ph)) as (q & ->); apply NoDup_filter; auto|apply NoDup_filter, seq_NoDup]. }
  intros ph x Hp. rewrite (located_In n _ _ x (HP ph Hp) ND). unfold idle_at, idle_node.
  destruct single.
  - split; intros (i & Ei & Hi); exists i; [apply Hg in Hi; tauto|]. split; [auto|]. apply Hg. split; [eapply nth_error_In; eauto|auto].
  - split; intros (i & Ei & Hi); exists i; [apply Hg in Hi; tauto|]. split; [auto|]. apply Hg. split; [eapply nth_error_In; eauto|auto].
Qed.

(** ** the loads *)
Lemma shunts3_block : forall (Y V I : mat C) N G H v, shape Y N N -> (forall x, In x H -> (x < N)%nat) -> all_before H G ->
  let s := kept_ascending N G in length v = length s ->
  (forall k, (k < length s)%nat -> vget v k = if existsb (Nat.eqb k) H then ratio V I k else 0) ->
  madd (block_of Y s s) (diagonal v) = block_of (loaded Y V I H) s s.
Proof.
  intros Y V I N G H v (WY & RY & CY) HH AB s LV HV.
  assert (A1 : forall x, In x H -> at_ s x = x /\ (x < length s)%nat) by (intros x Hx; apply kept_first; auto).
  apply (gshape_ext _ _ (length s) (length s)); [apply shape_mk|apply shape_mk|].
  intros a b Ha Hb. unfold madd, block_of, loaded. rewrite !get_mk; cbn [nr nc mk]; auto; [|rewrite RY; apply (kept_In N G), nth_In; auto..].
  f_equal. unfold diagonal. rewrite LV, get_mk by auto. fold (at_ s a) (at_ s b).
  destruct (Nat.eqb_spec a b) as [<-|Nab].
  - rewrite Nat.eqb_refl. cbn [andb]. rewrite HV by auto. rewrite <- !mem_existsb. destruct (mem a H) eqn:M.
    + apply mem_In in M. destruct (A1 a M) as [-> _]. rewrite (proj2 (mem_In _ _) M). reflexivity.
    + destruct (mem (at_ s a) H) eqn:M2; [|reflexivity]. exfalso. apply mem_In in M2. destruct (A1 _ M2) as [E1 E2].
      apply at_inj in E1; auto; [|apply kept_NoDup]. rewrite E1 in M2. apply mem_In in M2. congruence.
  - destruct (Nat.eqb_spec (at_ s a) (at_ s b)) as [Q|]; [|reflexivity]. apply at_inj in Q; auto; [congruence|apply kept_NoDup].
Qed.
Definition conj3 (n : nat) (X : mat C) : mat C := mmul (mmul (TA n) X) (TS n).
Lemma shape_b3 : shape block_abc 3 3 /\ shape block_012 3 3.
Proof. split; [apply shape_abc|apply shape_012]. Qed.
Lemma shape_conj3 : forall n X, shape X (n * 3) (n * 3) -> shape (conj3 n X) (n * 3) (n * 3).
Proof. intros. apply shape_conj; auto using shape_TA, shape_TS. Qed.
Lemma get_conj3 : forall n X i j p q, shape X (n * 3) (n * 3) -> (i < n)%nat -> (j < n)%nat -> (p < 3)%nat -> (q < 3)%nat ->
  get (conj3 n X) (i * 3 + p) (j * 3 + q) = sumn 3 (fun w => sumn 3 (fun u => get block_abc p u * get X (i * 3 + u) (j * 3 + w)) * get block_012 w q).
Proof.
  intros n X i j p q (WX & RX & CX) Hi Hj Hp Hq. unfold conj3. rewrite TA_loc, TS_loc. pose proof (shape_loc _ (proj1 shape_b3) n) as (_ & RL & CL).
  rewrite (loc_r block_012 (proj2 shape_b3) n) by (cbn [nr nc mmul mk]; try rewrite RL; auto; lia).
  apply sumn_ext. intros w Hw. f_equal. apply (loc_l block_abc (proj1 shape_b3) n); auto. lia.
Qed.
Lemma three_loaded : forall y V I N H, three_shapes y N -> three_shapes (fun k => sequence_loaded (y k) V I H) N.
Proof. intros y V I N H Hy k Hk. unfold sequence_loaded. rewrite (proj1 (proj2 (Hy k Hk))). apply shape_mk. Qed.
Lemma shape_mean_loaded : forall Y V I H N, shape Y N N -> shape (mean_loaded Y V I H) N N.
Proof. intros Y V I H N (_ & R & _). unfold mean_loaded. rewrite R. apply shape_mk. Qed.
Lemma loaded_conj : forall y V I N H, three_shapes y N ->
  mean_loaded (conj3 N (asm y)) V I H = conj3 N (asm (fun k => sequence_loaded (y k) V I H)).
Proof.
  intros y V I N H Hy. pose proof (shape_conj3 N _ (shape_asm y N Hy)) as SY. pose proof (three_loaded y V I N H Hy) as HL.
  apply (gshape_ext _ _ (N * 3) (N * 3)); [apply shape_mean_loaded; auto|apply shape_conj3, shape_asm; auto|].
  intros a b Ha Hb. unfold mean_loaded. rewrite (proj1 (proj2 SY)), get_mk by auto. split3 a N. split3 b N.
  assert (GC : forall X, shape X (N * 3) (N * 3) -> get (conj3 N X) a b = sumn 3 (fun w => sumn 3 (fun u => get block_abc (a mod 3) u * get X (a / 3 * 3 + u) (b / 3 * 3 + w)) * get block_012 w (b mod 3))).
  { intros X SX. rewrite <- (get_conj3 N) by auto. f_equal; lia. }
  rewrite !GC by (apply shape_asm; auto).
  assert (EI : get (meye 3 : mat C) (a mod 3) (b mod 3) = sumn 3 (fun w => get block_abc (a mod 3) w * get block_012 w (b mod 3))).
  { rewrite <- abc_seq. rewrite get_mmul by (cbn; auto). reflexivity. }
  rewrite get_meye in EI by auto.
  set (c := if existsb (Nat.eqb (a / 3)) H then mean_load V I (a / 3) else 0 : C).
  transitivity (sumn 3 (fun w => sumn 3 (fun u => get block_abc (a mod 3) u * get (asm y) (a / 3 * 3 + u) (b / 3 * 3 + w)) * get block_012 w (b mod 3)) +
     (if (a / 3 =? b / 3)%nat then c * (if (a mod 3 =? b mod 3)%nat then 1 else 0) else 0)).
  - f_equal. unfold c. destruct (Nat.eqb_spec a b) as [<-|Q].
    + rewrite !Nat.eqb_refl. cbn [andb]. destruct (existsb (Nat.eqb (a / 3)) H); ring.
    + cbn [andb]. destruct (Nat.eqb_spec (a / 3) (b / 3)) as [E1|]; [|reflexivity]. destruct (Nat.eqb_spec (a mod 3) (b mod 3)) as [E2|]; [|ring]. exfalso. lia.
  - rewrite EI. destruct (Nat.eqb_spec (a / 3) (b / 3)) as [E1|Q].
    + rewrite <- sumn_scal_l, <- sumn_add. apply sumn_ext. intros w Hw.
      transitivity ((sumn 3 (fun u => get block_abc (a mod 3) u * get (asm y) (a / 3 * 3 + u) (b / 3 * 3 + w)) + c * get block_abc (a mod 3) w) * get block_012 w (b mod 3)); [ring|]. f_equal.
      rewrite <- (sumn_delta_l 3 w (fun u => c * get block_abc (a mod 3) u)) by auto. rewrite <- sumn_add. apply sumn_ext. intros u Hu.
      rewrite !(get_asm _ N) by auto. unfold sequence_loaded. rewrite (proj1 (proj2 (Hy u Hu))), get_mk by auto. rewrite E1, Nat.eqb_refl. cbn [andb]. rewrite <- E1. fold c.
      rewrite (Nat.eqb_sym w u). destruct (Nat.eqb_spec u w) as [->|]; rewrite ?Nat.eqb_refl; cbn [andb]; ring.
    + transitivity (sumn 3 (fun w => sumn 3 (fun u => get block_abc (a mod 3) u * get (asm y) (a / 3 * 3 + u) (b / 3 * 3 + w)) * get block_012 w (b mod 3))); [ring|].
      apply sumn_ext. intros w Hw. f_equal. apply sumn_ext. intros u Hu. f_equal. rewrite !(get_asm _ N) by auto. destruct (Nat.eqb_spec u w) as [->|]; [|reflexivity].
      unfold sequence_loaded. rewrite (proj1 (proj2 (Hy w Hw))), get_mk by auto. destruct (Nat.eqb_spec (a / 3) (b / 3)); [contradiction|]. cbn [andb]. ring.
Qed.
(** loads that differ between the phases are averaged, because the code keeps only the diagonal blocks *)
Definition conjS (n : nat) (X : mat C) : mat C := mmul (mmul (TS n) X) (TA n).
Lemma get_conjS : forall n X i j p q, shape X (n * 3) (n * 3) -> (i < n)%nat -> (j < n)%nat -> (p < 3)%nat -> (q < 3)%nat ->
  get (conjS n X) (i * 3 + p) (j * 3 + q) = sumn 3 (fun w => sumn 3 (fun u => get block_012 p u * get X (i * 3 + u) (j * 3 + w)) * get block_abc w q).
Proof.
  intros n X i j p q (WX & RX & CX) Hi Hj Hp Hq. unfold conjS. rewrite TA_loc, TS_loc. pose proof (shape_loc _ shape_012 n) as (_ & RL & CL).
  rewrite (loc_r block_abc shape_abc n) by (cbn [nr nc mmul mk]; try rewrite RL; auto; lia).
  apply sumn_ext. intros w Hw. f_equal. apply (loc_l block_012 shape_012 n); auto. lia.
Qed.
Lemma turns : forall k u, (k < 3)%nat -> (u < 3)%nat -> get block_012 k u * get block_abc u k = 1 / knat 3.
Proof.
  intros k u Hk Hu. assert (K3 : (knat 3 : C) <> 0) by apply k_char0.
  assert (T : knat 3 * (get block_012 k u * get block_abc u k) = 1).
  { rewrite get_abc, get_012 by lia. cases3 k Hk; cases3 u Hu; unfold w3, v3; cbn [Nat.mul Nat.add Nat.modulo Nat.divmod fst snd Nat.sub];
    cbn [knat]; cbv [kadd kmul k0 k1 cplx_ops cadd cmul re im R_ops]; f_equal; pose proof sqrt3; runfold; nra. }
  rewrite <- T. field. auto.
Qed.
Lemma thirds_loaded : forall y V I N H s k, three_shapes y N -> NoDup s -> (forall x, In x s -> (x < N)%nat) -> (k < 3)%nat ->
  every_third k (conjS (length s) (block_of (loaded (conj3 N (asm y)) V I (phases3 H)) (phases3 s) (phases3 s))) =
  block_of (sequence_loaded (y k) V I H) s s.
Proof.
  intros y V I N H s k Hy Ns Hs Hk. set (m := length s).
  assert (SX : forall M : mat C, shape (block_of M (phases3 s) (phases3 s)) (m * 3) (m * 3)) by (intro M; unfold m; rewrite <- phases3_length; apply block_shape).
  assert (SC : forall X, nr (conjS m X) = (m * 3)%nat /\ nc (conjS m X) = (m * 3)%nat) by (intro X; split; reflexivity).
  assert (HBk : three_shapes (fun k => block_of (y k) s s) m) by (intros q Hq; apply block_shape).
  assert (E0 : conjS m (block_of (conj3 N (asm y)) (phases3 s) (phases3 s)) = asm (fun k => block_of (y k) s s)).
  { unfold conj3. rewrite !TA_loc, !TS_loc. rewrite block_loc by (auto using shape_abc, shape_012, shape_asm).
    rewrite <- !TA_loc, <- !TS_loc. rewrite (block_asm _ N) by auto. unfold conjS. fold m.
    apply (conj_inv m); auto using shape_TA, shape_TS, shape_asm, TS_TA. }
  pose proof (shape_conj3 N _ (shape_asm y N Hy)) as SY.
  assert (D : ((m * 3 - k + 2) / 3 = m)%nat) by (clear - Hk; clearbody m; destruct m as [|m]; [destruct k as [|[|[|k]]]; reflexivity || lia|symmetry; apply (Nat.div_unique _ 3 (S m) (2 - k)); lia]).
  unfold every_third. destruct (SC (block_of (loaded (conj3 N (asm y)) V I (phases3 H)) (phases3 s) (phases3 s))) as [SR SCc]. rewrite SR, SCc, D. unfold block_of at 2. fold m. apply mk_ext. intros i j Hi Hj.
  replace (3 * i + k)%nat with (i * 3 + k)%nat by lia. replace (3 * j + k)%nat with (j * 3 + k)%nat by lia.
  rewrite get_conjS by (auto; lia).
  pose proof (Hs _ (nth_In s 0%nat Hi)) as Hsi. pose proof (Hs _ (nth_In s 0%nat Hj)) as Hsj. set (a := nth i s 0%nat) in *. set (b := nth j s 0%nat) in *.
  set (d := fun u w => if (a =? b)%nat && existsb (Nat.eqb a) H then (if (u =? w)%nat then ratio V I (a * 3 + u) else 0) else 0 : C).
  transitivity (sumn 3 (fun w => sumn 3 (fun u => get block_012 k u * get (block_of (conj3 N (asm y)) (phases3 s) (phases3 s)) (i * 3 + u) (j * 3 + w)) * get block_abc w k) +
    sumn 3 (fun w => sumn 3 (fun u => get block_012 k u * d u w) * get block_abc w k)).
  - rewrite <- sumn_add. apply sumn_ext. intros w Hw. 
    transitivity ((sumn 3 (fun u => get block_012 k u * get (block_of (conj3 N (asm y)) (phases3 s) (phases3 s)) (i * 3 + u) (j * 3 + w)) + sumn 3 (fun u => get block_012 k u * d u w)) * get block_abc w k); [|ring].
    rewrite <- sumn_add. f_equal. apply sumn_ext. intros u Hu.
    rewrite !get_block by (rewrite phases3_length; fold m; lia). rewrite !phases3_nth by auto. fold a b.
    unfold loaded. rewrite (proj1 (proj2 SY)), get_mk by (clear - Hsi Hsj Hu Hw; lia).
    assert (ED : (if (a * 3 + u =? b * 3 + w)%nat && existsb (Nat.eqb (a * 3 + u)) (phases3 H) then mean_at I (a * 3 + u) / mean_at V (a * 3 + u) else 0) = d u w).
    { unfold d. rewrite (existsb_same (a * 3 + u) (phases3 H) a H) by (rewrite phases3_In; replace ((a * 3 + u) / 3)%nat with a by (apply (Nat.div_unique _ 3 a u); lia); tauto).
      destruct (Nat.eqb_spec a b) as [<-|Q].
      - cbn [andb]. destruct (Nat.eqb_spec u w) as [<-|Q].
        + rewrite Nat.eqb_refl. reflexivity.
        + destruct (Nat.eqb_spec (a * 3 + u) (a * 3 + w)); [lia|]. cbn [andb]. destruct (existsb _ H); reflexivity.
      - destruct (Nat.eqb_spec (a * 3 + u) (b * 3 + w)); [lia|]. reflexivity. }
    rewrite ED. ring.
  - rewrite <- (get_conjS m) by auto. rewrite E0, (get_asm _ m) by auto. rewrite Nat.eqb_refl. rewrite get_block by auto. fold a b.
    unfold sequence_loaded. rewrite (proj1 (proj2 (Hy k Hk))), get_mk by auto. f_equal.
    unfold d. destruct ((a =? b)%nat && existsb (Nat.eqb a) H).
    + transitivity (sumn 3 (fun w => 1 / knat 3 * ratio V I (a * 3 + w))).
      * apply sumn_ext. intros w Hw. rewrite <- (turns k w Hk Hw).
        transitivity (get block_012 k w * ratio V I (a * 3 + w) * get block_abc w k); [|ring]. f_equal.
        rewrite <- (sumn_delta_r 3 w (fun u => get block_012 k u * ratio V I (a * 3 + u))) by auto. apply sumn_ext. intros u Hu.
        destruct (Nat.eqb_spec u w); ring.
      * unfold mean_load. cbv zeta. replace (a * 3)%nat with (3 * a)%nat by lia. cbn [sumn]. rewrite Nat.add_0_r. fold (ratio V I (3 * a)) (ratio V I (3 * a + 1)) (ratio V I (3 * a + 2)). generalize (ratio V I (3 * a)) (ratio V I (3 * a + 1)) (ratio V I (3 * a + 2)). intros r0 r1 r2.
        assert (K3 : (knat 3 : C) <> 0) by apply k_char0. field. auto.
    + apply sumn_zero. intros w Hw. rewrite (sumn_zero 3); [ring|]. intros; ring.
Qed.
Lemma balanced_mean : forall V I x, balanced V I x -> mean_load V I x = mean_at I (3 * x) / mean_at V (3 * x).
Proof.
  intros V I x [B1 B2]. unfold mean_load. cbv zeta. rewrite B1, B2. assert (K3 : (knat 3 : C) <> 0) by apply k_char0.
  generalize (mean_at I (3 * x) / mean_at V (3 * x)). intro r. transitivity (knat 3 * r / knat 3); [f_equal; cbn [knat]; ring|field; auto].
Qed.
Lemma balanced_loaded : forall (Y V I : mat C) H, (forall x, In x H -> balanced V I x) -> mean_loaded Y V I H = loaded Y V I (phases3 H).
Proof.
  intros Y V I H HB. unfold mean_loaded, loaded. apply mk_ext. intros a b Ha Hb. f_equal. rewrite (existsb_same a (phases3 H) (a / 3)%nat H) by apply phases3_In.
  destruct ((a =? b)%nat) eqn:Q; cbn [andb]; [|reflexivity]. destruct (existsb _ H) eqn:X; [|reflexivity]. apply existsb_In in X. rewrite (balanced_mean _ _ _ (HB _ X)). destruct (HB _ X) as [B1 B2].
  pose proof (Nat.div_mod a 3 ltac:(lia)). pose proof (Nat.mod_upper_bound a 3 ltac:(lia)). replace a with (3 * (a / 3) + a mod 3)%nat at 3 4 by lia.
  destruct (a mod 3)%nat as [|[|[|r]]]; [rewrite Nat.add_0_r; reflexivity|symmetry; exact B1|symmetry; exact B2|lia].
Qed.

(** ** the function up to the reduction *)
Lemma reduce3_start : forall (pinv : mat C -> mat C) (n : net (K := R)) V I hidden y single H G, let N := length (buses n) in let s := kept_ascending N G in
  consistent n -> three_shapes y N -> located n hidden H -> located n (grids n) G -> nc V = (N * 3)%nat -> nc I = (N * 3)%nat -> descending G -> all_before H G ->
  exists Pa, (forall ph x, (ph < 3)%nat -> (In x (Pa ph) <-> idle_at n single ph x)) /\ (forall ph, (ph < 3)%nat -> NoDup (Pa ph)) /\ make_y_bus3 (y 0%nat, y 1%nat, y 2%nat) = Ok (conj3 N (asm y)) /\
  reduce_network3 pinv (y 0%nat, y 1%nat, y 2%nat) n V I hidden single =
  let X := conjS (length s) (block_of (loaded (conj3 N (asm y)) V I (phases3 H)) (phases3 s) (phases3 s)) in
  z0 <- kron_reduction pinv (Pa 0%nat ++ H) (every_third 0 X) ;;
  z1 <- kron_reduction pinv (Pa 1%nat ++ H) (every_third 1 X) ;;
  z2 <- kron_reduction pinv (Pa 2%nat ++ H) (every_third 2 X) ;;
  z <- sum_kron z0 z1 z2 ;;
  z <- admittance_sequence_to_phase z ;;
  Ok (phases3 G ++ reduce_list Pa H, z).
Proof.
  intros pinv n V I hidden y single H G N s C Hy LH LG HV HI De AB. pose proof C as (ND & _).
  destruct (passive3_ok n single C) as (f & Pa & Ef & LP & HP & NP). exists Pa. split; [exact HP|]. split; [exact NP|].
  pose proof (shape_asm y N Hy) as SA. pose proof (shape_conj3 N _ SA) as SY.
  assert (EY : make_y_bus3 (y 0%nat, y 1%nat, y 2%nat) = Ok (conj3 N (asm y))).
  { unfold make_y_bus3. rewrite (sum_kron_asm y N Hy). cbn [bind]. apply seq_to_phase_eq. auto. }
  split; [exact EY|]. unfold reduce_network3. rewrite EY. cbn [bind].
  assert (HG : forall q, In q G -> (q < N)%nat) by (intros q Iq; apply (located_lt n _ _ q LG Iq)).
  assert (HH : forall q, In q H -> (q < N)%nat) by (intros q Iq; apply (located_lt n _ _ q LH Iq)).
  rewrite (drop_ok n _ N G ND SY LG De HG). cbn [bind]. rewrite Ef. cbn [bind].
  rewrite kept_phases3. fold s.
  assert (Es3 : phases3 s = kept3 N G) by (symmetry; apply kept_phases3).
  assert (A1 : forall x, In x H -> at_ s x = x /\ (x < length s)%nat) by (intros x Hx; apply kept_first; auto).
  change (nr (block_of (conj3 N (asm y)) (phases3 s) (phases3 s))) with (length (phases3 s)).
  destruct (to_reduce_ok n V I f Pa hidden H (length (phases3 s)) ND LP LH) as (sh & ES & LS & GS).
  { intros x Ix. rewrite HV, HI, phases3_length. pose proof (HH x Ix). pose proof (proj2 (A1 x Ix)). lia. }
  rewrite ES. cbn [bind]. rewrite !of_phase_list by lia.
  assert (EM : madd (block_of (conj3 N (asm y)) (phases3 s) (phases3 s)) (diagonal sh) = block_of (loaded (conj3 N (asm y)) V I (phases3 H)) (phases3 s) (phases3 s)).
  { rewrite Es3 in *. apply (shunts3_block _ V I (N * 3) (phases3 G)); auto.
    - intros x Ix. apply phases3_In in Ix. pose proof (HH _ Ix). pose proof (Nat.div_mod x 3 ltac:(lia)). pose proof (Nat.mod_upper_bound x 3 ltac:(lia)). lia.
    - intros x p Ix Ip. apply phases3_In in Ix. apply phases3_In in Ip. pose proof (AB _ _ Ix Ip).
      pose proof (Nat.div_mod x 3 ltac:(lia)). pose proof (Nat.mod_upper_bound x 3 ltac:(lia)). pose proof (Nat.div_mod p 3 ltac:(lia)). lia. }
  rewrite EM. rewrite (phase_to_seq_eq (length s)) by (rewrite <- phases3_length; apply block_shape). cbn [bind]. reflexivity.
Qed.
Lemma p_reduce3 : forall (pinv : mat C -> mat C) (n : net (K := R)) V I hidden y single H G E B,
  let N := length (buses n) in
  consistent n -> three_shapes y N -> located n hidden H -> located n (grids n) G -> nc V = (N * 3)%nat -> nc I = (N * 3)%nat ->
  NoDup E -> (forall x, In x E <-> In x H \/ idle_node n x) -> (single = true -> phases_alike n) ->
  descending G -> all_before E G ->
  (forall k, (k < 3)%nat -> let L := sequence_loaded (y k) V I H in
     shape (B k) (length E) (length E) /\ mmul (block_of L E E) (B k) = meye (length E) /\
     forall E', (forall x, In x E' <-> In x E) -> penrose (length E') (length E') (block_of L E' E') (pinv (block_of L E' E'))) ->
  exists Y todel Z order, make_y_bus3 (y 0%nat, y 1%nat, y 2%nat) = Ok Y /\
    reduce_network3 pinv (y 0%nat, y 1%nat, y 2%nat) n V I hidden single = Ok (todel, Z) /\
    (forall x, In x todel <-> In x (phases3 G) \/ In x (phases3 E)) /\
    Permutation order (kept_ascending N (G ++ E)) /\
    (orderly (length (kept_ascending N G)) (length order) -> order = kept_ascending N (G ++ E) /\ phases3 order = kept_ascending (N * 3) todel) /\
    behaves (N * 3) (phases3 G) (phases3 E) (phases3 order) (mean_loaded Y V I H) Z.
Proof.
  intros pinv n V I hidden y single H G E B N C Hy LH LG HV HI NE HE HS De AB HP.
  assert (HG : forall q, In q G -> (q < N)%nat) by (intros q Iq; apply (located_lt n _ _ q LG Iq)).
  assert (HEN : forall x, In x E -> (x < N)%nat).
  { intros x Ix. apply HE in Ix. destruct Ix as [Ix|(i & Ei & _)]; [apply (located_lt n _ _ x LH Ix)|]. unfold ids in Ei. unfold N. rewrite <- (map_length b_id). apply nth_error_Some. congruence. }
  assert (ABH : all_before H G) by (intros x p Ix; apply AB; apply HE; auto).
  set (s := kept_ascending N G). set (m := length s).
  assert (Hs : forall x, In x s -> (x < N)%nat) by (intros x Ix; apply kept_In in Ix; tauto).
  assert (A1 : forall x, In x E -> at_ s x = x /\ (x < m)%nat) by (intros x Hx; apply kept_first; auto).
  assert (AE : forall l, (forall x, In x l -> In x E) -> map (at_ s) l = l).
  { intros l Hl. rewrite <- (map_id l) at 2. apply map_ext_in. intros x Ix. apply A1; auto. }
  destruct (reduce3_start pinv n V I hidden y single H G C Hy LH LG HV HI De ABH) as (Pa & HPa & _ & EY & RS). fold N in EY, RS. fold s in RS. fold m in RS. cbv zeta in RS.
  assert (HI' : forall k, (k < 3)%nat -> forall x, In x (Pa k ++ H) <-> In x E).
  { intros k Hk x. rewrite in_app_iff, HE, HPa by auto. unfold idle_at. destruct single; [|tauto]. split; [|].
    - intros [(i & Ei & Hi)|]; [|auto]. right. exists i. split; [auto|]. apply (HS eq_refl i k); auto. eapply nth_error_In; eauto.
    - intros [|(i & Ei & I0 & I1 & I2)]; [auto|]. left. exists i. split; [auto|]. destruct k as [|[|[|k]]]; auto. lia. }
  set (Bk := fun k => block_of (sequence_loaded (y k) V I H) s s).
  assert (HBk : three_shapes Bk m) by (intros q Hq; apply block_shape).
  assert (HK : forall k, (k < 3)%nat -> exists Z, kron_reduction pinv (Pa k ++ H) (Bk k) = Ok Z /\ describes m (remaining m E) E (Bk k) Z).
  { intros k Hk. destruct (HP k Hk) as (SB & EB & PP). specialize (PP (Pa k ++ H) (HI' k Hk)). destruct PP as (_ & SP & GP & _).
    assert (BI : block_of (Bk k) (Pa k ++ H) (Pa k ++ H) = block_of (sequence_loaded (y k) V I H) (Pa k ++ H) (Pa k ++ H)).
    { unfold Bk. rewrite block_block, AE; auto; intros x Ix; apply (HI' k Hk) in Ix; auto; apply A1; auto. }
    apply (dup_behaviour pinv (Bk k) (B k) m E (Pa k ++ H)); auto.
    - intros i Ii. apply A1; auto.
    - unfold Bk. rewrite block_block, AE; auto; intros x Ix; apply A1; auto.
    - rewrite BI. exact SP.
    - rewrite BI. exact GP. }
  destruct (HK 0%nat) as (Z0 & K0 & D0); [lia|]. destruct (HK 1%nat) as (Z1 & K1 & D1); [lia|]. destruct (HK 2%nat) as (Z2 & K2 & D2); [lia|].
  set (Zk := fun k => match k with 0%nat => Z0 | 1%nat => Z1 | _ => Z2 end).
  assert (DK : forall k, (k < 3)%nat -> describes m (remaining m E) E (Bk k) (Zk k)) by (intros [|[|[|k]]] Hk; auto; lia).
  set (rem := remaining m E) in *.
  assert (HZk : three_shapes Zk (length rem)) by (intros k Hk; apply (DK k Hk)).
  assert (Hrem : forall x, In x rem -> (x < m)%nat) by (intros x Ix; apply remaining_In in Ix; tauto).
  assert (HEm : forall x, In x E -> (x < m)%nat) by (intros x Ix; apply A1; auto).
  pose proof (asm_describes Bk Zk m rem E HBk Hrem HEm DK) as DA.
  pose proof (conj_describes block_abc block_012 m rem E (asm Bk) (asm Zk) shape_abc shape_012 abc_seq seq_abc (shape_asm Bk m HBk) Hrem HEm DA) as DC.
  rewrite <- !TA_loc, <- !TS_loc in DC. change (mmul (mmul (TA m) (asm Bk)) (TS m)) with (conj3 m (asm Bk)) in DC. change (mmul (mmul (TA (length rem)) (asm Zk)) (TS (length rem))) with (conj3 (length rem) (asm Zk)) in DC.
  pose proof (three_loaded y V I N H Hy) as HL.
  assert (EBL : conj3 m (asm Bk) = block_of (mean_loaded (conj3 N (asm y)) V I H) (phases3 s) (phases3 s)).
  { rewrite loaded_conj by auto. unfold conj3. rewrite !TA_loc, !TS_loc. rewrite block_loc by (auto using shape_abc, shape_012, shape_asm).
    rewrite (block_asm _ N) by auto. reflexivity. }
  assert (KR : map (at_ s) (kept_ascending m E) = kept_ascending N (G ++ E)).
  { apply kept_renumber; [|exact HEm]. intro x. rewrite in_app_iff. split.
    - intros [|Ix]; [auto|]. right. exists x. split; [auto|]. apply A1; auto.
    - intros [|(a & Ia & Ea)]; [auto|]. right. destruct (A1 a Ia) as [Q _]. fold s in Ea. rewrite Q in Ea. subst; auto. }
  assert (HT : forall x, In x (phases3 G ++ reduce_list Pa H) <-> In x (phases3 G) \/ In x (phases3 E)).
  { intro x. rewrite in_app_iff, reduce_list_In, !phases3_In. rewrite <- (HI' (x mod 3)%nat) by (apply Nat.mod_upper_bound; lia). rewrite in_app_iff. tauto. }
  exists (conj3 N (asm y)), (phases3 G ++ reduce_list Pa H), (conj3 (length rem) (asm Zk)), (map (at_ s) rem).
  split; [exact EY|]. split; [|split; [exact HT|split; [|split]]].
  - rewrite RS. rewrite !(thirds_loaded y V I N H s) by (auto; try lia; apply kept_NoDup). fold (Bk 0%nat) (Bk 1%nat) (Bk 2%nat). rewrite K0, K1, K2. cbn [bind].
    change Z0 with (Zk 0%nat). change Z1 with (Zk 1%nat). change Z2 with (Zk 2%nat). rewrite (sum_kron_asm Zk (length rem) HZk). cbn [bind].
    rewrite (seq_to_phase_eq (length rem)) by (apply shape_asm; auto). reflexivity.
  - rewrite <- KR. apply Permutation_map. apply remaining_perm.
  - rewrite map_length. intro Or.
    assert (EO : map (at_ s) rem = kept_ascending N (G ++ E)).
    { rewrite <- KR. f_equal. unfold rem in *. rewrite (Permutation_length (remaining_perm m E)) in Or.
      change (kept_ascending m E) with (kept_nodes m E).
      destruct Or as [X|[X|[X|[X|[X|X]]]]]; try (apply remaining_sorted; auto 8; fail). apply remaining_sorted_most; auto. }
    split; [exact EO|]. rewrite EO. rewrite <- kept_phases3. unfold kept_ascending. apply filter_ext. intro x. f_equal. apply existsb_same.
    rewrite HT, phases3_app, in_app_iff. tauto.
  - rewrite EBL in DC.
    assert (SL : shape (mean_loaded (conj3 N (asm y)) V I H) (N * 3) (N * 3)) by (apply shape_mean_loaded, shape_conj3, shape_asm; auto).
    assert (Es3 : phases3 s = kept3 N G) by (symmetry; apply kept_phases3).
    assert (M3 : length (kept3 N G) = (m * 3)%nat) by (rewrite <- Es3; apply phases3_length).
    assert (LT : forall l x, (forall q, In q l -> (q < m)%nat) -> In x (phases3 l) -> (x < m * 3)%nat).
    { intros l x Hl Ix. apply phases3_In in Ix. pose proof (Hl _ Ix). pose proof (Nat.div_mod x 3 ltac:(lia)). pose proof (Nat.mod_upper_bound x 3 ltac:(lia)). lia. }
    rewrite <- (map_at_phases3 s rem Hrem). rewrite <- (AE E) by auto. rewrite <- (map_at_phases3 s E HEm). rewrite Es3 in *.
    apply lift; auto.
    + intros x Ix. apply phases3_In in Ix. pose proof (HG _ Ix). pose proof (Nat.div_mod x 3 ltac:(lia)). pose proof (Nat.mod_upper_bound x 3 ltac:(lia)). lia.
    + intros x Ix. rewrite M3. apply (LT rem); auto.
    + intros x Ix. rewrite M3. apply (LT E); auto.
    + rewrite M3. exact DC.
Qed.

(** ** phases with different numbers of nodes *)
Lemma remaining_count : forall m E, NoDup E -> (forall x, In x E -> (x < m)%nat) -> (length (remaining m E) + length E = m)%nat.
Proof.
  intros m E NE HE. rewrite <- app_length. rewrite <- (seq_length m 0) at 2. apply Permutation_length. apply NoDup_Permutation; [|apply seq_NoDup|].
  - apply NoDup_app_disjoint; [apply remaining_NoDup|auto|]. intros x Ix Ie. apply remaining_In in Ix. tauto.
  - intro x. rewrite in_app_iff, remaining_In, in_seq. destruct (in_dec Nat.eq_dec x E); [|intuition lia]. specialize (HE x i). intuition lia.
Qed.
Lemma p_uneven3 : forall (pinv : mat C -> mat C) (n : net (K := R)) V I hidden y H G E ph ph',
  let N := length (buses n) in
  consistent n -> three_shapes y N -> located n hidden H -> located n (grids n) G -> nc V = (N * 3)%nat -> nc I = (N * 3)%nat ->
  (forall r A, shape A r r -> shape (pinv A) r r) ->
  (forall k, (k < 3)%nat -> NoDup (E k) /\ forall x, In x (E k) <-> In x H \/ exists i, nth_error (ids n) x = Some i /\ idle n k i) ->
  descending G -> (forall k, (k < 3)%nat -> all_before (E k) G) ->
  (ph < 3)%nat -> (ph' < 3)%nat -> length (E ph) <> length (E ph') ->
  reduce_network3 pinv (y 0%nat, y 1%nat, y 2%nat) n V I hidden true = Err ValueError.
Proof.
  intros pinv n V I hidden y H G E ph ph' N C Hy LH LG HV HI SP HE De AB Hp Hp' NL.
  assert (ABH : all_before H G) by (intros x p Ix; apply (AB 0%nat); [lia|apply HE; [lia|auto]]).
  destruct (reduce3_start pinv n V I hidden y true H G C Hy LH LG HV HI De ABH) as (Pa & HPa & _ & _ & ->). cbv zeta. fold N.
  set (s := kept_ascending N G). set (m := length s).
  assert (Hs : forall x, In x s -> (x < N)%nat) by (intros x Ix; apply kept_In in Ix; tauto).
  rewrite !(thirds_loaded y V I N H s) by (auto; try lia; apply kept_NoDup).
  assert (A1 : forall k x, (k < 3)%nat -> In x (E k) -> (x < m)%nat).
  { intros k x Hk Ix. apply kept_first; [|intros p; apply (AB k Hk); auto]. apply HE in Ix; [|auto]. destruct Ix as [Ix|(i & Ei & _)]; [apply (located_lt n _ _ x LH Ix)|].
    unfold N. rewrite <- (map_length b_id). apply nth_error_Some. unfold ids in Ei. congruence. }
  assert (HI' : forall k, (k < 3)%nat -> forall x, In x (Pa k ++ H) <-> In x (E k)).
  { intros k Hk x. rewrite in_app_iff, (proj2 (HE k Hk)), HPa by auto. unfold idle_at. tauto. }
  assert (HK : forall k, (k < 3)%nat -> exists Z, kron_reduction pinv (Pa k ++ H) (block_of (sequence_loaded (y k) V I H) s s) = Ok Z /\ (nr Z + length (E k) = m)%nat).
  { intros k Hk. eexists. split.
    - apply (kron_ok pinv _ m); [apply block_shape|intros i Ii; apply (A1 k); auto; apply HI'; auto|apply SP, block_shape].
    - match goal with |- (nr (reduced ?a ?p ?k ?i) + _)%nat = _ => change (nr (reduced a p k i)) with (length k) end. rewrite (remaining_ext m _ _ (HI' k Hk)). apply remaining_count; [apply HE; auto|intros x Ix; apply (A1 k); auto]. }
  destruct (HK 0%nat) as (Z0 & K0 & L0); [lia|]. destruct (HK 1%nat) as (Z1 & K1 & L1); [lia|]. destruct (HK 2%nat) as (Z2 & K2 & L2); [lia|].
  rewrite K0, K1, K2. cbn [bind]. unfold sum_kron, same_shape.
  destruct (Nat.eqb_spec (nr Z0) (nr Z1)) as [Q1|]; [|reflexivity]. cbn [andb]. destruct (Nat.eqb_spec (nc Z0) (nc Z1)); [|reflexivity]. cbn [andb].
  destruct (Nat.eqb_spec (nr Z0) (nr Z2)) as [Q2|]; [|reflexivity]. exfalso. apply NL.
  assert (A : forall k, (k < 3)%nat -> length (E k) = length (E 0%nat)) by (intros [|[|[|k]]] Hk; lia).
  rewrite (A ph Hp), (A ph' Hp'). reflexivity.
Qed.

(** ** the data *)
Lemma p_data3 : forall (pinv : mat C -> mat C) (n : net (K := R)) V I W hidden y single H G E B Y,
  let N := length (buses n) in
  consistent n -> three_shapes y N -> located n hidden H -> located n (grids n) G -> nc V = (N * 3)%nat -> nc I = (N * 3)%nat -> nr V = nr I ->
  NoDup E -> (forall x, In x E <-> In x H \/ idle_node n x) -> (single = true -> phases_alike n) ->
  descending G -> all_before E G ->
  (forall x, In x (phases3 H) -> mean_at V x <> 0) ->
  (forall k, (k < 3)%nat -> let L := sequence_loaded (y k) V I H in
     shape (B k) (length E) (length E) /\ mmul (block_of L E E) (B k) = meye (length E) /\
     forall E', (forall x, In x E' <-> In x E) -> penrose (length E') (length E') (block_of L E' E') (pinv (block_of L E' E'))) ->
  orderly (length (kept_ascending N G)) (length (kept_ascending N (G ++ E))) ->
  make_y_bus3 (y 0%nat, y 1%nat, y 2%nat) = Ok Y ->
  nc W = (N * 3)%nat -> wf W -> grounded (phases3 G) W ->
  (forall x, In x H -> exists c, forall p, (p < 3)%nat -> proportional V I (3 * x + p) c /\ draws W Y (3 * x + p) c) ->
  (forall x, In x (phases3 E) -> ~ In x (phases3 H) -> draws W Y x 0) ->
  exists todel Z Wr Jr, reduce_network3 pinv (y 0%nat, y 1%nat, y 2%nat) n V I hidden single = Ok (todel, Z) /\
    delete_cols W todel = Ok Wr /\ delete_cols (mmul W Y) todel = Ok Jr /\ mmul Wr Z = Jr.
Proof.
  intros pinv n V I W hidden y single H G E B Y N C Hy LH LG HV HI HR NE HE HS De AB NZ HP Or EY CW WW Gr DH DE.
  destruct (p_reduce3 pinv n V I hidden y single H G E B C Hy LH LG HV HI NE HE HS De AB HP) as (Y' & todel & Z & order & EY' & ER & HT & PO & OO & BZ).
  fold N in PO, OO, BZ. rewrite EY in EY'. injection EY' as <-.
  assert (X3 : forall x p, (p < 3)%nat -> In x H -> In (3 * x + p)%nat (phases3 H)).
  { intros x p Hp Ix. apply phases3_In. replace ((3 * x + p) / 3)%nat with x by (apply (Nat.div_unique _ 3 x p); lia). auto. }
  assert (RT : forall x, In x H -> exists c, forall p, (p < 3)%nat -> mean_at I (3 * x + p) / mean_at V (3 * x + p) = c /\ draws W Y (3 * x + p) c).
  { intros x Ix. destruct (DH x Ix) as (c & D). exists c. intros p Hp. destruct (D p Hp) as [D1 D2]. split; [|auto]. apply mean_ratio; auto. }
  assert (BA : forall x, In x H -> balanced V I x).
  { intros x Ix. destruct (RT x Ix) as (c & D). unfold balanced. pose proof (proj1 (D 0%nat ltac:(lia))) as D0. rewrite Nat.add_0_r in D0. rewrite D0, (proj1 (D 1%nat ltac:(lia))), (proj1 (D 2%nat ltac:(lia))). auto. }
  rewrite balanced_loaded in BZ by auto. rewrite <- (Permutation_length PO) in Or. destruct (OO Or) as [_ EO]. rewrite EO in BZ.
  assert (SY : shape Y (N * 3) (N * 3)).
  { unfold make_y_bus3 in EY. rewrite (sum_kron_asm y N Hy) in EY. cbn [bind] in EY. rewrite (seq_to_phase_eq N) in EY by (apply shape_asm; auto). injection EY as <-. apply shape_conj3, shape_asm; auto. }
  assert (T3 : forall l x, (forall q, In q l -> (q < N)%nat) -> In x (phases3 l) -> (x < N * 3)%nat).
  { intros l x Hl Ix. apply phases3_In in Ix. pose proof (Hl _ Ix). pose proof (Nat.div_mod x 3 ltac:(lia)). pose proof (Nat.mod_upper_bound x 3 ltac:(lia)). lia. }
  assert (HEN : forall x, In x E -> (x < N)%nat).
  { intros x Ix. apply HE in Ix. destruct Ix as [Ix|(i & Ei & _)]; [apply (located_lt n _ _ x LH Ix)|]. unfold ids in Ei. unfold N. rewrite <- (map_length b_id). apply nth_error_Some. congruence. }
  assert (HGN : forall q, In q G -> (q < N)%nat) by (intros q Iq; apply (located_lt n _ _ q LG Iq)).
  assert (LT : forall x, In x todel -> (x < N * 3)%nat) by (intros x Ix; apply HT in Ix; destruct Ix as [Ix|Ix]; [apply (T3 G)|apply (T3 E)]; auto).
  exists todel, Z, (columns W (kept_ascending (N * 3) todel)), (columns (mmul W Y) (kept_ascending (N * 3) todel)).
  split; [exact ER|]. split; [apply delete_columns; auto|]. split; [apply delete_columns; auto; apply SY|].
  apply (p_data (N * 3) (phases3 G) (phases3 E) (phases3 H) todel Y V I); auto.
  - intros x Ix. apply (T3 E); auto.
  - intros x Ix. apply phases3_In. apply phases3_In in Ix. apply HE; auto.
  - intros x Ix. apply phases3_In in Ix. destruct (RT _ Ix) as (c & D). pose proof (Nat.div_mod x 3 ltac:(lia)) as DM. pose proof (Nat.mod_upper_bound x 3 ltac:(lia)) as MU.
    destruct (D _ MU) as [D1 D2]. rewrite <- DM in D1, D2. rewrite D1. exact D2.
Qed.
