(** C80, C81: reducing three-phase networks; C43 with repeated nodes. *)
From Coq Require Import String Bool Arith Lia Lra List Permutation Reals Ring Field.
From Verif Require Import BasePy BaseFld BaseSum BaseMat BaseLin BaseReal ModelErrorMetrics ModelSet ModelKron ModelLines ModelNet ModelReduce ModelReduce3
  SpecMatrix SpecLS SpecLines SpecKron SpecNet SpecReduce SpecReduce3 ProofMatrixOps ProofSet ProofNet ProofKron ProofKronDup ProofLines ProofReduce ProofThree ProofThreeSeq ProofReduce3.
Import ListNotations.
Close Scope string_scope. Open Scope list_scope. Open Scope nat_scope.
Add Field CfPropRed3 : (@k_field C _ _).

(** ** C43: a node may be listed several times *)
Theorem C43_repeated_nodes : forall K (O : Ops K) (F : Fld K) (FR : FReal K) (pinv : mat (cplx K) -> mat (cplx K)) Y B n E idx,
  shape Y n n -> NoDup E -> (forall i, In i E -> i < n) -> (forall x, In x idx <-> In x E) ->
  shape B (length E) (length E) -> mmul (block_of Y E E) B = meye (length E) ->
  penrose (length idx) (length idx) (block_of Y idx idx) (pinv (block_of Y idx idx)) ->
  exists Z order, kron_reduction pinv idx Y = Ok Z /\ Permutation order (kept_ascending n E) /\ describes n order E Y Z.
Proof.
  intros K O F FR pinv Y B n E idx SY NE HE HI SB EB (_ & SP & GP & _).
  destruct (dup_behaviour pinv Y B n E idx SY NE HE HI SB EB SP GP) as (Z & EZ & D). exists Z, (remaining n E).
  split; [exact EZ|]. split; [apply remaining_perm|exact D].
Qed.
Print Assumptions C43_repeated_nodes.

(** ** C80 *)
(** positions are those of the full network; node [x] occupies [3 * x], [3 * x + 1], [3 * x + 2] *)
Theorem C80_nodes_and_phases : forall (pinv : mat C -> mat C) (n : net (K := R)) V I hidden y single H G E B,
  let N := length (buses n) in
  consistent n -> (forall k, k < 3 -> shape (y k) N N) -> located n hidden H -> located n (grids n) G -> nc V = N * 3 -> nc I = N * 3 ->
  NoDup E -> (forall x, In x E <-> In x H \/ idle_node n x) -> (single = true -> phases_alike n) ->
  descending G -> all_before E G ->
  (forall k, k < 3 -> let L := sequence_loaded (y k) V I H in
     shape (B k) (length E) (length E) /\ mmul (block_of L E E) (B k) = meye (length E) /\
     forall E', (forall x, In x E' <-> In x E) -> penrose (length E') (length E') (block_of L E' E') (pinv (block_of L E' E'))) ->
  exists Y todel Z order, make_y_bus3 (y 0, y 1, y 2) = Ok Y /\
    reduce_network3 pinv (y 0, y 1, y 2) n V I hidden single = Ok (todel, Z) /\
    (forall x, In x todel <-> In x (phases3 G) \/ In x (phases3 E)) /\
    Permutation order (kept_ascending N (G ++ E)) /\
    (orderly (length (kept_ascending N G)) (length order) -> order = kept_ascending N (G ++ E) /\ phases3 order = kept_ascending (N * 3) todel) /\
    behaves (N * 3) (phases3 G) (phases3 E) (phases3 order) (mean_loaded Y V I H) Z.
Proof. exact p_reduce3. Qed.
(** loads that are the same on the three phases are kept as they are *)
Theorem C80_balanced_loads : forall (Y V I : mat C) H, (forall x, In x H -> balanced V I x) -> mean_loaded Y V I H = loaded Y V I (phases3 H).
Proof. exact balanced_loaded. Qed.
(** one phase has more nodes without injection than another *)
Theorem C80_uneven_phases_fail : forall (pinv : mat C -> mat C) (n : net (K := R)) V I hidden y H G E ph ph',
  let N := length (buses n) in
  consistent n -> (forall k, k < 3 -> shape (y k) N N) -> located n hidden H -> located n (grids n) G -> nc V = N * 3 -> nc I = N * 3 ->
  (forall r A, shape A r r -> shape (pinv A) r r) ->
  (forall k, k < 3 -> NoDup (E k) /\ forall x, In x (E k) <-> In x H \/ exists i, nth_error (ids n) x = Some i /\ idle n k i) ->
  descending G -> (forall k, k < 3 -> all_before (E k) G) ->
  ph < 3 -> ph' < 3 -> length (E ph) <> length (E ph') ->
  reduce_network3 pinv (y 0, y 1, y 2) n V I hidden true = Err ValueError.
Proof. exact p_uneven3. Qed.
Print Assumptions C80_nodes_and_phases.
Print Assumptions C80_balanced_loads.
Print Assumptions C80_uneven_phases_fail.

(** ** C81 *)
Theorem C81_reduced_data : forall (pinv : mat C -> mat C) (n : net (K := R)) V I W hidden y single H G E B Y,
  let N := length (buses n) in
  consistent n -> (forall k, k < 3 -> shape (y k) N N) -> located n hidden H -> located n (grids n) G -> nc V = N * 3 -> nc I = N * 3 -> nr V = nr I ->
  NoDup E -> (forall x, In x E <-> In x H \/ idle_node n x) -> (single = true -> phases_alike n) ->
  descending G -> all_before E G ->
  (forall x, In x (phases3 H) -> mean_at V x <> 0%K) ->
  (forall k, k < 3 -> let L := sequence_loaded (y k) V I H in
     shape (B k) (length E) (length E) /\ mmul (block_of L E E) (B k) = meye (length E) /\
     forall E', (forall x, In x E' <-> In x E) -> penrose (length E') (length E') (block_of L E' E') (pinv (block_of L E' E'))) ->
  orderly (length (kept_ascending N G)) (length (kept_ascending N (G ++ E))) ->
  make_y_bus3 (y 0, y 1, y 2) = Ok Y ->
  nc W = N * 3 -> wf W -> grounded (phases3 G) W ->
  (forall x, In x H -> exists c, forall p, p < 3 -> proportional V I (3 * x + p) c /\ draws W Y (3 * x + p) c) ->
  (forall x, In x (phases3 E) -> ~ In x (phases3 H) -> draws W Y x 0%K) ->
  exists todel Z Wr Jr, reduce_network3 pinv (y 0, y 1, y 2) n V I hidden single = Ok (todel, Z) /\
    delete_cols W todel = Ok Wr /\ delete_cols (mmul W Y) todel = Ok Jr /\ mmul Wr Z = Jr.
Proof. exact p_data3. Qed.
Print Assumptions C81_reduced_data.

(** ** concrete networks: three buses in a row *)
Definition t_load (k : nat) (p : R * R * R) : bus_data (K := R) := let '(a, b, c) := p in BusData k 1 (Phases a b c) (Phases 0%R 0%R 0%R) 1%R 0%R 0%R.
Definition t_grid (k : nat) : bus_data (K := R) := BusData k 3 (Single 0%R) (Single 0%R) 1%R 0%R 0%R.
Definition t_net (l : list (nat * (R * R * R))) (g : nat) : net (K := R) :=
  Net (map (fun k => Bus k (str k) 1%R) [1; 2; 3]) [Load g g 0%R 0%R 0%R 0%R]
    (map (fun e => let '(k, (a, b, c)) := e in Asym k k (phase_of (Phases a b c)) (phase_of (Phases 0%R 0%R 0%R))) l) [g] [] 1%R [].
Lemma t_built_last : forall p q, NetData3P [] (Some [t_load 1 p; t_load 2 q; t_grid 3]) (Some []) None = Ok (t_net [(1, p); (2, q)] 3).
Proof. intros [[a b] c] [[d e] f]. reflexivity. Qed.
Lemma t_built_first : forall p q, NetData3P [] (Some [t_grid 1; t_load 2 p; t_load 3 q]) (Some []) None = Ok (t_net [(2, p); (3, q)] 1).
Proof. intros [[a b] c] [[d e] f]. reflexivity. Qed.
Lemma t_consistent : forall i p j q g, i <> j -> In i [1; 2; 3] -> In j [1; 2; 3] -> In g [1; 2; 3] -> consistent (t_net [(i, p); (j, q)] g).
Proof.
  intros i [[a b] c] j [[d e] f] g Nij Ii Ij Ig. unfold consistent, ids, t_net. cbn [buses loads asyms lines grids map b_id n_id l_bus a_bus].
  split; [repeat constructor; cbn; intuition discriminate|]. split; [intros x [<-|[<-|[<-|[]]]]; reflexivity|]. split; [constructor|]. split; [intros x []|].
  split; [repeat constructor; cbn; tauto|]. split; [intros x [<-|[]]; auto|]. split; [repeat constructor; cbn; intuition congruence|].
  split; [intros x [<-|[<-|[]]]; auto|]. intros x [<-|[]]; auto.
Qed.
Definition phase (p : R * R * R) (k : nat) : R := let '(a, b, c) := p in phase_of (Phases a b c) k.
Lemma t_idle : forall i p j q g k x, i <> j -> idle (t_net [(i, p); (j, q)] g) k x <-> x <> g /\ (x = i -> phase p k = 0%R) /\ (x = j -> phase q k = 0%R).
Proof.
  intros i [[a b] c] j [[d e] f] g k x Nij. unfold idle, t_net. cbn [loads asyms grids map phase]. split.
  - intros (A & B & D). split; [intro; apply A; cbn; auto|]. split; intro; [apply (D (Asym i i (phase_of (Phases a b c)) (phase_of (Phases 0%R 0%R 0%R))))|apply (D (Asym j j (phase_of (Phases d e f)) (phase_of (Phases 0%R 0%R 0%R))))]; cbn; auto.
  - intros (A & B & D). split; [intros [X|[]]; auto|]. split; [intros l [<-|[]] <-; cbn; auto|].
    intros l [<-|[<-|[]]] <-; cbn [a_bus a_p a_q]; (split; [auto|destruct k as [|[|k]]; reflexivity]).
Qed.
(** lines of admittance 1 from bus 1 to bus 2 and from bus 2 to bus 3 *)
Definition t_y : mat C := mk 3 3 (fun i j => match i, j with 0, 0 => 1 | 0, 1 => - (1) | 1, 0 => - (1) | 1, 1 => 1 + 1 | 1, 2 => - (1) | 2, 1 => - (1) | 2, 2 => 1 | _, _ => 0 end)%K.
Lemma t_three : three_shapes (fun _ => t_y) 3.
Proof. intros k Hk. apply shape_mk. Qed.
(** the three phases do not influence each other *)
Definition t_Y : mat C := conj3 3 (asm (fun _ => t_y)).
Lemma get_equal : forall y N i j p q, three_shapes (fun _ => y) N -> i < N -> j < N -> p < 3 -> q < 3 ->
  get (conj3 N (asm (fun _ => y))) (i * 3 + p) (j * 3 + q) = (if (p =? q)%nat then get y i j else 0)%K.
Proof.
  intros y N i j p q Hy Hi Hj Hp Hq. rewrite get_conj3 by (auto; apply shape_asm; auto).
  assert (EI : get (meye 3 : mat C) p q = sumn 3 (fun w => get block_abc p w * get block_012 w q)%K) by (rewrite <- abc_seq, get_mmul by (cbn; auto); reflexivity).
  rewrite get_meye in EI by auto.
  transitivity (get y i j * sumn 3 (fun w => get block_abc p w * get block_012 w q))%K.
  - rewrite <- sumn_scal_l. apply sumn_ext. intros w Hw.
    transitivity (get y i j * get block_abc p w * get block_012 w q)%K; [|ring]. f_equal.
    rewrite <- (sumn_delta_r 3 w (fun u => get y i j * get block_abc p u)%K) by auto. apply sumn_ext. intros u Hu. rewrite (get_asm _ N) by auto.
    destruct (Nat.eqb_spec u w); ring.
  - rewrite <- EI. destruct (p =? q); ring.
Qed.
Lemma shape_t_Y : shape t_Y 9 9.
Proof. apply (shape_conj3 3), (shape_asm _ 3), t_three. Qed.
Lemma t_bus3 : make_y_bus3 (t_y, t_y, t_y) = Ok t_Y.
Proof. unfold make_y_bus3. rewrite (sum_kron_asm (fun _ => t_y) 3 t_three). cbn [bind]. apply (seq_to_phase_eq 3). apply (shape_asm _ 3), t_three. Qed.

(** the pseudoinverse of a matrix with equal entries *)
Definition p_inv (m : mat C) : mat C := mk (nr m) (nr m) (fun _ _ => kinv (get m 0 0 * knat (nr m) * knat (nr m)))%K.
Lemma p_inv_shape : forall r A, shape A r r -> shape (p_inv A) r r.
Proof. intros r A (_ & R & _). unfold p_inv. rewrite R. apply shape_mk. Qed.
Lemma conj_count : forall r, conj (knat r : C) = knat r.
Proof. induction r as [|r IH]; [apply conj_0|]. cbn [knat]. change (knat r + 1)%K with (cadd (knat r) 1%K). rewrite conj_add, IH, conj_1. reflexivity. Qed.
Lemma conj_inverse : forall z : C, z <> 0%K -> conj z = z -> conj (kinv z) = kinv z.
Proof.
  intros z Hz Cz. assert (E : (z * kinv z)%K = 1%K) by (field; auto). pose proof (f_equal conj E) as E2. change (z * kinv z)%K with (cmul z (kinv z)) in E2. rewrite conj_mul, Cz, conj_1 in E2.
  change (cmul z (conj (kinv z))) with (z * conj (kinv z))%K in E2. transitivity (kinv z * (z * conj (kinv z)))%K; [field; auto|]. rewrite E2. ring.
Qed.
Lemma same_penrose : forall r (a : C), a <> 0%K -> conj a = a -> r <> 0 ->
  let A := mk r r (fun _ _ => a) in penrose r r A (p_inv A).
Proof.
  intros r a Ha Ca Hr A. assert (Kr : (knat r : C) <> 0%K) by (apply knat_neq0; auto).
  pose proof (conj_inverse (knat r) Kr (conj_count r)) as Cr.
  assert (EP : p_inv A = mk r r (fun _ _ => kinv (a * knat r * knat r))%K).
  { unfold p_inv, A. cbn [nr mk]. apply mk_ext. intros i j Hi Hj. rewrite get_mk by lia. reflexivity. }
  assert (MM : forall x z : C, mmul (mk r r (fun _ _ => x)) (mk r r (fun _ _ => z)) = mk r r (fun _ _ => knat r * (x * z))%K).
  { intros x z. apply (gshape_ext _ _ r r); [split; [apply wf_mk|cbn; auto]|apply shape_mk|]. intros i j Hi Hj. rewrite get_mmul by (cbn; auto). cbn [nc mk].
    rewrite get_mk by auto. rewrite <- sumn_const. apply sumn_ext. intros k Hk. rewrite !get_mk by auto. reflexivity. }
  rewrite EP. unfold A. split; [apply shape_mk|]. split; [apply shape_mk|]. rewrite !MM.
  split; [apply mk_ext; intros; field; auto|]. split; [apply mk_ext; intros; field; auto|].
  assert (CC : forall x : C, conj x = x -> ctr (mk r r (fun _ _ => x)) = mk r r (fun _ _ => x)).
  { intros x Hx. unfold ctr. cbn [nr nc mk]. apply mk_ext. intros i j Hi Hj. rewrite get_mk by auto. exact Hx. }
  split; apply CC.
  - replace (knat r * (a * kinv (a * knat r * knat r)))%K with (kinv (knat r) : C)%K by (field; auto). exact Cr.
  - replace (knat r * (kinv (a * knat r * knat r) * a))%K with (kinv (knat r) : C)%K by (field; auto). exact Cr.
Qed.
Definition one (z : C) : mat C := mk 1 1 (fun _ _ => z).
Definition two_reduced (M : mat C) (e : nat) : C := let o := 1 - e in (get M o o - get M o e * kinv (get M e e) * get M e o)%K.
Lemma kron_two : forall e (M : mat C), e < 2 -> shape M 2 2 -> kron_reduction p_inv [e] M = Ok (one (two_reduced M e)).
Proof.
  intros e M He SM. rewrite (kron_ok p_inv M 2 [e]); [|auto|intros i [<-|[]]; auto|apply p_inv_shape, block_shape].
  assert (ER : remaining 2 [e] = [1 - e]) by (destruct e as [|[|e]]; [vm_compute; reflexivity|vm_compute; reflexivity|lia]). rewrite ER. f_equal.
  apply (gshape_ext _ _ 1 1); [apply shape_mk|apply shape_mk|]. intros i j Hi Hj. replace i with 0 by lia. replace j with 0 by lia.
  unfold reduced, msubt, one. rewrite !get_mk by (cbn; lia). unfold two_reduced. cbv zeta.
  rewrite get_block by (cbn; lia). rewrite get_mmul by (cbn; lia). match goal with |- context [sumn (nc ?a)] => change (nc a) with 1 end. cbn [sumn]. rewrite get_mmul by (cbn; lia). match goal with |- context [sumn (nc ?a)] => change (nc a) with 1 end. cbn [sumn].
  rewrite !get_block by (cbn; lia). unfold p_inv. rewrite get_mk by (cbn; lia). rewrite get_block by (cbn; lia). cbn [nth nr mk block_of length knat].
  replace (get M e e * (0 + 1) * (0 + 1))%K with (get M e e) by ring. ring.
Qed.
Lemma only_one : forall l (e : nat), NoDup l -> (forall x, In x l <-> x = e) -> l = [e].
Proof.
  intros l e ND H. apply Permutation_length_1_inv. apply NoDup_Permutation; [repeat constructor; cbn; tauto|auto|]. intro x. rewrite H. cbn. intuition.
Qed.
Lemma only_none : forall l : list nat, (forall x, In x l <-> False) -> l = [].
Proof. intros [|a l] H; [reflexivity|]. exfalso. apply (H a). cbn; auto. Qed.
Lemma t_run : forall n V I hidden single H g s e, consistent n -> length (buses n) = 3 -> located n hidden H -> located n (grids n) [g] -> nc V = 9 -> nc I = 9 ->
  all_before H [g] -> kept_ascending 3 [g] = s -> length s = 2 -> (forall k, k < 3 -> e k < 2) ->
  (forall Pa, (forall k x, k < 3 -> (In x (Pa k) <-> idle_at n single k x)) -> (forall k, k < 3 -> NoDup (Pa k)) -> forall k, k < 3 -> Pa k ++ H = [e k]) ->
  exists todel, reduce_network3 p_inv (t_y, t_y, t_y) n V I hidden single =
    Ok (todel, conj3 1 (asm (fun k => one (two_reduced (block_of (sequence_loaded t_y V I H) s s) (e k))))) /\
    forall x, In x todel <-> In x (phases3 [g]) \/ x / 3 = e (x mod 3).
Proof.
  intros n V I hidden single H g s e C LN LH LG HV HI AB ES LS He HPa.
  destruct (reduce3_start p_inv n V I hidden (fun _ => t_y) single H [g] C) as (Pa & PI & PN & _ & RS); rewrite ?LN; auto using t_three; [split; [intros q []|exact Logic.I]|].
  rewrite LN, ES in RS. cbv zeta in RS. rewrite RS.
  assert (Hs : forall x, In x s -> x < 3) by (intros x Ix; rewrite <- ES in Ix; apply kept_In in Ix; tauto).
  assert (Ns : NoDup s) by (rewrite <- ES; apply kept_NoDup).
  rewrite !(thirds_loaded (fun _ => t_y) V I 3 H s) by (auto using t_three).
  pose proof (HPa Pa PI PN) as HK. rewrite !HK by lia.
  assert (SM : shape (block_of (sequence_loaded t_y V I H) s s) 2 2) by (rewrite <- LS; apply block_shape).
  rewrite !kron_two by auto. cbn [bind].
  rewrite (sum_kron_asm (fun k => one (two_reduced (block_of (sequence_loaded t_y V I H) s s) (e k))) 1) by (intros k Hk; apply shape_mk). cbn [bind].
  rewrite (seq_to_phase_eq 1) by (apply (shape_asm _ 1); intros k Hk; apply shape_mk). cbn [bind].
  eexists. split; [reflexivity|]. intro x. rewrite in_app_iff, reduce_list_In. rewrite <- in_app_iff, HK by (apply Nat.mod_upper_bound; lia). cbn [In]. intuition.
Qed.
Lemma conj3_one : forall z p q, p < 3 -> q < 3 -> get (conj3 1 (asm (fun k => one (z k)))) p q = sumn 3 (fun w => get block_abc p w * z w * get block_012 w q)%K.
Proof.
  intros z p q Hp Hq. assert (SZ : three_shapes (fun k => one (z k)) 1) by (intros k Hk; apply shape_mk).
  change (get (conj3 1 (asm (fun k => one (z k)))) (0 * 3 + p) (0 * 3 + q) = sumn 3 (fun w => get block_abc p w * z w * get block_012 w q)%K).
  rewrite get_conj3 by (auto; apply (shape_asm _ 1); auto). apply sumn_ext. intros w Hw. f_equal.
  rewrite <- (sumn_delta_r 3 w (fun u => get block_abc p u * z u)%K) by auto. apply sumn_ext. intros u Hu. rewrite (get_asm _ 1) by auto.
  unfold one. destruct (Nat.eqb_spec u w) as [->|]; [rewrite get_mk by lia|]; ring.
Qed.
Lemma abc_at : forall p q, p < 3 -> q < 3 -> sumn 3 (fun w => get block_abc p w * get block_012 w q)%K = (if (p =? q)%nat then 1 else 0)%K.
Proof. intros p q Hp Hq. rewrite <- (get_meye 3) by auto. rewrite <- abc_seq, get_mmul by (cbn; auto). reflexivity. Qed.
Lemma conj3_same : forall z p q, p < 3 -> q < 3 -> get (conj3 1 (asm (fun k => one z))) p q = (if (p =? q)%nat then z else 0)%K.
Proof.
  intros z p q Hp Hq. rewrite (conj3_one (fun _ => z)) by auto. transitivity (z * sumn 3 (fun w => get block_abc p w * get block_012 w q))%K.
  - rewrite <- sumn_scal_l. apply sumn_ext. intros; ring.
  - rewrite abc_at by auto. destruct (p =? q); ring.
Qed.
(** when every kept node draws a current of its own voltage only, the reduced matrix is diagonal *)
Lemma diagonal_behaviour : forall N G E order (Y Z : mat C) d, behaves N G E order Y Z ->
  (forall V, nc V = N -> grounded G V -> no_injection E V Y -> forall x, 0 < nr V -> In x order -> get (mmul V Y) 0 x = (d x * get V 0%nat x)%K) ->
  forall j k, j < length order -> k < length order -> get Z j k = (if (j =? k)%nat then d (nth k order 0%nat) else 0)%K.
Proof.
  intros N G E order Y Z d (SZ & D & X) HD j k Hj Hk.
  destruct (X 1 (mk 1 (length order) (fun _ i => if (i =? j)%nat then 1 else 0)%K)) as (V & (WV & RV & CV) & Gr & NI & EV); [apply shape_mk|].
  pose proof (D V CV WV Gr NI 0 k ltac:(lia) Hk) as E1. rewrite (HD V CV Gr NI) in E1 by (auto; try lia; apply nth_In; auto).
  rewrite EV in E1 by (auto; lia). rewrite get_mk in E1 by lia.
  rewrite (sumn_ext _ _ (fun i => (if (j =? i)%nat then 1 else 0) * get Z i k)%K) in E1.
  - rewrite (sumn_delta_l _ j) in E1 by auto. rewrite <- E1. rewrite (Nat.eqb_sym j k). destruct (k =? j); ring.
  - intros i Hi. rewrite EV by (auto; lia). rewrite get_mk by lia. rewrite (Nat.eqb_sym j i). reflexivity.
Qed.
Lemma t_product : forall (V : mat C) t j q, nc V = 9 -> t < nr V -> j < 3 -> q < 3 ->
  get (mmul V t_Y) t (j * 3 + q) = sumn 3 (fun i => get V t (i * 3 + q) * get t_y i j)%K.
Proof.
  intros V t j q CV Ht Hj Hq. rewrite get_mmul by (auto; rewrite (proj2 (proj2 shape_t_Y)); lia). rewrite CV. change 9 with (3 * 3). rewrite sumn_mul. apply sumn_ext. intros i Hi.
  rewrite <- (sumn_delta_r 3 q (fun p => get V t (i * 3 + p) * get t_y i j)%K) by auto. apply sumn_ext. intros p Hp.
  unfold t_Y. rewrite get_equal by auto using t_three. destruct (Nat.eqb_spec p q) as [->|]; ring.
Qed.
Lemma t_in : forall x, In x [1; 2; 3] <-> (x = 1 \/ x = 2 \/ x = 3). Proof. intro x. cbn. intuition. Qed.
Lemma t_at : forall l g x i, nth_error (ids (t_net l g)) x = Some i <-> x < 3 /\ i = x + 1.
Proof.
  intros l g x i. unfold ids, t_net. cbn [buses map b_id]. destruct x as [|[|[|x]]]; cbn [nth_error]; split; try (intro E; injection E as <-; lia); try (intros [? ->]; reflexivity); [|lia].
  destruct x; discriminate.
Qed.
(** [pinv] is right for matrices with equal real entries, in particular for real numbers *)
Definition right_inverse (pinv : mat C -> mat C) : Prop :=
  (forall r A, shape A r r -> shape (pinv A) r r) /\
  forall r (a : C), a <> 0%K -> conj a = a -> r <> 0 -> penrose r r (mk r r (fun _ _ => a)) (pinv (mk r r (fun _ _ => a))).
Lemma p_inv_right : right_inverse p_inv.
Proof. split; [exact p_inv_shape|]. intros. apply same_penrose; auto. Qed.
Lemma t_first : forall (V : mat C) q, nc V = 9 -> 0 < nr V -> q < 3 -> get (mmul V t_Y) 0 q = (get V 0 q - get V 0 (3 + q)%nat)%K.
Proof. intros V q CV Ht Hq. change q with (0 * 3 + q) at 1. rewrite t_product by auto. cbn [sumn]. unfold t_y. rewrite !get_mk by lia. change (0 * 3 + q)%nat with q. change (1 * 3 + q)%nat with (3 + q). ring. Qed.
Lemma t_second : forall (V : mat C) q, nc V = 9 -> 0 < nr V -> q < 3 -> get (mmul V t_Y) 0 (3 + q) = ((1 + 1) * get V 0 (3 + q)%nat - get V 0 q - get V 0 (6 + q)%nat)%K.
Proof. intros V q CV Ht Hq. change (3 + q) with (1 * 3 + q) at 1. rewrite t_product by auto. cbn [sumn]. unfold t_y. rewrite !get_mk by lia. change (0 * 3 + q)%nat with q. change (1 * 3 + q)%nat with (3 + q). change (2 * 3 + q)%nat with (6 + q). ring. Qed.
Lemma t_third : forall (V : mat C) q, nc V = 9 -> 0 < nr V -> q < 3 -> get (mmul V t_Y) 0 (6 + q) = (get V 0 (6 + q)%nat - get V 0 (3 + q)%nat)%K.
Proof. intros V q CV Ht Hq. change (6 + q) with (2 * 3 + q) at 1. rewrite t_product by auto. cbn [sumn]. unfold t_y. rewrite !get_mk by lia. change (0 * 3 + q)%nat with q. change (1 * 3 + q)%nat with (3 + q). change (2 * 3 + q)%nat with (6 + q). ring. Qed.
Lemma two_neq : (1 + 1 : C)%K <> 0%K.
Proof. intro E. apply (k_char0 (K := C) 1). cbn [knat]. transitivity (1 + 1 : C)%K; [ring|exact E]. Qed.
Lemma one_neq : (1 : C)%K <> 0%K.
Proof. intro E. apply (k_char0 (K := C) 0). cbn [knat]. transitivity (1 : C)%K; [ring|exact E]. Qed.
Lemma not_zero : 1%R <> 0%R. Proof. lra. Qed.

(** *** different nodes without injection on different phases, equally many per phase: bus 1 has a load on phase b,
    bus 2 on phases a and c *)
Definition c80_mixed := t_net [(1, (0, 1, 0)%R); (2, (1, 0, 1)%R)] 3.
Definition c80_e (k : nat) : nat := match k with 1 => 1 | _ => 0 end.
Definition c80_V : mat C := mk 1 9 (fun _ _ => 1)%K.
Lemma c80_mixed_idle : forall k x, k < 3 -> (exists i, nth_error (ids c80_mixed) x = Some i /\ idle c80_mixed k i) <-> x = c80_e k.
Proof.
  intros k x Hk. split.
  - intros (i & Ei & Hi). unfold c80_mixed in *. apply t_at in Ei. destruct Ei as [Hx ->]. apply t_idle in Hi; [|lia]. destruct Hi as (A & B & D).
    destruct k as [|[|[|k]]]; [| | |lia]; destruct x as [|[|[|x]]]; try lia; try reflexivity; exfalso; cbn in B, D; (apply not_zero; (apply B || apply D); lia).
  - intros ->. exists (c80_e k + 1). unfold c80_mixed. split; [apply t_at; destruct k as [|[|k]]; cbn; lia|]. apply t_idle; [lia|].
    destruct k as [|[|[|k]]]; [| | |lia]; cbn; (split; [lia|split; intro; auto; lia]).
Qed.
Lemma abc_neq : forall p w q, p < 3 -> w < 3 -> q < 3 -> (get block_abc p w * get block_012 w q)%K <> 0%K.
Proof.
  intros p w q Hp Hw Hq E. assert (K3 : (knat 3 : C) <> 0%K) by apply k_char0.
  pose proof (turns w p Hw Hp) as T1. pose proof (turns w q Hw Hq) as T2.
  assert (X : (1 / knat 3 * (1 / knat 3) : C)%K = 0%K).
  { rewrite <- T1 at 1. rewrite <- T2. transitivity (get block_abc p w * get block_012 w q * (get block_012 w p * get block_abc q w))%K; [ring|]. rewrite E. ring. }
  apply (f_equal (fun z => z * (knat 3 * knat 3))%K) in X. apply (k_char0 (K := C) 0). cbn [knat]. transitivity (1 / knat 3 * (1 / knat 3) * (knat 3 * knat 3) : C)%K; [field; auto|]. rewrite X. ring.
Qed.
Theorem C80_other_nodes_per_phase_refuted : exists (pinv : mat C -> mat C) (n : net (K := R)) V I y Y G todel Z,
  right_inverse pinv /\ consistent n /\ length (buses n) = 3 /\ shape V 1 9 /\ shape I 1 9 /\ shape y 3 3 /\ located n (grids n) G /\ descending G /\
  (forall ph x i, ph < 3 -> nth_error (ids n) x = Some i -> idle n ph i -> all_before [x] G) /\
  make_y_bus3 (y, y, y) = Ok Y /\ reduce_network3 pinv (y, y, y) n V I [] true = Ok (todel, Z) /\
  (forall x, In x todel <-> In x (phases3 G) \/ exists i, nth_error (ids n) (x / 3) = Some i /\ idle n (x mod 3) i) /\
  forall order E, (forall x, In x E <-> exists i, nth_error (ids n) (x / 3) = Some i /\ idle n (x mod 3) i) ->
    Permutation order (kept_ascending 9 todel) -> ~ behaves 9 (phases3 G) E order Y Z.
Proof.
  assert (CN : consistent c80_mixed) by (apply t_consistent; rewrite ?t_in; lia).
  destruct (t_run c80_mixed c80_V c80_V [] true [] 2 [0; 1] c80_e) as (todel & ER & HT); auto.
  { constructor. } { repeat constructor. } { intros x p []. } { intros k Hk. destruct k as [|[|k]]; cbn; lia. }
  { intros Pa PI PN k Hk. rewrite app_nil_r. apply only_one; [auto|]. intro x. rewrite PI by auto. apply c80_mixed_idle; auto. }
  set (Z := conj3 1 _) in ER.
  exists p_inv, c80_mixed, c80_V, c80_V, t_y, t_Y, [2], todel, Z.
  split; [exact p_inv_right|]. split; [exact CN|]. split; [reflexivity|]. split; [apply shape_mk|]. split; [apply shape_mk|]. split; [apply shape_mk|].
  split; [repeat constructor|]. split; [split; [intros q []|exact Logic.I]|].
  split. { intros ph x i Hp Ei Hi x' p [<-|[]] [<-|[]]. assert (x = c80_e ph) as -> by (apply c80_mixed_idle; eauto). destruct ph as [|[|ph]]; cbn; lia. }
  split; [exact t_bus3|]. split; [exact ER|].
  assert (MI : forall x, (exists i, nth_error (ids c80_mixed) (x / 3) = Some i /\ idle c80_mixed (x mod 3) i) <-> x / 3 = c80_e (x mod 3)) by (intro x; apply c80_mixed_idle, Nat.mod_upper_bound; lia).
  split. { intro x. rewrite HT, MI. tauto. }
  intros order E HE PO BZ.
  assert (EI : forall x, In x E <-> x / 3 = c80_e (x mod 3)) by (intro x; rewrite HE; apply MI).
  assert (LO : length order = 3) by (destruct BZ as ((_ & R & _) & _); cbn in R; lia).
  assert (D : get Z 0 1 = 0%K).
  { rewrite (diagonal_behaviour 9 (phases3 [2]) E order t_Y Z (fun x => if (x mod 3 =? 1)%nat then kinv (1 + 1) else 1)%K BZ); [reflexivity| |lia|lia].
    intros V CV Gr NI x RV Ix. apply (Permutation_in _ PO), kept_In in Ix. destruct Ix as [Lx Nx]. rewrite HT in Nx.
    assert (G6 : forall q, q < 3 -> get V 0 (6 + q) = 0%K) by (intros q Hq; apply Gr; auto; cbn; lia).
    assert (N0 : forall x, x / 3 = c80_e (x mod 3) -> get (mmul V t_Y) 0 x = 0%K) by (intros z Hz; apply NI; auto; apply EI; auto).
    pose proof two_neq as T2.
    destruct x as [|[|[|[|[|[|x]]]]]]; try (exfalso; apply Nx; cbn; lia).
    - pose proof (N0 4 eq_refl) as N4. change 4 with (3 + 1) in N4. rewrite t_second, G6 in N4 by (auto; lia). rewrite t_first by (auto; lia). cbn [Nat.modulo Nat.divmod fst snd Nat.sub Nat.eqb].
      transitivity (kinv (1 + 1) * (get V 0%nat 1%nat - ((1 + 1) * get V 0%nat (3 + 1)%nat - get V 0%nat 1%nat - 0)))%K; [field; auto|]. rewrite N4. ring.
    - pose proof (N0 0 eq_refl) as N4. rewrite t_first in N4 by (auto; lia). change 3 with (3 + 0). rewrite t_second, G6 by (auto; lia).
      transitivity (get V 0%nat 3%nat - (get V 0%nat 0%nat - get V 0%nat (3 + 0)%nat))%K; [cbn [Nat.add]; ring|]. rewrite N4. cbn [Nat.modulo Nat.divmod fst snd Nat.sub Nat.eqb Nat.add]; ring.
    - pose proof (N0 2 eq_refl) as N4. rewrite t_first in N4 by (auto; lia). change 5 with (3 + 2). rewrite t_second, G6 by (auto; lia).
      transitivity (get V 0%nat (3 + 2)%nat - (get V 0%nat 2%nat - get V 0%nat (3 + 2)%nat))%K; [ring|]. rewrite N4. cbn [Nat.modulo Nat.divmod fst snd Nat.sub Nat.eqb Nat.add]; ring. }
  revert D. unfold Z. rewrite (conj3_one (fun k => two_reduced (block_of (sequence_loaded t_y c80_V c80_V []) [0; 1] [0; 1]) (c80_e k))) by lia.
  set (M := block_of _ _ _).
  assert (GM : forall a b, a < 2 -> b < 2 -> get M a b = get t_y a b).
  { intros a b Ha Hb. unfold M. rewrite get_block by (cbn; lia). unfold sequence_loaded. destruct a as [|[|a]], b as [|[|b]]; try lia; rewrite get_mk by (cbn; lia); cbn [nth Nat.eqb existsb andb]; ring. }
  assert (R0 : two_reduced M 0 = 1%K).
  { unfold two_reduced. cbv zeta. cbn [Nat.sub]. rewrite !GM by lia. unfold t_y. rewrite !get_mk by lia. field. exact one_neq. }
  assert (R1 : two_reduced M 1 = (1 - kinv (1 + 1))%K).
  { unfold two_reduced. cbv zeta. cbn [Nat.sub]. rewrite !GM by lia. unfold t_y. rewrite !get_mk by lia. field. exact two_neq. }
  intro D. rewrite (sumn_ext 3 _ (fun w => get block_abc 0 w * get block_012 w 1 - (if (1 =? w)%nat then 1 else 0) * (kinv (1 + 1) * (get block_abc 0 w * get block_012 w 1)))%K) in D.
  - rewrite sumn_sub, abc_at, (sumn_delta_l 3 1) in D by lia. cbn [Nat.eqb] in D. pose proof two_neq as T2.
    apply (abc_neq 0 1 1 ltac:(lia) ltac:(lia) ltac:(lia)).
    transitivity (- (1 + 1) * (0 - kinv (1 + 1) * (get block_abc 0 1 * get block_012 1 1)))%K; [field; auto|]. rewrite D. ring.
  - intros w Hw. destruct w as [|[|[|w]]]; [| | |lia]; cbn [c80_e Nat.eqb]; rewrite ?R0, ?R1; ring.
Qed.
Print Assumptions C80_other_nodes_per_phase_refuted.

(** *** the loads of a hidden node are unbalanced: bus 1 is hidden and draws a current on phase a only *)
Definition c80_full := t_net [(1, (1, 1, 1)%R); (2, (1, 1, 1)%R)] 3.
Lemma c80_full_idle : forall k x, k < 3 -> (exists i, nth_error (ids c80_full) x = Some i /\ idle c80_full k i) <-> False.
Proof.
  intros k x Hk. split; [|tauto]. intros (i & Ei & Hi). unfold c80_full in *. apply t_at in Ei. destruct Ei as [Hx ->]. apply t_idle in Hi; [|lia]. destruct Hi as (A & B & D).
  destruct k as [|[|[|k]]]; [| | |lia]; destruct x as [|[|[|x]]]; try lia; cbn in B, D; (apply not_zero; (apply B; reflexivity) || (apply D; reflexivity)).
Qed.
Lemma c80_full_at : forall single k x, k < 3 -> ~ idle_at c80_full single k x.
Proof.
  intros single k x Hk H. apply (c80_full_idle k x Hk). unfold idle_at in H. destruct single.
  - exact H.
  - destruct H as (i & Ei & I0 & I1 & I2). exists i. split; [exact Ei|]. destruct k as [|[|[|k]]]; auto; lia.
Qed.
Lemma c80_full_run : forall V I single, nc V = 9 -> nc I = 9 ->
  exists todel, reduce_network3 p_inv (t_y, t_y, t_y) c80_full V I [1] single =
    Ok (todel, conj3 1 (asm (fun k => one (two_reduced (block_of (sequence_loaded t_y V I [0]) [0; 1] [0; 1]) 0)))) /\
    forall x, In x todel <-> In x (phases3 [2]) \/ x / 3 = 0.
Proof.
  intros V I single HV HI. apply (t_run c80_full V I [1] single [0] 2 [0; 1] (fun _ => 0)); auto.
  - apply t_consistent; rewrite ?t_in; lia.
  - repeat constructor.
  - repeat constructor.
  - intros x p [<-|[]] [<-|[]]. lia.
  - intros Pa PI PN k Hk. rewrite (only_none (Pa k)); [reflexivity|]. intro x. rewrite PI by auto. split; [|tauto]. apply c80_full_at; auto.
Qed.
Lemma mean_one : forall (m : mat C) j, nr m = 1 -> mean_at m j = get m 0 j.
Proof. intros m j H. unfold mean_at. rewrite H. cbn [sumn knat]. field. exact one_neq. Qed.
Lemma c80_full_reduced : forall V I c, mean_load V I 0 = c -> (1 + c)%K <> 0%K ->
  two_reduced (block_of (sequence_loaded t_y V I [0]) [0; 1] [0; 1]) 0 = (1 + 1 - kinv (1 + c))%K.
Proof.
  intros V I c Hc Nc. unfold two_reduced. cbv zeta. cbn [Nat.sub]. rewrite !get_block by (cbn; lia). cbn [nth]. unfold sequence_loaded. rewrite !get_mk by (cbn; lia).
  cbn [Nat.eqb existsb andb orb]. rewrite Hc. unfold t_y. rewrite !get_mk by lia. field. auto.
Qed.
Definition c80_I : mat C := mk 1 9 (fun _ j => if (j =? 0)%nat then 1 + 1 + 1 else 0)%K.
Lemma three_neq : (1 + 1 + 1 : C)%K <> 0%K.
Proof. intro E. apply (k_char0 (K := C) 2). cbn [knat]. transitivity (1 + 1 + 1 : C)%K; [ring|exact E]. Qed.
Lemma three_neq' : (1 + (1 + 1) : C)%K <> 0%K.
Proof. intro E. apply three_neq. transitivity (1 + (1 + 1) : C)%K; [ring|exact E]. Qed.
Lemma four_neq : (1 + 1 + 1 + 1 : C)%K <> 0%K.
Proof. intro E. apply (k_char0 (K := C) 3). cbn [knat]. transitivity (1 + 1 + 1 + 1 : C)%K; [ring|exact E]. Qed.
Lemma four_neq' : ((1 + 1) * (1 + 1) : C)%K <> 0%K.
Proof. intro E. apply four_neq. transitivity ((1 + 1) * (1 + 1) : C)%K; [ring|exact E]. Qed.
Lemma zero_one : (0 + 1 : C)%K = 1%K. Proof. ring. Qed.
Theorem C80_unbalanced_loads_refuted : exists (pinv : mat C -> mat C) (n : net (K := R)) V I y Y hidden H G,
  right_inverse pinv /\ consistent n /\ length (buses n) = 3 /\ shape V 1 9 /\ shape I 1 9 /\ shape y 3 3 /\ located n hidden H /\ located n (grids n) G /\ descending G /\ all_before H G /\
  (forall x, In x (phases3 H) -> mean_at V x <> 0%K) /\ (forall ph i, ph < 3 -> In i (ids n) -> ~ idle n ph i) /\
  make_y_bus3 (y, y, y) = Ok Y /\ forall single, exists todel Z, reduce_network3 pinv (y, y, y) n V I hidden single = Ok (todel, Z) /\
  (forall x, In x todel <-> In x (phases3 G) \/ In x (phases3 H)) /\
  forall order, Permutation order (kept_ascending 9 todel) -> ~ behaves 9 (phases3 G) (phases3 H) order (loaded Y V I (phases3 H)) Z.
Proof.
  exists p_inv, c80_full, c80_V, c80_I, t_y, t_Y, [1], [0], [2].
  split; [exact p_inv_right|]. split; [apply t_consistent; rewrite ?t_in; lia|]. split; [reflexivity|]. split; [apply shape_mk|]. split; [apply shape_mk|]. split; [apply shape_mk|].
  split; [repeat constructor|]. split; [repeat constructor|]. split; [split; [intros q []|exact Logic.I]|]. split; [intros x p [<-|[]] [<-|[]]; lia|].
  split. { intros x Hx. rewrite mean_one by reflexivity. unfold c80_V. cbn in Hx. rewrite get_mk by lia. exact one_neq. }
  split. { intros ph i Hp Hi Id. apply In_nth_error in Hi. destruct Hi as (x & Ex). apply (c80_full_idle ph x Hp). exists i. auto. }
  split; [exact t_bus3|]. intro single.
  destruct (c80_full_run c80_V c80_I single eq_refl eq_refl) as (todel & ER & HT). set (Z := conj3 1 _) in ER. exists todel, Z. split; [exact ER|].
  assert (P0 : forall x, In x (phases3 [0]) <-> x / 3 = 0).
  { intro x. cbn [phases3 flat_map app In Nat.mul Nat.add]. split; [intros [<-|[<-|[<-|[]]]]; reflexivity|]. intro Q. apply Nat.div_small_iff in Q; lia. }
  split. { intro x. rewrite HT, P0. tauto. }
  intros order PO BZ.
  assert (LO : length order = 3) by (destruct BZ as ((_ & R & _) & _); cbn in R; lia).
  assert (KO : forall x, In x order <-> x < 9 /\ x / 3 = 1).
  { intro x. transitivity (In x (kept_ascending 9 todel)); [split; apply Permutation_in; [exact PO|symmetry; exact PO]|]. rewrite kept_In, HT.
    do 9 (destruct x as [|x]; [cbn; intuition lia|]). cbn [In]. split; intros [? ?]; lia. }
  set (L := loaded t_Y c80_V c80_I (phases3 [0])) in BZ.
  set (d := fun x => (1 + 1 - kinv (1 + get c80_I 0 (x - 3)%nat))%K).
  assert (M1 : forall x, x < 9 -> (mean_at c80_I x / mean_at c80_V x)%K = get c80_I 0 x).
  { intros x Hx. rewrite !mean_one by reflexivity. unfold c80_V. rewrite get_mk by lia. field. exact one_neq. }
  assert (NI1 : forall q, q < 3 -> (1 + get c80_I 0 q)%K <> 0%K).
  { intros q Hq. unfold c80_I. rewrite get_mk by lia. destruct q as [|q]; cbn [Nat.eqb].
    - intro E. apply four_neq. rewrite <- E. ring.
    - intro E. apply one_neq. rewrite <- E. ring. }
  assert (DB := diagonal_behaviour 9 (phases3 [2]) (phases3 [0]) order L Z d BZ).
  assert (I3 : In 3 order) by (apply KO; split; [lia|reflexivity]).
  destruct (In_nth order 3 0 I3) as (k & Hk & Ek).
  assert (Zkk : get Z k k = d 3).
  { rewrite DB; [rewrite Nat.eqb_refl, Ek; reflexivity| |exact Hk|exact Hk].
      intros V CV Gr NI x RV Ix. apply KO in Ix. destruct Ix as [Lx Qx].
      assert (exists q, x = 3 + q /\ q < 3) as (q & -> & Hq) by (exists (x - 3); pose proof (Nat.div_mod x 3 ltac:(lia)); pose proof (Nat.mod_upper_bound x 3 ltac:(lia)); lia).
      assert (N0 := NI 0 q RV). unfold L in *. rewrite (product_loaded V t_Y c80_V c80_I 9) by (auto using shape_t_Y).
      rewrite (product_loaded V t_Y c80_V c80_I 9) in N0 by (auto using shape_t_Y; lia).
      rewrite M1 in N0 by lia. rewrite t_first in N0 by auto. rewrite t_second by auto.
      assert (G6 : get V 0 (6 + q) = 0%K) by (apply Gr; auto; cbn; lia). rewrite G6.
      assert (E1 : mem q (phases3 [0]) = true) by (destruct q as [|[|[|q]]]; [reflexivity|reflexivity|reflexivity|lia]).
      assert (E2 : mem (3 + q) (phases3 [0]) = false) by (destruct q as [|[|[|q]]]; [reflexivity|reflexivity|reflexivity|lia]).
      rewrite E1 in N0. rewrite E2. unfold d. replace (3 + q - 3) with q by lia.
      specialize (N0 ltac:(apply P0, Nat.div_small; lia)). pose proof (NI1 q Hq) as NQ. set (c := get c80_I 0 q) in *.
      assert (V0 : get V 0 q = (kinv (1 + c) * get V 0%nat (3 + q)%nat)%K).
      { transitivity (kinv (1 + c) * (get V 0%nat (3 + q)%nat + (get V 0%nat q - get V 0%nat (3 + q)%nat + c * get V 0%nat q)))%K; [field; auto|]. rewrite N0. ring. }
      rewrite V0. ring. }
  assert (ML : mean_load c80_V c80_I 0 = 1%K).
  { unfold mean_load. cbv zeta. rewrite !M1 by lia. unfold c80_I. rewrite !get_mk by lia. cbn [Nat.mul Nat.add Nat.eqb knat]. field. exact three_neq'. }
  assert (RZ : get Z k k = (1 + 1 - kinv (1 + 1))%K).
  { unfold Z. rewrite conj3_same by lia. rewrite Nat.eqb_refl. apply c80_full_reduced; [exact ML|exact two_neq]. }
  rewrite RZ in Zkk. unfold d in Zkk. unfold c80_I in Zkk. rewrite get_mk in Zkk by lia. cbn [Nat.eqb Nat.sub] in Zkk.
  pose proof two_neq as N2. pose proof four_neq as N4. assert (N4' : (1 + (1 + 1 + 1) : C)%K <> 0%K) by (intro E; apply N4; rewrite <- E; ring).
  apply one_neq. transitivity ((1 + 1 + 1 + 1) * ((1 + 1 - kinv (1 + (1 + 1 + 1))) - (1 + 1 - kinv (1 + 1))) : C)%K; [field; split; [exact two_neq|exact four_neq']|]. rewrite Zkk. ring.
Qed.
Print Assumptions C80_unbalanced_loads_refuted.

(** *** the substation is the first bus: the second of the other buses is removed instead of the first *)
Definition c80_first := t_net [(2, (0, 0, 0)%R); (3, (1, 1, 1)%R)] 1.
Lemma c80_first_idle : forall k x, k < 3 -> (exists i, nth_error (ids c80_first) x = Some i /\ idle c80_first k i) <-> x = 1.
Proof.
  intros k x Hk. unfold c80_first. split.
  - intros (i & Ei & Hi). apply t_at in Ei. destruct Ei as [Hx ->]. apply t_idle in Hi; [|lia]. destruct Hi as (A & B & D).
    destruct x as [|[|[|x]]]; try lia. exfalso. apply not_zero. rewrite <- (D eq_refl). destruct k as [|[|[|k]]]; [reflexivity|reflexivity|reflexivity|lia].
  - intros ->. exists 2. split; [apply t_at; lia|]. apply t_idle; [lia|]. split; [lia|]. split; [|lia]. intros _. destruct k as [|[|[|k]]]; [reflexivity|reflexivity|reflexivity|lia].
Qed.
Lemma c80_first_at : forall single k x, k < 3 -> idle_at c80_first single k x <-> x = 1.
Proof.
  intros single k x Hk. unfold idle_at. destruct single; [apply c80_first_idle; auto|]. split.
  - intros (i & Ei & H0 & _). apply (c80_first_idle 0); [lia|]. eauto.
  - intros ->. exists 2. split; [reflexivity|]. assert (Q : forall j, j < 3 -> idle c80_first j 2).
    { intros j Hj. destruct (proj2 (c80_first_idle j 1 Hj) eq_refl) as (i & Ei & Hi). unfold c80_first in Ei. apply t_at in Ei. destruct Ei as [_ ->]. exact Hi. }
    split; [apply Q; lia|split; apply Q; lia].
Qed.
Theorem C80_substation_first_refuted : exists (pinv : mat C -> mat C) (n : net (K := R)) V I y Y E G,
  right_inverse pinv /\ consistent n /\ length (buses n) = 3 /\ shape V 1 9 /\ shape I 1 9 /\ shape y 3 3 /\ located n (grids n) G /\ descending G /\
  NoDup E /\ (forall x, In x E <-> idle_node n x) /\ phases_alike n /\
  make_y_bus3 (y, y, y) = Ok Y /\ forall single, exists todel Z, reduce_network3 pinv (y, y, y) n V I [] single = Ok (todel, Z) /\
  (forall x, In x todel <-> In x (phases3 G) \/ In x (phases3 E)) /\
  forall order, Permutation order (kept_ascending 9 todel) -> ~ behaves 9 (phases3 G) (phases3 E) order Y Z.
Proof.
  exists p_inv, c80_first, c80_V, c80_V, t_y, t_Y, [1], [0].
  assert (CN : consistent c80_first) by (apply t_consistent; rewrite ?t_in; lia).
  split; [exact p_inv_right|]. split; [exact CN|]. split; [reflexivity|]. split; [apply shape_mk|]. split; [apply shape_mk|]. split; [apply shape_mk|].
  split; [repeat constructor|]. split; [split; [intros q []|exact Logic.I]|]. split; [repeat constructor; cbn; tauto|].
  split. { intro x. rewrite (c80_first_at false 0 x ltac:(lia)). cbn. intuition. }
  split. { intros i ph Hi Hp Id. apply In_nth_error in Hi. destruct Hi as (x & Ex). assert (x = 1) as -> by (apply (c80_first_idle ph); eauto).
    pose proof (proj2 (c80_first_at false 0 1 ltac:(lia)) eq_refl) as (i' & Ei & Q). rewrite Ex in Ei. injection Ei as <-. exact Q. }
  split; [exact t_bus3|]. intro single.
  destruct (t_run c80_first c80_V c80_V [] single [] 0 [1; 2] (fun _ => 1)) as (todel & ER & HT); auto.
  { constructor. } { repeat constructor. } { intros x p []. }
  { intros Pa PI PN k Hk. rewrite app_nil_r. apply only_one; [auto|]. intro x. rewrite PI by auto. apply c80_first_at; auto. }
  set (Z := conj3 1 _) in ER. exists todel, Z. split; [exact ER|].
  assert (P1 : forall x, In x (phases3 [1]) <-> x / 3 = 1).
  { intro x. cbn [phases3 flat_map app In Nat.mul Nat.add]. split; [intros [<-|[<-|[<-|[]]]]; reflexivity|]. intro Q. pose proof (Nat.div_mod x 3 ltac:(lia)). pose proof (Nat.mod_upper_bound x 3 ltac:(lia)). lia. }
  split. { intro x. rewrite HT, P1. tauto. }
  intros order PO BZ.
  assert (LO : length order = 3) by (destruct BZ as ((_ & R & _) & _); cbn in R; lia).
  assert (KO : forall x, In x order <-> x < 9 /\ x / 3 = 2).
  { intro x. transitivity (In x (kept_ascending 9 todel)); [split; apply Permutation_in; [exact PO|symmetry; exact PO]|]. rewrite kept_In, HT.
    do 9 (destruct x as [|x]; [cbn; intuition lia|]). cbn [In]. split; intros [? ?]; lia. }
  assert (I6 : In 6 order) by (apply KO; split; [lia|reflexivity]).
  destruct (In_nth order 6 0 I6) as (k & Hk & Ek).
  assert (Zkk : get Z k k = kinv (1 + 1)%K).
  { rewrite (diagonal_behaviour 9 (phases3 [0]) (phases3 [1]) order t_Y Z (fun _ => kinv (1 + 1)%K) BZ); [rewrite Nat.eqb_refl; reflexivity| |exact Hk|exact Hk].
    intros V CV Gr NI x RV Ix. apply KO in Ix. destruct Ix as [Lx Qx].
    assert (exists q, x = 6 + q /\ q < 3) as (q & -> & Hq) by (exists (x - 6); pose proof (Nat.div_mod x 3 ltac:(lia)); pose proof (Nat.mod_upper_bound x 3 ltac:(lia)); lia).
    assert (N0 : get (mmul V t_Y) 0 (3 + q) = 0%K).
    { apply NI; [auto|]. apply P1. destruct q as [|[|[|q]]]; [reflexivity|reflexivity|reflexivity|lia]. }
    rewrite t_second in N0 by auto. rewrite t_third by auto.
    assert (G6 : get V 0 q = 0%K) by (apply Gr; auto; cbn; lia). rewrite G6 in N0. pose proof two_neq as T2.
    transitivity (kinv (1 + 1) * get V 0%nat (6 + q)%nat - kinv (1 + 1) * ((1 + 1) * get V 0%nat (3 + q)%nat - 0 - get V 0%nat (6 + q)%nat))%K; [field; auto|]. rewrite N0. ring. }
  assert (RZ : get Z k k = 1%K).
  { unfold Z. rewrite conj3_same by lia. rewrite Nat.eqb_refl. unfold two_reduced. cbv zeta. cbn [Nat.sub]. rewrite !get_block by (cbn; lia). cbn [nth]. unfold sequence_loaded. rewrite !get_mk by (cbn; lia).
    cbn [Nat.eqb existsb andb orb]. unfold t_y. rewrite !get_mk by lia. field. exact one_neq. }
  rewrite RZ in Zkk. apply (f_equal (fun z => (1 + 1) * z - 1)%K) in Zkk. cbv beta in Zkk.
  apply one_neq. transitivity ((1 + 1) * 1 - 1 : C)%K; [ring|]. rewrite Zkk. field. exact two_neq.
Qed.
Print Assumptions C80_substation_first_refuted.

(** *** bus 1 has a load on phase a only *)
Definition c80_uneven := t_net [(1, (1, 0, 0)%R); (2, (1, 1, 1)%R)] 3.
Lemma c80_uneven_idle : forall k x, k < 3 -> (exists i, nth_error (ids c80_uneven) x = Some i /\ idle c80_uneven k i) <-> (x = 0 /\ k <> 0).
Proof.
  intros k x Hk. unfold c80_uneven. split.
  - intros (i & Ei & Hi). apply t_at in Ei. destruct Ei as [Hx ->]. apply t_idle in Hi; [|lia]. destruct Hi as (A & B & D).
    destruct x as [|[|[|x]]]; try lia.
    + split; [reflexivity|]. intros ->. apply not_zero. exact (B eq_refl).
    + exfalso. apply not_zero. rewrite <- (D eq_refl). destruct k as [|[|[|k]]]; [reflexivity|reflexivity|reflexivity|lia].
  - intros [-> Nk]. exists 1. split; [apply t_at; lia|]. apply t_idle; [lia|]. split; [lia|]. split; [|lia]. intros _. destruct k as [|[|[|k]]]; [lia|reflexivity|reflexivity|lia].
Qed.
Theorem C80_uneven_phases_refuted : exists (n : net (K := R)) y V I G,
  consistent n /\ length (buses n) = 3 /\ shape V 1 9 /\ shape I 1 9 /\ shape y 3 3 /\ located n (grids n) G /\ descending G /\
  (forall ph x i, ph < 3 -> nth_error (ids n) x = Some i -> idle n ph i -> all_before [x] G) /\
  (exists Y, make_y_bus3 (y, y, y) = Ok Y) /\
  forall pinv, (forall r A, shape A r r -> shape (pinv A) r r) -> reduce_network3 pinv (y, y, y) n V I [] true = Err ValueError.
Proof.
  exists c80_uneven, t_y, c80_V, c80_V, [2].
  assert (CN : consistent c80_uneven) by (apply t_consistent; rewrite ?t_in; lia).
  split; [exact CN|]. split; [reflexivity|]. split; [apply shape_mk|]. split; [apply shape_mk|]. split; [apply shape_mk|]. split; [repeat constructor|]. split; [split; [intros q []|exact Logic.I]|].
  split. { intros ph x i Hp Ei Hi x' p [<-|[]] [<-|[]]. destruct (proj1 (c80_uneven_idle ph x Hp) (ex_intro _ i (Logic.conj Ei Hi))). lia. }
  split; [exists t_Y; exact t_bus3|]. intros pinv HP.
  apply (C80_uneven_phases_fail pinv c80_uneven c80_V c80_V [] (fun _ => t_y) [] [2] (fun k => if k =? 0 then [] else [0]) 0 1); auto; try lia.
  - exact t_three.
  - constructor.
  - repeat constructor.
  - intros k Hk. split; [destruct k; repeat constructor; cbn; tauto|]. intro x. rewrite (c80_uneven_idle k x Hk). destruct k; cbn; intuition lia.
  - split; [intros q []|exact Logic.I].
  - intros k Hk x p Ix [<-|[]]. destruct k; cbn in Ix; [tauto|]. destruct Ix as [<-|[]]. lia.
  - cbn. lia.
Qed.
Print Assumptions C80_uneven_phases_refuted.

(** *** bus 1 is hidden and draws three times its voltage on every phase *)
Definition c81_I : mat C := mk 1 9 (fun _ j => if (j <? 3)%nat then knat 3 else 0)%K.
Definition c81_W : mat C := mk 1 9 (fun _ j => if (j <? 3)%nat then 1 else if (j <? 6)%nat then knat 4 else 0)%K.
Lemma third_lt : forall x, x / 3 = 0 -> x < 3.
Proof. intros x H. apply Nat.div_small_iff in H; lia. Qed.
Lemma c81_ratio : forall x, x < 9 -> (mean_at c81_I x / mean_at c80_V x)%K = get c81_I 0 x.
Proof. intros x Hx. rewrite !mean_one by reflexivity. unfold c80_V. rewrite get_mk by lia. field. exact one_neq. Qed.
Lemma c81_mean : mean_load c80_V c81_I 0 = knat 3.
Proof. unfold mean_load. cbv zeta. rewrite !c81_ratio by lia. unfold c81_I. rewrite !get_mk by lia. cbn [Nat.mul Nat.add Nat.ltb Nat.leb knat]. field. exact three_neq'. Qed.
Lemma c81_block : forall E', (forall x, In x E' <-> In x [0]) -> block_of (sequence_loaded t_y c80_V c81_I [0]) E' E' = mk (length E') (length E') (fun _ _ => knat 4).
Proof.
  intros E' HE. unfold block_of. apply mk_ext. intros i j Hi Hj.
  assert (Z0 : forall i, i < length E' -> nth i E' 0 = 0) by (intros a Ha; assert (Q : In (nth a E' 0) [0]) by (apply HE, nth_In; auto); destruct Q as [<-|[]]; reflexivity).
  rewrite !Z0 by auto. unfold sequence_loaded. rewrite get_mk by (cbn; lia). cbn [Nat.eqb existsb andb orb]. rewrite c81_mean. unfold t_y. rewrite get_mk by lia. cbn [knat]. ring.
Qed.
Lemma c81_inverse : forall k, k < 3 -> let L := sequence_loaded t_y c80_V c81_I [0] in
  shape (one (kinv (knat 4))) (length [0]) (length [0]) /\ mmul (block_of L [0] [0]) (one (kinv (knat 4))) = meye (length [0]) /\
  forall E', (forall x, In x E' <-> In x [0]) -> penrose (length E') (length E') (block_of L E' E') (p_inv (block_of L E' E')).
Proof.
  intros k Hk L. assert (K4 : (knat 4 : C) <> 0%K) by apply k_char0.
  split; [apply shape_mk|]. split.
  - unfold L. rewrite c81_block by tauto. cbn [length]. apply (gshape_ext _ _ 1 1); [split; [apply wf_mk|cbn; auto]|apply shape_mk|]. intros i j Hi Hj. replace i with 0 by lia. replace j with 0 by lia.
    rewrite get_mmul by (cbn; auto). match goal with |- context [sumn (nc ?a)] => change (nc a) with 1 end. cbn [sumn]. unfold one. rewrite !get_mk by lia. rewrite get_meye by lia. cbn [Nat.eqb].
    generalize dependent (knat 4 : C). intros z Hz. field. auto.
  - intros E' HE. unfold L. rewrite c81_block by auto. apply same_penrose; [exact K4|apply conj_count|]. destruct E'; [exfalso; apply (HE 0); cbn; auto|discriminate].
Qed.
Lemma c81_nodes : forall x, In x [0] <-> In x [0] \/ idle_node c80_full x.
Proof. intro x. split; [auto|]. intros [H|H]; [auto|]. exfalso. apply (c80_full_at false 0 x); [lia|exact H]. Qed.
Lemma c81_alike : phases_alike c80_full.
Proof. intros i ph Hi Hp Id. exfalso. apply In_nth_error in Hi. destruct Hi as (x & Ex). apply (c80_full_idle ph x Hp). eauto. Qed.
Lemma c81_before : all_before [0] [2]. Proof. intros x p [<-|[]] [<-|[]]. lia. Qed.
Lemma c81_located : located c80_full [1] [0]. Proof. repeat constructor. Qed.
Lemma c81_grid : located c80_full (grids c80_full) [2]. Proof. repeat constructor. Qed.
Lemma c81_desc : descending [2]. Proof. split; [intros q []|exact Logic.I]. Qed.
Lemma c81_balanced : forall x, In x [0] -> balanced c80_V c81_I x.
Proof. intros x [<-|[]]. unfold balanced. rewrite !c81_ratio by lia. split; reflexivity. Qed.
Lemma c81_consistent : consistent c80_full. Proof. apply t_consistent; rewrite ?t_in; lia. Qed.
Lemma c81_nodup : NoDup [0]. Proof. repeat constructor; cbn; tauto. Qed.
Example C80_ex : forall single, exists todel Z,
  NetData3P [] (Some [t_load 1 (1, 1, 1)%R; t_load 2 (1, 1, 1)%R; t_grid 3]) (Some []) None = Ok c80_full /\
  make_y_bus3 (t_y, t_y, t_y) = Ok t_Y /\ reduce_network3 p_inv (t_y, t_y, t_y) c80_full c80_V c81_I [1] single = Ok (todel, Z) /\
  (forall x, In x todel <-> In x [6; 7; 8] \/ In x [0; 1; 2]) /\
  behaves 9 [6; 7; 8] [0; 1; 2] [3; 4; 5] (loaded t_Y c80_V c81_I [0; 1; 2]) Z.
Proof.
  intro single.
  destruct (C80_nodes_and_phases p_inv c80_full c80_V c81_I [1] (fun _ => t_y) single [0] [2] [0] (fun _ => one (kinv (knat 4))) c81_consistent t_three
    c81_located c81_grid eq_refl eq_refl c81_nodup c81_nodes (fun _ => c81_alike) c81_desc c81_before c81_inverse) as (Y & todel & Z & order & EY & ER & HT & PO & _ & B).
  assert (order = [1]) as ->.
  { apply Permutation_length_1_inv. symmetry. exact PO. }
  exists todel, Z. split; [apply t_built_last|]. split; [exact t_bus3|]. split; [exact ER|]. split; [exact HT|].
  cbv beta in EY. rewrite t_bus3 in EY. injection EY as <-. rewrite (C80_balanced_loads t_Y c80_V c81_I [0] c81_balanced) in B. exact B.
Qed.
Example C81_ex : forall single, exists todel Z Wr Jr, reduce_network3 p_inv (t_y, t_y, t_y) c80_full c80_V c81_I [1] single = Ok (todel, Z) /\
  delete_cols c81_W todel = Ok Wr /\ delete_cols (mmul c81_W t_Y) todel = Ok Jr /\ mmul Wr Z = Jr.
Proof.
  intro single.
  apply (C81_reduced_data p_inv c80_full c80_V c81_I c81_W [1] (fun _ => t_y) single [0] [2] [0] (fun _ => one (kinv (knat 4))) t_Y);
    [exact c81_consistent|exact t_three|exact c81_located|exact c81_grid|reflexivity|reflexivity|reflexivity|exact c81_nodup|exact c81_nodes|intros _; exact c81_alike|exact c81_desc|exact c81_before
    | |exact c81_inverse|vm_compute; auto 10|exact t_bus3|reflexivity|apply wf_mk| | | ].
  - intros x Hx. rewrite mean_one by reflexivity. unfold c80_V. cbn in Hx. rewrite get_mk by lia. exact one_neq.
  - intros t x Ht Hx. cbn in Ht, Hx. unfold c81_W. rewrite get_mk by lia. replace (x <? 3) with false by (symmetry; apply Nat.ltb_ge; lia). replace (x <? 6) with false by (symmetry; apply Nat.ltb_ge; lia). reflexivity.
  - intros x [<-|[]]. exists (knat 3). intros p Hp. change (3 * 0 + p) with p. split.
    + intros t Ht. cbn in Ht. unfold c81_I, c80_V. rewrite !get_mk by lia. replace (p <? 3) with true by (symmetry; apply Nat.ltb_lt; lia). ring.
    + intros t Ht. cbn in Ht. replace t with 0 by lia. rewrite t_first by (cbn; auto). unfold c81_W. rewrite !get_mk by lia.
      replace (p <? 3) with true by (symmetry; apply Nat.ltb_lt; lia). replace (3 + p <? 3) with false by (symmetry; apply Nat.ltb_ge; lia). replace (3 + p <? 6) with true by (symmetry; apply Nat.ltb_lt; lia).
      cbn [knat]. ring.
  - intros x H1 H2. exfalso. apply H2. exact H1.
Qed.
(** a node may be listed twice *)
Example C43_repeated_ex : exists Z order, kron_reduction p_inv [0; 0] t_y = Ok Z /\ Permutation order (kept_ascending 3 [0]) /\ describes 3 order [0] t_y Z.
Proof.
  assert (BE : forall E', (forall x, In x E' <-> In x [0]) -> block_of t_y E' E' = mk (length E') (length E') (fun _ _ => 1%K)).
  { intros E' HE. unfold block_of. apply mk_ext. intros i j Hi Hj.
    assert (Z0 : forall i, i < length E' -> nth i E' 0 = 0) by (intros a Ha; assert (Q : In (nth a E' 0) [0]) by (apply HE, nth_In; auto); destruct Q as [<-|[]]; reflexivity).
    rewrite !Z0 by auto. unfold t_y. rewrite get_mk by lia. reflexivity. }
  apply (C43_repeated_nodes R _ _ _ p_inv t_y (meye 1) 3 [0] [0; 0]).
  - apply shape_mk.
  - exact c81_nodup.
  - intros i [<-|[]]. lia.
  - intro x. cbn. tauto.
  - apply shape_mk.
  - rewrite BE by tauto. cbn [length]. apply (gshape_ext _ _ 1 1); [split; [apply wf_mk|cbn; auto]|apply shape_mk|]. intros i j Hi Hj. replace i with 0 by lia. replace j with 0 by lia.
    rewrite get_mmul by (cbn; auto). match goal with |- context [sumn (nc ?a)] => change (nc a) with 1 end. cbn [sumn]. rewrite !get_mk by lia. rewrite get_meye by lia. cbn [Nat.eqb]. ring.
  - rewrite BE by (intro x; cbn; tauto). apply same_penrose; [exact one_neq|apply conj_1|discriminate].
Qed.

(** currents from the simulation are injections: the load of the hidden bus enters with the wrong sign *)
Lemma minus_two : (- (1 + 1) : C)%K <> 0%K.
Proof. intro E. apply two_neq. transitivity (- (- (1 + 1)) : C)%K; [ring|]. rewrite E. ring. Qed.
Definition c81_J : mat C := mmul c81_W t_Y.
Lemma c81_J_node : forall q, q < 3 -> get c81_J 0 q = (1 - knat 4)%K.
Proof.
  intros q Hq. unfold c81_J. rewrite t_first by (cbn; auto). unfold c81_W. rewrite !get_mk by lia.
  replace (q <? 3) with true by (symmetry; apply Nat.ltb_lt; lia). replace (3 + q <? 3) with false by (symmetry; apply Nat.ltb_ge; lia). replace (3 + q <? 6) with true by (symmetry; apply Nat.ltb_lt; lia). reflexivity.
Qed.
Lemma c81_W_node : forall q, q < 3 -> get c81_W 0 q = 1%K.
Proof. intros q Hq. unfold c81_W. rewrite get_mk by lia. replace (q <? 3) with true by (symmetry; apply Nat.ltb_lt; lia). reflexivity. Qed.
Theorem C81_simulated_currents_refuted : exists (pinv : mat C -> mat C) (n : net (K := R)) V y Y hidden H G,
  right_inverse pinv /\ consistent n /\ length (buses n) = 3 /\ shape V 1 9 /\ shape y 3 3 /\ located n hidden H /\ located n (grids n) G /\ descending G /\ all_before H G /\
  (forall x, ~ idle_node n x) /\ phases_alike n /\ (forall x, In x (phases3 H) -> mean_at V x <> 0%K) /\
  make_y_bus3 (y, y, y) = Ok Y /\ grounded (phases3 G) V /\ (forall x, In x (phases3 H) -> exists c, proportional V (mmul V Y) x c) /\
  forall single, exists todel Z Vr Jr, reduce_network3 pinv (y, y, y) n V (mmul V Y) hidden single = Ok (todel, Z) /\
    delete_cols V todel = Ok Vr /\ delete_cols (mmul V Y) todel = Ok Jr /\ mmul Vr Z <> Jr.
Proof.
  exists p_inv, c80_full, c81_W, t_y, t_Y, [1], [0], [2].
  split; [exact p_inv_right|]. split; [exact c81_consistent|]. split; [reflexivity|]. split; [apply shape_mk|]. split; [apply shape_mk|]. split; [exact c81_located|]. split; [exact c81_grid|].
  split; [exact c81_desc|]. split; [exact c81_before|]. split; [intro x; exact (c80_full_at false 0 x ltac:(lia))|]. split; [exact c81_alike|].
  split. { intros x Hx. rewrite mean_one by reflexivity. cbn in Hx. rewrite c81_W_node by lia. exact one_neq. }
  split; [exact t_bus3|].
  split. { intros t x Ht Hx. cbn in Ht, Hx. unfold c81_W. rewrite get_mk by lia. replace (x <? 3) with false by (symmetry; apply Nat.ltb_ge; lia). replace (x <? 6) with false by (symmetry; apply Nat.ltb_ge; lia). reflexivity. }
  split. { intros x Hx. cbn in Hx. exists (1 - knat 4)%K. intros t Ht. cbn in Ht. replace t with 0 by lia. change (mmul c81_W t_Y) with c81_J. rewrite c81_J_node, c81_W_node by lia. ring. }
  intro single. change (mmul c81_W t_Y) with c81_J.
  destruct (c80_full_run c81_W c81_J single eq_refl eq_refl) as (todel & ER & HT).
  rewrite (c80_full_reduced c81_W c81_J (1 - knat 4)%K) in ER.
  - set (Z := conj3 1 _) in ER.
    assert (TL : forall x, In x todel -> x < 9) by (intros x Hx; apply HT in Hx; destruct Hx as [Hx|Hx]; [cbn in Hx; lia|apply third_lt in Hx; lia]).
    assert (KE : kept_ascending 9 todel = [3; 4; 5]).
    { unfold kept_ascending. change (seq 0 9) with [0; 1; 2; 3; 4; 5; 6; 7; 8].
      assert (Q : forall x, mem x todel = mem x [6; 7; 8; 0; 1; 2]).
      { intro x. destruct (mem x todel) eqn:M1, (mem x [6; 7; 8; 0; 1; 2]) eqn:M2; try reflexivity; exfalso.
        - apply mem_In, HT in M1. assert (In x [6; 7; 8; 0; 1; 2]) as M3 by (destruct M1 as [M1|M1]; [cbn in M1 |- *; lia|apply third_lt in M1; cbn; lia]). apply mem_In in M3. congruence.
        - apply mem_In in M2. assert (In x todel) as M3 by (apply HT; cbn in M2; intuition (subst; auto; cbn; auto 10)). apply mem_In in M3. congruence. }
      rewrite (filter_ext _ (fun x => negb (mem x [6; 7; 8; 0; 1; 2]))) by (intro x; f_equal; apply Q). reflexivity. }
    exists todel, Z, (columns c81_W [3; 4; 5]), (columns c81_J [3; 4; 5]). split; [exact ER|].
    rewrite <- KE. split; [apply (delete_columns _ 9); auto|]. split; [apply (delete_columns _ 9); auto|].
    rewrite KE. intro E. apply (f_equal (fun m => get m 0 0)) in E. rewrite get_mmul in E by (cbn; lia). match type of E with sumn (nc ?a) _ = _ => change (nc a) with 3 in E end.
    cbn [sumn] in E. unfold Z in E. rewrite !conj3_same in E by lia. cbn [Nat.eqb] in E. unfold columns in E. rewrite !get_mk in E by (cbn; lia). cbn [nth] in E.
    unfold c81_J in E. change 3 with (3 + 0) in E at 5. rewrite t_second in E by (cbn; auto). cbn [Nat.add] in E. unfold c81_W in E. rewrite !get_mk in E by lia. cbn [Nat.ltb Nat.leb] in E.
    apply three_neq. revert E. cbn [knat]. intro E.
    match type of E with ?a = ?b => transitivity (a - b)%K end; [field; exact minus_two|rewrite E; ring].
  - unfold mean_load. cbv zeta. cbn [Nat.mul Nat.add]. rewrite !mean_one by reflexivity. rewrite !c81_J_node, !c81_W_node by lia. generalize (knat 4 : C). intro z. cbn [knat]. field. split; [exact one_neq|exact three_neq'].
  - intro E. apply two_neq. transitivity (- (1 + (1 - knat 4)) : C)%K; [cbn [knat]; ring|]. rewrite E. ring.
Qed.
Print Assumptions C81_simulated_currents_refuted.
