(** C46 and C65: the reduction of a simulated network. *)
From Coq Require Import String Bool Arith List Lia ZArith QArith Qcanon Permutation.
From Verif Require Import BasePy BaseFld BaseSum BaseMat BaseLin BaseOrd BaseEx ModelErrorMetrics ModelSet ModelKron ModelNet ModelReduce
  SpecMatrix SpecLS SpecKron SpecNet SpecReduce ProofNet ProofNetBuild ProofKron ProofReduce PropKron PropNet.
Import ListNotations.
Close Scope Qc_scope. Close Scope Q_scope. Close Scope string_scope. Open Scope list_scope. Open Scope nat_scope.

(** ** C46 *)
(** substations kept: row k belongs to the k-th remaining column, every hidden node has its own shunt *)
Theorem C46_with_substations : forall K (O : Ops K) (F : Fld K) (FR : FReal K) (pinv : mat (cplx K) -> mat (cplx K)) (n : net (K := K)) V I hidden Y H G E B,
  let N := length (buses n) in
  consistent n -> make_y_bus n = Ok Y -> located n hidden H -> located n (grids n) G -> nc V = N -> nc I = N ->
  (forall x, In x H -> ~ In x G) -> (forall x, In x H -> mean_at V x <> 0%K) ->
  NoDup E -> (forall x, In x E <-> In x H \/ exists i, nth_error (ids n) x = Some i /\ idle n 0 i) ->
  let L := loaded Y V I H in
  shape B (length E) (length E) -> mmul (block_of L E E) B = meye (length E) ->
  (forall E', Permutation E E' -> penrose (length E') (length E') (block_of L E' E') (pinv (block_of L E' E'))) ->
  exists todel Z order, reduce_network pinv n V I hidden true = Ok (todel, Z) /\ (forall x, In x todel <-> In x E) /\
    Permutation order (kept_ascending N todel) /\ (orderly N (length order) -> order = kept_ascending N todel) /\
    behaves N [] E order L Z.
Proof. intros K O F FR pinv n V I hidden Y H G E B N C EY LH LG HV HI HG _. exact (p_reduce_laplacian pinv n V I hidden Y H G E B C EY LH LG HV HI HG). Qed.
(** substations removed, under conditions on their positions *)
Theorem C46_without_substations : forall K (O : Ops K) (F : Fld K) (FR : FReal K) (pinv : mat (cplx K) -> mat (cplx K)) (n : net (K := K)) V I hidden Y H G E B,
  let N := length (buses n) in
  consistent n -> make_y_bus n = Ok Y -> located n hidden H -> located n (grids n) G -> nc V = N -> nc I = N ->
  (forall x, In x G -> In x H) -> (forall x, In x (non_grid G H) -> mean_at V x <> 0%K) ->
  NoDup E -> (forall x, In x E <-> In x (non_grid G H) \/ exists i, nth_error (ids n) x = Some i /\ idle n 0 i) ->
  all_before (non_grid G H) G ->
  (forall x, In x E -> (forall p, In p G -> x < p) \/ (descending G /\ ~ In (x - before x G) G)) ->
  let L := loaded Y V I (non_grid G H) in
  shape B (length E) (length E) -> mmul (block_of L E E) B = meye (length E) ->
  (forall E', Permutation E E' -> penrose (length E') (length E') (block_of L E' E') (pinv (block_of L E' E'))) ->
  exists todel Z order, reduce_network pinv n V I hidden false = Ok (todel, Z) /\ (forall x, In x todel <-> In x G \/ In x E) /\
    Permutation order (kept_ascending N todel) /\ (orderly (length (kept_ascending N G)) (length order) -> order = kept_ascending N todel) /\
    behaves N G E order L Z.
Proof. intros K O F FR pinv n V I hidden Y H G E B N C EY LH LG HV HI HG _. exact (p_reduce_substation pinv n V I hidden Y H G E B C EY LH LG HV HI HG). Qed.
(** simulate_network.py: which nodes are hidden *)
Theorem C46_script_hides_substations : forall K (O : Ops K) (F : Fld K) (ns : list (bus_data (K := K))) ls n hidden, (forall b, In b ns -> both is_single b) ->
  NetData (Some ns) (Some ls) None = Ok n ->
  (forall i, In i (with_substations ns false hidden) <-> In i hidden \/ In i (grids n)) /\ with_substations ns true hidden = hidden.
Proof. exact @p_hides_substations. Qed.
Print Assumptions C46_script_hides_substations.
Print Assumptions C46_with_substations.
Print Assumptions C46_without_substations.

(** ** C65: the reduced matrix relates the remaining measurements *)
(** [W] may be the measured voltages or, with the substations removed, their deviations from the mean *)
Theorem C65_drawn_currents : forall K (O : Ops K) (F : Fld K) (FR : FReal K) (pinv : mat (cplx K) -> mat (cplx K)) (n : net (K := K)) V I W hidden Y H G E B,
  let N := length (buses n) in
  consistent n -> make_y_bus n = Ok Y -> located n hidden H -> located n (grids n) G -> nc V = N -> nc I = N -> nr V = nr I ->
  (forall x, In x H -> ~ In x G) ->
  NoDup E -> (forall x, In x E <-> In x H \/ exists i, nth_error (ids n) x = Some i /\ idle n 0 i) ->
  (forall x, In x H -> mean_at V x <> 0%K) ->
  let L := loaded Y V I H in
  shape B (length E) (length E) -> mmul (block_of L E E) B = meye (length E) ->
  (forall E', Permutation E E' -> penrose (length E') (length E') (block_of L E' E') (pinv (block_of L E' E'))) ->
  orderly N (length (kept_ascending N E)) ->
  nc W = N -> wf W -> (forall x, In x H -> exists c, proportional V I x c /\ draws W Y x c) -> (forall x, In x E -> ~ In x H -> draws W Y x 0%K) ->
  exists todel Z Wr Jr, reduce_network pinv n V I hidden true = Ok (todel, Z) /\
    delete_cols W todel = Ok Wr /\ delete_cols (mmul W Y) todel = Ok Jr /\ mmul Wr Z = Jr.
Proof. exact @p_reduced_data_laplacian. Qed.
Theorem C65_drawn_currents_without_substations : forall K (O : Ops K) (F : Fld K) (FR : FReal K) (pinv : mat (cplx K) -> mat (cplx K)) (n : net (K := K)) V I W hidden Y H G E B,
  let N := length (buses n) in
  consistent n -> make_y_bus n = Ok Y -> located n hidden H -> located n (grids n) G -> nc V = N -> nc I = N -> nr V = nr I ->
  (forall x, In x G -> In x H) ->
  NoDup E -> (forall x, In x E <-> In x (non_grid G H) \/ exists i, nth_error (ids n) x = Some i /\ idle n 0 i) ->
  all_before (non_grid G H) G ->
  (forall x, In x E -> (forall p, In p G -> x < p) \/ (descending G /\ ~ In (x - before x G) G)) ->
  (forall x, In x (non_grid G H) -> mean_at V x <> 0%K) ->
  let L := loaded Y V I (non_grid G H) in
  shape B (length E) (length E) -> mmul (block_of L E E) B = meye (length E) ->
  (forall E', Permutation E E' -> penrose (length E') (length E') (block_of L E' E') (pinv (block_of L E' E'))) ->
  orderly (length (kept_ascending N G)) (length (kept_ascending N (G ++ E))) ->
  nc W = N -> wf W -> grounded G W -> (forall x, In x (non_grid G H) -> exists c, proportional V I x c /\ draws W Y x c) ->
  (forall x, In x E -> ~ In x (non_grid G H) -> draws W Y x 0%K) ->
  exists todel Z Wr Jr, reduce_network pinv n V I hidden false = Ok (todel, Z) /\
    delete_cols W todel = Ok Wr /\ delete_cols (mmul W Y) todel = Ok Jr /\ mmul Wr Z = Jr.
Proof. exact @p_reduced_data_substation. Qed.
Print Assumptions C65_drawn_currents.
Print Assumptions C65_drawn_currents_without_substations.

(** ** concrete networks *)
(** [pinv] returns the inverse of a matrix that has one *)
Definition inverts (pinv : mat (cplx Qc) -> mat (cplx Qc)) : Prop := forall A B r, shape A r r -> shape B r r -> mmul A B = meye r -> pinv A = B.
Lemma inv_of_inverts : inverts inv_of.
Proof. intros A B r SA SB E. unfold inv_of. rewrite (kinverse_complete A B r SA SB E). reflexivity. Qed.
Lemma ctr_eye : forall r, ctr (meye r : mat (cplx Qc)) = meye r.
Proof.
  intro r. apply (gshape_ext _ _ r r); [split; [apply wf_mk|cbn; auto]|apply shape_meye|].
  intros i j Hi Hj. unfold ctr. rewrite get_mk by (cbn; auto). rewrite !get_meye by auto. rewrite (Nat.eqb_sym j i).
  destruct (i =? j); apply keqb_eq; vm_compute; reflexivity.
Qed.
Lemma inverts_penrose : forall pinv (L B : mat (cplx Qc)) E, inverts pinv -> shape B (length E) (length E) -> mmul (block_of L E E) B = meye (length E) ->
  forall E', Permutation E E' -> penrose (length E') (length E') (block_of L E' E') (pinv (block_of L E' E')).
Proof.
  intros pinv L B E HI SB EB E' HP. destruct (block_perm_inverse L B E E' HP SB EB) as (B' & SB' & EB').
  rewrite (HI _ _ _ (block_shape L E' E') SB' EB'). pose proof (right_inverse_two_sided _ _ _ (block_shape L E' E') SB' EB') as E2.
  split; [apply block_shape|]. split; [exact SB'|]. split; [rewrite EB'; apply mmul_1_l'; apply block_shape|].
  split; [rewrite E2; apply mmul_1_l'; apply SB'|]. rewrite EB', E2. split; apply ctr_eye.
Qed.
Definition wired (n : net (K := Qc)) (Y : mat (cplx Qc)) : net := match create_lines_from_ybus n Y with Ok n' => n' | Err _ => n end.
Definition path4 : mat (cplx Qc) := czrows [[(1, 0); (-1, 0); (0, 0); (0, 0)]; [(-1, 0); (2, 0); (-1, 0); (0, 0)]; [(0, 0); (-1, 0); (2, 0); (-1, 0)]; [(0, 0); (0, 0); (-1, 0); (1, 0)]]%Z.
(** load 1, load 2, a bus without injection, substation 4, in a row; bus 2 is hidden *)
Definition c46_n := wired (built [bd 1 1 5 2 10 0; bd 2 1 1 1 10 0; bd 3 1 0 0 10 0; bd 4 3 0 0 10 0]) path4.
Lemma wired_consistent : forall (n : net (K := Qc)) Y, consistent n -> consistent (wired n Y).
Proof.
  intros n Y Hc. unfold wired. destruct (create_lines_from_ybus n Y) as [n'|e] eqn:E; auto. apply (cons_exec n (FromYbus Y) n'); auto.
Qed.
Lemma idle_at : forall (n : net (K := Qc)) ps, consistent n -> bind (give_passive_nodes n) (fun f => positions n (f 0)) = Ok ps -> idle_positions n ps.
Proof.
  intros n ps Hc E. destruct (passive_positions _ n Hc) as (f & qs & Ef & Eq & I). rewrite Ef in E. cbn [bind] in E. rewrite Eq in E. injection E as <-. exact I.
Qed.
Lemma c46_consistent : consistent c46_n.
Proof. apply wired_consistent, built_ok; [singles|nodups]. Qed.
Lemma c46_y : make_y_bus c46_n = Ok path4.
Proof. apply res_meqb_eq. vm_compute. reflexivity. Qed.
Lemma c46_idle : idle_positions c46_n [2].
Proof. apply idle_at; [exact c46_consistent|vm_compute; reflexivity]. Qed.
(** voltages of two samples; node 1 draws as much as its voltage, node 2 draws nothing *)
Definition c46_V : mat (cplx Qc) := czrows [[(2, 0); (1, 0); (1, 0); (1, 0)]; [(1, 0); (1, 0); (2, 0); (3, 0)]]%Z.
(** the currents drawn *)
Definition c46_I : mat (cplx Qc) := czrows [[(-1, 0); (1, 0); (0, 0); (0, 0)]; [(0, 0); (1, 0); (0, 0); (-1, 0)]]%Z.
Lemma c46_drawn : c46_I = mopp (mmul c46_V path4).
Proof. apply meqb_eq. vm_compute. reflexivity. Qed.
Definition drawsb (W Y : mat (cplx Qc)) (x : nat) (c : cplx Qc) : bool :=
  forallb (fun t => keqb (get (mmul W Y) t x) (- (c * get W t x))%K) (range (nr W)).
Lemma drawsb_ok : forall W Y x c, drawsb W Y x c = true -> draws W Y x c.
Proof. intros W Y x c H t Ht. apply keqb_eq. unfold drawsb in H. rewrite forallb_forall in H. apply H, in_range, Ht. Qed.
Definition propb (V I : mat (cplx Qc)) (x : nat) (c : cplx Qc) : bool := forallb (fun t => keqb (get I t x) (c * get V t x)%K) (range (nr V)).
Lemma propb_ok : forall V I x c, propb V I x c = true -> proportional V I x c.
Proof. intros V I x c H t Ht. apply keqb_eq. unfold propb in H. rewrite forallb_forall in H. apply H, in_range, Ht. Qed.
Definition c46_L : mat (cplx Qc) := loaded path4 c46_V c46_I [1].
Definition c46_B := inv_of (block_of c46_L [1; 2] [1; 2]).
Lemma c46_B_ok : penroseb 2 (block_of c46_L [1; 2] [1; 2]) c46_B = true.
Proof. vm_compute. reflexivity. Qed.
Lemma c46_E : forall x, In x [1; 2] <-> In x [1] \/ exists i, nth_error (ids c46_n) x = Some i /\ idle c46_n 0 i.
Proof. intro x. rewrite <- (c46_idle x). cbn. tauto. Qed.
Lemma c46_mean : forall x, In x [1] -> mean_at c46_V x <> 0%K.
Proof. intros x [<-|[]]. apply keqb_neq. vm_compute. reflexivity. Qed.
Example C46_ex_with_substations : consistent c46_n /\ make_y_bus c46_n = Ok path4 /\ located c46_n [2] [1] /\ located c46_n (grids c46_n) [3] /\
  nc c46_V = 4 /\ nc c46_I = 4 /\ length (buses c46_n) = 4 /\ (forall x, In x [1] -> ~ In x [3]) /\ (forall x, In x [1] -> mean_at c46_V x <> 0%K) /\
  NoDup [1; 2] /\ (forall x, In x [1; 2] <-> In x [1] \/ exists i, nth_error (ids c46_n) x = Some i /\ idle c46_n 0 i) /\
  shape c46_B 2 2 /\ mmul (block_of c46_L [1; 2] [1; 2]) c46_B = meye 2 /\
  (forall E', Permutation [1; 2] E' -> penrose (length E') (length E') (block_of c46_L E' E') (inv_of (block_of c46_L E' E'))) /\
  orderly 4 2 /\ kept_ascending 4 [1; 2] = [0; 3] /\
  (forall x, In x [1] -> exists c, proportional c46_V c46_I x c /\ draws c46_V path4 x c) /\ draws c46_V path4 2 0%K.
Proof.
  destruct (penroseb_ok _ _ _ c46_B_ok) as (HP & SP & E1 & E2).
  split; [exact c46_consistent|]. split; [exact c46_y|]. split; [repeat constructor|]. split; [repeat constructor|].
  split; [reflexivity|]. split; [reflexivity|]. split; [reflexivity|]. split; [intros x [<-|[]] [?|[]]; discriminate|]. split; [exact c46_mean|].
  split; [nodups|]. split; [exact c46_E|]. split; [exact SP|]. split; [exact E1|].
  split; [exact (inverts_penrose inv_of c46_L c46_B [1; 2] inv_of_inverts SP E1)|].
  split; [left; lia|]. split; [reflexivity|]. split.
  - intros x [<-|[]]. exists (cz 1 0). split; [apply propb_ok|apply drawsb_ok]; vm_compute; reflexivity.
  - apply drawsb_ok. vm_compute. reflexivity.
Qed.
(** the two theorems applied to it *)
Example C65_ex : exists todel Z Wr Jr, reduce_network inv_of c46_n c46_V c46_I [2] true = Ok (todel, Z) /\
  delete_cols c46_V todel = Ok Wr /\ delete_cols (mmul c46_V path4) todel = Ok Jr /\ mmul Wr Z = Jr.
Proof.
  destruct C46_ex_with_substations as (H1 & H2 & H3 & H4 & H5 & H6 & H7 & H8 & H9 & H10 & H11 & H12 & H13 & H14 & H15 & H16 & H17 & H18).
  apply (C65_drawn_currents Qc _ _ _ inv_of c46_n c46_V c46_I c46_V [2] path4 [1] [3] [1; 2] c46_B); auto.
  - apply shapeb_shape with (r := 2) (c := 4). vm_compute. reflexivity.
  - intros x [<-|[<-|[]]] N; [exfalso; apply N; cbn; auto|exact H18].
Qed.
(** the same network without the substation: deviations of the voltages, zero at the substation *)
Definition c46_W : mat (cplx Qc) := czrows [[(5, 0); (2, 0); (1, 0); (0, 0)]; [(0, -5); (0, -2); (0, -1); (0, 0)]]%Z.
Example C46_ex_without_substations : located c46_n [2; 4] [1; 3] /\ (forall x, In x [3] -> In x [1; 3]) /\ non_grid [3] [1; 3] = [1] /\
  all_before (non_grid [3] [1; 3]) [3] /\ (forall x, In x [1; 2] -> (forall p, In p [3] -> x < p) \/ (descending [3] /\ ~ In (x - before x [3]) [3])) /\
  orderly (length (kept_ascending 4 [3])) (length (kept_ascending 4 ([3] ++ [1; 2]))) /\ nc c46_W = 4 /\ wf c46_W /\ grounded [3] c46_W /\
  (forall x, In x [1] -> exists c, proportional c46_V c46_I x c /\ draws c46_W path4 x c) /\ draws c46_W path4 2 0%K /\
  bind (reduce_network inv_of c46_n c46_V c46_I [2; 4] false) (fun r => Ok (snd r)) = Ok (rows [[Cx (qq 3 5) (zq 0)]]).
Proof.
  split; [repeat constructor|]. split; [cbn; tauto|]. split; [reflexivity|]. split; [intros x p [<-|[]] [<-|[]]; lia|].
  split; [intros x [<-|[<-|[]]]; left; intros p [<-|[]]; lia|]. split; [left; cbn; lia|]. split; [reflexivity|].
  split; [apply shapeb_shape with (r := 2) (c := 4); vm_compute; reflexivity|].
  split; [intros t i Ht [<-|[]]; cbn in Ht; destruct t as [|[|t]]; [reflexivity|reflexivity|lia]|]. split; [|split].
  - intros x [<-|[]]. exists (cz 1 0). split; [apply propb_ok|apply drawsb_ok]; vm_compute; reflexivity.
  - apply drawsb_ok. vm_compute. reflexivity.
  - apply res_meqb_eq. vm_compute. reflexivity.
Qed.
Example C46_ex_script : with_substations [bd 1 1 5 2 10 0; bd 2 1 1 1 10 0; bd 3 1 0 0 10 0; bd 4 3 0 0 10 0] false [2] = [2; 4].
Proof. reflexivity. Qed.

(** ** what fails *)
(** the simulation passes the injected currents [V @ Y] (simulation.py:103): the hidden node draws as much
    as its voltage, but the matrix does not fit the remaining measurements *)
Definition res_pair (r : res (list nat * mat (cplx Qc))) : list nat * mat (cplx Qc) := match r with Ok x => x | Err _ => ([], path4) end.
Definition is_ok {T} (r : res T) : bool := match r with Ok _ => true | Err _ => false end.
Lemma res_pair_ok : forall r, is_ok r = true -> r = Ok (fst (res_pair r), snd (res_pair r)).
Proof. intros [[a b]|e] H; [reflexivity|discriminate]. Qed.
Definition c65_J := mmul c46_V path4.
Notation c65_r := (reduce_network inv_of c46_n c46_V c65_J [2] true).
Definition c65_L : mat (cplx Qc) := loaded path4 c46_V c65_J [1].
Definition c65_B := inv_of (block_of c65_L [1; 2] [1; 2]).
Lemma c65_ok : is_ok c65_r = true.
Proof. vm_compute. reflexivity. Qed.
Lemma c65_todel : fst (res_pair c65_r) = [1; 2].
Proof. vm_compute. reflexivity. Qed.
Lemma c65_wrong : meqb (mmul (columns c46_V [0; 3]) (snd (res_pair c65_r))) (columns c65_J [0; 3]) = false.
Proof. vm_compute. reflexivity. Qed.
Lemma c65_B_ok : penroseb 2 (block_of c65_L [1; 2] [1; 2]) c65_B = true.
Proof. vm_compute. reflexivity. Qed.
Theorem C65_simulated_currents_refuted : exists (pinv : mat (cplx Qc) -> mat (cplx Qc)) (n : net (K := Qc)) V Y hidden H G E B todel Z Vr Jr,
  let N := length (buses n) in let I := mmul V Y in let L := loaded Y V I H in
  inverts pinv /\ consistent n /\ make_y_bus n = Ok Y /\ located n hidden H /\ located n (grids n) G /\ shape V 2 N /\ (forall x, In x H -> ~ In x G) /\
  NoDup E /\ (forall x, In x E <-> In x H \/ exists i, nth_error (ids n) x = Some i /\ idle n 0 i) /\
  (forall x, In x H -> mean_at V x <> 0%K) /\ shape B (length E) (length E) /\ mmul (block_of L E E) B = meye (length E) /\
  (forall x, In x H -> exists c, proportional V I x c) /\ (forall x, In x E -> ~ In x H -> draws V Y x 0%K) /\
  reduce_network pinv n V I hidden true = Ok (todel, Z) /\ delete_cols V todel = Ok Vr /\ delete_cols I todel = Ok Jr /\ mmul Vr Z <> Jr.
Proof.
  destruct (penroseb_ok _ _ _ c65_B_ok) as (HP & SP & E1 & E2).
  exists inv_of, c46_n, c46_V, path4, [2], [1], [3], [1; 2], c65_B, (fst (res_pair c65_r)), (snd (res_pair c65_r)), (columns c46_V [0; 3]), (columns c65_J [0; 3]).
  cbv zeta. change (mmul c46_V path4) with c65_J. change (loaded path4 c46_V c65_J [1]) with c65_L. change (length [1; 2]) with 2.
  split; [exact inv_of_inverts|]. split; [exact c46_consistent|]. split; [exact c46_y|]. split; [repeat constructor|]. split; [repeat constructor|].
  split; [apply shapeb_shape; vm_compute; reflexivity|]. split; [intros x [<-|[]] [?|[]]; discriminate|]. split; [nodups|]. split; [exact c46_E|].
  split; [exact c46_mean|]. split; [exact SP|]. split; [exact E1|].
  split; [intros x [<-|[]]; exists (cz (-1) 0); apply propb_ok; vm_compute; reflexivity|].
  split; [intros x [<-|[<-|[]]] N; [exfalso; apply N; cbn; auto|apply drawsb_ok; vm_compute; reflexivity]|].
  split; [exact (res_pair_ok c65_r c65_ok)|]. rewrite c65_todel.
  split; [reflexivity|]. split; [reflexivity|]. apply meqb_neq. exact c65_wrong.
Qed.
Print Assumptions C65_simulated_currents_refuted.

(** substation 1 first, bus 3 hidden: the shunt is computed from the measurements of bus 2 *)
Definition c46_m := wired (built [bd 1 3 0 0 10 0; bd 2 1 5 2 10 0; bd 3 1 1 1 10 0; bd 4 1 2 1 10 0]) path4.
Lemma c46_m_consistent : consistent c46_m.
Proof. apply wired_consistent, built_ok; [singles|nodups]. Qed.
Definition c46_I' : mat (cplx Qc) := czrows [[(-1, 0); (2, 0); (0, 0); (0, 0)]; [(0, 0); (2, 0); (0, 0); (-1, 0)]]%Z.
Notation c46_r1 := (reduce_network inv_of c46_m c46_V c46_I [3; 1] false).
Notation c46_r2 := (reduce_network inv_of c46_m c46_V c46_I' [3; 1] false).
Lemma c46_r_ok : is_ok c46_r1 = true /\ is_ok c46_r2 = true.
Proof. split; vm_compute; reflexivity. Qed.
Lemma c46_r_differ : meqb (snd (res_pair c46_r1)) (snd (res_pair c46_r2)) = false.
Proof. vm_compute. reflexivity. Qed.
Theorem C46_own_measurements_refuted : exists (pinv : mat (cplx Qc) -> mat (cplx Qc)) (n : net (K := Qc)) V I I' hidden H G todel todel' Z Z',
  inverts pinv /\ consistent n /\ located n hidden H /\ located n (grids n) G /\ (forall x, In x G -> In x H) /\
  shape V 2 4 /\ shape I 2 4 /\ shape I' 2 4 /\ length (buses n) = 4 /\ (forall x, In x H -> mean_at V x <> 0%K) /\
  (forall t x, t < 2 -> In x H -> get I t x = get I' t x) /\
  reduce_network pinv n V I hidden false = Ok (todel, Z) /\ reduce_network pinv n V I' hidden false = Ok (todel', Z') /\ Z <> Z'.
Proof.
  destruct c46_r_ok as [R1 R2].
  exists inv_of, c46_m, c46_V, c46_I, c46_I', [3; 1], [2; 0], [0], (fst (res_pair c46_r1)), (fst (res_pair c46_r2)), (snd (res_pair c46_r1)), (snd (res_pair c46_r2)).
  split; [exact inv_of_inverts|]. split; [exact c46_m_consistent|]. split; [repeat constructor|]. split; [repeat constructor|].
  split; [cbn; tauto|]. split; [apply shapeb_shape; vm_compute; reflexivity|]. split; [apply shapeb_shape; vm_compute; reflexivity|].
  split; [apply shapeb_shape; vm_compute; reflexivity|]. split; [reflexivity|].
  split; [intros x [<-|[<-|[]]]; apply keqb_neq; vm_compute; reflexivity|].
  split; [intros t x Ht [<-|[<-|[]]]; (destruct t as [|[|t]]; [reflexivity|reflexivity|lia])|].
  split; [exact (res_pair_ok c46_r1 R1)|]. split; [exact (res_pair_ok c46_r2 R2)|]. apply meqb_neq. exact c46_r_differ.
Qed.
Print Assumptions C46_own_measurements_refuted.

(** substation 1 first, bus 2 without injection: bus 2 stays in the matrix but not in the measurements *)
Definition c46_p := wired (built [bd 1 3 0 0 10 0; bd 2 1 0 0 10 0; bd 3 1 1 1 10 0; bd 4 1 2 1 10 0]) path4.
Lemma c46_p_consistent : consistent c46_p.
Proof. apply wired_consistent, built_ok; [singles|nodups]. Qed.
Notation c46_r3 := (reduce_network inv_of c46_p c46_V c46_I [1] false).
Lemma c46_r3_ok : is_ok c46_r3 = true.
Proof. vm_compute. reflexivity. Qed.
Lemma c46_r3_rows : nr (snd (res_pair c46_r3)) = 3 /\ fst (res_pair c46_r3) = [0; 1].
Proof. split; vm_compute; reflexivity. Qed.
Theorem C46_row_per_column_refuted : exists (pinv : mat (cplx Qc) -> mat (cplx Qc)) (n : net (K := Qc)) V I hidden H G todel Z Vr,
  inverts pinv /\ consistent n /\ located n hidden H /\ located n (grids n) G /\ (forall x, In x G -> In x H) /\
  nc V = length (buses n) /\ nc I = length (buses n) /\ reduce_network pinv n V I hidden false = Ok (todel, Z) /\
  delete_cols V todel = Ok Vr /\ nr Z <> nc Vr.
Proof.
  exists inv_of, c46_p, c46_V, c46_I, [1], [0], [0], (fst (res_pair c46_r3)), (snd (res_pair c46_r3)), (columns c46_V [2; 3]).
  destruct c46_r3_rows as [R T].
  split; [exact inv_of_inverts|]. split; [exact c46_p_consistent|]. split; [repeat constructor|]. split; [repeat constructor|]. split; [cbn; tauto|].
  split; [reflexivity|]. split; [reflexivity|]. split; [exact (res_pair_ok c46_r3 c46_r3_ok)|]. rewrite R, T. split; [reflexivity|]. discriminate.
Qed.
Print Assumptions C46_row_per_column_refuted.

(** substations 1 and 2, bus 3 hidden: IndexError *)
Definition path3 : mat (cplx Qc) := czrows [[(1, 0); (-1, 0); (0, 0)]; [(-1, 0); (2, 0); (-1, 0)]; [(0, 0); (-1, 0); (1, 0)]]%Z.
Definition c46_s := wired (built [bd 1 3 0 0 10 0; bd 2 3 0 0 10 0; bd 3 1 1 1 10 0]) path3.
Definition c46_V3 : mat (cplx Qc) := czrows [[(1, 0); (1, 0); (1, 0)]]%Z.
Lemma c46_s_fails : match reduce_network inv_of c46_s c46_V3 c46_V3 [3; 1; 2] false with Err IndexError => true | _ => false end = true.
Proof. vm_compute. reflexivity. Qed.
Theorem C46_several_substations_refuted : exists (pinv : mat (cplx Qc) -> mat (cplx Qc)) (n : net (K := Qc)) V I hidden H G,
  inverts pinv /\ consistent n /\ located n hidden H /\ located n (grids n) G /\ (forall x, In x G -> In x H) /\
  nc V = length (buses n) /\ nc I = length (buses n) /\ reduce_network pinv n V I hidden false = Err IndexError.
Proof.
  exists inv_of, c46_s, c46_V3, c46_V3, [3; 1; 2], [2; 0; 1], [0; 1].
  split; [exact inv_of_inverts|]. split; [apply wired_consistent, built_ok; [singles|nodups]|]. split; [repeat constructor|]. split; [repeat constructor|].
  split; [cbn; tauto|]. split; [reflexivity|]. split; [reflexivity|].
  pose proof c46_s_fails as H. destruct (reduce_network inv_of c46_s c46_V3 c46_V3 [3; 1; 2] false) as [|[]]; (discriminate || reflexivity).
Qed.
Print Assumptions C46_several_substations_refuted.
