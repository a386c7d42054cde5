(** Properties C59-C61 and C70-C78: the identification runs. *)
From Coq Require Import String.
From Coq Require Import Bool Arith ZArith Lia List Sorted Qcanon.
From Verif Require Import BasePy BaseFld BaseOrd BaseSum BaseMat BaseNumpy BaseLin BaseEx SpecMatrix ModelMatrixOps ModelPrior ModelFit ModelLS SpecLS
  ModelIdent ModelRun SpecRun SpecIdentify ProofMask ProofRun ProofRunIO ProofRunPhase ProofRunThm ProofIdentify ProofIdentifyThm ProofRunBayes ProofIdentifyEnd ProofRerun.
Import ListNotations.
Close Scope Qc_scope. Close Scope Q_scope. Close Scope string_scope. Open Scope list_scope. Open Scope nat_scope.

(** ** C59 *)
(** if the currents are a product with the voltages, up to a constant for each current, so are the centred ones *)
Theorem C59_centring_keeps_the_admittance :
  forall (K : Type) (O : Ops K) (F : Fld K) (O2 : OrdOps K) (OF : OrdFld K) T n m (V Y I : mat (cplx K)) c,
  explained T n m V Y I c -> snd (centred false V I) = mmul (fst (centred false V I)) Y.
Proof. intros. eapply p_centred_explained; eauto. Qed.
Print Assumptions C59_centring_keeps_the_admittance.

Theorem C59_laplacian_centring_keeps_the_admittance :
  forall (K : Type) (O : Ops K) (F : Fld K) (O2 : OrdOps K) (OF : OrdFld K) T n m (V Y I : mat (cplx K)),
  explained T n m V Y I (fun _ => 0%K) -> zero_column_sums n m Y -> snd (centred true V I) = mmul (fst (centred true V I)) Y.
Proof. intros. eapply p_centred_laplacian; eauto. Qed.
Print Assumptions C59_laplacian_centring_keeps_the_admittance.

(** so noise-free data give the exact admittance with all standard methods *)
Theorem C59_noise_free_runs :
  forall (K : Type) (O : Ops K) (F : Fld K) (O2 : OrdOps K) (OF : OrdFld K) pinv svd spsolve (conf : config K) name T n (V Y I : mat (cplx K)) c lap N s,
  explained T n n V Y I c -> (lap = true -> (forall j, j < n -> c j = 0%K) /\ zero_column_sums n n Y) -> 0 < n ->
  inj (fst (centred lap V I)) -> routines pinv svd T n n (fst (centred lap V I)) (snd (centred lap V I)) -> (N <= 0)%Z ->
  exists s', standard_methods pinv svd spsolve conf name (Some V) I lap N s = (s', Ok (Y, Y, Y)) /\
    s' (standard_path name) = Some (Standard Y Y Y).
Proof. exact @p_standard_exact. Qed.
Print Assumptions C59_noise_free_runs.

(** with l1-regularised regression the other two are still exact *)
Theorem C59_noise_free_runs_lasso :
  forall (K : Type) (O : Ops K) (F : Fld K) (O2 : OrdOps K) (OF : OrdFld K) pinv svd spsolve (conf : config K) name T n (V Y I : mat (cplx K)) c lap N s s' o t l,
  explained T n n V Y I c -> (lap = true -> (forall j, j < n -> c j = 0%K) /\ zero_column_sums n n Y) -> 0 < n ->
  inj (fst (centred lap V I)) -> routines pinv svd T n n (fst (centred lap V I)) (snd (centred lap V I)) ->
  standard_methods pinv svd spsolve conf name (Some V) I lap N s = (s', Ok (o, t, l)) -> o = Y /\ t = Y.
Proof. exact @p_standard_exact_any. Qed.
Print Assumptions C59_noise_free_runs_lasso.

(** two nodes, four measurements and constant currents *)
Notation ex_v := (czrows [[(6,1); (8,0)]; [(6,1); (6,0)]; [(4,1); (8,0)]; [(4,1); (6,0)]]%Z).
Notation ex_y := (rows [[cz 0 0; Cx (zq 0) (qq 4 3)]; [Cx (zq 0) (qq 4 3); cz 0 0]]).
Notation ex_c := (fun j : nat => if (j =? 0) then cz 2 1 else cz 0 (-3)).
Notation ex_i := (mk 4 2 (fun t j => (get (mmul ex_v ex_y) t j + ex_c j)%K)).
Notation ex_pinv := (fun m : mat (cplx Qc) => mmap (fun z => (z / cz 4 0)%K) (ctr m)).
Notation ex_u := (mmap (fun z => (z / cz 2 0)%K) (czrows [[(1,0);(1,0);(1,0);(1,0)]; [(1,0);(-1,0);(-1,0);(1,0)]; [(-1,0);(1,0);(-1,0);(1,0)]; [(-1,0);(-1,0);(1,0);(1,0)]]%Z)).
Notation ex_vh := (mmap (fun z => (z / cz 5 0)%K) (czrows [[(3,0);(0,0);(0,0);(0,4)]; [(0,0);(3,0);(0,4);(0,0)]; [(0,4);(0,0);(0,0);(3,0)]; [(0,0);(0,4);(3,0);(0,0)]]%Z)).
Notation ex_svd := (fun _ : mat (cplx Qc) => (ex_u, [qq 10 3; qq 10 3; zq 0; zq 0], ex_vh)).
Definition explainedb (T n m : nat) (V Y I : mat (cplx Qc)) (c : nat -> cplx Qc) : bool :=
  shapeb V T n && shapeb Y n m && shapeb I T m &&
  forall_lt T (fun t => forall_lt m (fun j => (get I t j =? sumn n (fun k => (get V t k * get Y k j)%K) + c j)%K)).
Lemma explainedb_ok : forall T n m V Y I c, explainedb T n m V Y I c = true -> explained T n m V Y I c.
Proof.
  intros T n m V Y I c H. unfold explainedb in H. apply andb_true_iff in H. destruct H as [H H4]. apply andb_true_iff in H. destruct H as [H H3].
  apply andb_true_iff in H. destruct H as [H1 H2]. split; [apply shapeb_shape; auto|]. split; [apply shapeb_shape; auto|]. split; [apply shapeb_shape; auto|].
  intros t j Ht Hj. apply (keqb_eq (K := cplx Qc)). apply (forall_lt_spec _ _ (forall_lt_spec _ _ H4 t Ht) j Hj).
Qed.
Definition penroseb (T n : nat) (x p : mat (cplx Qc)) : bool :=
  shapeb x T n && shapeb p n T && meqb (mmul (mmul x p) x) x && meqb (mmul (mmul p x) p) p && meqb (ctr (mmul x p)) (mmul x p) && meqb (ctr (mmul p x)) (mmul p x).
Lemma penroseb_ok : forall T n x p, penroseb T n x p = true -> penrose T n x p.
Proof.
  intros T n x p H. unfold penroseb in H. rewrite !andb_true_iff in H. destruct H as [[[[[H1 H2] H3] H4] H5] H6].
  split; [apply shapeb_shape; auto|]. split; [apply shapeb_shape; auto|]. repeat split; apply meqb_eq; auto.
Qed.
Definition svdb (T m : nat) (a u : mat (cplx Qc)) (s : list Qc) (vh : mat (cplx Qc)) : bool :=
  shapeb a T m && shapeb u T T && shapeb vh m m && meqb (mmul (ctr u) u) (meye T) && meqb (mmul (ctr vh) vh) (meye m) && meqb (mmul vh (ctr vh)) (meye m) &&
  (length s =? min T m) && forall_lt (length s) (fun i => kleb (zq 0) (vget s i)) &&
  forall_lt (length s) (fun j => forall_lt (S j) (fun i => kleb (vget s j) (vget s i))) && meqb a (mmul u (mmul (sigma T m s) vh)).
Lemma svdb_ok : forall T m a u s vh, svdb T m a u s vh = true -> is_svd T m a u s vh.
Proof.
  intros T m a u s vh H. unfold svdb in H. rewrite !andb_true_iff in H. destruct H as [[[[[[[[[H1 H2] H3] H4] H5] H6] H7] H8] H9] H10].
  split; [apply shapeb_shape; auto|]. split; [apply shapeb_shape; auto|]. split; [apply shapeb_shape; auto|].
  split; [apply meqb_eq; auto|]. split; [apply meqb_eq; auto|]. split; [apply meqb_eq; auto|]. split; [apply Nat.eqb_eq; auto|].
  split; [intros i Hi; apply (forall_lt_spec _ _ H8 i Hi)|]. split; [|apply meqb_eq; auto].
  intros i j Hij Hj. apply (forall_lt_spec _ _ (forall_lt_spec _ _ H9 j Hj) i). lia.
Qed.
Definition routinesb pinv svd (T n m : nat) (V I : mat (cplx Qc)) : bool :=
  penroseb T n V (pinv V) && let '(u, s, vh) := svd (hstack2 V I) in svdb T (n + m) (hstack2 V I) u s vh.
Lemma routinesb_ok : forall pinv svd T n m V I, routinesb pinv svd T n m V I = true -> routines pinv svd T n m V I.
Proof.
  intros pinv svd T n m V I H. unfold routinesb in H. apply andb_true_iff in H. destruct H as [H1 H2]. split; [apply penroseb_ok; auto|].
  destruct (svd (hstack2 V I)) as [[u s] vh]. apply svdb_ok. auto.
Qed.
Lemma left_inverse : forall T n (x p : mat (cplx Qc)), shapeb x T n = true -> shapeb p n T = true -> meqb (mmul p x) (meye n) = true -> inj x.
Proof. intros T n x p H1 H2 H3. apply (left_inverse_inj x p n T); [apply shapeb_shape; auto|apply shapeb_shape; auto|apply meqb_eq; auto]. Qed.
Example C59_example : explained 4 2 2 ex_v ex_y ex_i ex_c /\ inj (fst (centred false ex_v ex_i)) /\
  routines ex_pinv ex_svd 4 2 2 (fst (centred false ex_v ex_i)) (snd (centred false ex_v ex_i)).
Proof.
  split; [apply explainedb_ok; vm_compute; reflexivity|]. split.
  - apply (left_inverse 4 2 _ (ex_pinv (fst (centred false ex_v ex_i)))); vm_compute; reflexivity.
  - apply routinesb_ok. vm_compute. reflexivity.
Qed.

(** a Laplacian of four nodes *)
Notation h4 := ([[1; 1; 1; 1]; [1; -1; 1; -1]; [1; 1; -1; -1]; [1; -1; -1; 1]]%Z).
Notation hget i j := (nth j (nth i h4 []) 0%Z).
Notation ex_v0 := (mk 4 4 (fun t k => cz ((if (t =? 2) then -1 else 1) * (if (k =? 3) then -1 else 1) * hget t k) 0)).
Notation ex_v4 := (mk 4 4 (fun t k => (get ex_v0 t k + cz 7 2)%K)).
Notation ex_y4 := (mk 4 4 (fun i j => if (i =? j) then cz 1 0 else Cx (qq (-1) 3) (zq 0))).
Notation ex_i4 := (mmul ex_v4 ex_y4).
Notation ord4 i := (nth i [1; 2; 3; 0] 0).
Notation ex_u4 := (mmul (mmap (fun z => (z / cz 2 0)%K) ex_v0) (mk 4 4 (fun i j => Cx (qq (hget i (ord4 j)) 2) (zq 0)))).
Notation ex_vh4 := (mk 8 8 (fun i j => let w := (cz (hget (j mod 4) (ord4 (i mod 4))) 0 / cz 2 0)%K in
  if (i mod 4 =? 3) then (if (i / 4 =? j / 4) then w else cz 0 0)
  else if (i <? 4) then (if (j <? 4) then (w * Cx (qq 3 5) (zq 0))%K else (w * Cx (qq 4 5) (zq 0))%K)
  else (if (j <? 4) then (w * Cx (qq 4 5) (zq 0))%K else (w * Cx (qq (-3) 5) (zq 0))%K))).
Notation ex_svd4 := (fun _ : mat (cplx Qc) => (ex_u4, [qq 10 3; qq 10 3; qq 10 3; zq 2], ex_vh4)).
Example C59_laplacian_example : explained 4 4 4 ex_v4 ex_y4 ex_i4 (fun _ => cz 0 0) /\ zero_column_sums 4 4 ex_y4 /\
  inj (fst (centred true ex_v4 ex_i4)) /\ routines ex_pinv ex_svd4 4 4 4 (fst (centred true ex_v4 ex_i4)) (snd (centred true ex_v4 ex_i4)).
Proof.
  split; [apply explainedb_ok; vm_compute; reflexivity|]. split.
  { intros j Hj. apply (keqb_eq (K := cplx Qc)). revert j Hj. apply forall_lt_spec. vm_compute. reflexivity. }
  split.
  - apply (left_inverse 4 4 _ (ex_pinv (fst (centred true ex_v4 ex_i4)))); vm_compute; reflexivity.
  - apply routinesb_ok. vm_compute. reflexivity.
Qed.

(** Without phase synchronisation the data of the fit are the magnitudes of the voltages and the currents relative to the
    voltages: they do not satisfy the network equation, even for a Laplacian and noise-free data. *)
Notation un_v := (czrows [[(5,0); (3,4)]; [(5,0); (5,0)]]%Z).
Notation un_y := (czrows [[(1,0); (-1,0)]; [(-1,0); (1,0)]]%Z).
Notation un_i := (czrows [[(2,-4); (-2,4)]; [(0,0); (0,0)]]%Z).
Theorem C59_unsynchronized_refuted :
  exists T n (V Y I : mat (cplx Qc)), explained T n n V Y I (fun _ => 0%K) /\ symmetric n Y /\ zero_column_sums n n Y /\
  forall cabs : cplx Qc -> Qc,
    (forall t k, t < T -> k < n -> kle 0%K (cabs (get V t k)) /\ (cabs (get V t k) * cabs (get V t k) = cnorm2 (get V t k))%K) ->
    exists I', relative_current cabs V I = Ok I' /\ forall c, ~ explained T n n (magnitudes cabs V) Y I' c.
Proof.
  exists 2, 2, un_v, un_y, un_i. split; [apply explainedb_ok; vm_compute; reflexivity|].
  split; [apply symmetricb_ok; vm_compute; reflexivity|]. split.
  { intros j Hj. apply (keqb_eq (K := cplx Qc)). revert j Hj. apply forall_lt_spec. vm_compute. reflexivity. }
  intros cabs A.
  assert (R : forall x : Qc, kle 0%K x -> (x * x = zq 25)%K -> x = zq 5).
  { intros x P E. assert (Z : ((x - zq 5) * (x + zq 5) = 0)%K).
    { transitivity (x * x - zq 25)%K; [|rewrite E; apply keqb_eq; vm_compute; reflexivity].
      assert (E5 : (zq 5 * zq 5 = zq 25)%K) by (apply keqb_eq; vm_compute; reflexivity). rewrite <- E5. clear. cbn. ring. }
    apply kmul_integral in Z. destruct Z as [Z|Z].
    - apply ksub_eq0. exact Z.
    - exfalso. assert (X : x = zq (-5)). { transitivity ((x + zq 5) - zq 5)%K; [cbn; ring|]. rewrite Z. apply keqb_eq. vm_compute. reflexivity. }
      subst x. vm_compute in P. discriminate. }
  assert (C1 : cabs (cz 5 0) = zq 5).
  { destruct (A 0 0 ltac:(lia) ltac:(lia)) as [P E]. apply R; [exact P|]. etransitivity; [exact E|]. apply keqb_eq. vm_compute. reflexivity. }
  assert (C2 : cabs (cz 3 4) = zq 5).
  { destruct (A 0 1 ltac:(lia) ltac:(lia)) as [P E]. apply R; [exact P|]. etransitivity; [exact E|]. apply keqb_eq. vm_compute. reflexivity. }
  eexists. split; [reflexivity|]. intros c (_ & _ & _ & H).
  pose proof (H 0 0 ltac:(lia) ltac:(lia)) as H0. pose proof (H 1 0 ltac:(lia) ltac:(lia)) as H1. clear H A R.
  change (cz 2 (-4) * conj (cz 5 0) / cre (cabs (cz 5 0)) = (0 + cre (cabs (cz 5 0)) * cz 1 0 + cre (cabs (cz 3 4)) * cz (-1) 0) + c 0%nat)%K in H0.
  change (cz 0 0 * conj (cz 5 0) / cre (cabs (cz 5 0)) = (0 + cre (cabs (cz 5 0)) * cz 1 0 + cre (cabs (cz 5 0)) * cz (-1) 0) + c 0%nat)%K in H1.
  rewrite C1, C2 in *.
  assert (E : (cz 2 (-4) * conj (cz 5 0) / cre (zq 5) =? cz 0 0 * conj (cz 5 0) / cre (zq 5))%K = false) by (vm_compute; reflexivity).
  apply keqb_neq in E. apply E. rewrite H0, H1. reflexivity.
Qed.
Print Assumptions C59_unsynchronized_refuted.

(** ** C60 *)
(** the estimates of the three sequences are the blocks of the result; nothing between different labels *)
Theorem C60_assembled_standard :
  forall (K : Type) (O : Ops K) (O2 : OrdOps K) pinv svd spsolve (conf : config K) name (v c : mat (cplx K)) ids lap n (eo et el : Z -> mat (cplx K)) s,
  nc v = length ids -> nc c = length ids ->
  (forall p V I, In p [0; 1; 2]%Z -> columns_of ids p v V -> columns_of ids p c I ->
    standard_estimates pinv svd spsolve conf V I lap n = Ok (eo p, et p, el p)) ->
  (forall p idx, In p [0; 1; 2]%Z -> positions_of ids p idx -> Forall (fun e => shape e (length idx) (length idx)) [eo p; et p; el p]) ->
  exists o t l, (let '(s', r) := standard_methods_3ph pinv svd spsolve conf name (Some v) c (Some ids) lap n s in
      r = Ok (o, t, l) /\ s' (standard_path name) = Some (Standard o t l)) /\
    Forall (fun e => shape e (length ids) (length ids) /\ no_cross ids [0; 1; 2]%Z e) [o; t; l] /\
    forall p, In p [0; 1; 2]%Z -> block ids p o (eo p) /\ block ids p t (et p) /\ block ids p l (el p).
Proof. exact @p_three_phases. Qed.
Print Assumptions C60_assembled_standard.

(** the same for the Bayesian estimate and each of its iterations; the costs are added *)
Theorem C60_assembled_bayesian :
  forall (K : Type) (O : Ops K) (O2 : OrdOps K) spsolve cabs true_cov naive_cov (conf : config K) name (v c : mat (cplx K)) ids sv sc r y ye lap w n u
    (est : Z -> mat (cplx K) * list (status K)) s,
  nc v = length ids -> nc c = length ids -> length r = length ids -> shape y (length ids) (length ids) ->
  (forall m, ye = Some m -> shape m (length ids) (length ids)) -> In 0%Z ids ->
  (forall p vp cp rp yp yep s, In p [0; 1; 2]%Z -> columns_of ids p v vp -> columns_of ids p c cp -> values_of ids p r rp -> block ids p y yp ->
    match ye, yep with None, None => True | Some m, Some b => block ids p m b | _, _ => False end ->
    exists s1, bayesian_eiv spsolve cabs true_cov naive_cov conf name vp cp sv sc rp yp yep lap w n u s = (s1, Ok (est p))) ->
  (forall p idx m, In p [0; 1; 2]%Z -> positions_of ids p idx -> In m (fst (est p) :: map st_y (snd (est p))) -> shape m (length idx) (length idx)) ->
  exists y' its, (let '(s', res) := bayesian_eiv_3ph spsolve cabs true_cov naive_cov conf name v c ids sv sc r y ye lap w n u s in
      res = Ok (y', its) /\ s' (bayesian_path name) = Some (Bayesian y' its)) /\
    (shape y' (length ids) (length ids) /\ no_cross ids [0; 1; 2]%Z y' /\ forall p, In p [0; 1; 2]%Z -> block ids p y' (fst (est p))) /\
    length its = min (length (snd (est 0%Z))) (min (length (snd (est 1%Z))) (length (snd (est 2%Z)))) /\
    forall k st, nth_error its k = Some st ->
      st_it st = k /\ shape (st_y st) (length ids) (length ids) /\ no_cross ids [0; 1; 2]%Z (st_y st) /\
      exists parts, (forall p, In p [0; 1; 2]%Z -> nth_error (snd (est p)) k = Some (parts p) /\ block ids p (st_y st) (st_y (parts p))) /\
        st_target st = (0 + st_target (parts 0%Z) + st_target (parts 1%Z) + st_target (parts 2%Z))%K.
Proof. exact @p_three_bayesian. Qed.
Print Assumptions C60_assembled_bayesian.

(** noise-free data of a network without coupling between sequences give its admittance *)
Theorem C60_noise_free_sequences :
  forall (K : Type) (O : Ops K) (F : Fld K) (O2 : OrdOps K) (OF : OrdFld K) pinv svd spsolve (conf : config K) name T ids (V Y I : mat (cplx K)) c lap N s,
  explained T (length ids) (length ids) V Y I c ->
  (lap = true -> (forall j, j < length ids -> c j = 0%K) /\ zero_column_sums (length ids) (length ids) Y) ->
  no_cross ids [0; 1; 2]%Z Y ->
  (forall p, In p [0; 1; 2]%Z -> In p ids) ->
  (forall p Vp Ip, In p [0; 1; 2]%Z -> columns_of ids p V Vp -> columns_of ids p I Ip ->
    inj (fst (centred lap Vp Ip)) /\ routines pinv svd T (nc Vp) (nc Vp) (fst (centred lap Vp Ip)) (snd (centred lap Vp Ip))) ->
  (N <= 0)%Z ->
  exists s', standard_methods_3ph pinv svd spsolve conf name (Some V) I (Some ids) lap N s = (s', Ok (Y, Y, Y)) /\
    s' (standard_path name) = Some (Standard Y Y Y).
Proof. exact @p_three_exact. Qed.
Print Assumptions C60_noise_free_sequences.

(** two nodes of sequence 0 with one node of sequence 1 between them, and one of sequence 2 before *)
Notation ids4 := ([2; 0; 1; 0]%Z).
Notation q_v := (mk 4 4 (fun t k => (cz (nth k [3; 1; 2; 1]%Z 0%Z * hget t (nth k [1; 2; 1; 1]%nat 0%nat))%Z 0 + cz (Z.of_nat k + 5) 1)%K)).
Notation q_y := (rows [[Cx (zq 0) (qq 3 4); cz 0 0; cz 0 0; cz 0 0]; [cz 0 0; cz 0 0; cz 0 0; Cx (zq 0) (qq 4 3)];
  [cz 0 0; cz 0 0; Cx (qq 4 3) (zq 0); cz 0 0]; [cz 0 0; Cx (zq 0) (qq 4 3); cz 0 0; cz 0 0]]).
Notation q_i := (mk 4 4 (fun t j => (get (mmul q_v q_y) t j + cz 1 (Z.of_nat j))%K)).
Definition q_pinv (m : mat (cplx Qc)) : mat (cplx Qc) := mmap (fun z => (z / cre (sumn (nr m) (fun t => cnorm2 (get m t 0))))%K) (ctr m).
Notation q_u l := (mk 4 4 (fun i j => (cz (hget i (nth j l 0%nat)) 0 / cz 2 0)%K)).
Definition q_svd (m : mat (cplx Qc)) : mat (cplx Qc) * list Qc * mat (cplx Qc) :=
  if (nc m =? 4) then (q_u [2; 1; 3; 0]%nat, [qq 10 3; qq 10 3; zq 0; zq 0], ex_vh)
  else let a := get m 0 0 in let y := (get m 0 1 / a)%K in
    let r := if (y =? Cx (zq 0) (qq 3 4))%K then qq 5 4 else qq 5 3 in
    (q_u [1; 2; 3; 0]%nat, [(zq 2 * re a * r)%K; zq 0],
     rows [[(cz 1 0 / cre r)%K; (y / cre r)%K]; [(conj y / cre r)%K; (cz (-1) 0 / cre r)%K]]).
Lemma one_columns : forall ids p (m b : mat (cplx Qc)), columns_of ids p m b -> b = mcols m (selected (is_phase ids p)).
Proof. intros ids p m b H. apply columns_mcols in H. exact H. Qed.
Definition no_crossb (ids labels : list Z) (m : mat (cplx Qc)) : bool :=
  forall_lt (length ids) (fun a => forall_lt (length ids) (fun b => let p := nth a ids 0%Z in let q := nth b ids 0%Z in
    if negb (p =? q)%Z || negb (existsb (Z.eqb p) labels) then (get m a b =? 0)%K else true)).
Lemma no_crossb_ok : forall ids labels m, no_crossb ids labels m = true -> no_cross ids labels m.
Proof.
  intros ids labels m H a b p q Ha Hb D.
  assert (La : a < length ids) by (apply nth_error_Some; congruence). assert (Lb : b < length ids) by (apply nth_error_Some; congruence).
  pose proof (forall_lt_spec _ _ (forall_lt_spec _ _ H a La) b Lb) as G. cbn beta zeta in G.
  rewrite (nth_error_nth _ _ 0%Z Ha), (nth_error_nth _ _ 0%Z Hb) in G.
  assert (E : negb (p =? q)%Z || negb (existsb (Z.eqb p) labels) = true).
  { apply orb_true_iff. destruct D as [D|D]; [left; apply negb_true_iff, Z.eqb_neq; auto|right].
    apply negb_true_iff. destruct (existsb _ _) eqn:E; auto. apply existsb_exists in E. destruct E as (z0 & E1 & E2). apply Z.eqb_eq in E2. subst z0. tauto. }
  rewrite E in G. apply (keqb_eq (K := cplx Qc)). exact G.
Qed.
Example C60_example : explained 4 4 4 q_v q_y q_i (fun j => cz 1 (Z.of_nat j)) /\ no_cross ids4 [0; 1; 2]%Z q_y /\
  (forall p, In p [0; 1; 2]%Z -> In p ids4) /\
  forall p Vp Ip, In p [0; 1; 2]%Z -> columns_of ids4 p q_v Vp -> columns_of ids4 p q_i Ip ->
    inj (fst (centred false Vp Ip)) /\ routines q_pinv q_svd 4 (nc Vp) (nc Vp) (fst (centred false Vp Ip)) (snd (centred false Vp Ip)).
Proof.
  split; [apply explainedb_ok; vm_compute; reflexivity|]. split; [apply no_crossb_ok; vm_compute; reflexivity|].
  split; [cbn; tauto|]. intros p Vp Ip Hp HV HI. apply one_columns in HV. apply one_columns in HI. subst Vp Ip.
  destruct Hp as [<-|[<-|[<-|[]]]].
  - split; [apply (left_inverse 4 2 _ (q_pinv (fst (centred false (mcols q_v (selected (is_phase ids4 0))) (mcols q_i (selected (is_phase ids4 0)))))));
      vm_compute; reflexivity|apply routinesb_ok; vm_compute; reflexivity].
  - split; [apply (left_inverse 4 1 _ (q_pinv (fst (centred false (mcols q_v (selected (is_phase ids4 1))) (mcols q_i (selected (is_phase ids4 1)))))));
      vm_compute; reflexivity|apply routinesb_ok; vm_compute; reflexivity].
  - split; [apply (left_inverse 4 1 _ (q_pinv (fst (centred false (mcols q_v (selected (is_phase ids4 2))) (mcols q_i (selected (is_phase ids4 2)))))));
      vm_compute; reflexivity|apply routinesb_ok; vm_compute; reflexivity].
Qed.

(** ** C61 *)
(** a small network with exact linear algebra in place of the numerical routines *)
Definition norm1 (z : cplx Qc) : Qc := kadd (kabs (re z)) (kabs (im z)).
Definition cov1 (m : mat (cplx Qc)) (_ : arg Qc) (_ : Qc) (_ : bool) : res (mat Qc) := Ok (meye (2 * nr m * nc m)).
Definition pinv1 (m : mat (cplx Qc)) : mat (cplx Qc) := ctr m.
Definition svd1 (m : mat (cplx Qc)) : mat (cplx Qc) * list Qc * mat (cplx Qc) :=
  (meye (nr m), map (fun _ => zq 1) (range (min (nr m) (nc m))),
   mk (nc m) (nc m) (fun i j => if (i =? j) then cz 1 0 else if (i + j =? nc m - 1) then cz 1 1 else cz 0 0)).
Definition conf1 : config Qc := Config Qc (zq 1) (zq 1) (zq 1) (zq 0) (zq 0) true true true (zq 1) (zq 1) (zq 1) (zq 1).
Notation run := (identify pinv1 svd1 ksolve norm1 (fun x => x) cov1 cov1 conf1).
Notation net_v := (czrows [[(5,0);(3,1)];[(5,2);(4,0)]]%Z).
Notation net_i := (czrows [[(2,-1);(-2,1)];[(1,0);(0,1)]]%Z).
Notation net_y := (czrows [[(2,1);(-1,0)];[(-1,0);(2,0)]]%Z).
Definition world (h : list Z) : files Qc := fun p => if String.eqb p (simulation_path "net") then Some (Simulation net_i net_v net_i net_v net_y [zq 1; zq 2] (zq 4) h) else None.
Definition opt (n : Z) (st ba co : bool) (ph : string) (q la we un us : bool) : options := Options "net" n st ba co ph q false la we un us.
Definition okb (r : res unit) : bool := match r with Ok _ => true | Err _ => false end.
Lemma okb_ok : forall r, okb r = true -> r = Ok tt.
Proof. intros [[]|]; [reflexivity|discriminate]. Qed.
Lemma pair_snd : forall A B (x : A * B) (b : B), snd x = b -> x = (fst x, b).
Proof. intros A B [a b0] b H. cbn in *. congruence. Qed.
Definition isSome {A} (x : option A) : bool := match x with Some _ => true | None => false end.
Lemma isSome_ok : forall A (x : option A), isSome x = true -> x <> None.
Proof. intros A [a|] H; discriminate. Qed.
(** six columns: two nodes of each sequence *)
Definition six (m : mat (cplx Qc)) : mat (cplx Qc) := mk (nr m) 6 (fun t k => (get m t (k mod 2) + cz (Z.of_nat (t * k)) (Z.of_nat k))%K).
Definition six_ids : list Z := [0; 1; 0; 2; 2; 1]%Z.
Definition world6 : files Qc := fun p => if String.eqb p (simulation_path "net")
  then Some (Simulation (six net_i) (six net_v) (six net_i) (six net_v) (mk 6 6 (fun i j => cz (Z.of_nat (i + j)) 1)) (map zq [1; 2; 1; 2; 1; 2]%Z) (zq 4) six_ids) else None.
Definition est6 (p : Z) : mat (cplx Qc) * list (status Qc) :=
  match snd (bayesian_eiv ksolve norm1 cov1 cov1 conf1 "net" (mcols (six net_v) (selected (is_phase six_ids p))) (mcols (six net_i) (selected (is_phase six_ids p)))
    (cz 1 1) (cz 1 1) (map (vget (map zq [1; 2; 1; 2; 1; 2]%Z)) (selected (is_phase six_ids p)))
    (the_block six_ids p (mk 6 6 (fun i j => cz (Z.of_nat (i + j)) 1))) None false false 1 true (fun _ => None)) with
  | Ok r => r | Err _ => (mzeros 0 0, []) end.
Definition est6_ok (p : Z) : bool :=
  match snd (bayesian_eiv ksolve norm1 cov1 cov1 conf1 "net" (mcols (six net_v) (selected (is_phase six_ids p))) (mcols (six net_i) (selected (is_phase six_ids p)))
    (cz 1 1) (cz 1 1) (map (vget (map zq [1; 2; 1; 2; 1; 2]%Z)) (selected (is_phase six_ids p)))
    (the_block six_ids p (mk 6 6 (fun i j => cz (Z.of_nat (i + j)) 1))) None false false 1 true (fun _ => None)) with
  | Ok (y, its) => shapeb y 2 2 && forallb (fun s => shapeb (st_y s) 2 2) its && negb (meqb y (mzeros 2 2)) && (length its =? 1) | Err _ => false end.
Lemma est6_is : forall p, est6_ok p = true ->
  snd (bayesian_eiv ksolve norm1 cov1 cov1 conf1 "net" (mcols (six net_v) (selected (is_phase six_ids p))) (mcols (six net_i) (selected (is_phase six_ids p)))
    (cz 1 1) (cz 1 1) (map (vget (map zq [1; 2; 1; 2; 1; 2]%Z)) (selected (is_phase six_ids p)))
    (the_block six_ids p (mk 6 6 (fun i j => cz (Z.of_nat (i + j)) 1))) None false false 1 true (fun _ => None)) = Ok (est6 p) /\
  (forall m, In m (fst (est6 p) :: map st_y (snd (est6 p))) -> shape m 2 2) /\ length (snd (est6 p)) = 1.
Proof.
  intros p H. unfold est6_ok in H. unfold est6. destruct (snd _) as [[y its]|]; [|discriminate]. split; [reflexivity|].
  rewrite !andb_true_iff in H. destruct H as [[[H1 H2] _] H3]. cbn [fst snd]. split; [|apply Nat.eqb_eq; auto].
  intros m [<-|I]; [apply shapeb_shape; auto|]. apply in_map_iff in I. destruct I as (s & <- & I). rewrite forallb_forall in H2. apply shapeb_shape. auto.
Qed.
Example C60_bayesian_example :
  (forall p vp cp rp yp yep s, In p [0; 1; 2]%Z -> columns_of six_ids p (six net_v) vp -> columns_of six_ids p (six net_i) cp ->
    values_of six_ids p (map zq [1; 2; 1; 2; 1; 2]%Z) rp -> block six_ids p (mk 6 6 (fun i j => cz (Z.of_nat (i + j)) 1)) yp ->
    match (None : option (mat (cplx Qc))), yep with None, None => True | Some m, Some b => block six_ids p m b | _, _ => False end ->
    exists s1, bayesian_eiv ksolve norm1 cov1 cov1 conf1 "net" vp cp (cz 1 1) (cz 1 1) rp yp yep false false 1 true s = (s1, Ok (est6 p))) /\
  (forall p idx m, In p [0; 1; 2]%Z -> positions_of six_ids p idx -> In m (fst (est6 p) :: map st_y (snd (est6 p))) -> shape m (length idx) (length idx)) /\
  forall p, In p [0; 1; 2]%Z -> length (snd (est6 p)) = 1.
Proof.
  assert (E : forall p, In p [0; 1; 2]%Z -> est6_ok p = true).
  { intros p [<-|[<-|[<-|[]]]]; vm_compute; reflexivity. }
  split; [|split].
  - intros p vp cp rp yp yep s Hp Hv Hc Hr Hy He. apply one_columns in Hv. apply one_columns in Hc. subst vp cp.
    rewrite (Hr (selected (is_phase six_ids p)) ltac:(apply positions_selected; auto)).
    rewrite (block_unique six_ids p _ yp (the_block six_ids p (mk 6 6 (fun i j => cz (Z.of_nat (i + j)) 1))) Hy (the_block_ok _ _ _)).
    destruct yep; [contradiction|]. destruct (est6_is p (E p Hp)) as (E1 & _).
    pose proof (eiv_det ksolve norm1 cov1 cov1 conf1 "net" (mcols (six net_v) (selected (is_phase six_ids p))) (mcols (six net_i) (selected (is_phase six_ids p)))
      (cz 1 1) (cz 1 1) (map (vget (map zq [1; 2; 1; 2; 1; 2]%Z)) (selected (is_phase six_ids p)))
      (the_block six_ids p (mk 6 6 (fun i j => cz (Z.of_nat (i + j)) 1))) None false false 1 true ltac:(lia) s (fun _ => None)) as D.
    rewrite E1 in D. destruct (bayesian_eiv _ _ _ _ _ _ _ _ _ _ _ _ _ _ _ _ _ s) as [s1 r1]. cbn [snd] in D. subst r1. exists s1. reflexivity.
  - intros p idx m Hp Hi Hm. destruct (est6_is p (E p Hp)) as (_ & E2 & _). apply positions_selected in Hi. subst idx.
    replace (length (selected (is_phase six_ids p))) with 2 by (destruct Hp as [<-|[<-|[<-|[]]]]; reflexivity). auto.
  - intros p Hp. destruct (est6_is p (E p Hp)) as (_ & _ & E3). exact E3.
Qed.

(** phases that are not supported are refused, whatever the files *)
Theorem C61_unsupported_phases_refused :
  forall (K : Type) (O : Ops K) (O2 : OrdOps K) pinv svd spsolve cabs ksqrt true_cov naive_cov (conf : config K) o s,
  ~ In (phases o) (supported_phases (sequence o)) ->
  identify pinv svd spsolve cabs ksqrt true_cov naive_cov conf o s = (s, Err NotImplementedError).
Proof. exact @p_refused. Qed.
Print Assumptions C61_unsupported_phases_refused.

Theorem C61_supported_phases_accepted :
  forall (K : Type) (O : Ops K) (O2 : OrdOps K) pinv svd spsolve cabs ksqrt true_cov naive_cov (conf : config K) o s,
  In (phases o) (supported_phases (sequence o)) -> s (simulation_path (network o)) = None ->
  identify pinv svd spsolve cabs ksqrt true_cov naive_cov conf o s = (s, Err FileNotFoundError).
Proof. exact @p_accepted. Qed.
Print Assumptions C61_supported_phases_accepted.

(** no stage flag means all stages *)
Theorem C61_no_flag_means_all :
  forall (K : Type) (O : Ops K) (O2 : OrdOps K) pinv svd spsolve cabs ksqrt true_cov naive_cov (conf : config K) o s,
  identify pinv svd spsolve cabs ksqrt true_cov naive_cov conf (with_flags o false false) s =
  identify pinv svd spsolve cabs ksqrt true_cov naive_cov conf (with_flags o true true) s.
Proof. exact @p_no_flag. Qed.
Print Assumptions C61_no_flag_means_all.

(** a phase without data is refused if some node has another label than 1 *)
Theorem C61_missing_phase_refused :
  forall (K : Type) (O : Ops K) (O2 : OrdOps K) pinv svd spsolve cabs ksqrt true_cov naive_cov (conf : config K) o s i v j w y p f h l,
  In (phases o) (supported_phases (sequence o)) -> In (phases o, l) [("0", 0%Z); ("1", 1%Z); ("2", 2%Z); ("3", 3%Z)]%string ->
  s (simulation_path (network o)) = Some (Simulation i v j w y p f h) -> ~ In l h -> (exists q, In q h /\ q <> 1%Z) ->
  identify pinv svd spsolve cabs ksqrt true_cov naive_cov conf o s = (s, Err IndexError).
Proof. exact @p_missing_phase. Qed.
Print Assumptions C61_missing_phase_refused.

(** but if all labels are 1, every phase gives the same results *)
Theorem C61_single_label_ignores_the_phase :
  forall (K : Type) (O : Ops K) (O2 : OrdOps K) pinv svd spsolve cabs ksqrt true_cov naive_cov (conf : config K) o s i v j w y p f h q1 q2,
  In q1 (supported_phases (sequence o)) -> In q2 (supported_phases (sequence o)) ->
  three_phased q1 = false -> three_phased q2 = false ->
  s (simulation_path (network o)) = Some (Simulation i v j w y p f h) -> Forall (eq 1%Z) h ->
  snd (identify pinv svd spsolve cabs ksqrt true_cov naive_cov conf (with_phases o q1) s) =
  snd (identify pinv svd spsolve cabs ksqrt true_cov naive_cov conf (with_phases o q2) s) /\
  forall path, path <> reference_path (network o) ->
    fst (identify pinv svd spsolve cabs ksqrt true_cov naive_cov conf (with_phases o q1) s) path =
    fst (identify pinv svd spsolve cabs ksqrt true_cov naive_cov conf (with_phases o q2) s) path.
Proof. exact @p_label_ignored. Qed.
Print Assumptions C61_single_label_ignores_the_phase.

(** so a phase without data can be identified *)
Theorem C61_missing_phase_refuted :
  exists pinv svd spsolve cabs ksqrt true_cov naive_cov (conf : config Qc) o s i v j w y p f h,
  phases o = "2"%string /\ s (simulation_path (network o)) = Some (Simulation i v j w y p f h) /\ ~ In 2%Z h /\
  snd (identify pinv svd spsolve cabs ksqrt true_cov naive_cov conf o s) = Ok tt.
Proof.
  exists pinv1, svd1, ksolve, norm1, (fun x => x), cov1, cov1, conf1, (opt 1 false false false "2" false false false false false), (world [1; 1]%Z).
  do 8 eexists. split; [reflexivity|]. split; [reflexivity|]. split; [intros [H|[H|[]]]; discriminate|]. apply okb_ok. vm_compute. reflexivity.
Qed.
Print Assumptions C61_missing_phase_refuted.

Example C61_example :
  ~ In "23"%string (supported_phases false) /\ In "012"%string (supported_phases true) /\ ~ In "0"%string (supported_phases false) /\
  snd (run (opt 1 false false false "2" false false false false false) (world [1; 3]%Z)) = Err IndexError /\
  snd (run (opt 1 false false false "1" false false false false false) (world [1; 1]%Z)) = Ok tt.
Proof.
  split; [cbn; intuition discriminate|]. split; [cbn; auto|]. split; [cbn; intuition discriminate|]. split; [vm_compute; reflexivity|].
  apply okb_ok. vm_compute. reflexivity.
Qed.

(** ** C70 *)
(** saved results are read back *)
Theorem C70_standard_read_back :
  forall (K : Type) (O : Ops K) (O2 : OrdOps K) pinv svd spsolve (conf : config K) name v c lap n n' s s' r,
  standard_methods pinv svd spsolve conf name (Some v) c lap n s = (s', Ok r) ->
  standard_methods pinv svd spsolve conf name None c lap n' s' = (s', Ok r).
Proof. exact @p_reload_standard. Qed.
Print Assumptions C70_standard_read_back.

Theorem C70_three_phase_standard_read_back :
  forall (K : Type) (O : Ops K) (O2 : OrdOps K) pinv svd spsolve (conf : config K) name v c h h' lap n n' s s' r,
  standard_methods_3ph pinv svd spsolve conf name (Some v) c h lap n s = (s', Ok r) ->
  standard_methods_3ph pinv svd spsolve conf name None c h' lap n' s' = (s', Ok r).
Proof. exact @p_reload_standard3. Qed.
Print Assumptions C70_three_phase_standard_read_back.

Theorem C70_bayesian_read_back :
  forall (K : Type) (O : Ops K) (O2 : OrdOps K) spsolve cabs true_cov naive_cov (conf : config K) name v c sv sc r y ye lap w u n n' s s' res,
  (0 < n)%Z -> (n' <= 0)%Z ->
  bayesian_eiv spsolve cabs true_cov naive_cov conf name v c sv sc r y ye lap w n u s = (s', Ok res) ->
  bayesian_eiv spsolve cabs true_cov naive_cov conf name v c sv sc r y ye lap w n' u s' = (s', Ok res).
Proof. exact @p_reload_bayesian. Qed.
Print Assumptions C70_bayesian_read_back.

(** redoing any stage after a complete run changes nothing, for one phase *)
Theorem C70_redoing_a_stage_changes_nothing :
  forall (K : Type) (O : Ops K) (O2 : OrdOps K) pinv svd spsolve cabs ksqrt true_cov naive_cov (conf : config K) o s s' st ba,
  identify pinv svd spsolve cabs ksqrt true_cov naive_cov conf (with_flags o false false) s = (s', Ok tt) -> (0 < max_iterations o)%Z ->
  three_phased (phases o) = false \/ (st = false \/ ba = true) ->
  snd (identify pinv svd spsolve cabs ksqrt true_cov naive_cov conf (with_flags o st ba) s') = Ok tt /\
  forall p, fst (identify pinv svd spsolve cabs ksqrt true_cov naive_cov conf (with_flags o st ba) s') p = s' p.
Proof. exact @p_rerun. Qed.
Print Assumptions C70_redoing_a_stage_changes_nothing.

(** with three phases, redoing only the standard methods fails after every complete run *)
Theorem C70_three_phase_results_cannot_be_loaded :
  forall (K : Type) (O : Ops K) (O2 : OrdOps K) pinv svd spsolve cabs ksqrt true_cov naive_cov (conf : config K) o s s' i v j w y p f h,
  identify pinv svd spsolve cabs ksqrt true_cov naive_cov conf (with_flags o false false) s = (s', Ok tt) -> (0 < max_iterations o)%Z ->
  three_phased (phases o) = true -> s (simulation_path (network o)) = Some (Simulation i v j w y p f h) -> (exists q, In q h /\ q <> 0%Z) ->
  snd (identify pinv svd spsolve cabs ksqrt true_cov naive_cov conf (with_flags o true false) s') = Err ValueError.
Proof. exact @p_rerun_three. Qed.
Print Assumptions C70_three_phase_results_cannot_be_loaded.

Definition after6 : files Qc := fst (run (opt 1 false false false "012" true false false false false) world6).
Theorem C70_three_phase_reload_refuted :
  exists pinv svd spsolve cabs ksqrt true_cov naive_cov (conf : config Qc) o s s',
  identify pinv svd spsolve cabs ksqrt true_cov naive_cov conf (with_flags o false false) s = (s', Ok tt) /\ (0 < max_iterations o)%Z /\
  snd (identify pinv svd spsolve cabs ksqrt true_cov naive_cov conf (with_flags o true false) s') <> Ok tt.
Proof.
  exists pinv1, svd1, ksolve, norm1, (fun x => x), cov1, cov1, conf1, (opt 1 false false false "012" true false false false false), world6, after6.
  assert (R : run (with_flags (opt 1 false false false "012" true false false false false) false false) world6 = (after6, Ok tt)).
  { change (with_flags (opt 1 false false false "012" true false false false false) false false) with (opt 1 false false false "012" true false false false false).
    unfold after6. apply pair_snd. apply okb_ok. vm_compute. reflexivity. }
  split; [exact R|]. split; [reflexivity|].
  assert (E : snd (run (with_flags (opt 1 false false false "012" true false false false false) true false) after6) = Err ValueError).
  { eapply (C70_three_phase_results_cannot_be_loaded Qc _ _ pinv1 svd1 ksolve norm1 (fun x => x) cov1 cov1 conf1
    (opt 1 false false false "012" true false false false false) world6 after6); [exact R|reflexivity|reflexivity|reflexivity|].
    exists 1%Z. split; [cbn; auto|discriminate]. }
  rewrite E. discriminate.
Qed.
Print Assumptions C70_three_phase_reload_refuted.
Example C70_example : exists s', run (opt 1 false false false "1" false false false false false) (world [1; 1]%Z) = (s', Ok tt) /\
  snd (run (opt 1 true false false "1" false false false false false) s') = Ok tt /\ s' (bayesian_path "net") <> None.
Proof.
  exists (fst (run (opt 1 false false false "1" false false false false false) (world [1; 1]%Z))).
  assert (R : run (opt 1 false false false "1" false false false false false) (world [1; 1]%Z) =
    (fst (run (opt 1 false false false "1" false false false false false) (world [1; 1]%Z)), Ok tt)).
  { apply pair_snd. apply okb_ok. vm_compute. reflexivity. }
  split; [exact R|]. split.
  - apply (C70_redoing_a_stage_changes_nothing Qc _ _ pinv1 svd1 ksolve norm1 (fun x => x) cov1 cov1 conf1
      (opt 1 false false false "1" false false false false false) (world [1; 1]%Z) _ true false R); [reflexivity|left; reflexivity].
  - apply isSome_ok. vm_compute. reflexivity.
Qed.

(** ** C71 *)
(** asking to continue an earlier identification never succeeds *)
Theorem C71_continuing_never_succeeds :
  forall (K : Type) (O : Ops K) (O2 : OrdOps K) pinv svd spsolve cabs ksqrt true_cov naive_cov (conf : config K) o s,
  continue_id o = true -> snd (identify pinv svd spsolve cabs ksqrt true_cov naive_cov conf o s) <> Ok tt.
Proof. exact @p_continue_never. Qed.
Print Assumptions C71_continuing_never_succeeds.

(** and the saved history never holds more than the iterations of one run *)
Theorem C71_saved_history_is_of_one_run :
  forall (K : Type) (O : Ops K) (O2 : OrdOps K) pinv svd spsolve cabs ksqrt true_cov naive_cov (conf : config K) o s,
  (0 < rounds o)%Z -> of_this_run (network o) (Z.to_nat (rounds o)) (s (bayesian_path (network o)))
    (fst (identify pinv svd spsolve cabs ksqrt true_cov naive_cov conf o s)).
Proof. exact @p_history. Qed.
Print Assumptions C71_saved_history_is_of_one_run.

Definition after2 : files Qc := fun p => if String.eqb p (bayesian_path "net") then Some (Bayesian net_y [St 0 net_y (zq 5)]) else world [1; 1]%Z p.
(** with the results of an earlier run: the new ones replace them, then the run fails *)
Definition continued (s s' : files Qc) (r : res unit) : bool :=
  match s (bayesian_path "net"), s' (bayesian_path "net"), r with
  | Some (Bayesian _ its), Some (Bayesian _ its'), Err AttributeError => (length its =? 1) && (length its' =? 1)
  | _, _, _ => false end.
Theorem C71_continue_refuted :
  exists pinv svd spsolve cabs ksqrt true_cov naive_cov (conf : config Qc) o s y its,
  continue_id o = true /\ s (bayesian_path (network o)) = Some (Bayesian y its) /\ its <> [] /\ (0 < rounds o)%Z /\
  snd (identify pinv svd spsolve cabs ksqrt true_cov naive_cov conf o s) = Err AttributeError /\
  exists y' its', fst (identify pinv svd spsolve cabs ksqrt true_cov naive_cov conf o s) (bayesian_path (network o)) = Some (Bayesian y' its') /\
    length its' < length its + Z.to_nat (rounds o).
Proof.
  exists pinv1, svd1, ksolve, norm1, (fun x => x), cov1, cov1, conf1, (opt 1 false false true "1" false false false false false), after2.
  assert (C : continued after2 (fst (run (opt 1 false false true "1" false false false false false) after2))
    (snd (run (opt 1 false false true "1" false false false false false) after2)) = true) by (vm_compute; reflexivity).
  change (bayesian_path (network (opt 1 false false true "1" false false false false false))) with (bayesian_path "net").
  revert C. unfold continued. generalize (after2 (bayesian_path "net")) (fst (run (opt 1 false false true "1" false false false false false) after2) (bayesian_path "net"))
    (snd (run (opt 1 false false true "1" false false false false false) after2)).
  intros a b r C. destruct a as [[| |y its| |]|]; try discriminate. destruct b as [[| |y' its'| |]|]; try discriminate.
  destruct r as [|[]]; try discriminate. apply andb_true_iff in C. destruct C as [C1 C2]. apply Nat.eqb_eq in C1. apply Nat.eqb_eq in C2.
  exists y, its. split; [reflexivity|]. split; [reflexivity|]. split; [intros ->; discriminate|]. split; [reflexivity|]. split; [reflexivity|].
  exists y', its'. split; [reflexivity|]. rewrite C1, C2. cbn. lia.
Qed.
Print Assumptions C71_continue_refuted.

(** ** C72 *)
(** asking for the uncertainty never succeeds, and its results are never saved *)
Theorem C72_uncertainty_never_succeeds :
  forall (K : Type) (O : Ops K) (O2 : OrdOps K) pinv svd spsolve cabs ksqrt true_cov naive_cov (conf : config K) o s,
  uncertainty o = true -> snd (identify pinv svd spsolve cabs ksqrt true_cov naive_cov conf o s) <> Ok tt.
Proof. exact @p_uncertainty_never. Qed.
Print Assumptions C72_uncertainty_never_succeeds.

Theorem C72_uncertainty_never_saved :
  forall (K : Type) (O : Ops K) (O2 : OrdOps K) pinv svd spsolve cabs ksqrt true_cov naive_cov (conf : config K) o s name,
  fst (identify pinv svd spsolve cabs ksqrt true_cov naive_cov conf o s) (uncertainty_path name) = s (uncertainty_path name).
Proof. exact @p_kept_uncertainty. Qed.
Print Assumptions C72_uncertainty_never_saved.

(** the same run without the option succeeds *)
Definition nameb (r : res unit) : bool := match r with Err NameError => true | _ => false end.
Lemma nameb_ok : forall r, nameb r = true -> r = Err NameError.
Proof. intros [|[]] H; try discriminate. reflexivity. Qed.
Theorem C72_uncertainty_refuted :
  exists pinv svd spsolve cabs ksqrt true_cov naive_cov (conf : config Qc) o o' s,
  uncertainty o = true /\ uncertainty o' = false /\ network o = network o' /\ phases o = phases o' /\ max_iterations o = max_iterations o' /\
  snd (identify pinv svd spsolve cabs ksqrt true_cov naive_cov conf o' s) = Ok tt /\
  snd (identify pinv svd spsolve cabs ksqrt true_cov naive_cov conf o s) = Err NameError.
Proof.
  exists pinv1, svd1, ksolve, norm1, (fun x => x), cov1, cov1, conf1, (opt 1 false false false "1" false false false true false),
    (opt 1 false false false "1" false false false false false), (world [1; 1]%Z).
  do 5 (split; [reflexivity|]). split; [apply okb_ok|apply nameb_ok]; vm_compute; reflexivity.
Qed.
Print Assumptions C72_uncertainty_refuted.

(** ** C73 *)
(** options without effect *)
Theorem C73_unsynchronized_needs_weighted :
  forall (K : Type) (O : Ops K) (O2 : OrdOps K) pinv svd spsolve cabs ksqrt true_cov naive_cov (conf : config K) o s b,
  weighted o = false -> identify pinv svd spsolve cabs ksqrt true_cov naive_cov conf (with_unsynchronized o b) s =
    identify pinv svd spsolve cabs ksqrt true_cov naive_cov conf o s.
Proof. exact @p_unsynchronized. Qed.
Print Assumptions C73_unsynchronized_needs_weighted.

Theorem C73_exact_ignored_with_laplacian :
  forall (K : Type) (O : Ops K) (O2 : OrdOps K) pinv svd spsolve cabs ksqrt true_cov naive_cov (conf : config K) o s b,
  laplacian o = true -> identify pinv svd spsolve cabs ksqrt true_cov naive_cov conf (with_exact o b) s =
    identify pinv svd spsolve cabs ksqrt true_cov naive_cov conf o s.
Proof. exact @p_exact_laplacian. Qed.
Print Assumptions C73_exact_ignored_with_laplacian.

Theorem C73_weighted_needs_bayesian :
  forall (K : Type) (O : Ops K) (O2 : OrdOps K) pinv svd spsolve cabs ksqrt true_cov naive_cov (conf : config K) o s b u,
  (rounds o <= 0)%Z -> identify pinv svd spsolve cabs ksqrt true_cov naive_cov conf (with_weighted (with_unsynchronized o u) b) s =
    identify pinv svd spsolve cabs ksqrt true_cov naive_cov conf o s.
Proof. exact @p_weighted_standard. Qed.
Print Assumptions C73_weighted_needs_bayesian.

(** the runs compared do succeed *)
Example C73_example :
  weighted (opt 1 false false false "1" false false false false false) = false /\
  (rounds (opt 1 true false false "1" false false false false false) <= 0)%Z /\
  snd (run (with_unsynchronized (opt 1 false false false "1" false false false false false) true) (world [1; 1]%Z)) = Ok tt /\
  snd (run (with_weighted (opt 1 true false false "1" false false false false false) true) after2) = Ok tt.
Proof.
  split; [reflexivity|]. split; [cbn; lia|]. split; apply okb_ok; vm_compute; reflexivity.
Qed.

(** ** C74 *)
(** a constant offset of a sensor has no effect, when the measurements are centred *)
Theorem C74_offsets_standard :
  forall (K : Type) (O : Ops K) (F : Fld K) (O2 : OrdOps K) (OF : OrdFld K) pinv svd spsolve (conf : config K) name (V I : mat (cplx K)) c d N s,
  standard_methods pinv svd spsolve conf name (Some (shifted V c)) (shifted I d) false N s =
  standard_methods pinv svd spsolve conf name (Some V) I false N s.
Proof. exact @p_offset. Qed.
Print Assumptions C74_offsets_standard.

Theorem C74_offsets_bayesian :
  forall (K : Type) (O : Ops K) (F : Fld K) (O2 : OrdOps K) (OF : OrdFld K) spsolve cabs true_cov naive_cov (conf : config K) name (V I : mat (cplx K)) sv sc r y ye N u c d s,
  bayesian_eiv spsolve cabs true_cov naive_cov conf name (shifted V c) (shifted I d) sv sc r y ye false false N u s =
  bayesian_eiv spsolve cabs true_cov naive_cov conf name V I sv sc r y ye false false N u s.
Proof. exact @p_offset_bayesian. Qed.
Print Assumptions C74_offsets_bayesian.

(** with the Laplacian centring only an offset common to all voltages has no effect *)
Theorem C74_common_offset_standard :
  forall (K : Type) (O : Ops K) (F : Fld K) (O2 : OrdOps K) (OF : OrdFld K) pinv svd spsolve (conf : config K) name (V I : mat (cplx K)) c N s,
  standard_methods pinv svd spsolve conf name (Some (shifted V (fun _ => c))) I true N s =
  standard_methods pinv svd spsolve conf name (Some V) I true N s.
Proof. exact @p_offset_laplacian. Qed.
Print Assumptions C74_common_offset_standard.

Theorem C74_common_offset_bayesian :
  forall (K : Type) (O : Ops K) (F : Fld K) (O2 : OrdOps K) (OF : OrdFld K) spsolve cabs true_cov naive_cov (conf : config K) name (V I : mat (cplx K)) sv sc r y ye N u c s,
  bayesian_eiv spsolve cabs true_cov naive_cov conf name (shifted V (fun _ => c)) I sv sc r y ye true false N u s =
  bayesian_eiv spsolve cabs true_cov naive_cov conf name V I sv sc r y ye true false N u s.
Proof. exact @p_offset_bayesian_laplacian. Qed.
Print Assumptions C74_common_offset_bayesian.

Definition ols_of (s : files Qc) : mat (cplx Qc) := match s (standard_path "net") with Some (Standard y _ _) => y | _ => mzeros 0 0 end.
(** an offset of a single sensor does change the estimate with the Laplacian centring *)
Theorem C74_single_offset_with_laplacian_refuted :
  exists pinv svd spsolve (conf : config Qc) (V I : mat (cplx Qc)) c s s1 s2 r1 r2,
  standard_methods pinv svd spsolve conf "net" (Some V) I true 1 s = (s1, Ok r1) /\
  standard_methods pinv svd spsolve conf "net" (Some (shifted V c)) I true 1 s = (s2, Ok r2) /\
  fst (fst r1) <> fst (fst r2).
Proof.
  exists pinv1, svd1, ksolve, conf1, net_v, net_i, (fun j => if j =? 0 then cz 1 0 else cz 0 0), (fun _ => None).
  assert (C : (match snd (standard_methods pinv1 svd1 ksolve conf1 "net" (Some net_v) net_i true 1 (fun _ => None)),
     snd (standard_methods pinv1 svd1 ksolve conf1 "net" (Some (shifted net_v (fun j => if j =? 0 then cz 1 0 else cz 0 0))) net_i true 1 (fun _ => None)) with
     Ok (a, _, _), Ok (b, _, _) => negb (meqb a b) | _, _ => false end) = true) by (vm_compute; reflexivity).
  revert C. destruct (standard_methods pinv1 svd1 ksolve conf1 "net" (Some net_v) net_i true 1 (fun _ => None)) as [s1 r1].
  destruct (standard_methods pinv1 svd1 ksolve conf1 "net" (Some (shifted net_v (fun j => if j =? 0 then cz 1 0 else cz 0 0))) net_i true 1 (fun _ => None)) as [s2 r2].
  cbn [snd]. intros C. destruct r1 as [[[a1 a2] a3]|]; [|discriminate]. destruct r2 as [[[b1 b2] b3]|]; [|discriminate].
  exists s1, s2, (a1, a2, a3), (b1, b2, b3). split; [reflexivity|]. split; [reflexivity|]. cbn [fst]. apply meqb_neq. apply negb_true_iff. exact C.
Qed.
Print Assumptions C74_single_offset_with_laplacian_refuted.

Example C74_example :
  shifted net_v (fun j => if j =? 0 then cz 1 0 else cz 0 3) <> net_v /\
  exists r, snd (standard_methods pinv1 svd1 ksolve conf1 "net" (Some (shifted net_v (fun j => if j =? 0 then cz 1 0 else cz 0 3))) net_i false 1 (fun _ => None)) = Ok r.
Proof.
  split; [apply meqb_neq; vm_compute; reflexivity|].
  assert (C : (match snd (standard_methods pinv1 svd1 ksolve conf1 "net" (Some (shifted net_v (fun j => if j =? 0 then cz 1 0 else cz 0 3))) net_i false 1 (fun _ => None)) with
    Ok _ => true | _ => false end) = true) by (vm_compute; reflexivity).
  destruct (snd _) as [r|]; [exists r; reflexivity|discriminate].
Qed.

(** ** C75 *)
(** identifying one phase depends on the data of that phase alone *)
Theorem C75_other_phases_do_not_matter :
  forall (K : Type) (O : Ops K) (O2 : OrdOps K) pinv svd spsolve cabs ksqrt true_cov naive_cov (conf : config K) o
    l i v j w y p h i2 v2 j2 w2 y2 p2 h2 f i' v' j' w' y' p' s1 s2,
  In (phases o, l) [("0", 0%Z); ("1", 1%Z); ("2", 2%Z); ("3", 3%Z)]%string ->
  s1 (simulation_path (network o)) = Some (Simulation i v j w y p f h) -> s2 (simulation_path (network o)) = Some (Simulation i2 v2 j2 w2 y2 p2 f h2) ->
  (forall path, path <> simulation_path (network o) -> s1 path = s2 path) ->
  (exists x, In x h /\ x <> 1%Z) -> (exists x, In x h2 /\ x <> 1%Z) -> In l h -> In l h2 ->
  part_of l i v j w y p h i' v' j' w' y' p' -> part_of l i2 v2 j2 w2 y2 p2 h2 i' v' j' w' y' p' ->
  snd (identify pinv svd spsolve cabs ksqrt true_cov naive_cov conf o s1) = snd (identify pinv svd spsolve cabs ksqrt true_cov naive_cov conf o s2) /\
  forall path, path <> simulation_path (network o) ->
    fst (identify pinv svd spsolve cabs ksqrt true_cov naive_cov conf o s1) path = fst (identify pinv svd spsolve cabs ksqrt true_cov naive_cov conf o s2) path.
Proof. exact @p_other_phases. Qed.
Print Assumptions C75_other_phases_do_not_matter.

(** three columns: phase 1, phase 2, phase 1; the second and another world differ in phase 2 only *)
Definition mix (a : Z) (m : mat (cplx Qc)) : mat (cplx Qc) := mk (nr m) 3 (fun t k => if k =? 1 then cz (Z.of_nat t + a)%Z 7 else get m t (k / 2)).
Definition mixy (a : Z) (m : mat (cplx Qc)) : mat (cplx Qc) := mk 3 3 (fun t k => if (t =? 1) || (k =? 1) then cz (Z.of_nat (t + k) + a)%Z 7 else get m (t / 2) (k / 2)).
Definition mixed (a : Z) : files Qc := fun p => if String.eqb p (simulation_path "net")
  then Some (Simulation (mix a net_i) (mix a net_v) (mix a net_i) (mix a net_v) (mixy a net_y) [zq 1; zq a; zq 2] (zq 4) [1; 2; 1]%Z) else None.
Lemma mix_positions : forall idx, positions_of [1; 2; 1]%Z 1%Z idx -> idx = [0; 2].
Proof. intros idx H. apply positions_selected in H. subst. reflexivity. Qed.
Lemma mix_columns : forall a (m : mat (cplx Qc)), shape m (nr m) 2 -> columns_of [1; 2; 1]%Z 1%Z (mix a m) m.
Proof.
  intros a m Hm idx H. rewrite (mix_positions idx H). split; [exact Hm|]. intros t k Ht Hk. cbn [length] in Hk. cbn [nr mk] in Ht.
  unfold mix. rewrite get_mk; [|exact Ht|destruct k as [|[|k]]; cbn; lia]. destruct k as [|[|k]]; [reflexivity|reflexivity|lia].
Qed.
Lemma mixed_part : forall a, part_of 1%Z (mix a net_i) (mix a net_v) (mix a net_i) (mix a net_v) (mixy a net_y) [zq 1; zq a; zq 2] [1; 2; 1]%Z
  net_i net_v net_i net_v net_y [zq 1; zq 2].
Proof.
  intros a. constructor.
  - split; [reflexivity|]. apply mix_columns. apply shapeb_shape. reflexivity.
  - split; [reflexivity|]. apply mix_columns. apply shapeb_shape. reflexivity.
  - split; [reflexivity|]. apply mix_columns. apply shapeb_shape. reflexivity.
  - split; [reflexivity|]. apply mix_columns. apply shapeb_shape. reflexivity.
  - split; [apply shape_mk|]. intros idx H. rewrite (mix_positions idx H). split; [apply shapeb_shape; reflexivity|].
    intros r t Hr Ht. cbn [length] in Hr, Ht. destruct r as [|[|r]]; [| |lia]; (destruct t as [|[|t]]; [| |lia]); reflexivity.
  - split; [reflexivity|]. intros idx H. rewrite (mix_positions idx H). reflexivity.
Qed.
Example C75_example : forall b,
  snd (run (opt 1 false false false "1" false false false false false) (mixed b)) = Ok tt /\
  fst (run (opt 1 false false false "1" false false false false false) (mixed b)) (bayesian_path "net") =
  fst (run (opt 1 false false false "1" false false false false false) (mixed 9)) (bayesian_path "net").
Proof.
  intros b.
  assert (E : snd (run (opt 1 false false false "1" false false false false false) (mixed b)) = snd (run (opt 1 false false false "1" false false false false false) (mixed 9)) /\
    forall path, path <> simulation_path "net" -> fst (run (opt 1 false false false "1" false false false false false) (mixed b)) path =
      fst (run (opt 1 false false false "1" false false false false false) (mixed 9)) path).
  { eapply (C75_other_phases_do_not_matter Qc _ _ pinv1 svd1 ksolve norm1 (fun x => x) cov1 cov1 conf1 (opt 1 false false false "1" false false false false false) 1%Z).
    - right. left. reflexivity.
    - reflexivity.
    - reflexivity.
    - intros path H. change (simulation_path (network (opt 1 false false false "1" false false false false false))) with (simulation_path "net") in H.
      apply String.eqb_neq in H. unfold mixed. rewrite H. reflexivity.
    - exists 2%Z. split; [cbn; auto|discriminate].
    - exists 2%Z. split; [cbn; auto|discriminate].
    - cbn; auto.
    - cbn; auto.
    - apply mixed_part.
    - apply mixed_part. }
  destruct E as [E1 E2]. split; [|apply E2; discriminate]. rewrite E1. apply okb_ok. vm_compute. reflexivity.
Qed.

(** ** C76 *)
(** an identification writes only the three result files of its network *)
Theorem C76_files_written :
  forall (K : Type) (O : Ops K) (O2 : OrdOps K) pinv svd spsolve cabs ksqrt true_cov naive_cov (conf : config K) o s p,
  ~ In p [reference_path (network o); standard_path (network o); bayesian_path (network o)] ->
  fst (identify pinv svd spsolve cabs ksqrt true_cov naive_cov conf o s) p = s p.
Proof. exact @p_frame. Qed.
Print Assumptions C76_files_written.

Theorem C76_simulation_kept :
  forall (K : Type) (O : Ops K) (O2 : OrdOps K) pinv svd spsolve cabs ksqrt true_cov naive_cov (conf : config K) o s,
  fst (identify pinv svd spsolve cabs ksqrt true_cov naive_cov conf o s) (simulation_path (network o)) = s (simulation_path (network o)).
Proof. exact @p_kept_simulation. Qed.
Print Assumptions C76_simulation_kept.

Theorem C76_other_results_kept :
  forall (K : Type) (O : Ops K) (O2 : OrdOps K) pinv svd spsolve cabs ksqrt true_cov naive_cov (conf : config K) o s name p,
  name <> network o -> In p [reference_path name; standard_path name; bayesian_path name] ->
  fst (identify pinv svd spsolve cabs ksqrt true_cov naive_cov conf o s) p = s p.
Proof. exact @p_kept_other. Qed.
Print Assumptions C76_other_results_kept.

(** the simulation of another network is overwritten when its name is the name of a result *)
Definition standardb (c : option (content Qc)) : bool := match c with Some (Standard _ _ _) => true | _ => false end.
Lemma standardb_ok : forall c, standardb c = true -> exists y1 y2 y3, c = Some (Standard y1 y2 y3).
Proof. intros [[]|] H; try discriminate. eauto. Qed.
Definition two_networks : files Qc := fun p => if String.eqb p (simulation_path "standard_results_net") then world [1; 1]%Z (simulation_path "net") else world [1; 1]%Z p.
Theorem C76_other_simulation_refuted :
  exists pinv svd spsolve cabs ksqrt true_cov naive_cov (conf : config Qc) o name s i v j w y p f h y1 y2 y3,
  name <> network o /\ s (simulation_path name) = Some (Simulation i v j w y p f h) /\
  fst (identify pinv svd spsolve cabs ksqrt true_cov naive_cov conf o s) (simulation_path name) = Some (Standard y1 y2 y3).
Proof.
  exists pinv1, svd1, ksolve, norm1, (fun x => x), cov1, cov1, conf1, (opt 1 false false false "1" false false false false false), "standard_results_net"%string, two_networks.
  do 8 eexists.
  destruct (standardb_ok (fst (run (opt 1 false false false "1" false false false false false) two_networks) (simulation_path "standard_results_net"))) as (y1 & y2 & y3 & E).
  { vm_compute. reflexivity. }
  exists y1, y2, y3. split; [discriminate|]. split; [reflexivity|]. exact E.
Qed.
Print Assumptions C76_other_simulation_refuted.

Example C76_example : ~ In (simulation_path "other") [reference_path "net"; standard_path "net"; bayesian_path "net"] /\
  standardb (fst (run (opt 1 false false false "1" false false false false false) (world [1; 1]%Z)) (standard_path "net")) = true.
Proof. split; [intros [H|[H|[H|[]]]]; discriminate|vm_compute; reflexivity]. Qed.

(** ** C77 *)
(** the three-phase methods need a node labelled 0 *)
Theorem C77_three_phases_need_label_zero :
  forall (K : Type) (O : Ops K) (O2 : OrdOps K) pinv svd spsolve cabs ksqrt true_cov naive_cov (conf : config K) o s i v j w y p f h,
  three_phased (phases o) = true -> s (simulation_path (network o)) = Some (Simulation i v j w y p f h) -> ~ In 0%Z h ->
  snd (identify pinv svd spsolve cabs ksqrt true_cov naive_cov conf o s) <> Ok tt.
Proof. exact @p_three_no_zero. Qed.
Print Assumptions C77_three_phases_need_label_zero.

(** six nodes labelled with the phases 1, 2 and 3, as simulated without sequences *)
Definition phases123 : files Qc := fun p => match world6 p with Some (Simulation i v j w y r f h) => Some (Simulation i v j w y r f (map Z.succ h)) | c => c end.
Theorem C77_phases_123_refuted :
  exists pinv svd spsolve cabs ksqrt true_cov naive_cov (conf : config Qc) o s,
  In (phases o) (supported_phases (sequence o)) /\ three_phased (phases o) = true /\
  (exists i v j w y p f h, s (simulation_path (network o)) = Some (Simulation i v j w y p f h) /\ (forall q, In q [1; 2; 3]%Z -> In q h)) /\
  snd (identify pinv svd spsolve cabs ksqrt true_cov naive_cov conf o s) <> Ok tt.
Proof.
  exists pinv1, svd1, ksolve, norm1, (fun x => x), cov1, cov1, conf1, (opt 1 false false false "123" false false false false false), phases123.
  split; [left; reflexivity|]. split; [reflexivity|]. split.
  - do 8 eexists. split; [reflexivity|]. intros q [<-|[<-|[<-|[]]]]; cbn; auto.
  - eapply C77_three_phases_need_label_zero; [reflexivity|reflexivity|]. cbn. intuition discriminate.
Qed.
Print Assumptions C77_phases_123_refuted.
Example C77_example : snd (run (opt 1 false false false "012" true false false false false) world6) = Ok tt.
Proof. apply okb_ok. vm_compute. reflexivity. Qed.

(** ** C78 *)
(** the standard methods alone cannot be run before the Bayesian method *)
Theorem C78_standard_needs_earlier_results :
  forall (K : Type) (O : Ops K) (O2 : OrdOps K) pinv svd spsolve cabs ksqrt true_cov naive_cov (conf : config K) o s,
  (rounds o <= 0)%Z -> s (bayesian_path (network o)) = None ->
  snd (identify pinv svd spsolve cabs ksqrt true_cov naive_cov conf o s) <> Ok tt /\
  fst (identify pinv svd spsolve cabs ksqrt true_cov naive_cov conf o s) (bayesian_path (network o)) = None.
Proof. exact @p_nothing_to_load. Qed.
Print Assumptions C78_standard_needs_earlier_results.

Theorem C78_standard_alone_refuted :
  exists pinv svd spsolve cabs ksqrt true_cov naive_cov (conf : config Qc) o s,
  snd (identify pinv svd spsolve cabs ksqrt true_cov naive_cov conf (with_flags o true true) s) = Ok tt /\
  snd (identify pinv svd spsolve cabs ksqrt true_cov naive_cov conf (with_flags o true false) s) <> Ok tt /\
  snd (identify pinv svd spsolve cabs ksqrt true_cov naive_cov conf (with_flags o false true) s) = Err FileNotFoundError.
Proof.
  exists pinv1, svd1, ksolve, norm1, (fun x => x), cov1, cov1, conf1, (opt 1 true false false "1" false false false false false), (world [1; 1]%Z).
  split; [apply okb_ok; vm_compute; reflexivity|]. split; [|vm_compute; reflexivity].
  apply C78_standard_needs_earlier_results; [cbn; lia|reflexivity].
Qed.
Print Assumptions C78_standard_alone_refuted.
Example C78_example : (rounds (opt 1 true false false "1" false false false false false) <= 0)%Z /\ world [1; 1]%Z (bayesian_path "net") = None.
Proof. split; [cbn; lia|reflexivity]. Qed.
