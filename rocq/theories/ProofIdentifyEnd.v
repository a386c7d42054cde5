(** More theorems about the program identify of ModelRun.v *)
From Coq Require Import String.
From Coq Require Import Bool Arith List ZArith Lia Sorted.
From Verif Require Import BasePy BaseFld BaseOrd BaseSum BaseMat BaseNumpy BaseLin SpecMatrix ModelMatrixOps ModelPrior ModelFit
  ModelLS SpecLS ModelIdent ModelRun SpecRun SpecIdentify ProofSet ProofMask ProofRun ProofRunIO ProofRunPhase ProofIdentify ProofIdentifyThm ProofRunBayes.
Import ListNotations.
Close Scope string_scope.
Local Open Scope nat_scope.

Section Hoare.
Context {K : Type}.
(** [P] is kept by the program, whose result satisfies [Q] *)
Definition keeps {A} (P : files K -> Prop) (m : io K A) (Q : A -> Prop) : Prop :=
  forall s, P s -> P (fst (m s)) /\ forall a, snd (m s) = Ok a -> Q a.
Lemma keeps_lift : forall A P (r : res A) (Q : A -> Prop), (forall a, r = Ok a -> Q a) -> keeps P (lift r) Q.
Proof. intros A P r Q H s Ps. split; auto. Qed.
Lemma keeps_load : forall (P : files K -> Prop) p (Q : content K -> Prop), (forall s c, P s -> s p = Some c -> Q c) -> keeps P (load p) Q.
Proof. intros P p Q H s Ps. split; auto. cbn. intros a. destruct (s p) eqn:E; [|discriminate]. intro X. inversion X; subst. eauto. Qed.
Lemma keeps_save : forall (P : files K -> Prop) p c, (forall s, P s -> P (write s p c)) -> keeps P (save p c) (fun _ => True).
Proof. intros P p c H s Ps. split; [apply H; auto|auto]. Qed.
Lemma keeps_bind : forall A B P (m : io K A) (f : A -> io K B) Q R, keeps P m Q -> (forall a, Q a -> keeps P (f a) R) -> keeps P (bind_io m f) R.
Proof.
  intros A B P m f Q R H1 H2 s Ps. unfold bind_io. destruct (H1 s Ps) as [P1 Q1]. destruct (m s) as [s1 [a|e]]; cbn in *.
  - apply H2; auto.
  - split; auto. discriminate.
Qed.
Lemma keeps_weaken : forall A P (m : io K A) (Q R : A -> Prop), keeps P m Q -> (forall a, Q a -> R a) -> keeps P m R.
Proof. intros A P m Q R H I s Ps. destruct (H s Ps). split; auto. Qed.
Lemma keeps_wo : forall A (P : files K -> Prop) l (m : io K A), writes_only l m -> (forall s s', (forall p, ~ In p l -> s' p = s p) -> P s -> P s') ->
  keeps P m (fun _ => True).
Proof. intros A P l m W H s Ps. split; auto. apply (H s); auto. Qed.
End Hoare.

Section Thm.
Context {K : Type} {O : Ops K} {O2 : OrdOps K}.
Notation CK := (cplx K).
Variable pinv : mat CK -> mat CK.
Variable svd : mat CK -> mat CK * list K * mat CK.
Variable spsolve : mat K -> list K -> res (list K).
Variable cabs : CK -> K.
Variable ksqrt : K -> K.
Variables true_cov naive_cov : mat CK -> arg K -> K -> bool -> res (mat K).
Variable conf : config K.
Notation identify := (identify pinv svd spsolve cabs ksqrt true_cov naive_cov conf).
Notation after := (after pinv svd spsolve cabs ksqrt true_cov naive_cov conf).
Notation rest := (rest pinv svd spsolve cabs ksqrt true_cov naive_cov conf).
Notation standard_methods := (standard_methods pinv svd spsolve conf).
Notation standard_methods_3ph := (standard_methods_3ph pinv svd spsolve conf).
Notation bayesian_eiv := (bayesian_eiv spsolve cabs true_cov naive_cov conf).
Notation bayesian_eiv_3ph := (bayesian_eiv_3ph spsolve cabs true_cov naive_cov conf).
Notation bayesian_phase := (bayesian_phase spsolve cabs true_cov naive_cov conf).

Lemma rounds_is : forall o, (if bayesian o || (negb (standard o) && negb (bayesian o)) then max_iterations o else 0%Z) = rounds o.
Proof. intro o. unfold rounds. destruct (bayesian o), (standard o); reflexivity. Qed.

Lemma keeps_standards : forall (P : files K -> Prop) three name v c h lap n,
  (forall s c, P s -> P (write s (standard_path name) c)) -> (forall s s', (forall p, ~ In p [standard_path name] -> s' p = s p) -> P s -> P s') ->
  keeps P (if three : bool then standard_methods_3ph name v c h lap n else standard_methods name v c lap n) (fun _ => True).
Proof.
  intros P three name v c h lap n _ H. apply (keeps_wo _ P [standard_path name]); auto.
  destruct three; [apply wo_standard3; cbn; auto|apply wo_standard; cbn; auto].
Qed.

Lemma identify_no_data : forall o s, (forall i v j w y p f h, s (simulation_path (network o)) <> Some (Simulation i v j w y p f h)) ->
  identify o s = (s, Err (if phases_refused (phases o) (sequence o) then NotImplementedError
    else match s (simulation_path (network o)) with None => FileNotFoundError | Some _ => KeyError end)).
Proof.
  intros o s H. unfold ModelRun.identify. destruct (phases_refused _ _); [reflexivity|]. unfold load. unfold bind_io at 1.
  destruct (s (simulation_path (network o))) as [[i v j w y p f h| | | |]|]; try reflexivity. exfalso. apply (H i v j w y p f h). reflexivity.
Qed.

(** ** nothing to load *)
Theorem p_nothing_to_load : forall o s, (rounds o <= 0)%Z -> s (bayesian_path (network o)) = None ->
  snd (identify o s) <> Ok tt /\ fst (identify o s) (bayesian_path (network o)) = None.
Proof.
  intros o s Hr S.
  assert (G : forall three ids f h d, keeps (fun s => s (bayesian_path (network o)) = None) (rest three ids o f h d) (fun _ => False)).
  { intros three ids f h d. destruct d as [[[[[a1 a2] a3] a4] a5] a6]. unfold ProofIdentify.rest.
    eapply keeps_bind.
    { apply keeps_standards.
      - intros t c Ht. unfold write. destruct (String.eqb_spec (bayesian_path (network o)) (standard_path (network o))) as [X|X]; auto.
        exfalso. apply (path_bay_std _ _ X).
      - intros t t' Ht E. rewrite Ht; auto. cbn. intros [X|[]]. apply (path_bay_std _ _ (eq_sym X)). }
    intros [[yo yt] yl] _. cbv beta iota.
    assert (LB : keeps (fun s : files K => s (bayesian_path (network o)) = None) (load_bayesian (network o)) (fun _ => False)).
    { unfold load_bayesian. eapply keeps_bind; [apply keeps_load with (Q := fun _ => False)|intros a []]. intros t c Ht E. congruence. }
    assert (BE : forall v c sv sc r y ye lap w n u, (n <= 0)%Z ->
      keeps (fun s : files K => s (bayesian_path (network o)) = None) (bayesian_eiv (network o) v c sv sc r y ye lap w n u) (fun _ => False)).
    { intros v c sv sc r y ye lap w n u Hn t Ht. rewrite bayesian_loads by auto. destruct (eiv_object _ _ _ _ _ _); [apply LB; auto|]. cbn. split; auto. discriminate. }
    eapply keeps_bind with (Q := fun _ => True).
    { destruct (continue_id o); [|apply keeps_lift; auto]. eapply keeps_bind; [exact LB|]. intros a []. }
    intros y0 _. eapply keeps_bind with (Q := fun _ => False); [|intros a []].
    rewrite rounds_is. destruct three; [|apply BE; auto].
    unfold ModelRun.bayesian_eiv_3ph. destruct (existsb _ _); [|apply keeps_lift; discriminate].
    eapply keeps_bind with (Q := fun _ => False); [|intros a []]. unfold ModelRun.bayesian_phase.
    do 5 (eapply keeps_bind with (Q := fun _ => True); [apply keeps_lift; auto|intros ? _]).
    eapply keeps_bind; [apply BE; auto|]. intros aa []. }
  destruct (phases_refused (phases o) (sequence o)) eqn:R.
  { unfold ModelRun.identify. rewrite R. cbn. split; [discriminate|auto]. }
  destruct (s (simulation_path (network o))) as [[i v j w y p f h| | | |]|] eqn:Ss.
  - rewrite (identify_after _ _ _ _ _ _ _ _ o s i v j w y p f h R Ss). destruct (keep_phase _ _ _ _ _ _ _ _) as [d|e]; [|split; [discriminate|auto]].
    unfold ProofIdentify.after. rewrite bind_save.
    destruct (G (three_phased (phases o)) (if (phases o =? "012")%string then Some h else None) f h d
      (write s (reference_path (network o)) (Reference (snd (fst d)) (phases o) (laplacian o)))) as [A B].
    + unfold write. destruct (String.eqb_spec (bayesian_path (network o)) (reference_path (network o))) as [X|X]; auto.
      exfalso. apply (path_ref_bay _ _ (eq_sym X)).
    + split; [intro X; apply (B tt X)|exact A].
  - rewrite identify_no_data by (intros; rewrite Ss; discriminate). split; [discriminate|exact S].
  - rewrite identify_no_data by (intros; rewrite Ss; discriminate). split; [discriminate|exact S].
  - rewrite identify_no_data by (intros; rewrite Ss; discriminate). split; [discriminate|exact S].
  - rewrite identify_no_data by (intros; rewrite Ss; discriminate). split; [discriminate|exact S].
  - rewrite identify_no_data by (intros; rewrite Ss; discriminate). split; [discriminate|exact S].
Qed.

(** ** the records of a run are those of this run *)
Lemma fit_loop_length : forall a r step fuel it iters (s : @lstate K), length (fst (fit_loop a r step fuel it iters s)) <= length iters + fuel.
Proof.
  intros a r step fuel. induction fuel as [|fuel IH]; intros it iters s; cbn [fit_loop]; [cbn; lia|].
  destruct (step s) as [[s' t]|e]; [|cbn; lia]. cbv zeta. match goal with |- context [if ?b then (_, Ok _) else _] => destruct b end.
  - cbn [fst]. rewrite app_length. cbn. lia.
  - specialize (IH (S it) (iters ++ [St it (fst (fst s')) t]) s'). rewrite app_length in IH. cbn [length] in IH. lia.
Qed.
Lemma eiv_fit_length : forall e x z xw zw y0 y its, e_iters e = [] -> fit_result (eiv_fit spsolve cabs e x z xw zw y0) = Ok (y, its) -> length its <= e_max e.
Proof.
  intros e x z xw zw y0 y its E H. unfold eiv_fit in H. destruct (fit_init e x y0) as [[[[DT A] M] mu]|]; [|discriminate].
  unfold finish_fit in H. match type of H with context [fit_loop ?a ?r ?st ?f ?i ?l ?s0] => pose proof (fit_loop_length a r st f i l s0) as L; destruct (fit_loop a r st f i l s0) as [l0 [s1|x1]] end.
  - cbn in H. inversion H; subst. cbn in L. rewrite E in L. cbn in L. lia.
  - cbn in H. discriminate.
Qed.
Lemma merge_length : forall N ids k a b c l, merge_from N ids k a b c = Ok l -> length l <= length a.
Proof.
  intros N ids k a. revert k. induction a as [|x a IH]; intros k b c l H; cbn [merge_from] in H; [inversion H; cbn; lia|].
  destruct b as [|y b]; [inversion H; cbn; lia|]. destruct c as [|z c]; [inversion H; cbn; lia|].
  apply bind_ok in H. destruct H as (st & _ & H). apply bind_ok in H. destruct H as (r & Hr & H). apply IH in Hr. inversion H; subst. cbn. lia.
Qed.

Lemma run_write_other : forall name n (b : option (content K)) s p c, p <> bayesian_path name -> of_this_run name n b s -> of_this_run name n b (write s p c).
Proof.
  intros name n b s p c N H. unfold of_this_run, write in *. destruct (String.eqb_spec (bayesian_path name) p) as [X|X]; [congruence|exact H].
Qed.
Lemma keeps_bayesian : forall name b v c sv sc r y ye lap w n u, (0 < n)%Z ->
  keeps (of_this_run name (Z.to_nat n) b) (bayesian_eiv name v c sv sc r y ye lap w n u) (fun res => length (snd res) <= Z.to_nat n).
Proof.
  intros name b v c sv sc r y ye lap w n u Hn. unfold ModelRun.bayesian_eiv.
  eapply keeps_bind with (Q := fun e => e_iters e = [] /\ e_max e = Z.to_nat n).
  { apply keeps_lift. unfold eiv_object. intros a H. apply bind_ok in H. destruct H as (p & _ & H). inversion H; subst. auto. }
  intros e [E1 E2]. replace (0 <? n)%Z with true by (symmetry; apply Z.ltb_lt; auto).
  eapply keeps_bind with (Q := fun _ => True); [apply keeps_lift; auto|]. intros [[[a1 a2] a3] a4] _. destruct (centred lap a1 a2) as [cv cc].
  eapply keeps_bind with (Q := fun res => length (snd res) <= Z.to_nat n).
  { apply keeps_lift. intros [y1 its] H. apply eiv_fit_length in H; auto. cbn [snd]. lia. }
  intros [y1 its] L. cbn [snd] in L. eapply keeps_bind; [apply keeps_save; intros s _|].
  - right. exists y1, its. split; auto. apply write_same.
  - intros t _. apply keeps_lift. intros a H. inversion H; subst. auto.
Qed.

Theorem p_history : forall o s, (0 < rounds o)%Z -> of_this_run (network o) (Z.to_nat (rounds o)) (s (bayesian_path (network o))) (fst (identify o s)).
Proof.
  intros o s Hr. set (b := s (bayesian_path (network o))). set (P := of_this_run (network o) (Z.to_nat (rounds o)) b).
  assert (G : forall three ids f h d, keeps P (rest three ids o f h d) (fun _ => True)).
  { intros three ids f h d. destruct d as [[[[[a1 a2] a3] a4] a5] a6]. unfold ProofIdentify.rest.
    eapply keeps_bind.
    { apply keeps_standards.
      - intros t c Ht. apply run_write_other; auto. intro X. apply (path_bay_std _ _ (eq_sym X)).
      - intros t t' Ht E. unfold P, of_this_run in *. rewrite Ht; auto. cbn. intros [X|[]]. apply (path_bay_std _ _ (eq_sym X)). }
    intros [[yo yt] yl] _. cbv beta iota.
    eapply keeps_bind with (Q := fun _ => True).
    { apply (keeps_wo _ P []); [unfold load_bayesian; wo|]. intros t t' E. unfold P, of_this_run. rewrite E; auto. }
    intros y0 _. eapply keeps_bind with (Q := fun _ => True).
    - rewrite rounds_is. destruct three; [|eapply keeps_weaken; [apply keeps_bayesian; auto|auto]].
      unfold ModelRun.bayesian_eiv_3ph. destruct (existsb _ _); [|apply keeps_lift; auto].
      assert (PH : forall v c ids sv sc r y ye lap w u yf i, keeps P (bayesian_phase (network o) v c ids sv sc r y ye lap w (rounds o) u yf i) (fun res => length (snd res) <= Z.to_nat (rounds o))).
      { intros. unfold ModelRun.bayesian_phase.
        do 5 (eapply keeps_bind with (Q := fun _ => True); [apply keeps_lift; auto|intros ? _]).
        eapply keeps_bind; [apply keeps_bayesian; auto|]. intros [yi its] L. cbn [snd] in L.
        eapply keeps_bind with (Q := fun _ => True); [apply keeps_lift; auto|]. intros yf' _. apply keeps_lift. intros a5' H. inversion H; subst. auto. }
      eapply keeps_bind; [apply PH|]. intros [y1 i1] L1. eapply keeps_bind; [apply PH|]. intros [y2 i2] L2. eapply keeps_bind; [apply PH|]. intros [y3 i3] L3.
      cbn [snd] in *. eapply keeps_bind with (Q := fun l => length l <= Z.to_nat (rounds o)).
      { apply keeps_lift. intros l H. apply merge_length in H. lia. }
      intros its L. eapply keeps_bind; [apply keeps_save; intros t _|intros t _; apply keeps_lift; auto].
      right. exists y3, its. split; auto. apply write_same.
    - intros [y1 its] _. destruct (continue_id o); [apply keeps_lift; auto|]. destruct (uncertainty o); apply keeps_lift; auto. }
  assert (P0 : P s) by (left; reflexivity).
  destruct (phases_refused (phases o) (sequence o)) eqn:R.
  { unfold ModelRun.identify. rewrite R. exact P0. }
  destruct (s (simulation_path (network o))) as [[i v j w y p f h| | | |]|] eqn:Ss;
    try (rewrite identify_no_data by (intros; rewrite Ss; discriminate); exact P0).
  rewrite (identify_after _ _ _ _ _ _ _ _ o s i v j w y p f h R Ss). destruct (keep_phase _ _ _ _ _ _ _ _) as [d|e]; [|exact P0].
  unfold ProofIdentify.after. rewrite bind_save. apply G. apply run_write_other; auto. apply path_ref_bay.
Qed.

(** ** options without effect *)
Lemma data_unweighted : forall v c sv sc r u u', eiv_data cabs true_cov naive_cov v c sv sc r false u = eiv_data cabs true_cov naive_cov v c sv sc r false u'.
Proof. reflexivity. Qed.
Lemma bayesian_unweighted : forall name v c sv sc r y ye lap n u u' s,
  bayesian_eiv name v c sv sc r y ye lap false n u s = bayesian_eiv name v c sv sc r y ye lap false n u' s.
Proof. reflexivity. Qed.
Theorem p_unsynchronized : forall o s b, weighted o = false -> identify (with_unsynchronized o b) s = identify o s.
Proof.
  intros o s b W. unfold ModelRun.identify. cbn [network max_iterations standard bayesian continue_id phases sequence exact laplacian weighted uncertainty unsynchronized with_unsynchronized].
  rewrite W. reflexivity.
Qed.
Theorem p_exact_laplacian : forall o s b, laplacian o = true -> identify (with_exact o b) s = identify o s.
Proof.
  intros o s b W. unfold ModelRun.identify. cbn [network max_iterations standard bayesian continue_id phases sequence exact laplacian weighted uncertainty unsynchronized with_exact].
  rewrite W, !andb_false_r. reflexivity.
Qed.
Lemma bind_ext : forall A B (m : io K A) (f g : A -> io K B), (forall a t, f a t = g a t) -> forall s, bind_io m f s = bind_io m g s.
Proof. intros A B m f g H s. unfold bind_io. destruct (m s) as [s' [a|e]]; auto. Qed.
Lemma bind_ext2 : forall A B (m m' : io K A) (f g : A -> io K B), (forall t, m t = m' t) -> (forall a t, f a t = g a t) -> forall s, bind_io m f s = bind_io m' g s.
Proof. intros A B m m' f g H1 H s. unfold bind_io. rewrite H1. destruct (m' s) as [s' [a|e]]; auto. Qed.
Lemma loaded_unweighted : forall name v c sv sc r y ye lap w w' n u u' s, (n <= 0)%Z ->
  bayesian_eiv name v c sv sc r y ye lap w n u s = bayesian_eiv name v c sv sc r y ye lap w' n u' s.
Proof. intros. rewrite !bayesian_loads by auto. reflexivity. Qed.
Theorem p_weighted_standard : forall o s b u, (rounds o <= 0)%Z -> identify (with_weighted (with_unsynchronized o u) b) s = identify o s.
Proof.
  intros o s b u Hr.
  assert (G : forall three ids f h d t, rest three ids (with_weighted (with_unsynchronized o u) b) f h d t = rest three ids o f h d t).
  { intros three ids f h d t. destruct d as [[[[[a1 a2] a3] a4] a5] a6]. unfold ProofIdentify.rest.
    cbn [network max_iterations standard bayesian continue_id phases sequence exact laplacian weighted uncertainty unsynchronized with_unsynchronized with_weighted].
    apply bind_ext. intros [[yo yt] yl] t1. apply bind_ext. intros y0 t2. apply bind_ext2; [|intros [y1 its] t3; reflexivity].
    intro t3. rewrite rounds_is. destruct three; [|apply loaded_unweighted; auto].
    unfold ModelRun.bayesian_eiv_3ph. destruct (existsb _ _); [|reflexivity].
    assert (PH : forall yf i t, bayesian_phase (network o) a2 a1 h (Cx (voltage_magnitude_sd conf / ksqrt f)%K (voltage_phase_sd conf / ksqrt f)%K)
       (Cx (current_magnitude_sd conf / ksqrt f)%K (current_phase_sd conf / ksqrt f)%K) a6 y0 (if exact o && negb (laplacian o) then Some a5 else None) (laplacian o) b (rounds o) (negb u) yf i t
       = bayesian_phase (network o) a2 a1 h (Cx (voltage_magnitude_sd conf / ksqrt f)%K (voltage_phase_sd conf / ksqrt f)%K)
       (Cx (current_magnitude_sd conf / ksqrt f)%K (current_phase_sd conf / ksqrt f)%K) a6 y0 (if exact o && negb (laplacian o) then Some a5 else None) (laplacian o) (weighted o) (rounds o) (negb (unsynchronized o)) yf i t).
    { intros yf i t4. unfold ModelRun.bayesian_phase. do 5 (apply bind_ext; intros ? ?). apply bind_ext2; [|intros [yy bb] t9; reflexivity].
      intro t9. apply loaded_unweighted. auto. }
    apply bind_ext2; [intro; apply PH|]. intros [y1 i1] ?. apply bind_ext2; [intro; apply PH|]. intros [y2 i2] ?. apply bind_ext2; [intro; apply PH|]. intros [y3 i3] ?. reflexivity. }
  destruct (phases_refused (phases o) (sequence o)) eqn:R.
  { unfold ModelRun.identify. cbn [phases sequence with_weighted with_unsynchronized]. rewrite R. reflexivity. }
  destruct (s (simulation_path (network o))) as [[i v j w y p f h| | | |]|] eqn:Ss;
    try (rewrite !identify_no_data by (cbn [network with_weighted with_unsynchronized]; intros; rewrite Ss; discriminate); reflexivity).
  rewrite (identify_after _ _ _ _ _ _ _ _ o s i v j w y p f h R Ss).
  rewrite (identify_after _ _ _ _ _ _ _ _ (with_weighted (with_unsynchronized o u) b) s i v j w y p f h R Ss).
  cbn [phases with_weighted with_unsynchronized]. destruct (keep_phase _ _ _ _ _ _ _ _) as [d|e]; [|reflexivity].
  unfold ProofIdentify.after. rewrite !bind_save. apply G.
Qed.

(** ** other phases do not matter *)
Lemma mask_cols_columns : forall (m b : mat CK) ids p, nc m = length ids -> columns_of ids p m b -> mask_cols m (is_phase ids p) = Ok b.
Proof. intros m b ids p C H. apply columns_mcols in H. subst b. apply mask_cols_ok. auto. Qed.

Lemma keep_part : forall q l i v j w y p h i' v' j' w' y' p', three_phased q = false -> int_of q = l -> (exists x, In x h /\ x <> 1%Z) -> In l h ->
  part_of l i v j w y p h i' v' j' w' y' p' -> keep_phase q i v j w y p h = Ok (i', v', j', w', y', p').
Proof.
  intros q l i v j w y p h i' v' j' w' y' p' T E [x [X1 X2]] L [[A1 A2] [B1 B2] [C1 C2] [D1 D2] [E1 E2] [F1 F2]].
  unfold keep_phase. rewrite T, E.
  assert (E3 : existsb (fun x => negb (x =? 1)%Z) h = true).
  { apply existsb_exists. exists x. split; auto. apply negb_true_iff, Z.eqb_neq. auto. }
  assert (E4 : existsb (Z.eqb l) h = true) by (apply existsb_exists; exists l; split; [auto|apply Z.eqb_refl]).
  rewrite E3, E4. cbn [andb negb].
  rewrite (mask_square_block y y' h l E1 E2). cbn [bind]. unfold mask_list. rewrite length_is_phase, F1, Nat.eqb_refl. cbn [bind].
  rewrite (mask_cols_columns v v' h l B1 B2), (mask_cols_columns i i' h l A1 A2), (mask_cols_columns w w' h l D1 D2), (mask_cols_columns j j' h l C1 C2). cbn [bind].
  rewrite (F2 (selected (is_phase h l))) by (apply positions_selected; auto). reflexivity.
Qed.
Theorem p_other_phases : forall o l i v j w y p h i2 v2 j2 w2 y2 p2 h2 f i' v' j' w' y' p' s1 s2,
  In (phases o, l) [("0", 0%Z); ("1", 1%Z); ("2", 2%Z); ("3", 3%Z)]%string ->
  s1 (simulation_path (network o)) = Some (Simulation i v j w y p f h) -> s2 (simulation_path (network o)) = Some (Simulation i2 v2 j2 w2 y2 p2 f h2) ->
  (forall path, path <> simulation_path (network o) -> s1 path = s2 path) ->
  (exists x, In x h /\ x <> 1%Z) -> (exists x, In x h2 /\ x <> 1%Z) -> In l h -> In l h2 ->
  part_of l i v j w y p h i' v' j' w' y' p' -> part_of l i2 v2 j2 w2 y2 p2 h2 i' v' j' w' y' p' ->
  snd (identify o s1) = snd (identify o s2) /\
  forall path, path <> simulation_path (network o) -> fst (identify o s1) path = fst (identify o s2) path.
Proof.
  intros o l i v j w y p h i2 v2 j2 w2 y2 p2 h2 f i' v' j' w' y' p' s1 s2 HL S1 S2 A X1 X2 L1 L2 P1 P2.
  assert (E : three_phased (phases o) = false /\ int_of (phases o) = l).
  { destruct HL as [Hl|[Hl|[Hl|[Hl|[]]]]]; injection Hl as Ea Eb; rewrite <- Ea, <- Eb; auto. }
  destruct E as [E1 E2].
  destruct (phases_refused (phases o) (sequence o)) eqn:R.
  { unfold ModelRun.identify. rewrite R. split; [reflexivity|]. exact A. }
  rewrite (identify_after _ _ _ _ _ _ _ _ o s1 i v j w y p f h R S1), (identify_after _ _ _ _ _ _ _ _ o s2 i2 v2 j2 w2 y2 p2 f h2 R S2).
  rewrite (keep_part (phases o) l i v j w y p h i' v' j' w' y' p' E1 E2 X1 L1 P1), (keep_part (phases o) l i2 v2 j2 w2 y2 p2 h2 i' v' j' w' y' p' E1 E2 X2 L2 P2).
  rewrite (after_labels _ _ _ _ _ _ _ _ o f h h2 _ E1). apply ig_after. exact A.
Qed.
End Thm.

(** ** constant offsets *)
Section Offset.
Context {K : Type} {O : Ops K} {F : Fld K} {O2 : OrdOps K} {OF : OrdFld K}.
Notation CK := (cplx K).
Theorem p_offset : forall pinv svd spsolve (conf : config K) name (V I : mat CK) c d N s,
  standard_methods pinv svd spsolve conf name (Some (shifted V c)) (shifted I d) false N s =
  standard_methods pinv svd spsolve conf name (Some V) I false N s.
Proof.
  intros. unfold standard_methods, standard_estimates, centred. rewrite !p_shift_columns. reflexivity.
Qed.
Theorem p_offset_laplacian : forall pinv svd spsolve (conf : config K) name (V I : mat CK) c N s,
  standard_methods pinv svd spsolve conf name (Some (shifted V (fun _ => c))) I true N s =
  standard_methods pinv svd spsolve conf name (Some V) I true N s.
Proof.
  intros. unfold standard_methods, standard_estimates, centred. rewrite !p_shift_all. reflexivity.
Qed.
Theorem p_offset_bayesian : forall spsolve cabs tc nc_ (conf : config K) name (V I : mat CK) sv sc r y ye N u c d s,
  bayesian_eiv spsolve cabs tc nc_ conf name (shifted V c) (shifted I d) sv sc r y ye false false N u s =
  bayesian_eiv spsolve cabs tc nc_ conf name V I sv sc r y ye false false N u s.
Proof.
  intros. unfold bayesian_eiv. cbn [nc shifted mk]. unfold eiv_data. cbn [andb]. rewrite !bind_lift. destruct (eiv_object _ _ _ _ _ _); [|reflexivity].
  destruct (0 <? N)%Z; [|reflexivity]. rewrite !bind_lift. unfold centred. rewrite !p_shift_columns. reflexivity.
Qed.
Theorem p_offset_bayesian_laplacian : forall spsolve cabs tc nc_ (conf : config K) name (V I : mat CK) sv sc r y ye N u c s,
  bayesian_eiv spsolve cabs tc nc_ conf name (shifted V (fun _ => c)) I sv sc r y ye true false N u s =
  bayesian_eiv spsolve cabs tc nc_ conf name V I sv sc r y ye true false N u s.
Proof.
  intros. unfold bayesian_eiv. cbn [nc shifted mk]. unfold eiv_data. cbn [andb]. rewrite !bind_lift. destruct (eiv_object _ _ _ _ _ _); [|reflexivity].
  destruct (0 <? N)%Z; [|reflexivity]. rewrite !bind_lift. unfold centred. rewrite !p_shift_all. reflexivity.
Qed.
End Offset.
