(** Theorems about the program identify of ModelRun.v *)
From Coq Require Import String.
From Coq Require Import Bool Arith List ZArith Lia Sorted.
From Verif Require Import BasePy BaseFld BaseOrd BaseSum BaseMat BaseNumpy BaseLin SpecMatrix ModelMatrixOps ModelPrior ModelFit
  ModelLS SpecLS ModelIdent ModelRun SpecRun SpecIdentify ProofSet ProofMask ProofRun ProofRunIO ProofRunPhase ProofIdentify.
Import ListNotations.
Close Scope string_scope.
Local Open Scope nat_scope.

Section Thm.
Context {K : Type} {O : Ops K} {O2 : OrdOps K}.
Notation CK := (cplx K).
Variable pinv : mat CK -> mat CK.
Variable svd : mat CK -> mat CK * list K * mat CK.
Variable spsolve : mat K -> list K -> res (list K).
Variable cabs : CK -> K.
Variable ksqrt : K -> K.
Variables true_cov naive_cov : mat CK -> arg K -> K -> bool -> res (mat K).
Variable conf : config K.
Notation identify := (identify pinv svd spsolve cabs ksqrt true_cov naive_cov conf).
Notation after := (after pinv svd spsolve cabs ksqrt true_cov naive_cov conf).
Notation standard_methods := (standard_methods pinv svd spsolve conf).
Notation standard_methods_3ph := (standard_methods_3ph pinv svd spsolve conf).
Notation bayesian_eiv := (bayesian_eiv spsolve cabs true_cov naive_cov conf).
Notation bayesian_eiv_3ph := (bayesian_eiv_3ph spsolve cabs true_cov naive_cov conf).

(** ** phases *)
Lemma refused_iff : forall p q, phases_refused p q = true <-> ~ In p (supported_phases q).
Proof.
  intros p q. unfold phases_refused, supported_phases.
  destruct (String.eqb_spec p "012"); [subst; destruct q; cbn; intuition discriminate|].
  destruct (String.eqb_spec p "0"); [subst; destruct q; cbn; intuition discriminate|].
  destruct (String.eqb_spec p "1"); [subst; destruct q; cbn; intuition discriminate|].
  destruct (String.eqb_spec p "2"); [subst; destruct q; cbn; intuition discriminate|].
  destruct (String.eqb_spec p "123"); [subst; destruct q; cbn; intuition discriminate|].
  destruct (String.eqb_spec p "3"); [subst; destruct q; cbn; intuition discriminate|].
  destruct q; cbn; split; auto; intros _; intuition congruence.
Qed.
Theorem p_refused : forall o s, ~ In (phases o) (supported_phases (sequence o)) -> identify o s = (s, Err NotImplementedError).
Proof. intros o s H. apply refused_iff in H. unfold ModelRun.identify. rewrite H. reflexivity. Qed.
Theorem p_accepted : forall o s, In (phases o) (supported_phases (sequence o)) -> s (simulation_path (network o)) = None ->
  identify o s = (s, Err FileNotFoundError).
Proof.
  intros o s H S. unfold ModelRun.identify. destruct (phases_refused _ _) eqn:E; [apply refused_iff in E; tauto|].
  unfold load, bind_io at 1. rewrite S. reflexivity.
Qed.
Theorem p_no_flag : forall o s, identify (with_flags o false false) s = identify (with_flags o true true) s.
Proof. reflexivity. Qed.
Lemma single_label : forall p q, In p (supported_phases q) -> three_phased p = false ->
  In (p, int_of p) [("0", 0%Z); ("1", 1%Z); ("2", 2%Z); ("3", 3%Z)]%string.
Proof. intros p q H E. destruct q; cbn in H; repeat (destruct H as [<-|H]; [cbn in *; try discriminate; intuition auto|]); destruct H. Qed.
Theorem p_missing_phase : forall o s i v j w y p f h l, In (phases o) (supported_phases (sequence o)) ->
  In (phases o, l) [("0", 0%Z); ("1", 1%Z); ("2", 2%Z); ("3", 3%Z)]%string ->
  s (simulation_path (network o)) = Some (Simulation i v j w y p f h) ->
  ~ In l h -> (exists q, In q h /\ q <> 1%Z) -> identify o s = (s, Err IndexError).
Proof.
  intros o s i v j w y p f h l H Hl S N [q [Q1 Q2]].
  destruct (phases_refused (phases o) (sequence o)) eqn:R; [apply refused_iff in R; tauto|].
  rewrite (identify_after _ _ _ _ _ _ _ _ o s i v j w y p f h R S). unfold keep_phase.
  assert (E : three_phased (phases o) = false /\ int_of (phases o) = l).
  { destruct Hl as [Hl|[Hl|[Hl|[Hl|[]]]]]; injection Hl as A B; rewrite <- A, <- B; auto. }
  destruct E as [E1 E2]. rewrite E1, E2.
  assert (E3 : existsb (fun x => negb (x =? 1)%Z) h = true).
  { apply existsb_exists. exists q. split; auto. apply negb_true_iff, Z.eqb_neq. auto. }
  assert (E4 : existsb (Z.eqb l) h = false).
  { destruct (existsb (Z.eqb l) h) eqn:E4; auto. apply existsb_exists in E4. destruct E4 as [x [X1 X2]]. apply Z.eqb_eq in X2. subst. tauto. }
  rewrite E3, E4. reflexivity.
Qed.

(** the label asked for is not looked at when all labels are 1 *)
Theorem p_label_ignored : forall o s i v j w y p f h q1 q2, In q1 (supported_phases (sequence o)) -> In q2 (supported_phases (sequence o)) ->
  three_phased q1 = false -> three_phased q2 = false ->
  s (simulation_path (network o)) = Some (Simulation i v j w y p f h) -> Forall (eq 1%Z) h ->
  snd (identify (with_phases o q1) s) = snd (identify (with_phases o q2) s) /\
  forall path, path <> reference_path (network o) -> fst (identify (with_phases o q1) s) path = fst (identify (with_phases o q2) s) path.
Proof.
  intros o s i v j w y p f h q1 q2 H1 H2 T1 T2 S A.
  assert (E : existsb (fun x => negb (x =? 1)%Z) h = false).
  { destruct (existsb _ h) eqn:E; auto. apply existsb_exists in E. destruct E as [x [X1 X2]]. rewrite Forall_forall in A. rewrite <- (A x X1) in X2. discriminate. }
  assert (R : forall q, In q (supported_phases (sequence o)) -> three_phased q = false ->
    identify (with_phases o q) s = after (with_phases o q) f h (i, v, j, w, y, p) s).
  { intros q H T. rewrite (identify_after _ _ _ _ _ _ _ _ (with_phases o q) s i v j w y p f h).
    - unfold keep_phase. cbn [phases with_phases]. rewrite T, E. reflexivity.
    - cbn. destruct (phases_refused q (sequence o)) eqn:R; auto. apply refused_iff in R. tauto.
    - exact S. }
  rewrite (R q1), (R q2) by auto.
  unfold ProofIdentify.after. rewrite !bind_save. cbn [phases with_phases snd fst]. rewrite T1, T2.
  match goal with |- snd (rest _ _ _ _ _ _ _ _ _ ?i1 ?o1 f h ?d ?s1) = snd (rest _ _ _ _ _ _ _ _ _ ?i2 ?o2 f h ?d ?s2) /\ _ =>
    change (rest pinv svd spsolve cabs ksqrt true_cov naive_cov conf false i1 o1 f h d) with (rest pinv svd spsolve cabs ksqrt true_cov naive_cov conf false None o f h d);
    change (rest pinv svd spsolve cabs ksqrt true_cov naive_cov conf false i2 o2 f h d) with (rest pinv svd spsolve cabs ksqrt true_cov naive_cov conf false None o f h d) end.
  assert (I := ig_rest pinv svd spsolve cabs ksqrt true_cov naive_cov conf (reference_path (network o)) false None o f h (i, v, j, w, y, p)).
  specialize (I (fun X => path_ref_std _ _ (eq_sym X)) (fun X => path_ref_bay _ _ (eq_sym X))). apply I. intros path N. unfold write.
  cbn [network with_phases]. destruct (String.eqb_spec path (reference_path (network o))); [congruence|reflexivity].
Qed.

(** ** results read back *)
Lemma write_same : forall (s : files K) p c, write s p c p = Some c.
Proof. intros. unfold write. rewrite String.eqb_refl. reflexivity. Qed.
Theorem p_reload_standard : forall name v c lap n n' s s' r, standard_methods name (Some v) c lap n s = (s', Ok r) ->
  standard_methods name None c lap n' s' = (s', Ok r).
Proof.
  intros name v c lap n n' s s' r H. unfold ModelRun.standard_methods in *. rewrite bind_lift in H.
  destruct (standard_estimates _ _ _ _ _ _ _ _) as [[[o t] l]|]; [|discriminate]. rewrite bind_save in H. unfold lift in H. inversion H; subst.
  unfold load_standard, load, bind_io. rewrite write_same. reflexivity.
Qed.
Theorem p_reload_standard3 : forall name v c h h' lap n n' s s' r, standard_methods_3ph name (Some v) c h lap n s = (s', Ok r) ->
  standard_methods_3ph name None c h' lap n' s' = (s', Ok r).
Proof.
  intros name v c h h' lap n n' s s' r H. unfold ModelRun.standard_methods_3ph in *. apply bind_io_ok in H.
  destruct H as (s1 & [[o t] l] & _ & H). rewrite bind_save in H. unfold lift in H. inversion H; subst.
  unfold load_standard, load, bind_io. rewrite write_same. reflexivity.
Qed.
Lemma object_max : forall nodes y ye lap n n' e, eiv_object conf nodes y ye lap n = Ok e -> exists e', eiv_object conf nodes y ye lap n' = Ok e'.
Proof. intros nodes y ye lap n n' e H. unfold eiv_object in *. destruct (bayesian_prior _ _ _ _ _ _ _ _); [|discriminate]. cbn [bind]. eauto. Qed.
Lemma bayesian_saves : forall name v c sv sc r y ye lap w n u s s' res, (0 < n)%Z ->
  bayesian_eiv name v c sv sc r y ye lap w n u s = (s', Ok res) -> s' = write s (bayesian_path name) (Bayesian (fst res) (snd res)).
Proof.
  intros name v c sv sc r y ye lap w n u s s' res Hn H. unfold ModelRun.bayesian_eiv in H. rewrite bind_lift in H.
  destruct (eiv_object _ _ _ _ _ _); [|discriminate]. replace (0 <? n)%Z with true in H by (symmetry; apply Z.ltb_lt; auto).
  rewrite bind_lift in H. destruct (eiv_data _ _ _ _ _ _ _ _ _ _) as [[[[a1 a2] a3] a4]|]; [|discriminate]. destruct (centred lap a1 a2).
  rewrite bind_lift in H. destruct (fit_result _) as [[y1 its]|]; [|discriminate]. rewrite bind_save in H. unfold lift in H. inversion H. reflexivity.
Qed.
Lemma bayesian_loads : forall name v c sv sc r y ye lap w n u s, (n <= 0)%Z ->
  bayesian_eiv name v c sv sc r y ye lap w n u s = match eiv_object conf (nc v) y ye lap n with Ok _ => load_bayesian name s | Err e => (s, Err e) end.
Proof.
  intros name v c sv sc r y ye lap w n u s Hn. unfold ModelRun.bayesian_eiv. rewrite bind_lift. destruct (eiv_object _ _ _ _ _ _); [|reflexivity].
  replace (0 <? n)%Z with false by (symmetry; apply Z.ltb_ge; auto). reflexivity.
Qed.
Lemma load_bayesian_write : forall name (s : files K) y its, load_bayesian name (write s (bayesian_path name) (Bayesian y its)) = (write s (bayesian_path name) (Bayesian y its), Ok (y, its)).
Proof. intros. unfold load_bayesian, load, bind_io. rewrite write_same. reflexivity. Qed.
Theorem p_reload_bayesian : forall name v c sv sc r y ye lap w u n n' s s' res, (0 < n)%Z -> (n' <= 0)%Z ->
  bayesian_eiv name v c sv sc r y ye lap w n u s = (s', Ok res) -> bayesian_eiv name v c sv sc r y ye lap w n' u s' = (s', Ok res).
Proof.
  intros name v c sv sc r y ye lap w u n n' s s' res Hn Hn' H. rewrite bayesian_loads by auto.
  pose proof (bayesian_saves name v c sv sc r y ye lap w n u s s' res Hn H) as E.
  unfold ModelRun.bayesian_eiv in H. rewrite bind_lift in H. destruct (eiv_object _ _ _ _ _ n) eqn:Eo; [|discriminate].
  destruct (object_max _ _ _ _ _ n' _ Eo) as (e' & ->). subst s'. rewrite load_bayesian_write. destruct res; reflexivity.
Qed.

Lemma phase_run : forall name v c ids sv sc r y ye lap w n u yf i s s' res,
  bayesian_phase spsolve cabs true_cov naive_cov conf name v c ids sv sc r y ye lap w n u yf i s = (s', Ok res) ->
  exists v' c' r' y' ye' yi, mask_cols v (is_phase ids i) = Ok v' /\ mask_cols c (is_phase ids i) = Ok c' /\ mask_list r (is_phase ids i) = Ok r' /\
    mask_square y (is_phase ids i) = Ok y' /\
    (match ye with None => Ok None | Some m0 => m <- mask_square m0 (is_phase ids i) ;; Ok (Some m) end) = Ok ye' /\
    bayesian_eiv name v' c' sv sc r' y' ye' lap w n u s = (s', Ok (yi, snd res)) /\ mask_assign yf (is_phase ids i) (flatten yi) = Ok (fst res).
Proof.
  intros name v c ids sv sc r y ye lap w n u yf i s s' res H. unfold bayesian_phase in H.
  rewrite bind_lift in H. destruct (mask_cols v _) as [v'|]; [|discriminate].
  rewrite bind_lift in H. destruct (mask_cols c _) as [c'|]; [|discriminate].
  rewrite bind_lift in H. destruct (mask_list r _) as [r'|]; [|discriminate].
  rewrite bind_lift in H. destruct (mask_square y _) as [y'|]; [|discriminate].
  rewrite bind_lift in H.
  match type of H with match ?x with _ => _ end = _ => destruct x as [ye'|] eqn:Ee end; [|discriminate].
  apply bind_io_ok in H. destruct H as (s1 & [yi its] & H1 & H2). rewrite bind_lift in H2.
  destruct (mask_assign _ _ _) as [yf'|] eqn:Ea; [|discriminate]. unfold lift in H2. inversion H2; subst. cbn [fst snd].
  exists v', c', r', y', ye', yi. repeat split; auto.
Qed.
Lemma assign_shape : forall (m : mat CK) mask x m', mask_assign m mask x = Ok m' -> nr m' = nr m /\ nc m' = nc m /\
  (wf m -> wf m').
Proof.
  intros m mask x m' H. pose proof (mask_assign_size m mask x m' H) as (R & C & L). unfold mask_assign in H. rewrite length_selected in H.
  destruct (negb _); [discriminate|].
  assert (W : forall v, length v = trues mask * trues mask -> wf m -> wf (Mat (nr m) (nc m) (fill_rows mask mask (dat m) v))).
  { intros v Lv Wm. destruct (fill_rows_spec mask mask (dat m) v) as (P & Q & _).
    - destruct Wm as [-> _]. auto.
    - intros row I. rewrite <- C. apply wf_rows; auto.
    - lia.
    - split; cbn [nr nc dat]; [rewrite P; apply Wm|]. apply Forall_forall. intros row I. rewrite C. apply Q. auto. }
  destruct (length x =? trues mask * trues mask) eqn:E.
  - inversion H; subst. cbn. repeat split; auto; apply W; auto; apply Nat.eqb_eq; auto.
  - destruct x as [|x0 [|]]; try discriminate. inversion H; subst. cbn [nr nc]. split; [reflexivity|]. split; [reflexivity|]. intro Wm. apply W; auto. apply repeat_length.
Qed.

(** results of three phases can never be read back *)
Lemma three_reload_at : forall name v c ids sv sc r y ye lap w u n n' s s' res S, (0 < n)%Z -> (n' <= 0)%Z ->
  bayesian_eiv_3ph name v c ids sv sc r y ye lap w n u s = (s', Ok res) -> (exists p, In p ids /\ p <> 0%Z) ->
  S (bayesian_path name) = s' (bayesian_path name) ->
  bayesian_eiv_3ph name v c ids sv sc r y ye lap w n' u S = (S, Err ValueError).
Proof.
  intros name v c ids sv sc r y ye lap w u n n' s s' res S Hn Hn' H [q [Q1 Q2]] HS.
  unfold ModelRun.bayesian_eiv_3ph in *. destruct (existsb _ _) eqn:E0; [|discriminate].
  apply bind_io_ok in H. destruct H as (s1 & [y1 i1] & P1 & H).
  apply bind_io_ok in H. destruct H as (s2 & [y2 i2] & P2 & H).
  apply bind_io_ok in H. destruct H as (s3 & [y3 i3] & P3 & H).
  rewrite bind_lift in H. destruct (merge_from _ _ _ _ _ _) as [its|]; [|discriminate].
  rewrite bind_save in H. unfold lift in H. inversion H; subst. clear H.
  apply phase_run in P1. apply phase_run in P2. apply phase_run in P3.
  destruct P1 as (v' & c' & r' & y' & ye' & yi & M1 & M2 & M3 & M4 & M5 & B1 & A1). cbn [fst snd] in *.
  destruct P2 as (? & ? & ? & ? & ? & yi2 & _ & _ & _ & _ & _ & _ & A2). destruct P3 as (? & ? & ? & ? & ? & yi3 & _ & _ & _ & _ & _ & _ & A3).
  cbn [fst snd] in *.
  assert (W3 : shape y3 (length ids) (length ids)).
  { pose proof (mask_assign_size _ _ _ _ A1) as (R & C & _). rewrite length_is_phase in R, C.
    apply assign_shape in A1. apply assign_shape in A2. apply assign_shape in A3.
    destruct A1 as (a1 & b1 & c1). destruct A2 as (a2 & b2 & c2). destruct A3 as (a3 & b3 & c3). split; [apply c3, c2, c1, wf_mk|]. split; congruence. }
  assert (Wr : S (bayesian_path name) = Some (Bayesian y3 its)) by (rewrite HS; apply write_same).
  unfold bind_io at 1. unfold bayesian_phase at 1. rewrite bind_lift, M1, bind_lift, M2, bind_lift, M3, bind_lift, M4, bind_lift, M5.
  unfold bind_io at 1. rewrite bayesian_loads by auto.
  assert (Eo : exists e, eiv_object conf (nc v') y' ye' lap n' = Ok e).
  { unfold ModelRun.bayesian_eiv in B1. rewrite bind_lift in B1. destruct (eiv_object _ _ _ _ _ n) eqn:Eo; [|discriminate]. eapply object_max; eauto. }
  destruct Eo as (e & ->). unfold load_bayesian, load, bind_io at 1. rewrite Wr. unfold lift at 1.
  rewrite bind_lift.
  assert (Bad : mask_assign (mzeros (nr y) (nc y)) (is_phase ids 0) (flatten y3) = Err ValueError).
  { pose proof (mask_assign_size _ _ _ _ A1) as (R & C & _). unfold mask_assign. rewrite R, C, Nat.eqb_refl. cbn [andb negb].
    assert (Lf : length (flatten y3) = length ids * length ids).
    { destruct W3 as (W & R3 & C3). unfold flatten. rewrite (length_concat_w _ (length ids)); [destruct W as [-> _]; congruence|].
      intros row I. rewrite <- C3. apply wf_rows; auto. }
    assert (Lt : trues (is_phase ids 0) < length ids /\ 0 < trues (is_phase ids 0)).
    { split.
      - clear - Q1 Q2. revert Q1. induction ids as [|x l IH]; [intros []|]. intros [->|I]; cbn [is_phase map trues length].
        + destruct (Z.eqb_spec q 0); [tauto|]. assert (T : trues (is_phase l 0) <= length l). { clear. induction l; cbn [is_phase map trues length]; [lia|]. destruct (_ =? _)%Z; unfold is_phase in IHl; lia. }
          unfold is_phase in T. lia.
        + specialize (IH I). unfold is_phase in IH. destruct (_ =? _)%Z; lia.
      - apply existsb_exists in E0. destruct E0 as [z0 [X1 X2]]. apply Z.eqb_eq in X2. subst z0. apply In_nth_error in X1. destruct X1 as [k X1].
        apply nth_is_phase in X1. apply rank_lt in X1. lia. }
    rewrite length_selected, Lf. destruct (length ids * length ids =? _) eqn:Eq; [apply Nat.eqb_eq in Eq; nia|].
    destruct (flatten y3) as [|z1 [|z2 zs]]; [reflexivity| |reflexivity]. cbn [length] in Lf. nia. }
  rewrite Bad. reflexivity.
Qed.

Theorem p_three_reload : forall name v c ids sv sc r y ye lap w u n n' s s' res, (0 < n)%Z -> (n' <= 0)%Z ->
  bayesian_eiv_3ph name v c ids sv sc r y ye lap w n u s = (s', Ok res) -> (exists p, In p ids /\ p <> 0%Z) ->
  bayesian_eiv_3ph name v c ids sv sc r y ye lap w n' u s' = (s', Err ValueError).
Proof. intros. eapply three_reload_at; eauto. Qed.

(** ** options that never let the program finish *)
Theorem p_continue_never : forall o s, continue_id o = true -> snd (identify o s) <> Ok tt.
Proof.
  intros o s C H. destruct (identify o s) as [s' r] eqn:E. cbn in H. subst r. apply identify_ok_inv in E.
  destruct E as (_ & i & v & j & w & y & p & f & h & d & _ & _ & E). unfold ProofIdentify.after in E. rewrite bind_save in E.
  destruct d as [[[[[a1 a2] a3] a4] a5] a6]. unfold rest in E.
  apply bind_io_ok in E. destruct E as (s1 & [[yo yt] yl] & _ & E). apply bind_io_ok in E. destruct E as (s2 & y0 & _ & E).
  apply bind_io_ok in E. destruct E as (s3 & [y1 its] & _ & E). rewrite C in E. discriminate.
Qed.
Theorem p_uncertainty_never : forall o s, uncertainty o = true -> snd (identify o s) <> Ok tt.
Proof.
  intros o s C H. destruct (identify o s) as [s' r] eqn:E. cbn in H. subst r. apply identify_ok_inv in E.
  destruct E as (_ & i & v & j & w & y & p & f & h & d & _ & _ & E). unfold ProofIdentify.after in E. rewrite bind_save in E.
  destruct d as [[[[[a1 a2] a3] a4] a5] a6]. unfold rest in E.
  apply bind_io_ok in E. destruct E as (s1 & [[yo yt] yl] & _ & E). apply bind_io_ok in E. destruct E as (s2 & y0 & _ & E).
  apply bind_io_ok in E. destruct E as (s3 & [y1 its] & _ & E). rewrite C in E. destruct (continue_id o); discriminate.
Qed.
Theorem p_three_no_zero : forall o s i v j w y p f h, three_phased (phases o) = true ->
  s (simulation_path (network o)) = Some (Simulation i v j w y p f h) -> ~ In 0%Z h -> snd (identify o s) <> Ok tt.
Proof.
  intros o s i v j w y p f h T S N H. destruct (identify o s) as [s' r] eqn:E. cbn in H. subst r. apply identify_ok_inv in E.
  destruct E as (_ & i' & v' & j' & w' & y' & p' & f' & h' & d & S' & _ & E). rewrite S in S'. inversion S'; subst.
  unfold ProofIdentify.after in E. rewrite bind_save in E.
  destruct d as [[[[[a1 a2] a3] a4] a5] a6]. unfold rest in E. rewrite T in E.
  apply bind_io_ok in E. destruct E as (s1 & [[yo yt] yl] & _ & E). apply bind_io_ok in E. destruct E as (s2 & y0 & _ & E).
  apply bind_io_ok in E. destruct E as (s3 & [y1 its] & E & _). unfold ModelRun.bayesian_eiv_3ph in E.
  destruct (existsb (Z.eqb 0) h') eqn:X; [|discriminate]. apply existsb_exists in X. destruct X as [x [X1 X2]]. apply Z.eqb_eq in X2. subst. tauto.
Qed.
End Thm.
