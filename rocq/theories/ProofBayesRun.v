(** The Lasso and the Bayesian identification of ModelRun.v as reweighted least squares *)
From Coq Require Import String.
From Coq Require Import Bool Arith List ZArith Lia Ring Field.
From Verif Require Import BasePy BaseFld BaseOrd BaseSum BaseMat BaseNumpy BaseLin ModelMatrixOps SpecMatrix ModelPrior ModelFit
  ModelLS ModelIdent ModelRun SpecPrior SpecLS SpecFit SpecIdent SpecBayes SpecRun SpecIdentify ProofRagged ProofMatrixOps ProofFitBase ProofFitRep
  ProofIdent ProofPenalty ProofIdentMain ProofFrozen ProofBayes ProofRunIO ProofIdentify.
Import ListNotations.
Close Scope string_scope.
Local Open Scope K_scope.

Section Run.
Context {K : Type} {O : Ops K} {F : Fld K} {O2 : OrdOps K} {OF : OrdFld K}.
Notation CK := (cplx K).
Add Field Kfld : (@k_field K O F).
Variable pinv : mat CK -> mat CK.
Variable svd : mat CK -> mat CK * list K * mat CK.
Variable spsolve : mat K -> list K -> res (list K).
Variable cabs : CK -> K.
Variable ksqrt : K -> K.
Variables true_cov naive_cov : mat CK -> arg K -> K -> bool -> res (mat K).
Variable conf : config K.
Notation bayesian_eiv := (ModelRun.bayesian_eiv spsolve cabs true_cov naive_cov conf).
Notation identify := (ModelRun.identify pinv svd spsolve cabs ksqrt true_cov naive_cov conf).
Notation standard_estimates := (ModelRun.standard_estimates pinv svd spsolve conf).
Notation eiv_data := (ModelRun.eiv_data cabs true_cov naive_cov).

Lemma centred_without : forall lap T n (v i : mat CK), shape v T n -> shape i T n ->
  without_means lap T n v i (fst (centred lap v i)) (snd (centred lap v i)).
Proof.
  intros lap T n v i (Wv & Rv & Cv) (Wi & Ri & Ci). unfold without_means, centred. destruct lap; cbn [fst snd].
  - split; [unfold minus_mean; rewrite Rv, Cv; apply shape_mk|]. split; [repeat split; auto; apply Wi|]. split; [|reflexivity].
    intros t j Ht Hj. unfold minus_mean. rewrite get_mk by lia. unfold mean_all. rewrite Rv, Cv. reflexivity.
  - split; [unfold minus_col_means; rewrite Rv, Cv; apply shape_mk|]. split; [unfold minus_col_means; rewrite Ri, Ci; apply shape_mk|].
    intros t j Ht Hj. unfold minus_col_means. rewrite !get_mk by lia. unfold mean_col. rewrite Rv, Ri. split; reflexivity.
Qed.
Lemma half_sum_is : forall n (t : mat CK), shape t n n -> half_sum t = Ok (sym_part n t).
Proof. intros n t (W & R & C). unfold half_sum. rewrite R, C, Nat.eqb_refl. reflexivity. Qed.

Lemma knat_lt : forall k, (0 < k)%nat -> 0 <! (knat k : K).
Proof. intros k Hk. apply klt_spec2. split; [clear Hk; induction k as [|k IH]; [apply kle_refl|cbn [knat]; apply kle_0_add; (exact IH || apply kle_01)]|]. intros H. apply (knat_neq0 (K := K) k); [lia|auto]. Qed.
Lemma tenth_pos : forall k, 0 <! (tenth k : K).
Proof.
  induction k as [|k IH]; [apply klt_01|]. cbn [tenth]. pose proof (knat_lt 10 ltac:(lia)) as T. apply klt_spec2. split; [apply kle_div; [apply klt_le|]; assumption|].
  intros H. apply (klt_neq _ IH). rewrite <- (kdiv_mul (tenth k) (knat 10)) by (apply klt_neq; assumption). rewrite <- H. ring.
Qed.

(** ** Lasso *)
Theorem p_lasso_estimate : forall T n (v i a t l : mat CK) lap N,
  solver_sound spsolve -> 0 <=! lambda_lasso conf -> (2 <= n)%nat -> shape v T n -> shape i T n ->
  standard_estimates v i lap N = Ok (a, t, l) -> shape a n n -> Forall (fun y => y <> 0) (parameters lap (sym_part n a)) ->
  if (0 <? N)%Z
  then exists v1 i1, without_means lap T n v i v1 i1 /\
    reweighted lap n v1 i1 (lambda_lasso conf)
      (fun M0 M => relaxed_lasso (tenth 5) (parameters lap (sym_part n a)) (parameters lap M0) (parameters lap M))
      (Z.to_nat N) (sym_part n a) l
  else l = a.
Proof.
  intros T n v i a t l lap N Hs Hl Hn Hv Hi H Ha Hz. unfold ModelRun.standard_estimates in H.
  assert (Cv : nc v = n) by apply Hv. rewrite Cv in H.
  pose proof (centred_without lap T n v i Hv Hi) as WM.
  destruct (centred lap v i) as [v1 i1]. cbn [fst snd] in WM.
  apply bind_ok in H. destruct H as (o & Eo & H). apply bind_ok in H. destruct H as (tt_ & Et & H).
  apply bind_ok in H. destruct H as (p & Ep & H).
  destruct (0 <? N)%Z eqn:EN.
  - apply bind_ok in H. destruct H as (y0 & Ey & H). apply bind_ok in H. destruct H as ([yl its] & Ef & H). injection H as -> _ ->.
    rewrite (half_sum_is n a Ha) in Ey. injection Ey as <-.
    exists v1, i1. split; [exact WM|].
    destruct (p_lasso_rows lap n a Hn Ha Hz) as (p' & m & pf & Ep' & Hm & G & Hpf). rewrite Ep in Ep'. injection Ep' as <-.
    pose proof (p_reweighted lap n m (Z.to_nat N) (tenth 5) (lambda_lasso conf) (abs_tol conf) (rel_tol conf) p pf
      (fun g M0 M => sumn (length (parameters lap (sym_part n a))) (fun k =>
        g (kabs (vget (parameters lap (sym_part n a)) k) * vget (parameters lap M0) k) (kabs (vget (parameters lap (sym_part n a)) k) * vget (parameters lap M) k)))
      G Hm) as P.
    destruct WM as (S1 & S2 & _). refine (P _ Hl _ _ spsolve v1 i1 (sym_part n a) l T its Hs S1 S2 _ Ef).
    + apply tenth_pos.
    + apply Z.ltb_lt in EN. lia.
    + intros g M0 M Hg H0 H1. apply Hpf; [exact Hg| |]; apply length_parameters; [apply H0|apply H1].
    + apply (sym_part_sym CK _ _).
  - injection H as -> _ <-. reflexivity.
Qed.

(** ** errors in variables *)
Lemma bayesian_inv : forall name (v i Y0 y : mat CK) sv sc r lap w N u s s' its n,
  bayesian_eiv name v i sv sc r Y0 None lap w N u s = (s', Ok (y, its)) -> (0 < N)%Z ->
  contrast_each_row conf = true -> regularize_diag conf = false -> nc v = n -> (2 <= n)%nat -> shape Y0 n n -> no_zero_line n Y0 ->
  (forall k, (k < n)%nat -> nonzero_parts (reference (use_tls_diag conf) n Y0 k)) ->
  exists v1 i1 xw zw p m pf, eiv_data v i sv sc r w u = Ok (v1, i1, xw, zw) /\ (1 < m)%nat /\
    rows_are (tenth 8) (psize lap n + psize lap n) m p pf /\
    (forall g M0 M, even g -> symmetric n M0 -> symmetric n M ->
      pf g (parameters lap M0) (parameters lap M) = line_pairs g n Y0 M0 M + node_pairs g (lambdaprime conf) (use_tls_diag conf) n Y0 M0 M) /\
    fit_result (eiv_fit spsolve cabs (object p (lambda_eiv conf) (abs_tol conf) (rel_tol conf) (Z.to_nat N) lap)
      (fst (centred lap v1 i1)) (snd (centred lap v1 i1)) xw zw Y0) = Ok (y, its) /\
    s' (bayesian_path name) = Some (Bayesian y its).
Proof.
  intros name v i Y0 y sv sc r lap w N u s s' its n H HN Hc Hr Cv Hn HY Hz Href. unfold ModelRun.bayesian_eiv in H.
  rewrite bind_lift in H. unfold eiv_object, bayesian_prior in H. rewrite Hc, Hr, Cv in H.
  destruct (p_complex_rows lap (use_tls_diag conf) n (lambdaprime conf) Y0 Hn HY Hz Href) as (p & m & pf & Ep & Hm & G & Hpf).
  rewrite Ep in H. cbn [bind] in H. destruct (0 <? N)%Z eqn:EN; [|apply Z.ltb_ge in EN; lia].
  rewrite bind_lift in H. destruct (eiv_data v i sv sc r w u) as [[[[v1 i1] xw] zw]|e] eqn:ED; [|discriminate].
  destruct (centred lap v1 i1) as [v2 i2] eqn:EC. rewrite bind_lift in H.
  match type of H with context [fit_result ?f] => destruct (fit_result f) as [[y' its']|e] eqn:EF end; [|discriminate].
  rewrite bind_save in H. unfold lift in H. injection H as <- -> ->.
  exists v1, i1, xw, zw, p, m, pf. split; [reflexivity|]. split; [exact Hm|]. split; [exact G|]. split; [exact Hpf|].
  rewrite EC. cbn [fst snd]. split; [exact EF|]. unfold write. rewrite String.eqb_refl. reflexivity.
Qed.

(** ** the program *)
Lemma identify_single : forall o (fs fs' : files K) (i v j w y : mat CK) P f h,
  fs (simulation_path (network o)) = Some (Simulation i v j w y P f h) -> Forall (eq 1%Z) h ->
  identify o fs = (fs', Ok tt) -> three_phased (phases o) = false ->
  (forall a t l, fs' (standard_path (network o)) = Some (Standard a t l) ->
    (standard o = true \/ bayesian o = false -> standard_estimates v i (laplacian o) (max_iterations o) = Ok (a, t, l)) /\
    exists y0 yb its s1 s2, half_sum t = Ok y0 /\
      bayesian_eiv (network o) v i (Cx (voltage_magnitude_sd conf / ksqrt f) (voltage_phase_sd conf / ksqrt f))
        (Cx (current_magnitude_sd conf / ksqrt f) (current_phase_sd conf / ksqrt f)) P y0
        (if exact o && negb (laplacian o) then Some y else None) (laplacian o) (weighted o) (rounds o) (negb (unsynchronized o)) s1 = (s2, Ok (yb, its)) /\
      fs' = s2) /\
  exists a t l, fs' (standard_path (network o)) = Some (Standard a t l).
Proof.
  intros o fs fs' i v j w y P f h FS Hh ID TP.
  apply identify_ok_inv in ID. destruct ID as (_ & i1 & v1 & j1 & w1 & y1 & p1 & f1 & h1 & d & E1 & EK & EA). rewrite FS in E1. injection E1 as <- <- <- <- <- <- <- <-.
  unfold keep_phase in EK. rewrite TP in EK. cbn [negb andb] in EK.
  assert (NB : existsb (fun x => negb (x =? 1)%Z) h = false).
  { clear - Hh. induction Hh as [|x h Hx Hh IH]; [reflexivity|]. cbn. subst x. exact IH. }
  rewrite NB in EK. injection EK as <-.
  unfold after in EA. rewrite bind_save in EA. cbn [fst snd] in EA. unfold rest in EA. rewrite TP in EA.
  apply bind_io_ok in EA. destruct EA as (s1 & [[a t] l] & ES & EA).
  apply bind_io_ok in EA. destruct EA as (s2 & y0 & EY & EA).
  apply bind_io_ok in EA. destruct EA as (s3 & [yb its] & EB & EA).
  destruct (continue_id o); [discriminate|]. destruct (uncertainty o); [discriminate|]. injection EA as <-.
  apply lift_ok in EY. destruct EY as [-> EY].
  assert (S1 : s1 (standard_path (network o)) = Some (Standard a t l) /\
    (standard o = true \/ bayesian o = false -> standard_estimates v i (laplacian o) (max_iterations o) = Ok (a, t, l))).
  { destruct (standard o || (negb (standard o) && negb (bayesian o))) eqn:RS.
    - unfold standard_methods in ES. rewrite bind_lift in ES.
      destruct (standard_estimates v i (laplacian o) (max_iterations o)) as [[[a' t'] l']|e]; [|discriminate].
      rewrite bind_save in ES. unfold lift in ES. injection ES as <- -> -> ->. split; [|reflexivity]. unfold write. rewrite String.eqb_refl. reflexivity.
    - split.
      + unfold standard_methods, load_standard in ES. unfold load, bind_io in ES.
        destruct (write fs (reference_path (network o)) (Reference y (phases o) (laplacian o)) (standard_path (network o))) as [[|o' t' l'| | |]|] eqn:EL;
          unfold lift in ES; try discriminate. injection ES as <- -> -> ->. exact EL.
      + intros Q. destruct (standard o), (bayesian o); cbn in RS; try discriminate. destruct Q; discriminate. }
  assert (S3 : s3 (standard_path (network o)) = s1 (standard_path (network o))).
  { assert (WO := wo_bayesian spsolve cabs true_cov naive_cov conf (network o) v i
      (Cx (voltage_magnitude_sd conf / ksqrt f) (voltage_phase_sd conf / ksqrt f)) (Cx (current_magnitude_sd conf / ksqrt f) (current_phase_sd conf / ksqrt f)) P y0
      (if exact o && negb (laplacian o) then Some y else None) (laplacian o) (weighted o)
      (if bayesian o || (negb (standard o) && negb (bayesian o)) then max_iterations o else 0%Z) (negb (unsynchronized o)) [bayesian_path (network o)] (or_introl eq_refl)).
    specialize (WO s1 (standard_path (network o))). rewrite EB in WO. apply WO. intros [Q|[]]. discriminate. }
  split; [|exists a, t, l; rewrite S3; apply S1].
  intros a' t' l' EQ. rewrite S3, (proj1 S1) in EQ. injection EQ as <- <- <-. split; [apply S1|].
  exists y0, yb, its, s1, s3. split; [exact EY|]. split; [|reflexivity].
  replace (rounds o) with (if bayesian o || (negb (standard o) && negb (bayesian o)) then max_iterations o else 0%Z); [exact EB|].
  unfold rounds. destruct (bayesian o), (standard o); reflexivity.
Qed.

(** ** the three kinds of identification *)
Lemma sym_part_twice : forall n (t : mat CK), sym_part n (sym_part n t) = sym_part n t.
Proof. intros. apply sym_part_id. apply (sym_part_sym CK _ _). Qed.
Lemma reference_sym : forall tls n (t : mat CK) k, (k < n)%nat -> reference tls n (sym_part n t) k = reference tls n t k.
Proof.
  intros tls n t k Hk. unfold reference. destruct tls; [|rewrite sym_part_twice; reflexivity]. rewrite get_sym_part by assumption. rewrite half_twice. reflexivity.
Qed.
Lemma line_pairs_sym : forall g n (t M0 M : mat CK), line_pairs g n (sym_part n t) M0 M = line_pairs g n t M0 M.
Proof. intros. unfold line_pairs. rewrite sym_part_twice. reflexivity. Qed.
Lemma node_pairs_sym : forall g lam tls n (t M0 M : mat CK), node_pairs g lam tls n (sym_part n t) M0 M = node_pairs g lam tls n t M0 M.
Proof. intros. unfold node_pairs. apply sumn_ext. intros k Hk. rewrite reference_sym by assumption. reflexivity. Qed.

Lemma cre_neq : forall x : K, x <> 0 -> (cre x : CK) <> 0.
Proof. intros x H E. apply H. exact (f_equal re E). Qed.
Lemma rotated_ok : forall T n (v i i1 : mat CK), shape v T n -> shape i T n -> relative_current cabs v i = Ok i1 -> rotated cabs T n v i (magnitudes cabs v) i1.
Proof.
  intros T n v i i1 Hv Hi H. unfold relative_current, np_map2 in H. pose proof Hv as (Wv & Rv & Cv). pose proof Hi as (Wi & Ri & Ci).
  rewrite Ri, Rv, Ci, Cv, !Nat.eqb_refl in H. cbn [andb] in H. injection H as <-.
  split; [unfold magnitudes; apply shape_mmap; assumption|]. split; [apply shape_mk|]. intros t j Ht Hj.
  assert (G1 : get (magnitudes cabs v) t j = cre (cabs (get v t j))).
  { unfold magnitudes. unfold get. rewrite (gget_mmap _ _ _ (0 : CK)); [reflexivity|assumption|lia|lia]. }
  split; [exact G1|]. intros Hne. rewrite G1, get_mk by assumption.
  exact (kdiv_mul (K := CK) (get i t j * conj (get v t j)) (cre (cabs (get v t j))) (cre_neq _ Hne)).
Qed.
Lemma inverted_ok : forall A : mat K, wf A -> inverted A (inverted_data A).
Proof.
  intros A WA. split; [reflexivity|]. split; [reflexivity|]. split; [apply wf_mmap; exact WA|].
  intros r c Hr Hc. assert (E : get (inverted_data A) r c = if get A r c =? 0 then 0 else 1 / get A r c) by (unfold get, inverted_data; rewrite (gget_mmap _ _ _ (0 : K)); auto).
  rewrite E. split; intros H.
  - rewrite H. assert (Z : ((0 : K) =? 0) = true) by (apply keqb_eq; reflexivity). rewrite Z. reflexivity.
  - apply keqb_neq in H as H2. rewrite H2. apply kdiv_mul. exact H.
Qed.

Lemma no_zero_line_sym : forall n (t : mat CK), no_zero_line n t -> no_zero_line n (sym_part n t).
Proof. unfold no_zero_line. intros n t H. rewrite sym_part_twice. exact H. Qed.

(** the fit whose result is saved *)
Lemma identify_fit : forall o (fs fs' : files K) (i v j w y a t l : mat CK) P f h T n,
  contrast_each_row conf = true -> regularize_diag conf = false ->
  fs (simulation_path (network o)) = Some (Simulation i v j w y P f h) -> Forall (eq 1%Z) h ->
  identify o fs = (fs', Ok tt) -> three_phased (phases o) = false -> (0 < rounds o)%Z -> exact o = false \/ laplacian o = true ->
  (2 <= n)%nat -> shape v T n -> fs' (standard_path (network o)) = Some (Standard a t l) -> shape t n n -> no_zero_line n t ->
  (forall k, (k < n)%nat -> nonzero_parts (reference (use_tls_diag conf) n t k)) ->
  exists v1 i1 xw zw p m pf yb its,
    eiv_data v i (Cx (voltage_magnitude_sd conf / ksqrt f) (voltage_phase_sd conf / ksqrt f))
        (Cx (current_magnitude_sd conf / ksqrt f) (current_phase_sd conf / ksqrt f)) P (weighted o) (negb (unsynchronized o)) = Ok (v1, i1, xw, zw) /\
    (1 < m)%nat /\ rows_are (tenth 8) (psize (laplacian o) n + psize (laplacian o) n) m p pf /\
    (forall g M0 M, even g -> symmetric n M0 -> symmetric n M ->
      pf g (parameters (laplacian o) M0) (parameters (laplacian o) M) = line_pairs g n t M0 M + node_pairs g (lambdaprime conf) (use_tls_diag conf) n t M0 M) /\
    fit_result (eiv_fit spsolve cabs (object p (lambda_eiv conf) (abs_tol conf) (rel_tol conf) (Z.to_nat (rounds o)) (laplacian o))
      (fst (centred (laplacian o) v1 i1)) (snd (centred (laplacian o) v1 i1)) xw zw (sym_part n t)) = Ok (yb, its) /\
    fs' (bayesian_path (network o)) = Some (Bayesian yb its).
Proof.
  intros o fs fs' i v j w y a t l P f h T n Hc Hr FS Hh ID TP HN Hex Hn Hv FT Ht Hz Href.
  destruct (identify_single o fs fs' i v j w y P f h FS Hh ID TP) as [A _].
  destruct (A a t l FT) as (_ & y0 & yb & its & s1 & s2 & EY & EB & ->). rewrite (half_sum_is n t Ht) in EY. injection EY as <-.
  assert (XN : (if exact o && negb (laplacian o) then Some y else None) = None) by (destruct Hex as [-> | ->]; [reflexivity|destruct (exact o); reflexivity]).
  rewrite XN in EB.
  destruct (bayesian_inv _ _ _ _ _ _ _ _ _ _ _ _ _ _ _ n EB HN Hc Hr (proj2 (proj2 Hv)) Hn) as (v1 & i1 & xw & zw & p & m & pf & B1 & B2 & B3 & B4 & B5 & B6).
  - apply shape_sym_part.
  - apply no_zero_line_sym. exact Hz.
  - intros k Hk. rewrite reference_sym by assumption. apply Href. exact Hk.
  - exists v1, i1, xw, zw, p, m, pf, yb, its. split; [exact B1|]. split; [exact B2|]. split; [exact B3|]. split; [|split; [exact B5|exact B6]].
    intros g M0 M Hg H0 H1. rewrite (B4 g M0 M Hg H0 H1), line_pairs_sym, node_pairs_sym. reflexivity.
Qed.

Notation bayes_pen n t := (fun M : mat CK => line_pen (tenth 8) n t M + node_pen (tenth 8) (lambdaprime conf) (use_tls_diag conf) n t M).
Notation bayes_relaxed n t := (relaxed_pen (tenth 8) (lambdaprime conf) (use_tls_diag conf) n t).

Theorem p_identify_lasso : forall o (fs fs' : files K) (i v j w y a t l : mat CK) P f h T n,
  solver_sound spsolve -> 0 <=! lambda_lasso conf ->
  fs (simulation_path (network o)) = Some (Simulation i v j w y P f h) -> Forall (eq 1%Z) h ->
  identify o fs = (fs', Ok tt) -> three_phased (phases o) = false -> standard o = true \/ bayesian o = false ->
  (2 <= n)%nat -> shape v T n -> shape i T n -> fs' (standard_path (network o)) = Some (Standard a t l) -> shape a n n ->
  Forall (fun y => y <> 0) (parameters (laplacian o) (sym_part n a)) ->
  if (0 <? max_iterations o)%Z
  then exists v1 i1, without_means (laplacian o) T n v i v1 i1 /\
    reweighted (laplacian o) n v1 i1 (lambda_lasso conf)
      (fun M0 M => relaxed_lasso (tenth 5) (parameters (laplacian o) (sym_part n a)) (parameters (laplacian o) M0) (parameters (laplacian o) M))
      (Z.to_nat (max_iterations o)) (sym_part n a) l
  else l = a.
Proof.
  intros o fs fs' i v j w y a t l P f h T n Hs Hl FS Hh ID TP Q Hn Hv Hi FT Ha Hz.
  destruct (identify_single o fs fs' i v j w y P f h FS Hh ID TP) as [A _]. destruct (A a t l FT) as [B _].
  apply (p_lasso_estimate T n v i a t l _ _ Hs Hl Hn Hv Hi (B Q) Ha Hz).
Qed.

Theorem p_identify_weighted : forall o (fs fs' : files K) (i v j w y a t l : mat CK) P f h T n W,
  solver_sound spsolve -> 0 <=! lambda_eiv conf -> contrast_each_row conf = true -> regularize_diag conf = false ->
  fs (simulation_path (network o)) = Some (Simulation i v j w y P f h) -> Forall (eq 1%Z) h ->
  identify o fs = (fs', Ok tt) -> three_phased (phases o) = false -> (0 < rounds o)%Z -> exact o = false \/ laplacian o = true ->
  weighted o = true -> unsynchronized o = false ->
  (2 <= n)%nat -> shape v T n -> shape i T n -> fs' (standard_path (network o)) = Some (Standard a t l) -> shape t n n -> no_zero_line n t ->
  (forall k, (k < n)%nat -> nonzero_parts (reference (use_tls_diag conf) n t k)) ->
  true_cov v (AScalar (voltage_magnitude_sd conf / ksqrt f)) (voltage_phase_sd conf / ksqrt f) true = Ok W -> psd (2 * (n * T)) W ->
  exists v1 i1 yb its, without_means (laplacian o) T n v i v1 i1 /\ fs' (bayesian_path (network o)) = Some (Bayesian yb its) /\
    history_of (weighted_round (laplacian o) T n W v1 i1 (lambda_eiv conf) (bayes_pen n t) (bayes_relaxed n t)) (sym_part n t) yb its.
Proof.
  intros o fs fs' i v j w y a t l P f h T n W Hs Hl Hc Hr FS Hh ID TP HN Hex Hw Hu Hn Hv Hi FT Ht Hz Href HW HP.
  destruct (identify_fit o fs fs' i v j w y a t l P f h T n Hc Hr FS Hh ID TP HN Hex Hn Hv FT Ht Hz Href)
    as (v1 & i1 & xw & zw & p & m & pf & yb & its & B1 & B2 & B3 & B4 & B5 & B6).
  unfold ModelRun.eiv_data in B1. rewrite Hw, Hu in B1. cbn [andb negb re im] in B1. rewrite HW in B1. cbn [bind] in B1.
  apply bind_ok in B1. destruct B1 as (sc & _ & B1). injection B1 as <- <- <- <-.
  pose proof (centred_without (laplacian o) T n v i Hv Hi) as WM.
  exists (fst (centred (laplacian o) v i)), (snd (centred (laplacian o) v i)), yb, its. split; [exact WM|]. split; [exact B6|].
  destruct WM as (S1 & S2 & _).
  exact (p_weighted_rounds (laplacian o) n m (Z.to_nat (rounds o)) (tenth 8) (lambda_eiv conf) (abs_tol conf) (rel_tol conf) p pf
    (fun g M0 M => line_pairs g n t M0 M + node_pairs g (lambdaprime conf) (use_tls_diag conf) n t M0 M)
    B3 B2 (tenth_pos 8) Hl ltac:(lia) B4 spsolve cabs _ _ (sym_part n t) yb W sc T its Hs S1 S2 (sym_part_sym CK _ _ n t) HP B5).
Qed.

Theorem p_identify_unsynchronized : forall o (fs fs' : files K) (i v j w y a t l : mat CK) P f h T n S,
  solver_sound spsolve -> 0 <=! lambda_eiv conf -> contrast_each_row conf = true -> regularize_diag conf = false ->
  fs (simulation_path (network o)) = Some (Simulation i v j w y P f h) -> Forall (eq 1%Z) h ->
  identify o fs = (fs', Ok tt) -> three_phased (phases o) = false -> (0 < rounds o)%Z -> exact o = false \/ laplacian o = true ->
  weighted o = true -> unsynchronized o = true ->
  (2 <= n)%nat -> shape v T n -> shape i T n -> fs' (standard_path (network o)) = Some (Standard a t l) -> shape t n n -> no_zero_line n t ->
  (forall k, (k < n)%nat -> nonzero_parts (reference (use_tls_diag conf) n t k)) ->
  naive_cov (mk T n (fun r k => cre (cabs (get v r k)))) (AScalar (voltage_magnitude_sd conf / ksqrt f)) (voltage_phase_sd conf / ksqrt f * knat 100) false = Ok S ->
  wf S -> (forall W, inverted S W -> psd (2 * (n * T)) W) ->
  exists v0 i0 v1 i1 W yb its, rotated cabs T n v i v0 i0 /\ without_means (laplacian o) T n v0 i0 v1 i1 /\ inverted S W /\
    fs' (bayesian_path (network o)) = Some (Bayesian yb its) /\
    history_of (weighted_round (laplacian o) T n W v1 i1 (lambda_eiv conf) (bayes_pen n t) (bayes_relaxed n t)) (sym_part n t) yb its.
Proof.
  intros o fs fs' i v j w y a t l P f h T n S Hs Hl Hc Hr FS Hh ID TP HN Hex Hw Hu Hn Hv Hi FT Ht Hz Href HW WS HP.
  destruct (identify_fit o fs fs' i v j w y a t l P f h T n Hc Hr FS Hh ID TP HN Hex Hn Hv FT Ht Hz Href)
    as (v1 & i1 & xw & zw & p & m & pf & yb & its & B1 & B2 & B3 & B4 & B5 & B6).
  unfold ModelRun.eiv_data in B1. rewrite Hw, Hu in B1. cbn [andb negb re im] in B1.
  apply bind_ok in B1. destruct B1 as (i0 & E0 & B1).
  pose proof (rotated_ok T n v i i0 Hv Hi E0) as RT.
  assert (EM : magnitudes cabs v = mk T n (fun r k => cre (cabs (get v r k)))).
  { destruct RT as (SM & _ & RT). apply (gshape_ext _ _ T n); [exact SM|apply shape_mk|]. intros r k H1 H2. rewrite get_mk by assumption. apply (RT r k H1 H2). }
  rewrite <- EM in HW. rewrite HW in B1. cbn [bind] in B1.
  apply bind_ok in B1. destruct B1 as (sc & _ & B1). injection B1 as <- <- <- <-.
  pose proof RT as (Sv & Si & _). pose proof (inverted_ok S WS) as IV.
  pose proof (centred_without (laplacian o) T n _ _ Sv Si) as WM.
  exists (magnitudes cabs v), i0, (fst (centred (laplacian o) (magnitudes cabs v) i0)), (snd (centred (laplacian o) (magnitudes cabs v) i0)), (inverted_data S), yb, its.
  split; [exact RT|]. split; [exact WM|]. split; [exact IV|]. split; [exact B6|].
  destruct WM as (S1 & S2 & _).
  exact (p_weighted_rounds (laplacian o) n m (Z.to_nat (rounds o)) (tenth 8) (lambda_eiv conf) (abs_tol conf) (rel_tol conf) p pf
    (fun g M0 M => line_pairs g n t M0 M + node_pairs g (lambdaprime conf) (use_tls_diag conf) n t M0 M)
    B3 B2 (tenth_pos 8) Hl ltac:(lia) B4 spsolve cabs _ _ (sym_part n t) yb _ sc T its Hs S1 S2 (sym_part_sym CK _ _ n t) (HP _ IV) B5).
Qed.

Theorem p_identify_unweighted : forall o (fs fs' : files K) (i v j w y a t l : mat CK) P f h T n,
  solver_sound spsolve -> 0 <=! lambda_eiv conf -> contrast_each_row conf = true -> regularize_diag conf = false ->
  fs (simulation_path (network o)) = Some (Simulation i v j w y P f h) -> Forall (eq 1%Z) h ->
  identify o fs = (fs', Ok tt) -> three_phased (phases o) = false -> (0 < rounds o)%Z -> exact o = false \/ laplacian o = true ->
  weighted o = false ->
  (2 <= n)%nat -> shape v T n -> shape i T n -> fs' (standard_path (network o)) = Some (Standard a t l) -> shape t n n -> no_zero_line n t ->
  (forall k, (k < n)%nat -> nonzero_parts (reference (use_tls_diag conf) n t k)) ->
  exists v1 i1 yb its, without_means (laplacian o) T n v i v1 i1 /\ fs' (bayesian_path (network o)) = Some (Bayesian yb its) /\
    history_of (plain_round (laplacian o) T n v1 i1 (lambda_eiv conf) (bayes_relaxed n t)) (sym_part n t) yb its.
Proof.
  intros o fs fs' i v j w y a t l P f h T n Hs Hl Hc Hr FS Hh ID TP HN Hex Hw Hn Hv Hi FT Ht Hz Href.
  destruct (identify_fit o fs fs' i v j w y a t l P f h T n Hc Hr FS Hh ID TP HN Hex Hn Hv FT Ht Hz Href)
    as (v1 & i1 & xw & zw & p & m & pf & yb & its & B1 & B2 & B3 & B4 & B5 & B6).
  unfold ModelRun.eiv_data in B1. rewrite Hw in B1. cbn [andb] in B1. injection B1 as <- <- <- <-.
  pose proof (centred_without (laplacian o) T n v i Hv Hi) as WM.
  exists (fst (centred (laplacian o) v i)), (snd (centred (laplacian o) v i)), yb, its. split; [exact WM|]. split; [exact B6|].
  destruct WM as (S1 & S2 & _).
  exact (p_plain_rounds (laplacian o) n m (Z.to_nat (rounds o)) (tenth 8) (lambda_eiv conf) (abs_tol conf) (rel_tol conf) p pf
    (fun g M0 M => line_pairs g n t M0 M + node_pairs g (lambdaprime conf) (use_tls_diag conf) n t M0 M)
    B3 B2 (tenth_pos 8) Hl ltac:(lia) B4 spsolve cabs _ _ (sym_part n t) yb None T its Hs S1 S2 (sym_part_sym CK _ _ n t) B5).
Qed.
End Run.
