(** Parametrised matrices, the exact solver, refitting an estimator. *)
From Coq Require Import Arith ZArith Lia List Bool Ring Field.
From Verif Require Import BasePy BaseFld BaseSum BaseMat BaseNumpy BaseOrd BaseLin ModelMatrixOps SpecMatrix SpecLS
  ModelPrior SpecPrior ProofPrior ProofMatrixOps ProofStruct ProofElim ProofMatrixProps ProofLS ModelFit SpecFit ProofFitBase ProofFit ProofFitOpt ProofFitBR.
Import ListNotations.
Local Open Scope K_scope.

Section Rep.
Context {K : Type} {O : Ops K} {F : Fld K} {O2 : OrdOps K} {OF : OrdFld K}.
Notation CK := (cplx K).
Add Field Kfld : (@k_field K O F).

Lemma rebuild_total : forall (DT : mat K) n P u, shape DT (n * n) P -> length u = (2 * P)%nat -> exists Y, rebuild DT n u = Ok Y.
Proof.
  intros DT n P u (Hw & Hr & Hc) Hu. destruct (even_real u P Hu) as (v & -> & Hv).
  destruct (rebuild_ex DT n v Hr ltac:(congruence)) as (Y & HY & _). eauto.
Qed.

Lemma rebuild_represents : forall (DT : mat K) n P u Y, shape DT (n * n) P -> length u = (2 * P)%nat -> rebuild DT n u = Ok Y ->
  represents DT n P u Y.
Proof.
  intros DT n P u Y HD Hu H. destruct (rebuild_even DT n P u Y HD Hu H) as (v & -> & Hv & HY & HvY).
  split; [exact Hu|]. split; [exact HY|]. intros i j Hi Hj. destruct HY as (Hw & Hr & Hc). destruct HD as (HwD & HrD & HcD).
  assert (E : get Y i j = vget (mvmul (cmat DT) v) (j * n + i)).
  { rewrite <- HvY. rewrite <- (vget_vectorize Y i j) by lia. f_equal. lia. }
  assert (Hk : (j * n + i < nr DT)%nat) by (rewrite HrD; nia).
  assert (Hc2 : forall c : CK, c = Cx (re c) (im c)) by (intros []; reflexivity).
  rewrite (Hc2 (get Y i j)). rewrite E, re_mvmul_cmat, im_mvmul_cmat by auto. rewrite !vget_mvmul by exact Hk. rewrite HcD.
  f_equal; apply sumn_ext; intros k Hk2.
  - rewrite vget_make_real_vector by lia. destruct (Nat.ltb_spec k (length v)); [|lia]. rewrite vget_map_re. reflexivity.
  - rewrite vget_make_real_vector by lia. destruct (Nat.ltb_spec (P + k) (length v)); [lia|].
    rewrite vget_map_im. replace (P + k - length v)%nat with k by lia. reflexivity.
Qed.

Lemma represents_rebuild : forall (DT : mat K) n P u Y, shape DT (n * n) P -> represents DT n P u Y -> rebuild DT n u = Ok Y.
Proof.
  intros DT n P u Y HD (Hu & HY & H). destruct (rebuild_total DT n P u HD Hu) as (Y' & HY').
  destruct (rebuild_represents DT n P u Y' HD Hu HY') as (_ & HsY' & H').
  rewrite HY'. f_equal. apply (gshape_ext Y' Y n n HsY' HY). intros i j Hi Hj. rewrite H, H' by lia. reflexivity.
Qed.

Lemma identifiable_rebuilt : forall x (DT : mat K) n P, shape DT (n * n) P -> identifiable x DT n P -> identifiable_r x DT n P.
Proof. intros x DT n P HD H u v Yu Yv Hu Hv E1 E2 E. eapply H; try exact E; apply rebuild_represents; auto. Qed.

Lemma map_re_rv : forall v w : list CK, map re v = map re w -> map im v = map im w -> v = w.
Proof. intros v w H1 H2. rewrite <- (combine_re_im v), <- (combine_re_im w). congruence. Qed.

(** independent inputs and independent parameters determine the parameters *)
Lemma inj_identifiable : forall (x : mat CK) (DT : mat K) T n P, shape x T n -> shape DT (n * n) P -> inj x -> inj DT ->
  identifiable x DT n P.
Proof.
  intros x DT T n P Hx HD Ix ID u v Yu Yv Hu Hv E.
  assert (EY : Yu = Yv).
  { destruct Hu as (_ & HYu & _). destruct Hv as (_ & HYv & _). eapply (inj_mcancel x Yu Yv); eauto. }
  subst Yv. destruct Hu as (Lu & HY & Eu). destruct Hv as (Lv & _ & Ev).
  destruct HD as (HwD & HrD & HcD).
  assert (Eq : forall k, (k < n * n)%nat ->
     sumn P (fun l => get DT k l * vget u l) = sumn P (fun l => get DT k l * vget v l) /\
     sumn P (fun l => get DT k l * vget u (P + l)) = sumn P (fun l => get DT k l * vget v (P + l))).
  { intros k Hk. destruct n as [|n']; [lia|].
    assert (Hi : (k mod S n' < S n')%nat) by (apply Nat.mod_upper_bound; lia).
    assert (Hj : (k / S n' < S n')%nat) by (apply Nat.div_lt_upper_bound; lia).
    pose proof (Eu _ _ Hi Hj) as A. rewrite (Ev _ _ Hi Hj) in A.
    replace (k / S n' * S n' + k mod S n')%nat with k in A by (pose proof (Nat.div_mod k (S n') ltac:(lia)); lia).
    injection A as A1 A2. auto. }
  assert (C : forall f g : nat -> K, (forall k, (k < n * n)%nat -> sumn P (fun l => get DT k l * f l) = sumn P (fun l => get DT k l * g l)) ->
    forall l, (l < P)%nat -> f l = g l).
  { intros f g Hfg l Hl.
    assert (E2 : mkv P f = mkv P g).
    { apply (inj_cancel DT); auto; rewrite ?length_mkv; auto.
      apply vec_ext; rewrite !length_mvmul; auto. intros k Hk. rewrite !vget_mvmul by auto. rewrite HcD.
      rewrite HrD in Hk. transitivity (sumn P (fun l => get DT k l * f l)); [apply sumn_ext; intros; rewrite vget_mkv by auto; reflexivity|].
      rewrite Hfg by auto. apply sumn_ext; intros; rewrite vget_mkv by auto; reflexivity. }
    rewrite <- (vget_mkv P f l Hl), <- (vget_mkv P g l Hl), E2. reflexivity. }
  apply vec_ext; [congruence|]. intros k Hk. destruct (Nat.lt_ge_cases k P) as [Hp|Hp].
  - apply (C (vget u) (vget v)); auto. intros; apply Eq; auto.
  - replace k with (P + (k - P))%nat by lia.
    apply (C (fun l => vget u (P + l)) (fun l => vget v (P + l))); [intros; apply Eq; auto|lia].
Qed.

Lemma dup_inj : forall n (D : mat K), duplication_matrix n = Ok D -> shape D (n * n) (n * (n + 1) / 2) /\ inj D.
Proof.
  intros n D H. destruct (p_elimination_sym n) as (D' & E & H1 & H2 & _ & H3 & _). rewrite H in H1. inversion H1; subst D'.
  destruct (dup_range n D H) as (_ & Hs & _). split; [exact Hs|].
  destruct (elimination_sym_ok n) as (E' & HE & HsE & _). rewrite H2 in HE. inversion HE; subst E'.
  eapply (left_inverse_inj D E); [exact Hs| |exact H3]. destruct HsE as (W & R & C). split; [exact W|]. split; [|exact C].
  exact (f_equal nr H3).
Qed.

Lemma inj_mmul : forall (A B : mat K) a b c, shape A a b -> shape B b c -> inj A -> inj B -> inj (mmul A B).
Proof.
  intros A B a b c (_ & RA & CA) (_ & RB & CB) IA IB v Hv Z. cbn [nr nc mmul mk] in *.
  rewrite mvmul_assoc in Z by congruence. apply IB; [exact Hv|].
  rewrite (IA (mvmul B v)); [congruence|rewrite length_mvmul; congruence|exact Z].
Qed.
Lemma lap_inj : forall n (D : mat K), lap_dt n = Ok D -> shape D (n * n) (n * (n - 1) / 2) /\ inj D.
Proof.
  intros n D H. destruct (lap_range n D H) as (_ & Hs & _). split; [exact Hs|].
  unfold lap_dt in H. apply bind_ok in H. destruct H as (d & Hd & H). apply bind_ok in H. destruct H as (t & Ht & H).
  destruct (dup_inj n d Hd) as (Sd & Id).
  destruct (p_elimination_lap n) as (T & E & H1 & H2 & _ & H3 & _). rewrite Ht in H1. inversion H1; subst T.
  destruct (p_transformation n) as (d' & t' & _ & Ht' & St & _). rewrite Ht in Ht'. inversion Ht'; subst t'.
  rewrite matmul_ok in H by (destruct Sd as (_ & _ & ->), St as (_ & -> & _); reflexivity). inversion H; subst D. eapply inj_mmul; eauto.
  eapply (left_inverse_inj t E); [exact St| |exact H3].
  destruct (elimination_lap_ok n) as (E' & HE & C & R & W & _). rewrite H2 in HE. inversion HE; subst E'.
  split; [exact W|]. split; [exact (f_equal nr H3)|]. rewrite C.
  destruct (transformation_matrix_ok n) as (t' & Ht2 & Hte). rewrite Ht in Ht2. inversion Ht2; subst t'.
  destruct Hte as ((_ & R2 & _) & _). destruct St as (_ & R3 & _). congruence.
Qed.

Lemma tr_symmetric : forall n (Y : mat CK), symmetric n Y -> tr Y = Y.
Proof.
  intros n Y (HY & H). apply (gshape_ext (tr Y) Y n n).
  - destruct HY as (W & R & C). split; [apply wf_mk|cbn [nr nc tr mtr mk]; auto].
  - exact HY.
  - intros i j Hi Hj. destruct HY as (W & R & C). rewrite get_tr by lia. apply H; auto.
Qed.

Lemma get_mdiag : forall (w : list K) i j, (i < length w)%nat -> (j < length w)%nat -> get (mdiag w) i j = if (i =? j)%nat then vget w i else 0.
Proof. intros. unfold mdiag. rewrite get_mk by auto. reflexivity. Qed.
Lemma posdef_diag : forall w : list K, Forall (fun t => 0 <! t) w -> posdef (length w) (mdiag w).
Proof.
  intros w Hw.
  assert (Hi : forall i, (i < length w)%nat -> 0 <! vget w i).
  { intros i Hi. rewrite Forall_forall in Hw. apply Hw. apply nth_In. exact Hi. }
  assert (E : forall v, length v = length w -> vdot v (mvmul (mdiag w) v) = sumn (length w) (fun i => vget w i * (vget v i * vget v i))).
  { intros v Hv. unfold vdot. rewrite Hv. apply sumn_ext. intros i H. rewrite vget_mvmul by exact H. cbn [nc mdiag mk].
    rewrite (sumn_single _ i _ H).
    - rewrite (get_mdiag w i i H H), Nat.eqb_refl. ring.
    - intros j Hj Hn. rewrite (get_mdiag w i j H Hj). destruct (Nat.eqb_spec i j); [congruence|ring]. }
  assert (Hn : forall v i, (i < length w)%nat -> 0 <=! vget w i * (vget v i * vget v i)).
  { intros v i H. apply kle_mul; [apply klt_le; auto|apply kle_sqr]. }
  split; [split; [|split]|].
  - split; [apply wf_mk|cbn [nr nc mdiag mk]; auto].
  - apply (gshape_ext _ _ (length w) (length w)); try (split; [apply wf_mk|cbn [nr nc tr mtr mdiag mk]; auto]).
    intros i j H1 H2. rewrite get_tr by assumption. rewrite (get_mdiag w j i H2 H1), (get_mdiag w i j H1 H2). rewrite (Nat.eqb_sym j i).
    destruct (Nat.eqb_spec i j); subst; auto.
  - intros v Hv. rewrite E by auto. apply sumn_nonneg. auto.
  - intros v Hv H. rewrite E in H by auto. apply vec_ext; [rewrite length_vzeros; auto|]. intros i H1. rewrite vget_vzeros. rewrite Hv in H1.
    pose proof (sumn_nonneg_zero _ _ (Hn v) H i H1) as Z. cbn beta in Z. apply sqr_zero.
    destruct (keqb (vget v i * vget v i) 0) eqn:Ek; [apply keqb_eq; exact Ek|]. exfalso.
    apply kmul_integral in Z. destruct Z as [Z|Z]; [apply (klt_neq _ (Hi i H1)); exact Z|]. rewrite Z, keqb_refl in Ek. discriminate.
Qed.

Lemma add_sub_cancel : forall a b : K, b = a + b - a.
Proof. intros. ring. Qed.
Lemma cmat_meye : forall n, cmat (meye n : mat K) = meye n :> mat CK.
Proof.
  intros n. apply (gshape_ext _ _ n n); [apply shape_cmat; apply shape_meye|apply shape_meye|]. intros i j Hi Hj.
  rewrite get_cmat by (try apply wf_mk; assumption). unfold meye. rewrite !get_mk by assumption. destruct (i =? j)%nat; reflexivity.
Qed.

(** *** the exact solver *)
Lemma ksolve_solver_sound : solver_sound (@ksolve K _).
Proof. intros A m b y HA Hb H. exact (ksolve_sound A m b y HA Hb H). Qed.
Lemma ksolve_solver_complete : solver_complete (@ksolve K _).
Proof.
  intros A m b HA Hb HI. destruct (ksolve A b) as [y|er] eqn:E; [eauto|].
  destruct (ksolve_err A m b er HA Hb E). contradiction.
Qed.

(** *** refitting *)
Definition fresh (e : estimator K) : estimator K :=
  new_estimator (e_prior e) (e_lambda e) (e_abs_tol e) (e_rel_tol e) (e_max e) (e_dt e) (e_el e).

Lemma nonpos_not_stationary : forall at_ rt c p : K, at_ <=! 0 -> rt <=! 0 -> is_stationary_point at_ rt c p = false.
Proof.
  intros at_ rt c p H1 H2. destruct (is_stationary_point at_ rt c p) eqn:E; [|reflexivity].
  apply stationary_settled in E. destruct E as (_ & [E|(Hp & E)]).
  - exfalso. apply klt_spec in E. apply E. eapply kle_trans; [exact H1|]. apply kabs_nonneg.
  - exfalso. apply klt_spec in E. apply E. eapply kle_trans; [exact H2|]. apply kle_div; [apply kabs_nonneg|].
    apply klt_spec2. split; [apply kabs_nonneg|]. intros Z. apply Hp. apply kabs_zero. auto.
Qed.

Lemma loop_prefix : forall at_ rt step fuel it iters l s,
  (forall c p : K, is_stationary_point at_ rt c p = false) ->
  fit_loop at_ rt step fuel it (iters ++ l) s =
  (iters ++ fst (fit_loop at_ rt step fuel it l s), snd (fit_loop at_ rt step fuel it l s)).
Proof.
  intros at_ rt step. induction fuel as [|fuel IH]; intros it iters l s H; [reflexivity|].
  cbn [fit_loop]. destruct (step s) as [(s', t)|er]; [|reflexivity].
  assert (E : forall m : list (status K), (if (0 <? it)%nat then match nth_error m (it - 1) with Some prev => is_stationary_point at_ rt t (st_target prev) | None => false end else false) = false).
  { intros m. destruct (0 <? it)%nat; [|reflexivity]. destruct (nth_error m (it - 1)); [apply H|reflexivity]. }
  rewrite !E. rewrite <- app_assoc. apply IH. exact H.
Qed.
Lemma loop_prefix1 : forall at_ rt step fuel iters (s : lstate K), (fuel <= 1)%nat ->
  fit_loop at_ rt step fuel 0 iters s =
  (iters ++ fst (fit_loop at_ rt step fuel 0 [] s), snd (fit_loop at_ rt step fuel 0 [] s)).
Proof.
  intros at_ rt step fuel iters s H. destruct fuel as [|[|fuel]]; [| |lia].
  - cbn. rewrite app_nil_r. reflexivity.
  - cbn [fit_loop]. destruct (step s) as [(s', t)|er]; cbn; [reflexivity|rewrite app_nil_r; reflexivity].
Qed.

Definition refit_same (e : estimator K) (a f : estimator K * option exn) : Prop :=
  snd a = snd f /\ (snd f = None -> e_adm (fst a) = e_adm (fst f)) /\ e_iters (fst a) = e_iters e ++ e_iters (fst f).

Lemma finish_same : forall (e e0 : estimator K) r r0, r = (e_iters e ++ fst r0, snd r0) ->
  refit_same e (finish_fit e r) (finish_fit e0 r0).
Proof.
  intros e e0 r r0 ->. unfold finish_fit, refit_same. cbn [snd fst]. destruct (snd r0) as [s|er]; cbn; auto.
  split; [reflexivity|]. split; [discriminate|reflexivity].
Qed.

Lemma p_br_refit : forall spsolve (e : estimator K) x z y0,
  (e_max e <= 1)%nat \/ (e_abs_tol e <=! 0 /\ e_rel_tol e <=! 0) ->
  refit_same e (br_fit spsolve e x z y0) (br_fit spsolve (fresh e) x z y0).
Proof.
  intros sv e x z y0 H. unfold br_fit.
  change (fit_init (fresh e) x y0) with (fit_init e x y0).
  destruct (fit_init e x y0) as [(((DT, A), M), mu)|er].
  - apply finish_same. destruct H as [H|(H1 & H2)].
    + apply loop_prefix1. exact H.
    + rewrite <- loop_prefix; [rewrite app_nil_r; reflexivity|]. intros; apply nonpos_not_stationary; auto.
  - split; [reflexivity|]. split; [discriminate|]. cbn. rewrite app_nil_r. reflexivity.
Qed.
Lemma p_eiv_refit : forall spsolve cabs (e : estimator K) x z xw zw y0,
  (e_max e <= 1)%nat \/ (e_abs_tol e <=! 0 /\ e_rel_tol e <=! 0) ->
  refit_same e (eiv_fit spsolve cabs e x z xw zw y0) (eiv_fit spsolve cabs (fresh e) x z xw zw y0).
Proof.
  intros sv ca e x z xw zw y0 H. unfold eiv_fit.
  change (fit_init (fresh e) x y0) with (fit_init e x y0).
  destruct (fit_init e x y0) as [(((DT, A), M), mu)|er].
  - apply finish_same. destruct H as [H|(H1 & H2)].
    + apply loop_prefix1. exact H.
    + rewrite <- loop_prefix; [rewrite app_nil_r; reflexivity|]. intros; apply nonpos_not_stationary; auto.
  - split; [reflexivity|]. split; [discriminate|]. cbn. rewrite app_nil_r. reflexivity.
Qed.

(** the records of the previous fit are kept in front *)
Lemma p_records_kept : forall (e : estimator K) x y0 e' ex, is_fit e x y0 e' ex ->
  exists new, e_iters e' = e_iters e ++ new.
Proof.
  intros e x y0 e' ex H. destruct (p_structure (fun _ => True) e x y0 e' ex H) as (new & Hn & _); [auto|]. eauto.
Qed.
End Rep.
