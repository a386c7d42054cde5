(** C24, continued: fitting again with the same estimator. *)
From Coq Require Import Bool Arith List Lia ZArith QArith Qcanon.
From Verif Require Import BasePy BaseFld BaseOrd BaseSum BaseMat BaseLin BaseNumpy BaseEx ModelMatrixOps ModelPrior ModelFit ProofRefit PropFit.
Import ListNotations.
Close Scope Qc_scope. Close Scope Q_scope. Open Scope nat_scope.

(** [fit] is called [k] more times after the first call, each time with the estimator as it is then *)
Definition fitted_again {K} (fit : estimator K -> estimator K * option exn) (k : nat) (e : estimator K) : estimator K * option exn :=
  Nat.iter k (fun r => fit (fst r)) (fit e).
(** one list begins with the other *)
Definition comparable {A} (u v : list A) : Prop := exists rest, v = u ++ rest \/ u = v ++ rest.

Section Again.
Context {K : Type} {O : Ops K} {O2 : OrdOps K}.
Definition with_history (e : estimator K) l a : estimator K := Est (e_prior e) (e_lambda e) (e_abs_tol e) (e_rel_tol e) (e_max e) (e_dt e) (e_el e) l a.
Lemma own_history : forall e : estimator K, with_history e (e_iters e) (e_adm e) = e.
Proof. intros []. reflexivity. Qed.
Lemma concat_snoc : forall {A} (R : list A) k, concat (repeat R k) ++ R = R ++ concat (repeat R k).
Proof. intros A R. induction k as [|k IH]; cbn; [rewrite app_nil_r; reflexivity|]. rewrite <- app_assoc, IH. reflexivity. Qed.
(** a fit of either kind: it fails at once or runs the loop; neither depends on the history of the estimator *)
Definition runs (fit : estimator K -> estimator K * option exn) (e : estimator K) : Prop :=
  (exists er, forall l a, fit (with_history e l a) = (with_history e l a, Some er)) \/
  exists step s, forall l a, fit (with_history e l a) = finish_fit (with_history e l a) (fit_loop (e_abs_tol e) (e_rel_tol e) step (e_max e) 0 l s).
Lemma br_runs : forall sv (e : estimator K) x z y0, runs (fun e' => br_fit sv e' x z y0) e.
Proof.
  intros sv e x z y0. unfold runs, br_fit. destruct (fit_init e x y0) as [[[[DT A] M] mu]|er] eqn:E.
  - right. exists (br_step sv e DT A (make_real_vector (vectorize_matrix z)) (nc x)), (y0, M, mu). intros l a. change (fit_init (with_history e l a) x y0) with (fit_init e x y0). rewrite E. reflexivity.
  - left. exists er. intros l a. change (fit_init (with_history e l a) x y0) with (fit_init e x y0). rewrite E. reflexivity.
Qed.
Lemma eiv_runs : forall sv ca (e : estimator K) x z xw zw y0, runs (fun e' => eiv_fit sv ca e' x z xw zw y0) e.
Proof.
  intros sv ca e x z xw zw y0. unfold runs, eiv_fit. destruct (fit_init e x y0) as [[[[DT A] M] mu]|er] eqn:E.
  - right. eexists (match eiv_z_weight xw zw, xw with Some zw, Some xw => eiv_step_weighted sv e DT A xw zw _ _ (nr x) (nc x) | _, _ => eiv_step_unweighted sv ca e DT x z _ (nc x) end), (y0, M, mu).
    intros l a. change (fit_init (with_history e l a) x y0) with (fit_init e x y0). rewrite E. reflexivity.
  - left. exists er. intros l a. change (fit_init (with_history e l a) x y0) with (fit_init e x y0). rewrite E. reflexivity.
Qed.
Lemma same_data : forall fit e k, runs fit e -> e_iters e = [] ->
  snd (fitted_again fit k e) = snd (fit e) /\ e_adm (fst (fitted_again fit k e)) = e_adm (fst (fit e)) /\
  e_iters (fst (fitted_again fit k e)) = concat (repeat (e_iters (fst (fit e))) (S k)).
Proof.
  intros fit e k R E0. pose proof (own_history e) as OE. rewrite E0 in OE. destruct R as [(er & H)|(step & s & H)].
  - assert (HF : fit e = (e, Some er)) by (pose proof (H [] (e_adm e)) as X; rewrite OE in X; exact X).
    assert (A : fitted_again fit k e = (e, Some er)) by (unfold fitted_again; rewrite HF; induction k as [|k IH]; [reflexivity|]; change (fit (fst (Nat.iter k (fun r => fit (fst r)) (e, Some er))) = (e, Some er)); rewrite IH; exact HF).
    rewrite A, HF. cbn [fst snd]. rewrite E0. split; [reflexivity|]. split; [reflexivity|]. clear. induction k; cbn in *; auto.
  - set (lp := fit_loop (e_abs_tol e) (e_rel_tol e) step (e_max e) 0) in *. destruct (lp [] s) as [Rs r] eqn:EL.
    assert (HF : fit e = finish_fit e (Rs, r)) by (pose proof (H [] (e_adm e)) as X; rewrite OE, EL in X; exact X).
    set (adm := match r with Ok st => Some (fst (fst st)) | Err _ => e_adm e end). set (ex := match r with Ok _ => None | Err x => Some x end).
    assert (HF1 : fit e = (with_history e Rs adm, ex)) by (rewrite HF; unfold finish_fit, adm, ex; cbn [fst snd]; destruct r; reflexivity).
    assert (A : fitted_again fit k e = (with_history e (concat (repeat Rs (S k))) adm, ex)).
    { unfold fitted_again. rewrite HF1. induction k as [|k IH]; [cbn; rewrite app_nil_r; reflexivity|].
      change (Nat.iter (S k) (fun r0 => fit (fst r0)) (with_history e Rs adm, ex)) with (fit (fst (Nat.iter k (fun r0 => fit (fst r0)) (with_history e Rs adm, ex)))).
      rewrite IH. cbn [fst]. rewrite H. pose proof (loop_again (e_abs_tol e) (e_rel_tol e) step (e_max e) 0 [] s Rs (concat (repeat Rs k)) eq_refl) as X.
      fold lp in X. rewrite EL in X. specialize (X eq_refl). cbn [app snd] in X. rewrite app_nil_r in X.
      change (concat (repeat Rs (S k))) with (Rs ++ concat (repeat Rs k)). rewrite X. unfold finish_fit, adm, ex. cbn [fst snd].
      change (concat (repeat Rs (S (S k)))) with (Rs ++ Rs ++ concat (repeat Rs k)). rewrite <- app_assoc, concat_snoc. destruct r; reflexivity. }
    rewrite A, HF1. cbn [fst snd]. auto.
Qed.
Lemma same_path : forall fit e l1 l2 a1 a2, runs fit e ->
  let f1 := fit (with_history e l1 a1) in let f2 := fit (with_history e l2 a2) in
  exists n1 n2, e_iters (fst f1) = l1 ++ n1 /\ e_iters (fst f2) = l2 ++ n2 /\ comparable n1 n2 /\
    (snd f1 = None -> snd f2 = None -> length n1 = length n2 -> e_adm (fst f1) = e_adm (fst f2)).
Proof.
  intros fit e l1 l2 a1 a2 R. cbv zeta. destruct R as [(er & H)|(step & s & H)]; rewrite !H.
  - exists [], []. cbn. rewrite !app_nil_r. repeat split; [exists []; left; reflexivity|discriminate].
  - destruct (loop_path (e_abs_tol e) (e_rel_tol e) step (e_max e) 0 l1 l2 s) as (n1 & n2 & rest & E1 & E2 & EC & EV). exists n1, n2.
    destruct (fit_loop (e_abs_tol e) (e_rel_tol e) step (e_max e) 0 l1 s) as [m1 r1], (fit_loop (e_abs_tol e) (e_rel_tol e) step (e_max e) 0 l2 s) as [m2 r2]. cbn [fst snd] in *. subst m1 m2.
    unfold finish_fit. cbn [fst snd]. split; [destruct r1; reflexivity|]. split; [destruct r2; reflexivity|]. split; [exists rest; exact EC|].
    destruct r1 as [u|], r2 as [v|]; try discriminate. intros _ _ HL. cbn. rewrite (EV ltac:(destruct EC as [->| ->]; rewrite app_length in HL; destruct rest; cbn in HL; [reflexivity|lia|reflexivity|lia]) u v eq_refl eq_refl). reflexivity.
Qed.
End Again.

(** the same data once more, any number of times: the same result, the same records are added *)
Theorem C24_regression_same_data : forall (K : Type) (O : Ops K) (O2 : OrdOps K) spsolve (e : estimator K) x z y0 k, e_iters e = [] ->
  let fit e' := br_fit spsolve e' x z y0 in
  snd (fitted_again fit k e) = snd (fit e) /\ e_adm (fst (fitted_again fit k e)) = e_adm (fst (fit e)) /\
  e_iters (fst (fitted_again fit k e)) = concat (repeat (e_iters (fst (fit e))) (S k)).
Proof. intros K O O2 sv e x z y0 k E. cbv zeta. exact (same_data (fun e' => br_fit sv e' x z y0) e k (br_runs sv e x z y0) E). Qed.
Theorem C24_eiv_same_data : forall (K : Type) (O : Ops K) (O2 : OrdOps K) spsolve cabs (e : estimator K) x z xw zw y0 k, e_iters e = [] ->
  let fit e' := eiv_fit spsolve cabs e' x z xw zw y0 in
  snd (fitted_again fit k e) = snd (fit e) /\ e_adm (fst (fitted_again fit k e)) = e_adm (fst (fit e)) /\
  e_iters (fst (fitted_again fit k e)) = concat (repeat (e_iters (fst (fit e))) (S k)).
Proof. intros K O O2 sv ca e x z xw zw y0 k E. cbv zeta. exact (same_data (fun e' => eiv_fit sv ca e' x z xw zw y0) e k (eiv_runs sv ca e x z xw zw y0) E). Qed.
(** other data before: the estimator makes the same steps as a fresh one, but may stop earlier or later *)
Theorem C24_regression_same_steps : forall (K : Type) (O : Ops K) (O2 : OrdOps K) spsolve (e : estimator K) x z y0,
  let again := br_fit spsolve e x z y0 in
  let first := br_fit spsolve (new_estimator (e_prior e) (e_lambda e) (e_abs_tol e) (e_rel_tol e) (e_max e) (e_dt e) (e_el e)) x z y0 in
  exists added, e_iters (fst again) = e_iters e ++ added /\ comparable added (e_iters (fst first)) /\
    (snd again = None -> snd first = None -> length added = length (e_iters (fst first)) -> e_adm (fst again) = e_adm (fst first)).
Proof.
  intros K O O2 sv e x z y0. cbv zeta. pose proof (same_path (fun e' => br_fit sv e' x z y0) e (e_iters e) [] (e_adm e) None (br_runs sv e x z y0)) as H. cbv zeta in H.
  rewrite own_history in H. destruct H as (n1 & n2 & E1 & E2 & C & V). exists n1. change (with_history e [] None) with (new_estimator (e_prior e) (e_lambda e) (e_abs_tol e) (e_rel_tol e) (e_max e) (e_dt e) (e_el e)) in *.
  rewrite E2. cbn [app]. auto.
Qed.
Theorem C24_eiv_same_steps : forall (K : Type) (O : Ops K) (O2 : OrdOps K) spsolve cabs (e : estimator K) x z xw zw y0,
  let again := eiv_fit spsolve cabs e x z xw zw y0 in
  let first := eiv_fit spsolve cabs (new_estimator (e_prior e) (e_lambda e) (e_abs_tol e) (e_rel_tol e) (e_max e) (e_dt e) (e_el e)) x z xw zw y0 in
  exists added, e_iters (fst again) = e_iters e ++ added /\ comparable added (e_iters (fst first)) /\
    (snd again = None -> snd first = None -> length added = length (e_iters (fst first)) -> e_adm (fst again) = e_adm (fst first)).
Proof.
  intros K O O2 sv ca e x z xw zw y0. cbv zeta. pose proof (same_path (fun e' => eiv_fit sv ca e' x z xw zw y0) e (e_iters e) [] (e_adm e) None (eiv_runs sv ca e x z xw zw y0)) as H. cbv zeta in H.
  rewrite own_history in H. destruct H as (n1 & n2 & E1 & E2 & C & V). exists n1. change (with_history e [] None) with (new_estimator (e_prior e) (e_lambda e) (e_abs_tol e) (e_rel_tol e) (e_max e) (e_dt e) (e_el e)) in *.
  rewrite E2. cbn [app]. auto.
Qed.
Print Assumptions C24_regression_same_data.
Print Assumptions C24_eiv_same_data.
Print Assumptions C24_regression_same_steps.
Print Assumptions C24_eiv_same_steps.

(** two records per fit, six after three fits; with ordinary tolerances the second fit of other data makes two steps instead of three *)
Example C24_same_data_ex : let e := est1 9 (qq 1 100) in let fit e' := eiv_fit ksolve c_norm1 e' (num 1 1) (num 1 1) (Some w1) (Some w1) (num 1 1) in
  e_iters e = [] /\ length (e_iters (fst (fit e))) = 2 /\ length (e_iters (fst (fitted_again fit 2 e))) = 6.
Proof.
  cbv zeta. split; [reflexivity|]. assert (L : length (e_iters (fst (eiv_fit ksolve c_norm1 (est1 9 (qq 1 100)) (num 1 1) (num 1 1) (Some w1) (Some w1) (num 1 1)))) = 2) by (vm_compute; reflexivity).
  split; [exact L|]. destruct (C24_eiv_same_data Qc _ _ ksolve c_norm1 (est1 9 (qq 1 100)) (num 1 1) (num 1 1) (Some w1) (Some w1) (num 1 1) 2 eq_refl) as (_ & _ & E). rewrite E.
  cbn [repeat concat]. rewrite !app_length, L. reflexivity.
Qed.
Example C24_same_steps_ex : let e1 := fst (br_fit ksolve (est1 3 (qq 1 100)) (num 1 1) (num 101 100) (num 1 1)) in
  length (e_iters (fst (br_fit ksolve e1 (num 1 1) (num 1 1) (num 1 1)))) - length (e_iters e1) <> length (e_iters (fst (br_fit ksolve (est1 3 (qq 1 100)) (num 1 1) (num 1 1) (num 1 1)))).
Proof. cbv zeta. vm_compute. discriminate. Qed.
