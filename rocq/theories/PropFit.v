(** Properties C21-C29 and C64: the iterative estimators. *)
From Coq Require Import Arith ZArith Lia List Bool Qcanon Reals.
From Verif Require Import BasePy BaseFld BaseOrd BaseSum BaseMat BaseNumpy BaseLin BaseEx ModelMatrixOps SpecMatrix SpecLS
  ModelPrior SpecPrior ProofMatrixOps ProofElim ProofMatrixProps ProofLS ModelFit SpecFit SpecFitReal ProofFitBase ProofFit ProofFitOpt ProofFitBR ProofFitEIV ProofFitFix ProofFitMM ProofFitRep.
Import ListNotations.
Close Scope Qc_scope. Close Scope Q_scope. Close Scope R_scope. Open Scope nat_scope.

(** ** C21 *)
Theorem C21_regression_symmetric :
  forall (K : Type) (O : Ops K) (F : Fld K) (FR : FReal K) (O2 : OrdOps K) spsolve (e e' : estimator K) ex x z y0,
  e_dt e (nc x) = duplication_matrix (nc x) -> br_fit spsolve e x z y0 = (e', ex) ->
  exists new, e_iters e' = e_iters e ++ new /\ Forall (fun r => symmetric (nc x) (st_y r)) new /\
    (ex = None -> 0 < e_max e -> exists Y, e_adm e' = Some Y /\ symmetric (nc x) Y).
Proof.
  intros K O F FR O2 sv e e' ex x z y0 Hd H. apply (p_structure _ _ _ _ _ _ (br_is_fit _ _ _ _ _ _ _ H)).
  intros DT y Y E. rewrite Hd in E. apply sym_rebuilt; auto.
Qed.
Print Assumptions C21_regression_symmetric.

Theorem C21_regression_laplacian :
  forall (K : Type) (O : Ops K) (F : Fld K) (FR : FReal K) (O2 : OrdOps K) spsolve (e e' : estimator K) ex x z y0,
  e_dt e (nc x) = lap_dt (nc x) -> br_fit spsolve e x z y0 = (e', ex) ->
  exists new, e_iters e' = e_iters e ++ new /\ Forall (fun r => laplacian (nc x) (st_y r)) new /\
    (ex = None -> 0 < e_max e -> exists Y, e_adm e' = Some Y /\ laplacian (nc x) Y).
Proof.
  intros K O F FR O2 sv e e' ex x z y0 Hd H. apply (p_structure _ _ _ _ _ _ (br_is_fit _ _ _ _ _ _ _ H)).
  intros DT y Y E. rewrite Hd in E. apply lap_rebuilt; auto.
Qed.
Print Assumptions C21_regression_laplacian.

Theorem C21_eiv_symmetric :
  forall (K : Type) (O : Ops K) (F : Fld K) (FR : FReal K) (O2 : OrdOps K) spsolve cabs (e e' : estimator K) ex x z xw zw y0,
  e_dt e (nc x) = duplication_matrix (nc x) -> eiv_fit spsolve cabs e x z xw zw y0 = (e', ex) ->
  exists new, e_iters e' = e_iters e ++ new /\ Forall (fun r => symmetric (nc x) (st_y r)) new /\
    (ex = None -> 0 < e_max e -> exists Y, e_adm e' = Some Y /\ symmetric (nc x) Y).
Proof.
  intros K O F FR O2 sv ca e e' ex x z xw zw y0 Hd H. apply (p_structure _ _ _ _ _ _ (eiv_is_fit _ _ _ _ _ _ _ _ _ _ H)).
  intros DT y Y E. rewrite Hd in E. apply sym_rebuilt; auto.
Qed.
Print Assumptions C21_eiv_symmetric.

Theorem C21_eiv_laplacian :
  forall (K : Type) (O : Ops K) (F : Fld K) (FR : FReal K) (O2 : OrdOps K) spsolve cabs (e e' : estimator K) ex x z xw zw y0,
  e_dt e (nc x) = lap_dt (nc x) -> eiv_fit spsolve cabs e x z xw zw y0 = (e', ex) ->
  exists new, e_iters e' = e_iters e ++ new /\ Forall (fun r => laplacian (nc x) (st_y r)) new /\
    (ex = None -> 0 < e_max e -> exists Y, e_adm e' = Some Y /\ laplacian (nc x) Y).
Proof.
  intros K O F FR O2 sv ca e e' ex x z xw zw y0 Hd H. apply (p_structure _ _ _ _ _ _ (eiv_is_fit _ _ _ _ _ _ _ _ _ _ H)).
  intros DT y Y E. rewrite Hd in E. apply lap_rebuilt; auto.
Qed.
Print Assumptions C21_eiv_laplacian.

(** two nodes, Laplacian and symmetric parameters, data that is not symmetric *)
Definition pr1 : sprior Qc := fst (history (sprior_init (qq 1 10) 2 None) [AddSparsity [0;1]%Z ANone (AScalar LAPLACE)]).
Definition pr3 : sprior Qc := fst (history (sprior_init (qq 1 10) 6 None) [AddSparsity [0;1;2;3;4;5]%Z ANone (AScalar LAPLACE)]).
Definition estl mx := new_estimator (log_distribution pr1) (qq 1 2) (zq 0) (zq 0) mx lap_dt lap_el.
Definition ests mx := new_estimator (log_distribution pr3) (qq 1 2) (zq 0) (zq 0) mx duplication_matrix elimination_sym_matrix.
Definition x2 : mat (cplx Qc) := czrows [[(1,0);(0,1)]; [(0,0);(1,1)]]%Z.
Definition z2 : mat (cplx Qc) := czrows [[(1,2);(3,1)]; [(5,0);(1,1)]]%Z.
Definition y2 : mat (cplx Qc) := mzeros 2 2.
Definition wt2 : mat Qc := mk 8 8 (fun i j => if (i =? j) then zq (Z.of_nat (S i)) else zq 0).
Definition c_norm1 (c : cplx Qc) : Qc := kadd (kabs (re c)) (kabs (im c)).
Definition ran (r : estimator Qc * option exn) : nat * bool :=
  (length (e_iters (fst r)), match snd r with None => true | _ => false end).
Definition final (r : estimator Qc * option exn) (p : mat (cplx Qc) -> bool) : bool :=
  match e_adm (fst r) with Some Y => p Y | None => false end.
Definition lap_nonzero (Y : mat (cplx Qc)) : bool := symmetricb 2 Y && zero_sumsb 2 Y && negb (meqb Y y2).
Definition sym_nonlap (Y : mat (cplx Qc)) : bool := symmetricb 2 Y && negb (zero_sumsb 2 Y).
Example C21_example :
  (let r := br_fit ksolve (estl 2) x2 z2 y2 in ran r = (2, true) /\ final r lap_nonzero = true) /\
  (let r := eiv_fit ksolve c_norm1 (estl 2) x2 z2 None None y2 in ran r = (2, true) /\ final r lap_nonzero = true) /\
  (let r := eiv_fit ksolve c_norm1 (estl 1) x2 z2 (Some wt2) (Some wt2) y2 in ran r = (1, true) /\ final r lap_nonzero = true) /\
  (let r := br_fit ksolve (ests 2) x2 z2 y2 in ran r = (2, true) /\ final r sym_nonlap = true) /\
  (let r := eiv_fit ksolve c_norm1 (ests 1) x2 z2 None None y2 in ran r = (1, true) /\ final r sym_nonlap = true).
Proof.
  split; [split; vm_compute; reflexivity|]. split; [split; vm_compute; reflexivity|]. split; [split; vm_compute; reflexivity|].
  split; split; vm_compute; reflexivity.
Qed.

(** ** C22 *)
Theorem C22_regression_update_optimal :
  forall (K : Type) (O : Ops K) (F : Fld K) (O2 : OrdOps K) (OF : OrdFld K)
    spsolve (e e' : estimator K) ex p (x z y0 : mat (cplx K)) T n P DT El,
  solver_sound spsolve -> setting e p n P DT El -> shape x T n -> shape z T n ->
  br_fit spsolve e x z y0 = (e', ex) ->
  exists new ws, e_iters e' = e_iters e ++ new /\ length ws = S (length new) /\ nth 0 ws [] = params El y0 /\
    forall k d, k < length new ->
      represents DT n P (nth (S k) ws []) (st_y (nth k new d)) /\
      st_target (nth k new d) = br_target (e_lambda e) p x z (nth (S k) ws []) (st_y (nth k new d)) /\
      forall v Yv, represents DT n P v Yv ->
        kle (br_objective (e_lambda e) p x z (nth k ws []) (nth (S k) ws []) (st_y (nth k new d)))
            (br_objective (e_lambda e) p x z (nth k ws []) v Yv).
Proof.
  intros K O F O2 OF sv e e' ex p x z y0 T n P DT El Hs (H1 & H2 & H3 & H4 & H5 & H6 & H7) Hx Hz H.
  destruct (p_br_fit sv e p x z y0 T n P DT El e' ex Hs H1 H2 H3 H4 Hx Hz H5 H6 H7 H) as (new & ws & E1 & E2 & E3 & E4).
  exists new, ws. split; [exact E1|]. split; [exact E2|]. split; [exact E3|]. intros k d Hk.
  destruct (E4 k d Hk) as (A1 & A2 & A3 & A4). split; [apply rebuild_represents; auto|]. split; [exact A3|].
  intros v Yv Hv. apply A4; [apply Hv|]. eapply represents_rebuild; eauto.
Qed.
Print Assumptions C22_regression_update_optimal.

Theorem C22_eiv_weighted_update_optimal :
  forall (K : Type) (O : Ops K) (F : Fld K) (O2 : OrdOps K) (OF : OrdFld K)
    spsolve cabs (e e' : estimator K) ex p (x z y0 : mat (cplx K)) W zarg T n P DT El,
  solver_sound spsolve -> setting e p n P DT El -> shape x T n -> shape z T n -> shape y0 n n -> psd (2 * (n * T)) W ->
  eiv_fit spsolve cabs e x z (Some W) (Some zarg) y0 = (e', ex) ->
  exists new ws, e_iters e' = e_iters e ++ new /\ length ws = S (length new) /\ nth 0 ws [] = params El y0 /\
    forall k d, k < length new ->
      represents DT n P (nth (S k) ws []) (st_y (nth k new d)) /\
      exists D, shape D T n /\
        st_target (nth k new d) = eiv_target (e_lambda e) p W W x z D (nth (S k) ws []) (st_y (nth k new d)) /\
        (forall D', shape D' T n -> kle (input_objective W W x z (tr (prev_y y0 new k)) D)
                                       (input_objective W W x z (tr (prev_y y0 new k)) D')) /\
        forall v Yv, represents DT n P v Yv ->
          kle (eiv_objective (e_lambda e) p W (msubt x D) z (nth k ws []) (nth (S k) ws []) (st_y (nth k new d)))
              (eiv_objective (e_lambda e) p W (msubt x D) z (nth k ws []) v Yv).
Proof.
  intros K O F O2 OF sv ca e e' ex p x z y0 W zarg T n P DT El Hs (H1 & H2 & H3 & H4 & H5 & H6 & H7) Hx Hz Hy HW H.
  destruct (p_eiv_fit sv ca e p x z y0 W zarg T n P _ DT El e' ex eq_refl Hs H1 H2 H3 H4 Hx Hz Hy H5 H6 H7 HW H) as (new & ws & E1 & E2 & E3 & E4).
  exists new, ws. split; [exact E1|]. split; [exact E2|]. split; [exact E3|]. intros k d Hk.
  destruct (E4 k d Hk) as (A1 & A2 & D & B1 & B2 & B3 & B4). split; [apply rebuild_represents; auto|].
  exists D. split; [exact B1|]. split; [exact B2|]. split; [exact B3|].
  intros v Yv Hv. apply B4; [apply Hv|]. eapply represents_rebuild; eauto.
Qed.
Print Assumptions C22_eiv_weighted_update_optimal.

Theorem C22_eiv_unweighted_update_optimal :
  forall (K : Type) (O : Ops K) (F : Fld K) (O2 : OrdOps K) (OF : OrdFld K)
    spsolve cabs (e e' : estimator K) ex p (x z y0 : mat (cplx K)) zarg T n P DT El,
  solver_sound spsolve -> setting e p n P DT El -> shape x T n -> shape z T n -> shape y0 n n ->
  eiv_fit spsolve cabs e x z None zarg y0 = (e', ex) ->
  exists new ws, e_iters e' = e_iters e ++ new /\ length ws = S (length new) /\ nth 0 ws [] = params El y0 /\
    forall k d, k < length new ->
      represents DT n P (nth (S k) ws []) (st_y (nth k new d)) /\
      exists q, eiv_project n (prev_y y0 new k) x z = Ok q /\ shape q T (2 * n) /\
        forall v Yv, represents DT n P v Yv ->
          kle (br_objective (e_lambda e) p (first_half n q) z (nth k ws []) (nth (S k) ws []) (st_y (nth k new d)))
              (br_objective (e_lambda e) p (first_half n q) z (nth k ws []) v Yv).
Proof.
  intros K O F O2 OF sv ca e e' ex p x z y0 zarg T n P DT El Hs (H1 & H2 & H3 & H4 & H5 & H6 & H7) Hx Hz Hy H.
  destruct (p_eivu_fit sv ca e p x z y0 zarg T n P DT El e' ex Hs H1 H2 H3 H4 Hx Hz Hy H5 H6 H7 H) as (new & ws & E1 & E2 & E3 & E4).
  exists new, ws. split; [exact E1|]. split; [exact E2|]. split; [exact E3|]. intros k d Hk.
  destruct (E4 k d Hk) as (A1 & A2 & q & B1 & B2 & B4). split; [apply rebuild_represents; auto|].
  exists q. split; [exact B1|]. split; [exact B2|].
  intros v Yv Hv. apply B4; [apply Hv|]. eapply represents_rebuild; eauto.
Qed.
Print Assumptions C22_eiv_unweighted_update_optimal.

Lemma setting_estl : forall mx, exists DT El, setting (estl mx) pr1 2 1 DT El /\ inj DT.
Proof.
  intros mx. destruct (lap_dt 2 : res (mat Qc)) as [DT|er] eqn:E; [|vm_compute in E; discriminate].
  destruct (lap_el 2 : res (mat Qc)) as [El|er] eqn:E2; [|vm_compute in E2; discriminate].
  destruct (lap_inj 2 DT E) as (HS & HI).
  exists DT, El. split; [|exact HI]. split; [reflexivity|]. split.
  { split; [reflexivity|]. split; [apply shapeb_shape; reflexivity|reflexivity]. }
  split; [reflexivity|]. split; [reflexivity|]. split; [exact E|]. split; [exact E2|exact HS].
Qed.
Example C22_example : exists DT El, setting (estl 2) pr1 2 1 DT El /\ shape x2 2 2 /\ shape z2 2 2 /\ shape y2 2 2 /\
  solver_sound (@ksolve Qc _) /\ ran (br_fit ksolve (estl 2) x2 z2 y2) = (2, true) /\
  ran (eiv_fit ksolve c_norm1 (estl 2) x2 z2 None None y2) = (2, true).
Proof.
  destruct (setting_estl 2) as (DT & El & H & _). exists DT, El. split; [exact H|].
  split; [apply shapeb_shape; reflexivity|]. split; [apply shapeb_shape; reflexivity|]. split; [apply shapeb_shape; reflexivity|].
  split; [apply ksolve_solver_sound|]. split; vm_compute; reflexivity.
Qed.

(** ** C23 *)
Theorem C23_regression_records :
  forall (K : Type) (O : Ops K) (F : Fld K) (O2 : OrdOps K) (OF : OrdFld K) spsolve (e e' : estimator K) ex x z y0,
  e_iters e = [] -> br_fit spsolve e x z y0 = (e', ex) ->
  length (e_iters e') <= e_max e /\
  (forall k d, k < length (e_iters e') -> st_it (nth k (e_iters e') d) = k) /\
  (ex = None -> 0 < e_max e -> 0 < length (e_iters e') /\
     forall d, e_adm e' = Some (st_y (nth (length (e_iters e') - 1) (e_iters e') d))) /\
  (ex = None -> e_max e = 0 -> e_iters e' = [] /\ e_adm e' = Some y0) /\
  (forall k, S (S k) < length (e_iters e') ->
     ~ settled (e_abs_tol e) (e_rel_tol e) (target_at (e_iters e') (S k)) (target_at (e_iters e') k)) /\
  (ex = None -> length (e_iters e') < e_max e ->
     exists k, length (e_iters e') = S (S k) /\
       settled (e_abs_tol e) (e_rel_tol e) (target_at (e_iters e') (S k)) (target_at (e_iters e') k)).
Proof.
  intros K O F O2 OF sv e e' ex x z y0 He H. exact (p_records e x y0 e' ex (br_is_fit _ _ _ _ _ _ _ H) He).
Qed.
Print Assumptions C23_regression_records.

Theorem C23_eiv_records :
  forall (K : Type) (O : Ops K) (F : Fld K) (O2 : OrdOps K) (OF : OrdFld K) spsolve cabs (e e' : estimator K) ex x z xw zw y0,
  e_iters e = [] -> eiv_fit spsolve cabs e x z xw zw y0 = (e', ex) ->
  length (e_iters e') <= e_max e /\
  (forall k d, k < length (e_iters e') -> st_it (nth k (e_iters e') d) = k) /\
  (ex = None -> 0 < e_max e -> 0 < length (e_iters e') /\
     forall d, e_adm e' = Some (st_y (nth (length (e_iters e') - 1) (e_iters e') d))) /\
  (ex = None -> e_max e = 0 -> e_iters e' = [] /\ e_adm e' = Some y0) /\
  (forall k, S (S k) < length (e_iters e') ->
     ~ settled (e_abs_tol e) (e_rel_tol e) (target_at (e_iters e') (S k)) (target_at (e_iters e') k)) /\
  (ex = None -> length (e_iters e') < e_max e ->
     exists k, length (e_iters e') = S (S k) /\
       settled (e_abs_tol e) (e_rel_tol e) (target_at (e_iters e') (S k)) (target_at (e_iters e') k)).
Proof.
  intros K O F O2 OF sv ca e e' ex x z xw zw y0 He H. exact (p_records e x y0 e' ex (eiv_is_fit _ _ _ _ _ _ _ _ _ _ H) He).
Qed.
Print Assumptions C23_eiv_records.

(** one parameter, the real part pushed to zero: scalar data *)
Definition pr0 : sprior Qc := fst (history (sprior_init (qq 1 1000) 2 None) [AddSparsity [0]%Z ANone (AScalar LAPLACE)]).
Definition est1 mx at_ := new_estimator (log_distribution pr0) (qq 1 10) at_ (zq 0) mx duplication_matrix elimination_sym_matrix.
Definition num (a : Z) (b : positive) : mat (cplx Qc) := rows [[Cx (qq a b) (zq 0)]].
Definition w1 : mat Qc := mk 2 2 (fun i j => if (i =? j) then zq 1 else zq 0).

(** a fit that stops early, and one that uses all its iterations *)
Example C23_example :
  e_iters (est1 9 (qq 1 100)) = [] /\
  ran (eiv_fit ksolve c_norm1 (est1 9 (qq 1 100)) (num 1 1) (num 1 1) (Some w1) (Some w1) (num 1 1)) = (2, true) /\
  ran (br_fit ksolve (est1 3 (zq 0)) (num 1 1) (num 1 1) (num 1 1)) = (3, true).
Proof. split; [reflexivity|]. split; vm_compute; reflexivity. Qed.

(** ** C24 *)
Lemma adm_neq : forall r1 r2, final r1 (fun Y1 => final r2 (fun Y2 => negb (meqb Y1 Y2))) = true -> e_adm (fst r1) <> e_adm (fst r2).
Proof.
  unfold final. intros r1 r2 H E. rewrite E in H. destruct (e_adm (fst r2)) as [Y|]; [|discriminate].
  rewrite meqb_refl in H. discriminate.
Qed.
Lemma no_exception : forall (r : estimator Qc * option exn), snd r = None -> r = (fst r, None).
Proof. intros [a b] H. cbn in *. congruence. Qed.
(** the second result differs from a fresh fit of the same data *)
Theorem C24_regression_refit_refuted :
  exists (e e1 : estimator Qc) x z1 z2 y0,
    e_iters e = [] /\ br_fit ksolve e x z1 y0 = (e1, None) /\
    snd (br_fit ksolve e1 x z2 y0) = None /\ snd (br_fit ksolve e x z2 y0) = None /\
    e_adm (fst (br_fit ksolve e1 x z2 y0)) <> e_adm (fst (br_fit ksolve e x z2 y0)).
Proof.
  exists (est1 3 (qq 1 100)), (fst (br_fit ksolve (est1 3 (qq 1 100)) (num 1 1) (num 101 100) (num 1 1))),
    (num 1 1), (num 101 100), (num 1 1), (num 1 1).
  split; [reflexivity|]. split.
  { apply no_exception. vm_compute. reflexivity. }
  split; [vm_compute; reflexivity|]. split; [vm_compute; reflexivity|].
  apply adm_neq. vm_compute. reflexivity.
Qed.
Print Assumptions C24_regression_refit_refuted.

Theorem C24_eiv_refit_refuted :
  exists (e e1 : estimator Qc) x z1 z2 w y0,
    e_iters e = [] /\ eiv_fit ksolve c_norm1 e x z1 w w y0 = (e1, None) /\
    snd (eiv_fit ksolve c_norm1 e1 x z2 w w y0) = None /\ snd (eiv_fit ksolve c_norm1 e x z2 w w y0) = None /\
    e_adm (fst (eiv_fit ksolve c_norm1 e1 x z2 w w y0)) <> e_adm (fst (eiv_fit ksolve c_norm1 e x z2 w w y0)).
Proof.
  exists (est1 3 (qq 1 1000)), (fst (eiv_fit ksolve c_norm1 (est1 3 (qq 1 1000)) (num 1 1) (num 98 100) (Some w1) (Some w1) (num 1 1))),
    (num 1 1), (num 98 100), (num 1 1), (Some w1), (num 1 1).
  split; [reflexivity|]. split.
  { apply no_exception. vm_compute. reflexivity. }
  split; [vm_compute; reflexivity|]. split; [vm_compute; reflexivity|].
  apply adm_neq. vm_compute. reflexivity.
Qed.
Print Assumptions C24_eiv_refit_refuted.

(** what does hold: with one iteration, or without early stopping, only the records pile up *)
Theorem C24_regression_refit_partial :
  forall (K : Type) (O : Ops K) (F : Fld K) (O2 : OrdOps K) (OF : OrdFld K) spsolve (e : estimator K) x z y0,
  e_max e <= 1 \/ (kle (e_abs_tol e) 0%K /\ kle (e_rel_tol e) 0%K) ->
  let again := br_fit spsolve e x z y0 in
  let first := br_fit spsolve (new_estimator (e_prior e) (e_lambda e) (e_abs_tol e) (e_rel_tol e) (e_max e) (e_dt e) (e_el e)) x z y0 in
  snd again = snd first /\ (snd first = None -> e_adm (fst again) = e_adm (fst first)) /\
  e_iters (fst again) = e_iters e ++ e_iters (fst first).
Proof. exact @p_br_refit. Qed.
Print Assumptions C24_regression_refit_partial.

Theorem C24_eiv_refit_partial :
  forall (K : Type) (O : Ops K) (F : Fld K) (O2 : OrdOps K) (OF : OrdFld K) spsolve cabs (e : estimator K) x z xw zw y0,
  e_max e <= 1 \/ (kle (e_abs_tol e) 0%K /\ kle (e_rel_tol e) 0%K) ->
  let again := eiv_fit spsolve cabs e x z xw zw y0 in
  let first := eiv_fit spsolve cabs (new_estimator (e_prior e) (e_lambda e) (e_abs_tol e) (e_rel_tol e) (e_max e) (e_dt e) (e_el e)) x z xw zw y0 in
  snd again = snd first /\ (snd first = None -> e_adm (fst again) = e_adm (fst first)) /\
  e_iters (fst again) = e_iters e ++ e_iters (fst first).
Proof. exact @p_eiv_refit. Qed.
Print Assumptions C24_eiv_refit_partial.
Example C24_example : (e_max (est1 1 (qq 1 100)) <= 1) /\
  kle (e_abs_tol (est1 3 (zq 0))) 0%K /\ kle (e_rel_tol (est1 3 (zq 0))) 0%K /\
  ran (br_fit ksolve (fst (br_fit ksolve (est1 3 (zq 0)) (num 1 1) (num 101 100) (num 1 1))) (num 1 1) (num 1 1) (num 1 1)) = (6, true).
Proof. split; [simpl; lia|]. split; [reflexivity|]. split; [reflexivity|]. vm_compute. reflexivity. Qed.

(** ** C25 *)
(** the fit the documentation describes: the given output weights are used *)
Definition documented_fit {K} {O : Ops K} {O2 : OrdOps K} spsolve (e : estimator K) x z xw zw y0 : estimator K * option exn :=
  match fit_init e x y0 with
  | Err err => (e, Some err)
  | Ok (DT, A, M, mu) =>
      finish_fit e (fit_loop (e_abs_tol e) (e_rel_tol e)
        (eiv_step_weighted spsolve e DT A xw zw (make_real_vector (vectorize_matrix x)) (make_real_vector (vectorize_matrix z)) (nr x) (nc x))
        (e_max e) 0 (e_iters e) (y0, M, mu))
  end.

(** changing the output weights never changes anything *)
Theorem C25_output_weights_ignored :
  forall (K : Type) (O : Ops K) (O2 : OrdOps K) spsolve cabs (e : estimator K) x z xw zw1 zw2 y0,
  eiv_fit spsolve cabs e x z xw (Some zw1) y0 = eiv_fit spsolve cabs e x z xw (Some zw2) y0.
Proof. reflexivity. Qed.
Print Assumptions C25_output_weights_ignored.

(** although the documented estimator depends on them *)
Theorem C25_output_weights_used_refuted :
  exists (e : estimator Qc) x z xw zw1 zw2 y0,
    snd (documented_fit ksolve e x z xw zw1 y0) = None /\ snd (documented_fit ksolve e x z xw zw2 y0) = None /\
    e_adm (fst (documented_fit ksolve e x z xw zw1 y0)) <> e_adm (fst (documented_fit ksolve e x z xw zw2 y0)) /\
    eiv_fit ksolve c_norm1 e x z (Some xw) (Some zw1) y0 = eiv_fit ksolve c_norm1 e x z (Some xw) (Some zw2) y0 /\
    e_adm (fst (eiv_fit ksolve c_norm1 e x z (Some xw) (Some zw2) y0)) <> e_adm (fst (documented_fit ksolve e x z xw zw2 y0)).
Proof.
  exists (est1 1 (zq 0)), (num 1 1), (num 2 1), w1, w1, (mscal (zq 4) w1), (num 1 1).
  split; [vm_compute; reflexivity|]. split; [vm_compute; reflexivity|]. split.
  { apply adm_neq. vm_compute. reflexivity. }
  split; [apply C25_output_weights_ignored|].
  apply adm_neq. vm_compute. reflexivity.
Qed.
Print Assumptions C25_output_weights_used_refuted.

(** the fit is the documented one exactly when both weights agree *)
Theorem C25_equal_weights_partial :
  forall (K : Type) (O : Ops K) (O2 : OrdOps K) spsolve cabs (e : estimator K) x z w zw y0,
  eiv_fit spsolve cabs e x z (Some w) (Some zw) y0 = documented_fit spsolve e x z w w y0.
Proof. intros. unfold eiv_fit, documented_fit. cbn [eiv_z_weight]. destruct (fit_init e x y0) as [(((DT, A), M), mu)|er]; reflexivity. Qed.
Print Assumptions C25_equal_weights_partial.

(** ** C26 *)
Theorem C26_input_error_optimal :
  forall (K : Type) (O : Ops K) (F : Fld K) (O2 : OrdOps K) (OF : OrdFld K)
    spsolve T n (x z Y : mat (cplx K)) zw xw da,
  solver_sound spsolve -> shape x T n -> shape z T n -> symmetric n Y -> psd (2 * (n * T)) zw -> psd (2 * (n * T)) xw ->
  input_error spsolve T Y xw zw (make_real_vector (vectorize_matrix x)) (make_real_vector (vectorize_matrix z)) = Ok da ->
  exists D, shape D T n /\ da = make_real_vector (vectorize_matrix D) /\
    forall D', shape D' T n -> kle (input_objective zw xw x z Y D) (input_objective zw xw x z Y D').
Proof.
  intros K O F O2 OF sv T n x z Y zw xw da Hs Hx Hz HY Hzw Hxw H.
  destruct (p_input_error sv T n x z Y zw xw _ da eq_refl Hs Hx Hz (proj1 HY) Hzw Hxw H) as (D & H1 & H2 & H3).
  rewrite (tr_symmetric n Y HY) in H3. eauto.
Qed.
Print Assumptions C26_input_error_optimal.

(** for any estimate the minimised misfit is that of the transposed estimate *)
Theorem C26_input_error_transposed :
  forall (K : Type) (O : Ops K) (F : Fld K) (O2 : OrdOps K) (OF : OrdFld K)
    spsolve T n (x z Y : mat (cplx K)) zw xw da,
  solver_sound spsolve -> shape x T n -> shape z T n -> shape Y n n -> psd (2 * (n * T)) zw -> psd (2 * (n * T)) xw ->
  input_error spsolve T Y xw zw (make_real_vector (vectorize_matrix x)) (make_real_vector (vectorize_matrix z)) = Ok da ->
  exists D, shape D T n /\ da = make_real_vector (vectorize_matrix D) /\
    forall D', shape D' T n -> kle (input_objective zw xw x z (tr Y) D) (input_objective zw xw x z (tr Y) D').
Proof.
  intros K O F O2 OF sv T n x z Y zw xw da Hs Hx Hz HY Hzw Hxw H.
  exact (p_input_error sv T n x z Y zw xw _ da eq_refl Hs Hx Hz HY Hzw Hxw H).
Qed.
Print Assumptions C26_input_error_transposed.

Definition w4 : mat Qc := mdiag (map zq [1; 1; 1; 1]%Z).
Definition xr : mat (cplx Qc) := czrows [[(1,0);(0,0)]]%Z.
Definition zr : mat (cplx Qc) := czrows [[(0,0);(0,0)]]%Z.
Definition ysym : mat (cplx Qc) := czrows [[(0,1);(1,0)];[(1,0);(2,0)]]%Z.
Definition yasym : mat (cplx Qc) := czrows [[(0,0);(1,0)];[(0,0);(0,0)]]%Z.
Lemma posdef_w4 : posdef 4 w4.
Proof. apply (posdef_diag (K := Qc) (map zq [1; 1; 1; 1]%Z)). repeat constructor. Qed.
Example C26_example : shape xr 1 2 /\ shape zr 1 2 /\ symmetric 2 ysym /\ psd 4 w4 /\
  match input_error ksolve 1 ysym w4 w4 (make_real_vector (vectorize_matrix xr)) (make_real_vector (vectorize_matrix zr)) with
  | Ok da => veqb da (map zq [0; 0; 0; 0]%Z) = false | Err _ => False end.
Proof.
  split; [apply shapeb_shape; reflexivity|]. split; [apply shapeb_shape; reflexivity|].
  split; [apply symmetricb_ok; vm_compute; reflexivity|]. split; [apply posdef_w4|]. vm_compute. reflexivity.
Qed.

(** the estimate [[0 1][0 0]] with input (1 0) and output (0 0): the computed input error is
    zero, of objective 1, but (1/2 0) has objective 1/2 *)
Theorem C26_nonsymmetric_estimate_refuted :
  exists (x z Y D D' : mat (cplx Qc)) zw xw,
    shape x 1 2 /\ shape z 1 2 /\ shape Y 2 2 /\ shape D 1 2 /\ shape D' 1 2 /\ psd 4 zw /\ psd 4 xw /\
    input_error ksolve 1 Y xw zw (make_real_vector (vectorize_matrix x)) (make_real_vector (vectorize_matrix z)) =
      Ok (make_real_vector (vectorize_matrix D)) /\
    klt (input_objective zw xw x z Y D') (input_objective zw xw x z Y D).
Proof.
  exists xr, zr, yasym, (mzeros 1 2), (rows [[Cx (qq 1 2) (zq 0); cz 0 0]]), w4, w4.
  do 5 (split; [apply shapeb_shape; reflexivity|]). do 2 (split; [apply posdef_w4|]).
  split; [apply res_veqb_eq; vm_compute; reflexivity|vm_compute; reflexivity].
Qed.
Print Assumptions C26_nonsymmetric_estimate_refuted.

(** ** C27 *)
Theorem C27_regression_fixed_point :
  forall (K : Type) (O : Ops K) (F : Fld K) (O2 : OrdOps K) (OF : OrdFld K)
    spsolve (e e' : estimator K) ex p (x y0 : mat (cplx K)) T n P DT El u0,
  solver_sound spsolve -> setting e p n P DT El -> shape x T n ->
  represents DT n P u0 y0 -> prior_satisfied p u0 -> identifiable x DT n P ->
  br_fit spsolve e x (mmul x y0) y0 = (e', ex) ->
  exists new, e_iters e' = e_iters e ++ new /\ Forall (fun r => st_y r = y0) new /\ (ex = None -> e_adm e' = Some y0).
Proof.
  intros K O F O2 OF sv e e' ex p x y0 T n P DT El u0 Hs (H1 & H2 & H3 & H4 & H5 & H6 & H7) Hx Hu Hp Hi H.
  exact (p_br_fixed sv e p x y0 T n P DT El u0 e' ex Hs H1 H2 H3 H4 Hx H5 H6 H7 (proj1 Hu)
    (represents_rebuild _ _ _ _ _ H7 Hu) Hp (identifiable_rebuilt _ _ _ _ H7 Hi) H).
Qed.
Print Assumptions C27_regression_fixed_point.

(** no exception, if the solver solves regular systems *)
Theorem C27_regression_fixed_point_runs :
  forall (K : Type) (O : Ops K) (F : Fld K) (O2 : OrdOps K) (OF : OrdFld K)
    spsolve (e e' : estimator K) ex p (x y0 : mat (cplx K)) T n P DT El u0,
  solver_sound spsolve -> solver_complete spsolve -> setting e p n P DT El -> shape El P (n * n) -> shape x T n ->
  represents DT n P u0 y0 -> prior_satisfied p u0 -> identifiable x DT n P ->
  br_fit spsolve e x (mmul x y0) y0 = (e', ex) -> ex = None /\ e_adm e' = Some y0.
Proof.
  intros K O F O2 OF sv e e' ex p x y0 T n P DT El u0 Hs Hc (H1 & H2 & H3 & H4 & H5 & H6 & H7) HE Hx Hu Hp Hi H.
  assert (N : ex = None) by exact (p_br_fixed_runs sv e p x y0 T n P DT El u0 e' ex Hs Hc H1 H2 H3 H4 Hx H5 H6 H7 HE (proj1 Hu)
    (represents_rebuild _ _ _ _ _ H7 Hu) (identifiable_rebuilt _ _ _ _ H7 Hi) H).
  split; [exact N|].
  destruct (p_br_fixed sv e p x y0 T n P DT El u0 e' ex Hs H1 H2 H3 H4 Hx H5 H6 H7 (proj1 Hu)
    (represents_rebuild _ _ _ _ _ H7 Hu) Hp (identifiable_rebuilt _ _ _ _ H7 Hi) H) as (new & _ & _ & A). auto.
Qed.
Print Assumptions C27_regression_fixed_point_runs.

Theorem C27_eiv_weighted_fixed_point :
  forall (K : Type) (O : Ops K) (F : Fld K) (O2 : OrdOps K) (OF : OrdFld K)
    spsolve cabs (e e' : estimator K) ex p (x y0 : mat (cplx K)) W zarg T n P DT El u0,
  solver_sound spsolve -> setting e p n P DT El -> shape x T n ->
  represents DT n P u0 y0 -> symmetric n y0 -> prior_satisfied p u0 -> identifiable x DT n P -> posdef (2 * (n * T)) W ->
  eiv_fit spsolve cabs e x (mmul x y0) (Some W) (Some zarg) y0 = (e', ex) ->
  exists new, e_iters e' = e_iters e ++ new /\ Forall (fun r => st_y r = y0) new /\ (ex = None -> e_adm e' = Some y0).
Proof.
  intros K O F O2 OF sv ca e e' ex p x y0 W zarg T n P DT El u0 Hs (H1 & H2 & H3 & H4 & H5 & H6 & H7) Hx Hu Hy Hp Hi HW H.
  exact (p_eiv_fixed sv ca e p x y0 W zarg T n P _ DT El u0 e' ex eq_refl Hs H1 H2 H3 H4 Hx H5 H6 H7 (proj1 Hu)
    (represents_rebuild _ _ _ _ _ H7 Hu) Hy Hp (identifiable_rebuilt _ _ _ _ H7 Hi) HW H).
Qed.
Print Assumptions C27_eiv_weighted_fixed_point.

Theorem C27_eiv_unweighted_fixed_point :
  forall (K : Type) (O : Ops K) (F : Fld K) (O2 : OrdOps K) (OF : OrdFld K)
    spsolve cabs (e e' : estimator K) ex p (x y0 : mat (cplx K)) zarg T n P DT El u0,
  solver_sound spsolve -> setting e p n P DT El -> shape x T n ->
  represents DT n P u0 y0 -> prior_satisfied p u0 -> identifiable x DT n P ->
  eiv_fit spsolve cabs e x (mmul x y0) None zarg y0 = (e', ex) ->
  exists new, e_iters e' = e_iters e ++ new /\ Forall (fun r => st_y r = y0) new /\ (ex = None -> e_adm e' = Some y0).
Proof.
  intros K O F O2 OF sv ca e e' ex p x y0 zarg T n P DT El u0 Hs (H1 & H2 & H3 & H4 & H5 & H6 & H7) Hx Hu Hp Hi H.
  exact (p_eivu_fixed sv ca e p x y0 zarg T n P DT El u0 e' ex Hs H1 H2 H3 H4 Hx H5 H6 H7 (proj1 Hu)
    (represents_rebuild _ _ _ _ _ H7 Hu) Hp (identifiable_rebuilt _ _ _ _ H7 Hi) H).
Qed.
Print Assumptions C27_eiv_unweighted_fixed_point.

(** independent inputs suffice, for both parametrisations used by the package *)
Theorem C27_identifiable_symmetric :
  forall (K : Type) (O : Ops K) (F : Fld K) (O2 : OrdOps K) (OF : OrdFld K) (x : mat (cplx K)) (DT : mat K) T n,
  shape x T n -> inj x -> duplication_matrix n = Ok DT -> identifiable x DT n (n * (n + 1) / 2).
Proof. intros K O F O2 OF x DT T n Hx Ix H. destruct (dup_inj n DT H). eapply inj_identifiable; eauto. Qed.
Print Assumptions C27_identifiable_symmetric.

Theorem C27_identifiable_laplacian :
  forall (K : Type) (O : Ops K) (F : Fld K) (O2 : OrdOps K) (OF : OrdFld K) (x : mat (cplx K)) (DT : mat K) T n,
  shape x T n -> inj x -> lap_dt n = Ok DT -> identifiable x DT n (n * (n - 1) / 2).
Proof. intros K O F O2 OF x DT T n Hx Ix H. destruct (lap_inj n DT H). eapply inj_identifiable; eauto. Qed.
Print Assumptions C27_identifiable_laplacian.

(** two nodes joined by a line of admittance 2-3i, the prior knows both parameters *)
Definition prx : sprior Qc := fst (history (sprior_init (qq 1 10) 2 None) [AddExact [0;1]%Z [zq 2; zq (-3)] ANone (AScalar LAPLACE)]).
Definition estx mx := new_estimator (log_distribution prx) (qq 1 2) (zq 0) (zq 0) mx lap_dt lap_el.
Definition yx : mat (cplx Qc) := czrows [[(2,-3);(-2,3)];[(-2,3);(2,-3)]]%Z.
Definition w8 : mat Qc := mdiag (map zq [1; 2; 3; 4; 5; 6; 7; 8]%Z).
Example C27_example : exists DT El, setting (estx 2) prx 2 1 DT El /\ shape El 1 4 /\ shape x2 2 2 /\ inj x2 /\ identifiable x2 DT 2 1 /\
  represents DT 2 1 [zq 2; zq (-3)] yx /\ symmetric 2 yx /\ prior_satisfied prx [zq 2; zq (-3)] /\ posdef 8 w8 /\
  ran (br_fit ksolve (estx 2) x2 (mmul x2 yx) yx) = (2, true) /\
  ran (eiv_fit ksolve c_norm1 (estx 2) x2 (mmul x2 yx) None None yx) = (2, true) /\
  ran (eiv_fit ksolve c_norm1 (estx 1) x2 (mmul x2 yx) (Some w8) (Some w8) yx) = (1, true).
Proof.
  destruct (lap_dt 2 : res (mat Qc)) as [DT|er] eqn:E; [|vm_compute in E; discriminate].
  destruct (lap_el 2 : res (mat Qc)) as [El|er] eqn:E2; [|vm_compute in E2; discriminate].
  destruct (lap_inj 2 DT E) as (HS & HI).
  assert (SX : shape x2 2 2) by (apply shapeb_shape; reflexivity).
  assert (IX : inj x2).
  { apply (left_inverse_inj x2 (rows [[cz 1 0; Cx (qq (-1) 2) (qq (-1) 2)]; [cz 0 0; Cx (qq 1 2) (qq (-1) 2)]]) 2 2 SX);
      [apply shapeb_shape; reflexivity|apply meqb_eq; vm_compute; reflexivity]. }
  exists DT, El. split.
  { split; [reflexivity|]. split.
    { split; [reflexivity|]. split; [apply shapeb_shape; reflexivity|reflexivity]. }
    split; [reflexivity|]. split; [reflexivity|]. split; [exact E|]. split; [exact E2|exact HS]. }
  split. { vm_compute in E2. inversion E2. apply shapeb_shape. reflexivity. }
  split; [exact SX|]. split; [exact IX|].
  split; [exact (C27_identifiable_laplacian _ _ _ _ _ x2 DT 2 2 SX IX E)|].
  split. { apply rebuild_represents; [exact HS|reflexivity|]. clear HS HI. revert E. intros E.
    assert (H : (d <- lap_dt 2 ;; rebuild d 2 [zq 2; zq (-3)]) = Ok yx) by (apply res_meqb_eq; vm_compute; reflexivity).
    rewrite E in H. exact H. }
  split; [apply symmetricb_ok; vm_compute; reflexivity|].
  split. { intros i Hi. change (i < 2) in Hi. destruct i as [|[|i]]; [| |lia]; apply keqb_eq; vm_compute; reflexivity. }
  split. { apply (posdef_diag (K := Qc) (map zq [1; 2; 3; 4; 5; 6; 7; 8]%Z)). repeat constructor. }
  split; [vm_compute; reflexivity|]. split; vm_compute; reflexivity.
Qed.

(** ** C28 *)
Lemma R_klt : forall a b : R, klt a b -> (a < b)%R.
Proof.
  intros a b H. apply (klt_spec (K := R)) in H. destruct (Rlt_le_dec a b) as [L|L]; [exact L|].
  exfalso. apply H. apply R_leb_le. exact L.
Qed.

Lemma klt_R : forall a b : R, (a < b)%R -> klt a b.
Proof. intros a b H. apply (klt_spec (K := R)). intros H2. apply R_leb_le in H2. exact (Rlt_not_le _ _ H H2). Qed.

Theorem C28_regression_descent :
  forall spsolve (e e' : estimator R) ex p (x z y0 : mat (cplx R)) T n P DT El,
  solver_sound spsolve -> setting e p n P DT El -> shape x T n -> shape z T n -> shape El P (n * n) -> shape y0 n n ->
  br_fit spsolve e x z y0 = (e', ex) ->
  exists new ws Ys, e_iters e' = e_iters e ++ new /\ length ws = S (length new) /\ length Ys = S (length new) /\
    nth 0 ws [] = params El y0 /\
    (forall k, k <= length new -> represents DT n P (nth k ws []) (nth k Ys (Mat 0 0 []))) /\
    (forall k d, k < length new -> nth (S k) Ys (Mat 0 0 []) = st_y (nth k new d)) /\
    forall k, k < length new ->
      (br_smooth (e_lambda e) p x z (nth (S k) ws []) (nth (S k) Ys (Mat 0 0 [])) <=
       br_smooth (e_lambda e) p x z (nth k ws []) (nth k Ys (Mat 0 0 [])))%R.
Proof.
  intros sv e e' ex p x z y0 T n P DT El Hs (H1 & H2 & H3 & H4 & H5 & H6 & H7) Hx Hz HE Hy H.
  apply R_klt in H3. apply R_leb_le in H4.
  destruct (p_br_descent sv e p x z y0 T n P DT El e' ex Hs H1 H2 H3 H4 Hx Hz H5 H6 H7 HE Hy H) as (new & ws & Ys & E1 & E2 & E3 & E4 & E5 & E6 & E7).
  exists new, ws, Ys. do 4 (split; [assumption|]). split; [|exact E7].
  intros k Hk. apply rebuild_represents; auto.
Qed.
Print Assumptions C28_regression_descent.

Theorem C28_eiv_descent :
  forall spsolve cabs (e e' : estimator R) ex p (x z y0 : mat (cplx R)) W zarg T n P DT El,
  solver_sound spsolve -> setting e p n P DT El -> shape x T n -> shape z T n -> shape y0 n n -> psd (2 * (n * T)) W ->
  (forall u Y, represents DT n P u Y -> symmetric n Y) ->
  eiv_fit spsolve cabs e x z (Some W) (Some zarg) y0 = (e', ex) ->
  exists new us Ds, e_iters e' = e_iters e ++ new /\ length us = length new /\ length Ds = length new /\
    (forall k d, k < length new -> represents DT n P (nth k us []) (st_y (nth k new d)) /\ shape (nth k Ds (Mat 0 0 [])) T n) /\
    forall k d, S k < length new ->
      (eiv_smooth (e_lambda e) p W x z (nth (S k) Ds (Mat 0 0 [])) (nth (S k) us []) (st_y (nth (S k) new d)) <=
       eiv_smooth (e_lambda e) p W x z (nth k Ds (Mat 0 0 [])) (nth k us []) (st_y (nth k new d)))%R.
Proof.
  intros sv ca e e' ex p x z y0 W zarg T n P DT El Hs (H1 & H2 & H3 & H4 & H5 & H6 & H7) Hx Hz Hy HW Hsym H.
  apply R_klt in H3. apply R_leb_le in H4.
  destruct (p_eiv_descent sv ca e p x z y0 W zarg T n P _ DT El e' ex eq_refl Hs H1 H2 H3 H4 Hx Hz Hy H5 H6 H7 HW) as (new & us & Ds & E1 & E2 & E3 & E4 & E5).
  - intros u Y Hu HY. apply (Hsym u). apply rebuild_represents; auto.
  - exact H.
  - exists new, us, Ds. do 3 (split; [assumption|]). split; [|exact E5].
    intros k d Hk. destruct (E4 k d Hk) as (A & B & C). split; [apply rebuild_represents; auto|exact C].
Qed.
Print Assumptions C28_eiv_descent.

(** the parametrisations of the package only represent symmetric matrices *)
Theorem C28_eiv_descent_symmetric :
  forall spsolve cabs (e e' : estimator R) ex p (x z y0 : mat (cplx R)) W zarg T n DT El,
  solver_sound spsolve -> setting e p n (n * (n + 1) / 2) DT El -> duplication_matrix n = Ok DT ->
  shape x T n -> shape z T n -> shape y0 n n -> psd (2 * (n * T)) W ->
  eiv_fit spsolve cabs e x z (Some W) (Some zarg) y0 = (e', ex) ->
  exists new us Ds, e_iters e' = e_iters e ++ new /\ length us = length new /\ length Ds = length new /\
    (forall k d, k < length new -> represents DT n (n * (n + 1) / 2) (nth k us []) (st_y (nth k new d)) /\ shape (nth k Ds (Mat 0 0 [])) T n) /\
    forall k d, S k < length new ->
      (eiv_smooth (e_lambda e) p W x z (nth (S k) Ds (Mat 0 0 [])) (nth (S k) us []) (st_y (nth (S k) new d)) <=
       eiv_smooth (e_lambda e) p W x z (nth k Ds (Mat 0 0 [])) (nth k us []) (st_y (nth k new d)))%R.
Proof.
  intros sv ca e e' ex p x z y0 W zarg T n DT El Hs Hset Hd Hx Hz Hy HW H.
  refine (C28_eiv_descent sv ca e e' ex p x z y0 W zarg T n _ DT El Hs Hset Hx Hz Hy HW _ H).
  intros u Y Hu. eapply sym_rebuilt; [exact Hd|]. eapply represents_rebuild; [|exact Hu]. apply Hset.
Qed.
Print Assumptions C28_eiv_descent_symmetric.

(** two nodes over the reals *)
Definition prR : sprior R := mkSP (mkBP (meye 6) [0;0;0;0;0;0]%R 6) 1%R [1;1;1;1;1;1].
Definition estR mx : estimator R := new_estimator (log_distribution prR) 1%R 0%R 0%R mx duplication_matrix elimination_sym_matrix.
Example C28_example : exists DT El, setting (estR 5) prR 2 3 DT El /\ shape El 3 4 /\ duplication_matrix 2 = Ok DT /\
  solver_sound (@ksolve R _) /\ psd (2 * (2 * 2)) (meye 8 : mat R) /\
  shape (meye 2 : mat (cplx R)) 2 2 /\ shape (mzeros 2 2 : mat (cplx R)) 2 2.
Proof.
  destruct (p_elimination_sym (K := R) 2) as (DT & El & E1 & E2 & _ & E3 & _).
  destruct (dup_inj 2 DT E1) as (HS & _).
  exists DT, El. split.
  { split; [reflexivity|]. split.
    { split; [reflexivity|]. split; [apply shape_meye|reflexivity]. }
    split; [apply klt_R; exact Rlt_0_1|]. split; [apply R_leb_le; exact Rle_0_1|]. split; [exact E1|]. split; [exact E2|exact HS]. }
  split.
  { destruct (elimination_sym_ok (K := R) 2) as (E' & HE & HsE & _). rewrite E2 in HE. inversion HE; subst E'. exact HsE. }
  split; [exact E1|]. split; [apply ksolve_solver_sound|]. split; [apply psd_meye|]. split; [apply shape_meye|].
  split; [apply wf_mk|split; reflexivity].
Qed.

(** the recorded targets may grow: second target above the first *)
Theorem C28_recorded_targets_decrease_refuted :
  exists (e : estimator Qc) p x z y0 DT El,
    e_iters e = [] /\ setting e p 1 1 DT El /\ shape x 1 1 /\ shape z 1 1 /\ shape y0 1 1 /\
    gamma p = [LAPLACE] /\
    snd (br_fit ksolve e x z y0) = None /\
    let l := e_iters (fst (br_fit ksolve e x z y0)) in length l = 3 /\
    klt (target_at l 0) (target_at l 1) /\ klt (target_at l 1) (target_at l 2).
Proof.
  destruct (duplication_matrix 1 : res (mat Qc)) as [DT|er] eqn:E; [|vm_compute in E; discriminate].
  destruct (elimination_sym_matrix 1 : res (mat Qc)) as [El|er] eqn:E2; [|vm_compute in E2; discriminate].
  destruct (dup_inj 1 DT E) as (HS & _).
  exists (est1 3 (zq 0)), pr0, (num 1 1), (num 1 1), (num 1 1), DT, El.
  split; [reflexivity|]. split.
  { split; [reflexivity|]. split.
    { split; [reflexivity|]. split; [apply shapeb_shape; reflexivity|reflexivity]. }
    split; [reflexivity|]. split; [reflexivity|]. split; [exact E|]. split; [exact E2|exact HS]. }
  do 3 (split; [apply shapeb_shape; reflexivity|]). split; [reflexivity|].
  split; [vm_compute; reflexivity|]. split; [vm_compute; reflexivity|]. split; vm_compute; reflexivity.
Qed.
Print Assumptions C28_recorded_targets_decrease_refuted.

(** ** C29 *)
Theorem C29_projection :
  forall (K : Type) (O : Ops K) (F : Fld K) (O2 : OrdOps K) (OF : OrdFld K) n T (Y x z : mat (cplx K)),
  shape Y n n -> shape x T n -> shape z T n ->
  exists d, eiv_project n Y x z = Ok d /\ shape d T (2 * n) /\
    satisfies_flow n Y d /\
    (z = mmul x Y -> d = hstack2 x z) /\
    (forall q, shape q T (2 * n) -> satisfies_flow n Y q ->
       fro2 (msubt (hstack2 x z) q) = (fro2 (msubt (hstack2 x z) d) + fro2 (msubt d q))%K).
Proof. exact @p_project. Qed.
Print Assumptions C29_projection.

(** the corrected data are the nearest exact power flows *)
Theorem C29_nearest :
  forall (K : Type) (O : Ops K) (F : Fld K) (O2 : OrdOps K) (OF : OrdFld K) n T (Y x z : mat (cplx K)),
  shape Y n n -> shape x T n -> shape z T n ->
  exists d, eiv_project n Y x z = Ok d /\ forall q, shape q T (2 * n) -> satisfies_flow n Y q ->
    kle (fro2 (msubt (hstack2 x z) d)) (fro2 (msubt (hstack2 x z) q)).
Proof.
  intros K O F O2 OF n T Y x z HY Hx Hz. destruct (p_project n T Y x z HY Hx Hz) as (d & H1 & _ & _ & _ & H2).
  exists d. split; [exact H1|]. intros q Hq Hf. rewrite (H2 q Hq Hf).
  apply kle_sub. match goal with |- kle _ (?a + ?b - ?a)%K => replace (a + b - a)%K with b end.
  - apply fro2_nonneg.
  - apply add_sub_cancel.
Qed.
Print Assumptions C29_nearest.

Example C29_example : shape yx 2 2 /\ shape x2 2 2 /\ shape z2 2 2 /\
  match eiv_project 2 yx x2 z2 with Ok d => meqb d (hstack2 x2 z2) = false /\
     meqb (mmul (mslice d 0 2 0 2) yx) (mslice d 0 2 2 4) = true | Err _ => False end.
Proof. do 3 (split; [apply shapeb_shape; reflexivity|]). vm_compute. split; reflexivity. Qed.

(** ** C64 *)
(** the estimator built with the default arguments raises on every fit, with no record *)
Theorem C64_default_regression_fails :
  forall (K : Type) (O : Ops K) (O2 : OrdOps K) spsolve prior lam at_ rt mx (x z y0 : mat (cplx K)),
  let e := new_estimator prior lam at_ rt mx br_default_builder br_default_builder in
  br_fit spsolve e x z y0 = (e, Some TypeError).
Proof. reflexivity. Qed.
Print Assumptions C64_default_regression_fails.

(** the same call with the other estimator, see [C64_example], succeeds *)
Theorem C64_default_regression_refuted : exists (x z y0 : mat (cplx Qc)) e,
  shape x 1 1 /\ shape z 1 1 /\ shape y0 1 1 /\
  e = new_estimator (log_distribution (sprior_init (qq 1 10) 2 None)) (zq 0) (zq 0) (zq 0) 2 br_default_builder br_default_builder /\
  br_fit ksolve e x z y0 = (e, Some TypeError).
Proof.
  exists (num 1 1), (num 2 1), (num 1 1). eexists. do 3 (split; [apply shapeb_shape; reflexivity|]). split; reflexivity.
Qed.
Print Assumptions C64_default_regression_refuted.

(** while the error-in-variables estimator's defaults describe unrestricted matrices *)
Theorem C64_default_eiv_partial :
  forall (K : Type) (O : Ops K) (F : Fld K) (O2 : OrdOps K) (OF : OrdFld K) n (Y : mat (cplx K)),
  shape Y n n -> exists DT, eiv_default_builder n = Ok DT /\ shape DT (n * n) (n * n) /\
    represents DT n (n * n) (make_real_vector (vectorize_matrix Y)) Y.
Proof.
  intros K O F O2 OF n Y HY. exists (meye (n * n)). split; [reflexivity|]. split; [apply shape_meye|].
  assert (L : length (vectorize_matrix Y) = n * n) by (destruct HY as (W & R1 & C1); rewrite length_vectorize; congruence).
  apply rebuild_represents; [apply shape_meye|rewrite length_make_real_vector; lia|].
  apply rebuild_real; [apply shape_meye|reflexivity|exact L|exact HY|]. rewrite cmat_meye. rewrite <- L. symmetry. apply mvmul_1.
Qed.
Print Assumptions C64_default_eiv_partial.
Example C64_example : ran (eiv_fit ksolve c_norm1 (new_estimator (log_distribution (sprior_init (qq 1 10) 2 None)) (zq 0) (zq 0) (zq 0) 2 eiv_default_builder eiv_default_builder)
  (num 1 1) (num 2 1) None None (num 1 1)) = (2, true).
Proof. vm_compute. reflexivity. Qed.
