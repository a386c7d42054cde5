(** The iteration loop, structure of the results, stopping. *)
From Coq Require Import Arith ZArith Lia List Bool Ring Field.
From Verif Require Import BasePy BaseFld BaseSum BaseMat BaseNumpy BaseOrd BaseLin ModelMatrixOps SpecMatrix SpecLS
  ProofMatrixOps ProofStruct ProofMatrixProps ProofLS ModelFit SpecFit ProofFitBase.
Import ListNotations.
Local Open Scope K_scope.

Section Loop.
Context {K : Type} {O : Ops K} {F : Fld K} {O2 : OrdOps K}.
Notation CK := (cplx K).

Definition dstate : lstate K := (Mat 0 0 [], Mat 0 0 [], []).

(** states visited and targets computed *)
Definition chain (step : lstate K -> res (lstate K * K)) (ss : list (lstate K)) (ts : list K) : Prop :=
  length ss = S (length ts) /\
  forall k, (k < length ts)%nat -> step (nth k ss dstate) = Ok (nth (S k) ss dstate, nth k ts 0).

Definition recs (it : nat) (ss : list (lstate K)) (ts : list K) : list (status K) :=
  map (fun k => St (it + k) (fst (fst (nth (S k) ss dstate))) (nth k ts 0)) (range (length ts)).

Definition stop_at (abs_tol rel_tol : K) (it : nat) (all : list (status K)) (ts : list K) (k : nat) : bool :=
  (0 <? it + k)%nat &&
  match nth_error all (it + k - 1) with
  | Some prev => is_stationary_point abs_tol rel_tol (nth k ts 0) (st_target prev)
  | None => false
  end.

Lemma recs_cons : forall it s s' ss t ts,
  recs it (s :: s' :: ss) (t :: ts) = St it (fst (fst s')) t :: recs (S it) (s' :: ss) ts.
Proof.
  intros. unfold recs. cbn [length]. unfold range.
  rewrite <- cons_seq. cbn [map]. f_equal.
  - cbn [nth]. rewrite Nat.add_0_r. reflexivity.
  - rewrite <- seq_shift, map_map. apply map_ext. intros k. cbn [nth]. f_equal. lia.
Qed.

Lemma length_recs : forall it ss ts, length (recs it ss ts) = length ts.
Proof. intros. unfold recs. rewrite map_length, length_range. reflexivity. Qed.

Lemma nth_recs : forall it ss ts k d, (k < length ts)%nat ->
  nth k (recs it ss ts) d = St (it + k) (fst (fst (nth (S k) ss dstate))) (nth k ts 0).
Proof. intros. unfold recs. rewrite nth_map_range by assumption. reflexivity. Qed.

Lemma fit_loop_spec : forall at_ rt step fuel it iters s iters' r,
  (it <= length iters)%nat ->
  fit_loop at_ rt step fuel it iters s = (iters', r) ->
  exists ss ts, chain step ss ts /\ nth 0 ss dstate = s /\ (length ts <= fuel)%nat /\
    iters' = iters ++ recs it ss ts /\
    (forall k, (S k < length ts)%nat -> stop_at at_ rt it iters' ts k = false) /\
    ((r = Ok (nth (length ts) ss dstate) /\
       (length ts = fuel \/ (0 < length ts /\ stop_at at_ rt it iters' ts (length ts - 1) = true)%nat)) \/
     (exists e, r = Err e /\ step (nth (length ts) ss dstate) = Err e /\ (length ts < fuel)%nat /\
        forall k, (k < length ts)%nat -> stop_at at_ rt it iters' ts k = false)).
Proof.
  intros at_ rt step. induction fuel as [|fuel IH]; intros it iters s iters' r Hit H; cbn [fit_loop] in H.
  - inversion H; subst. exists [s], []. split.
    { split; [reflexivity|]. intros k Hk. simpl in Hk. lia. }
    split; [reflexivity|]. split; [simpl; lia|]. split; [unfold recs; simpl; rewrite app_nil_r; reflexivity|].
    split; [intros k Hk; simpl in Hk; lia|]. left. split; [reflexivity|]. left. reflexivity.
  - destruct (step s) as [(s', t)|e] eqn:Es.
    + set (iters1 := iters ++ [St it (fst (fst s')) t]) in *.
      set (stop := if (0 <? it)%nat then match nth_error iters1 (it - 1) with
                   | Some prev => is_stationary_point at_ rt t (st_target prev) | None => false end else false) in *.
      assert (Hst : forall rest ts', stop_at at_ rt it (iters1 ++ rest) (t :: ts') 0 = stop).
      { intros rest ts'. unfold stop_at, stop. rewrite Nat.add_0_r. cbn [nth].
        destruct (Nat.ltb_spec 0 it); cbn [andb]; [|reflexivity].
        rewrite nth_error_app1; [reflexivity|]. unfold iters1. rewrite app_length. simpl. lia. }
      destruct stop eqn:Estop.
      * inversion H; subst. exists [s; s'], [t]. split.
        { split; [reflexivity|]. intros k Hk. simpl in Hk. assert (k = 0)%nat by lia. subst k. exact Es. }
        split; [reflexivity|]. split; [simpl; lia|].
        split; [rewrite recs_cons; reflexivity|].
        split; [intros k Hk; simpl in Hk; lia|]. left. split; [reflexivity|]. right. split; [simpl; lia|].
        simpl length. change (1 - 1)%nat with 0%nat.
        rewrite <- (app_nil_r iters1). exact (Hst [] []).
      * destruct (IH (S it) iters1 s' iters' r) as (ss & ts & (Hlen & Hch) & H0 & Hle & Hi & Hns & Hr).
        { unfold iters1. rewrite app_length. simpl. lia. }
        { exact H. }
        destruct ss as [|s0 ss]; [simpl in Hlen; lia|]. simpl in H0. subst s0.
        assert (Hi' : iters' = iters ++ recs it (s :: s' :: ss) (t :: ts)).
        { rewrite recs_cons. rewrite Hi. unfold iters1. rewrite <- app_assoc. reflexivity. }
        assert (Hshift : forall k, stop_at at_ rt it iters' (t :: ts) (S k) = stop_at at_ rt (S it) iters' ts k).
        { intros k. unfold stop_at. replace (it + S k)%nat with (S it + k)%nat by lia. reflexivity. }
        assert (H0stop : stop_at at_ rt it iters' (t :: ts) 0 = false) by (rewrite Hi; apply Hst).
        exists (s :: s' :: ss), (t :: ts). split.
        { split; [simpl; simpl in Hlen; lia|]. intros k Hk. destruct k as [|k]; [exact Es|].
          apply Hch. simpl in Hk. lia. }
        split; [reflexivity|]. split; [simpl; lia|]. split; [exact Hi'|]. split.
        { intros k Hk. destruct k as [|k]; [exact H0stop|]. rewrite Hshift. apply Hns. simpl in Hk. lia. }
        destruct Hr as [(Hr & Hend)|(e & Hr & He & Hlt & Hall)].
        { left. split; [exact Hr|]. destruct Hend as [E|(Hpos & Hs)].
          - left. simpl. lia.
          - right. split; [simpl; lia|]. simpl length. replace (S (length ts) - 1)%nat with (S (length ts - 1)) by lia.
            rewrite Hshift. exact Hs. }
        { right. exists e. split; [exact Hr|]. split; [exact He|]. split; [simpl; lia|].
          intros k Hk. destruct k as [|k]; [exact H0stop|]. rewrite Hshift. apply Hall. simpl in Hk. lia. }
    + inversion H; subst. exists [s], []. split.
      { split; [reflexivity|]. intros k Hk. simpl in Hk. lia. }
      split; [reflexivity|]. split; [simpl; lia|]. split; [unfold recs; simpl; rewrite app_nil_r; reflexivity|].
      split; [intros k Hk; simpl in Hk; lia|]. right. exists e. split; [reflexivity|]. split; [exact Es|].
      split; [simpl; lia|]. intros k Hk. simpl in Hk. lia.
Qed.

(** *** Any fit is one run of the loop *)
Lemma finish_inv : forall (e e' : estimator K) r x, finish_fit e r = (e', x) ->
  e_iters e' = fst r /\ (x = None -> exists s, snd r = Ok s /\ e_adm e' = Some (fst (fst s))) /\
  (forall er, x = Some er -> snd r = Err er /\ e_adm e' = e_adm e).
Proof.
  intros e e' (iters & [s|er]) x H; unfold finish_fit in H; simpl in H; inversion H; subst; simpl.
  - split; [reflexivity|]. split; [intros _; eauto|]. discriminate.
  - split; [reflexivity|]. split; [discriminate|]. intros er' E. inversion E. auto.
Qed.
End Loop.

Section Structure.
Context {K : Type} {O : Ops K} {F : Fld K} {FR : FReal K} {O2 : OrdOps K}.
Notation CK := (cplx K).

(** a step that ends in [solve_y] *)
Definition rebuilt (DT : mat K) (n : nat) (Y : mat CK) : Prop := exists y, rebuild DT n y = Ok Y.

Lemma solve_y_inv : forall spsolve (e : estimator K) DT n iASA ASb y s pen,
  solve_y spsolve e DT n iASA ASb = Ok (y, s, pen) ->
  spsolve iASA ASb = Ok y /\ rebuild DT n y = Ok (fst (fst s)) /\ e_prior e y = Ok (snd (fst s), snd s, pen).
Proof.
  intros spsolve e DT n iASA ASb y s pen H. unfold solve_y in H.
  apply bind_ok in H. destruct H as (y' & Hy & H).
  apply bind_ok in H. destruct H as (Y & HY & H).
  apply bind_ok in H. destruct H as (((M & mu) & pen') & Hp & H).
  inversion H; subst. simpl. auto.
Qed.

Ltac binds H :=
  repeat (apply bind_ok in H; let a := fresh "v" in let E := fresh "E" in destruct H as (a & E & H)).

Lemma br_step_rebuilt : forall spsolve e DT A b n s s' t,
  br_step spsolve e DT A b n s = Ok (s', t) -> rebuilt DT n (fst (fst s')).
Proof.
  intros spsolve e DT A b n ((Y & M) & mu) s' t H. unfold br_step in H.
  do 4 (apply bind_ok in H; destruct H as (? & _ & H)).
  apply bind_ok in H. destruct H as (((y & s1) & pen) & Hs & H).
  do 2 (apply bind_ok in H; destruct H as (? & _ & H)).
  inversion H; subst. apply solve_y_inv in Hs. exists y. apply Hs.
Qed.

Lemma eivw_step_rebuilt : forall spsolve e DT A xw zw a b T n s s' t,
  eiv_step_weighted spsolve e DT A xw zw a b T n s = Ok (s', t) -> rebuilt DT n (fst (fst s')).
Proof.
  intros spsolve e DT A xw zw a b T n ((Y & M) & mu) s' t H. unfold eiv_step_weighted in H.
  do 10 (apply bind_ok in H; destruct H as (? & _ & H)).
  apply bind_ok in H. destruct H as (((y & s1) & pen) & Hs & H).
  do 4 (apply bind_ok in H; destruct H as (? & _ & H)).
  inversion H; subst. apply solve_y_inv in Hs. exists y. apply Hs.
Qed.

Lemma eivu_step_rebuilt : forall spsolve cabs e DT x z b n s s' t,
  eiv_step_unweighted spsolve cabs e DT x z b n s = Ok (s', t) -> rebuilt DT n (fst (fst s')).
Proof.
  intros spsolve cabs e DT x z b n ((Y & M) & mu) s' t H. unfold eiv_step_unweighted in H.
  do 6 (apply bind_ok in H; destruct H as (? & _ & H)).
  apply bind_ok in H. destruct H as (((y & s1) & pen) & Hs & H).
  do 2 (apply bind_ok in H; destruct H as (? & _ & H)).
  inversion H; subst. apply solve_y_inv in Hs. exists y. apply Hs.
Qed.

(** what all fits have in common: a loop whose every step rebuilds the matrix from parameters *)
Definition is_fit (e : estimator K) (x y_init : mat CK) (e' : estimator K) (ex : option exn) : Prop :=
  (exists err, fit_init e x y_init = Err err /\ e' = e /\ ex = Some err) \/
  (exists DT A M mu step, fit_init e x y_init = Ok (DT, A, M, mu) /\
     (forall s s' t, step s = Ok (s', t) -> rebuilt DT (nc x) (fst (fst s'))) /\
     (e', ex) = finish_fit e (fit_loop (e_abs_tol e) (e_rel_tol e) step (e_max e) 0 (e_iters e) (y_init, M, mu))).

Lemma br_is_fit : forall spsolve e x z y0 e' ex, br_fit spsolve e x z y0 = (e', ex) -> is_fit e x y0 e' ex.
Proof.
  intros spsolve e x z y0 e' ex H. unfold br_fit in H.
  destruct (fit_init e x y0) as [(((DT & A) & M) & mu)|err] eqn:Ei.
  - right. exists DT, A, M, mu, (br_step spsolve e DT A (make_real_vector (vectorize_matrix z)) (nc x)).
    split; [exact Ei|]. split; [intros s s' t; apply br_step_rebuilt|symmetry; exact H].
  - left. exists err. inversion H; subst. repeat split; try reflexivity; try assumption.
Qed.

Lemma eiv_is_fit : forall spsolve cabs e x z xw zw y0 e' ex, eiv_fit spsolve cabs e x z xw zw y0 = (e', ex) -> is_fit e x y0 e' ex.
Proof.
  intros spsolve cabs e x z xw zw y0 e' ex H. unfold eiv_fit in H.
  destruct (fit_init e x y0) as [(((DT & A) & M) & mu)|err] eqn:Ei.
  - right. eexists DT, A, M, mu, _. split; [exact Ei|]. split; [|symmetry; exact H].
    destruct (eiv_z_weight xw zw) as [w|]; [destruct xw as [w'|]|]; intros s s' t Hs.
    + eapply eivw_step_rebuilt; exact Hs.
    + eapply eivu_step_rebuilt; exact Hs.
    + eapply eivu_step_rebuilt; exact Hs.
  - left. exists err. inversion H; subst. repeat split; try reflexivity; try assumption.
Qed.

Lemma fit_init_dt : forall (e : estimator K) x y0 DT A M mu, fit_init e x y0 = Ok (DT, A, M, mu) -> e_dt e (nc x) = Ok DT.
Proof.
  intros e x y0 DT A M mu H. unfold fit_init in H.
  apply bind_ok in H. destruct H as (D & HD & H).
  do 3 (apply bind_ok in H; destruct H as (? & _ & H)).
  apply bind_ok in H. destruct H as (((? & ?) & ?) & _ & H). inversion H; subst. exact HD.
Qed.

(** C21 for any structure [P] of the parametrisation *)
Lemma p_structure : forall (P : mat CK -> Prop) e x y0 e' ex, is_fit e x y0 e' ex ->
  (forall DT y Y, e_dt e (nc x) = Ok DT -> rebuild DT (nc x) y = Ok Y -> P Y) ->
  exists new, e_iters e' = e_iters e ++ new /\ Forall (fun r => P (st_y r)) new /\
    (ex = None -> (0 < e_max e)%nat -> exists Y, e_adm e' = Some Y /\ P Y).
Proof.
  intros P e x y0 e' ex [(err & _ & -> & ->)|(DT & A & M & mu & step & Hi & Hst & H)] HP.
  - exists []. rewrite app_nil_r. split; [reflexivity|]. split; [constructor|discriminate].
  - pose proof (fit_init_dt _ _ _ _ _ _ _ Hi) as Hdt.
    destruct (fit_loop (e_abs_tol e) (e_rel_tol e) step (e_max e) 0 (e_iters e) (y0, M, mu)) as (iters' & r) eqn:El.
    destruct (fit_loop_spec _ _ _ _ _ _ _ _ _ (Nat.le_0_l _) El) as (ss & ts & (Hlen & Hch) & H0 & Hle & Hit & _ & Hr).
    symmetry in H. destruct (finish_inv _ _ _ _ H) as (H1 & H2 & H3). simpl in H1, H2.
    assert (HPk : forall k, (k < length ts)%nat -> P (fst (fst (nth (S k) ss dstate)))).
    { intros k Hk. destruct (Hst _ _ _ (Hch k Hk)) as (y & Hy). apply (HP DT y _ Hdt Hy). }
    exists (recs 0 ss ts). split; [rewrite H1; exact Hit|]. split.
    + apply Forall_forall. intros r0 Hin. unfold recs in Hin. apply in_map_iff in Hin.
      destruct Hin as (k & <- & Hk). apply in_range in Hk. simpl. apply HPk; exact Hk.
    + intros Hex Hmax. destruct (H2 Hex) as (s & Hs & Hadm).
      destruct Hr as [(Hr & Hend)|(er & Hr & _)]; [|congruence].
      rewrite Hr in Hs. inversion Hs; subst s. exists (fst (fst (nth (length ts) ss dstate))). split; [exact Hadm|].
      assert (Hpos : (0 < length ts)%nat) by (destruct Hend as [E|(E & _)]; lia).
      replace (length ts) with (S (length ts - 1)) by lia. apply HPk. lia.
Qed.

Lemma sym_rebuilt : forall n DT y Y, duplication_matrix n = Ok DT -> rebuild DT n y = Ok Y -> symmetric n Y.
Proof.
  intros n DT y Y HD HY. destruct (dup_range n DT HD) as (Hw & _ & Hr).
  destruct (rebuild_parts DT n y Y _ Hw Hr HY) as (Hs & H1 & H2). apply symmetric_parts; assumption.
Qed.
Lemma lap_rebuilt : forall n DT y Y, lap_dt n = Ok DT -> rebuild DT n y = Ok Y -> laplacian n Y.
Proof.
  intros n DT y Y HD HY. destruct (lap_range n DT HD) as (Hw & _ & Hr).
  destruct (rebuild_parts DT n y Y _ Hw Hr HY) as (Hs & (H1 & H1') & (H2 & H2')).
  split; [apply symmetric_parts; assumption|apply zero_sums_parts; assumption].
Qed.
End Structure.

(** *** Stopping *)
Section Stopping.
Context {K : Type} {O : Ops K} {F : Fld K} {O2 : OrdOps K} {OF : OrdFld K}.
Notation CK := (cplx K).

Lemma stationary_settled : forall at_ rt c p : K, is_stationary_point at_ rt c p = true <-> settled at_ rt c p.
Proof.
  intros. unfold is_stationary_point, settled, kle, klt. rewrite andb_true_iff, orb_true_iff, andb_true_iff, negb_true_iff.
  rewrite keqb_neq. tauto.
Qed.

Lemma p_records : forall e x y0 e' ex, is_fit e x y0 e' ex -> e_iters e = [] ->
  (length (e_iters e') <= e_max e)%nat /\
  (forall k d, (k < length (e_iters e'))%nat -> st_it (nth k (e_iters e') d) = k) /\
  (ex = None -> (0 < e_max e)%nat -> (0 < length (e_iters e'))%nat /\
     forall d, e_adm e' = Some (st_y (nth (length (e_iters e') - 1) (e_iters e') d))) /\
  (ex = None -> e_max e = 0%nat -> e_iters e' = [] /\ e_adm e' = Some y0) /\
  (* not continued past a settled pair *)
  (forall k, (S (S k) < length (e_iters e'))%nat ->
     ~ settled (e_abs_tol e) (e_rel_tol e) (target_at (e_iters e') (S k)) (target_at (e_iters e') k)) /\
  (* stopped early only at a settled pair *)
  (ex = None -> (length (e_iters e') < e_max e)%nat ->
     exists k, length (e_iters e') = S (S k) /\
       settled (e_abs_tol e) (e_rel_tol e) (target_at (e_iters e') (S k)) (target_at (e_iters e') k)).
Proof.
  intros e x y0 e' ex [(err & _ & -> & ->)|(DT & A & M & mu & step & Hi & Hst & H)] Hfresh.
  - rewrite Hfresh. simpl. split; [lia|]. split; [intros; lia|]. split; [discriminate|]. split; [discriminate|].
    split; [intros; lia|discriminate].
  - destruct (fit_loop (e_abs_tol e) (e_rel_tol e) step (e_max e) 0 (e_iters e) (y0, M, mu)) as (iters' & r) eqn:El.
    destruct (fit_loop_spec _ _ _ _ _ _ _ _ _ (Nat.le_0_l _) El) as (ss & ts & (Hlen & Hch) & H0 & Hle & Hit & Hns & Hr).
    symmetry in H. destruct (finish_inv _ _ _ _ H) as (H1 & H2 & H3). simpl in H1, H2, H3.
    rewrite Hfresh in Hit. simpl in Hit. rewrite H1, Hit, length_recs.
    assert (Htgt : forall k, (k < length ts)%nat -> target_at (recs 0 ss ts) k = nth k ts 0).
    { intros k Hk. unfold target_at. change (0 : K) with (st_target (St 0 (Mat 0 0 []) 0)) at 1.
      rewrite map_nth, nth_recs by exact Hk. reflexivity. }
    assert (Hstop : forall k, (S k < length ts)%nat ->
       stop_at (e_abs_tol e) (e_rel_tol e) 0 (recs 0 ss ts) ts (S k) =
       is_stationary_point (e_abs_tol e) (e_rel_tol e) (nth (S k) ts 0) (nth k ts 0)).
    { intros k Hk. unfold stop_at. replace (0 + S k - 1)%nat with k by lia.
      replace (0 <? 0 + S k)%nat with true by reflexivity. cbn [andb].
      rewrite (nth_error_nth' _ (St 0 (Mat 0 0 []) 0)) by (rewrite length_recs; lia).
      rewrite nth_recs by lia. reflexivity. }
    assert (Hstop0 : stop_at (e_abs_tol e) (e_rel_tol e) 0 (recs 0 ss ts) ts 0 = false) by reflexivity.
    rewrite Hit in Hns, Hr.
    split; [exact Hle|]. split.
    { intros k d Hk. rewrite nth_recs by exact Hk. reflexivity. }
    split; [|split; [|split]].
    + intros Hex Hmax. destruct (H2 Hex) as (s & Hs & Hadm).
      destruct Hr as [(Hr & Hend)|(er & Hr & _)]; [|congruence].
      assert (Hpos : (0 < length ts)%nat) by (destruct Hend as [E|(E & _)]; lia).
      split; [exact Hpos|]. intros d. rewrite nth_recs by lia. simpl. rewrite Hadm.
      rewrite Hr in Hs. inversion Hs; subst s. replace (S (length ts - 1)) with (length ts) by lia. reflexivity.
    + intros Hex Hmax. destruct (H2 Hex) as (s & Hs & Hadm).
      assert (Hz : length ts = 0%nat) by lia. destruct ts; [|discriminate].
      split; [reflexivity|]. destruct Hr as [(Hr & _)|(er & Hr & _)]; [|congruence].
      rewrite Hr in Hs. inversion Hs; subst s. simpl in Hadm. rewrite H0 in Hadm. exact Hadm.
    + intros k Hk Hset. rewrite !Htgt in Hset by lia.
      apply stationary_settled in Hset. rewrite <- Hstop in Hset by lia. rewrite Hns in Hset by lia. discriminate.
    + intros Hex Hlt. destruct Hr as [(Hr & Hend)|(er & Hr & _)].
      * destruct Hend as [E|(Hpos & Hs)]; [lia|].
        destruct (length ts) as [|[|k]] eqn:Ets; [lia|simpl in Hs; rewrite Hstop0 in Hs; discriminate|].
        exists k. split; [reflexivity|]. replace (S (S k) - 1)%nat with (S k) in Hs by lia.
        rewrite Hstop in Hs by lia. apply stationary_settled in Hs. rewrite !Htgt by lia. exact Hs.
      * destruct (H2 Hex) as (s & Hs & _). congruence.
Qed.
End Stopping.
