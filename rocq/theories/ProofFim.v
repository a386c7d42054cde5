(** Proofs about the uncertainty analysis: when the information matrix is regular. *)
From Coq Require Import Arith ZArith Lia List Bool Ring Field.
From Verif Require Import BasePy BaseFld BaseSum BaseMat BaseNumpy BaseOrd BaseLin ModelMatrixOps SpecMatrix
  ProofRagged ProofMatrixOps ModelFit SpecFit ProofFitOpt ModelFisher SpecFisher ProofFisher SpecFim.
Import ListNotations.
Local Open Scope K_scope.

Section Gen.
Context {K : Type} {O : Ops K} {F : Fld K}.
Notation CK := (cplx K).
Add Field Kfld : (@k_field K O F).

Lemma swapped_inj : forall m V (W : mat K), (0 < m)%nat -> swapped_inverse m V W -> inj W.
Proof.
  intros m V W Hm ((HW & HD) & HS & HI) v Hv HZ. pose proof HW as (Hw & Hr & Hc). rewrite Hc in *.
  assert (row : forall i, (i < 2 * m)%nat -> sumn (2 * m) (fun j => get W i j * vget v j) = 0).
  { intros i Hi. rewrite <- Hc, <- vget_mvmul by lia. rewrite HZ. apply vget_vzeros. }
  assert (two : forall c i, (c < m)%nat -> i = c \/ i = (m + c)%nat -> get W i c * vget v c + get W i (m + c) * vget v (m + c) = 0).
  { intros c i Hc' Hi. assert (Ei : (i < 2 * m /\ i mod m = c)%nat).
    { destruct Hi as [-> | ->]; split; try lia; [apply Nat.mod_small; auto|].
      replace (m + c)%nat with (c + 1 * m)%nat by lia. rewrite Nat.mod_add by lia. apply Nat.mod_small; auto. }
    destruct Ei as [Ei1 Ei2]. rewrite <- (row i Ei1). symmetry. rewrite (sumn_two (2 * m) c (m + c) (fun j => get W i j * vget v j)); [reflexivity|lia|lia|lia|].
    intros j Hj N1 N2. rewrite HD; [ring|auto|auto|]. rewrite Ei2. intro E. 
    destruct (Nat.lt_ge_cases j m) as [L|L]; [rewrite Nat.mod_small in E by auto; lia|].
    replace j with ((j - m) + 1 * m)%nat in E by lia. rewrite Nat.mod_add in E by lia. rewrite Nat.mod_small in E by lia. lia. }
  assert (sym : forall c, (c < m)%nat -> get W (m + c) c = get W c (m + c)).
  { intros c Hc'. rewrite <- HS at 1. rewrite get_tr by lia. reflexivity. }
  apply vec_ext; [rewrite length_vzeros; auto|]. intros i Hi. rewrite vget_vzeros. rewrite Hv in Hi.
  assert (both : forall c, (c < m)%nat -> vget v c = 0 /\ vget v (m + c) = 0).
  { intros c Hc'. destruct (HI c Hc') as (E1 & E2 & E3 & E4). pose proof (two c c Hc' (or_introl eq_refl)) as A1. pose proof (two c (m + c)%nat Hc' (or_intror eq_refl)) as A2.
    rewrite sym in A2 by auto. set (p := get W c c) in *. set (q := get W c (m + c)) in *. set (r := get W (m + c) (m + c)) in *.
    set (a := vget v c) in *. set (b := vget v (m + c)) in *. set (u1 := V (m + c)%nat (m + c)%nat) in *. set (u2 := V c (m + c)%nat) in *. set (u3 := V c c) in *.
    split.
    - transitivity (u1 * (p * a + q * b) + u2 * (q * a + r * b)); [|rewrite A1, A2; ring].
      transitivity ((p * u1 + q * u2) * a + (q * u1 + r * u2) * b); [rewrite E1, E3; ring|ring].
    - transitivity (u2 * (p * a + q * b) + u3 * (q * a + r * b)); [|rewrite A1, A2; ring].
      transitivity ((p * u2 + q * u3) * a + (q * u2 + r * u3) * b); [rewrite E2, E4; ring|ring]. }
  destruct (Nat.lt_ge_cases i m) as [L|L]; [apply both; auto|]. replace i with (m + (i - m))%nat by lia. apply both. lia.
Qed.

(** rows of the regressor *)
Lemma split_shape : forall T n (x : mat CK), shape x T n -> shape (split_regressor x) (2 * (n * T)) (2 * (n * n)).
Proof.
  intros T n x (Hw & Hr & Hc). unfold split_regressor, mblock, vstack2, hstack2.
  split; [apply wf_mk|]. cbn [nr nc mkron meye mk mmap mzeros]. rewrite Hr, Hc. lia.
Qed.
Lemma split_rows : forall T n (x : mat CK) v a t, shape x T n -> (a < n)%nat -> (t < T)%nat ->
  vget (mvmul (split_regressor x) v) (a * T + t) = sumn n (fun k => re (get x t k) * vget v (a * n + k)) /\
  vget (mvmul (split_regressor x) v) (n * T + (a * T + t)) = sumn n (fun k => im (get x t k) * vget v (n * n + (a * n + k))).
Proof.
  intros T n x v a t Hx Ha Ht. destruct (split_shape T n x Hx) as (_ & Br & Bc). destruct Hx as (Hw & Hr & Hc).
  pose proof (idx_bound a t n T Ha Ht) as B1.
  assert (G : forall i j, (i < 2 * (n * T))%nat -> (j < 2 * (n * n))%nat -> get (split_regressor x) i j =
    if (i <? n * T)%nat then (if (j <? n * n)%nat then (if (i / T =? j / n)%nat then re (get x (i mod T) (j mod n)) else 0) else 0)
    else (if (j <? n * n)%nat then 0 else if ((i - n * T) / T =? (j - n * n) / n)%nat then im (get x ((i - n * T) mod T) ((j - n * n) mod n)) else 0)).
  { intros i j Hi Hj. unfold split_regressor. rewrite Hr, Hc. rewrite get_mblock by (cbn; rewrite ?Hr, ?Hc; lia).
    cbn [nr nc mkron meye mk mmap]. rewrite Hr, Hc.
    destruct (Nat.ltb_spec i (n * T)); destruct (Nat.ltb_spec j (n * n)).
    - rewrite get_mkron' by (cbn; rewrite ?Hr, ?Hc; lia). cbn [nr nc mmap]. rewrite Hr, Hc.
      destruct (divmod_bound i n T ltac:(lia)) as (I1 & I2 & _). destruct (divmod_bound j n n ltac:(lia)) as (J1 & J2 & _).
      rewrite get_meye by auto. rewrite get_mmap_re by (rewrite ?Hr, ?Hc; auto). destruct (i / T =? j / n)%nat; ring.
    - unfold mzeros. rewrite get_mk by lia. reflexivity.
    - unfold mzeros. rewrite get_mk by lia. reflexivity.
    - rewrite get_mkron' by (cbn; rewrite ?Hr, ?Hc; lia). cbn [nr nc mmap]. rewrite Hr, Hc.
      destruct (divmod_bound (i - n * T) n T ltac:(lia)) as (I1 & I2 & _). destruct (divmod_bound (j - n * n) n n ltac:(lia)) as (J1 & J2 & _).
      rewrite get_meye by auto. rewrite get_mmap_im by (rewrite ?Hr, ?Hc; auto). destruct ((i - n * T) / T =? (j - n * n) / n)%nat; ring. }
  destruct (divmod_add a t T Ht) as [D1 D2].
  split; rewrite vget_mvmul by (rewrite Br; lia); rewrite Bc; replace (2 * (n * n))%nat with (n * n + n * n)%nat by lia; rewrite sumn_plus.
  - rewrite (sumn_zero (n * n) (fun i => get _ _ (n * n + i)%nat * _)).
    2:{ intros j Hj. rewrite G by lia. destruct (Nat.ltb_spec (a * T + t) (n * T)); [|lia]. destruct (Nat.ltb_spec (n * n + j) (n * n)); [lia|]. ring. }
    rewrite sumn_mul. rewrite (sumn_single n a); [|auto|].
    + transitivity (sumn n (fun k => re (get x t k) * vget v (a * n + k)) + 0); [f_equal|ring]. apply sumn_ext. intros k Hk. pose proof (idx_bound a k n n Ha Hk). rewrite G by lia.
      destruct (Nat.ltb_spec (a * T + t) (n * T)); [|lia]. destruct (Nat.ltb_spec (a * n + k) (n * n)); [|lia].
      destruct (divmod_add a k n Hk) as [-> ->]. rewrite D1, D2, Nat.eqb_refl. reflexivity.
    + intros b Hb Nb. apply sumn_zero. intros k Hk. pose proof (idx_bound b k n n Hb Hk). rewrite G by lia.
      destruct (Nat.ltb_spec (a * T + t) (n * T)); [|lia]. destruct (Nat.ltb_spec (b * n + k) (n * n)); [|lia].
      destruct (divmod_add b k n Hk) as [-> ->]. rewrite D1. destruct (Nat.eqb_spec a b); [congruence|]. ring.
  - rewrite (sumn_zero (n * n) (fun j => get _ _ j * _)).
    2:{ intros j Hj. rewrite G by lia. destruct (Nat.ltb_spec (n * T + (a * T + t)) (n * T)); [lia|]. destruct (Nat.ltb_spec j (n * n)); [|lia]. ring. }
    rewrite sumn_mul. rewrite (sumn_single n a); [|auto|].
    + transitivity (0 + sumn n (fun k => im (get x t k) * vget v (n * n + (a * n + k)))); [f_equal|ring]. apply sumn_ext. intros k Hk. pose proof (idx_bound a k n n Ha Hk). rewrite G by lia.
      destruct (Nat.ltb_spec (n * T + (a * T + t)) (n * T)); [lia|]. destruct (Nat.ltb_spec (n * n + (a * n + k)) (n * n)); [lia|].
      rewrite !Nat.add_comm with (n := (n * n)%nat), !Nat.add_comm with (n := (n * T)%nat), !Nat.add_sub.
      destruct (divmod_add a k n Hk) as [-> ->]. rewrite D1, D2, Nat.eqb_refl. reflexivity.
    + intros b Hb Nb. apply sumn_zero. intros k Hk. pose proof (idx_bound b k n n Hb Hk). rewrite G by lia.
      destruct (Nat.ltb_spec (n * T + (a * T + t)) (n * T)); [lia|]. destruct (Nat.ltb_spec (n * n + (b * n + k)) (n * n)); [lia|].
      rewrite !Nat.add_comm with (n := (n * n)%nat), !Nat.add_comm with (n := (n * T)%nat), !Nat.add_sub.
      destruct (divmod_add b k n Hk) as [-> ->]. rewrite D1. destruct (Nat.eqb_spec a b); [congruence|]. ring.
Qed.
Lemma split_inj : forall T n (x : mat CK), (0 < n)%nat -> shape x T n ->
  inj (split_regressor x) <-> independent_columns T n (fun t k => re (get x t k)) /\ independent_columns T n (fun t k => im (get x t k)).
Proof.
  intros T n x Hn Hx. destruct (split_shape T n x Hx) as (_ & Br & Bc). split.
  - intros H. assert (P : forall v : nat -> K, (forall a t, (a < n)%nat -> (t < T)%nat -> sumn n (fun k => re (get x t k) * v (a * n + k)%nat) = 0) ->
      (forall a t, (a < n)%nat -> (t < T)%nat -> sumn n (fun k => im (get x t k) * v (n * n + (a * n + k))%nat) = 0) -> forall i, (i < 2 * (n * n))%nat -> v i = 0).
    { intros v E1 E2 i Hi. rewrite <- (vget_mkv (2 * (n * n)) v i Hi). rewrite (H (mkv (2 * (n * n)) v)); [apply vget_vzeros|rewrite length_mkv; auto|].
      apply vec_ext; [rewrite length_mvmul, length_vzeros; auto|]. intros r Hr. rewrite length_mvmul, Br in Hr. rewrite vget_vzeros.
      destruct (Nat.lt_ge_cases r (n * T)) as [L|L].
      - destruct (divmod_bound r n T L) as (A & B & ->). rewrite (proj1 (split_rows T n x _ _ _ Hx A B)). rewrite <- (E1 _ _ A B). apply sumn_ext. intros k Hk.
        pose proof (idx_bound (r / T) k n n A Hk). rewrite vget_mkv by lia. reflexivity.
      - replace r with (n * T + (r - n * T))%nat by lia. destruct (divmod_bound (r - n * T) n T ltac:(lia)) as (A & B & ->).
        rewrite (proj2 (split_rows T n x _ _ _ Hx A B)). rewrite <- (E2 _ _ A B). apply sumn_ext. intros k Hk.
        pose proof (idx_bound ((r - n * T) / T) k n n A Hk). rewrite vget_mkv by lia. reflexivity. }
    split; intros u E k Hk.
    + specialize (P (fun i => if (i <? n)%nat then u i else 0)). cbv beta in P. assert (Z := P). clear P.
      assert (Q : (if (k <? n)%nat then u k else 0) = 0).
      { apply Z; [| |nia].
        - intros a t Ha Ht. destruct (Nat.eq_dec a 0) as [->|Na].
          + rewrite <- (E t Ht). apply sumn_ext. intros j Hj. cbn [Nat.mul Nat.add]. destruct (Nat.ltb_spec j n); [reflexivity|lia].
          + apply sumn_zero. intros j Hj. destruct (Nat.ltb_spec (a * n + j) n); [nia|ring].
        - intros a t Ha Ht. apply sumn_zero. intros j Hj. destruct (Nat.ltb_spec (n * n + (a * n + j)) n); [nia|ring]. }
      destruct (Nat.ltb_spec k n); [exact Q|lia].
    + specialize (P (fun i => if (n * n <=? i)%nat then if (i <? n * n + n)%nat then u (i - n * n)%nat else 0 else 0)). cbv beta in P.
      assert (Q : (if (n * n <=? n * n + k)%nat then if (n * n + k <? n * n + n)%nat then u (n * n + k - n * n)%nat else 0 else 0) = 0).
      { apply P; [| |nia].
        - intros a t Ha Ht. apply sumn_zero. intros j Hj. pose proof (idx_bound a j n n Ha Hj). destruct (Nat.leb_spec (n * n) (a * n + j)); [lia|ring].
        - intros a t Ha Ht. destruct (Nat.eq_dec a 0) as [->|Na].
          + rewrite <- (E t Ht). apply sumn_ext. intros j Hj. cbn [Nat.mul Nat.add]. destruct (Nat.leb_spec (n * n) (n * n + j)); [|lia]. destruct (Nat.ltb_spec (n * n + j) (n * n + n)); [|lia].
            rewrite Nat.add_comm, Nat.add_sub. reflexivity.
          + apply sumn_zero. intros j Hj. destruct (Nat.leb_spec (n * n) (n * n + (a * n + j))); [|lia]. destruct (Nat.ltb_spec (n * n + (a * n + j)) (n * n + n)); [nia|ring]. }
      destruct (Nat.leb_spec (n * n) (n * n + k)); [|lia]. destruct (Nat.ltb_spec (n * n + k) (n * n + n)); [|lia]. rewrite Nat.add_comm, Nat.add_sub in Q. exact Q.
  - intros [H1 H2] v Hv HZ. rewrite Bc in *. apply vec_ext; [rewrite length_vzeros; auto|]. intros i Hi. rewrite vget_vzeros. rewrite Hv in Hi.
    destruct (Nat.lt_ge_cases i (n * n)) as [L|L].
    + destruct (divmod_bound i n n L) as (A & B & ->). apply (H1 (fun k => vget v (i / n * n + k))); [|auto]. intros t Ht.
      rewrite <- (proj1 (split_rows T n x v _ _ Hx A Ht)). rewrite HZ. apply vget_vzeros.
    + replace i with (n * n + (i - n * n))%nat by lia. destruct (divmod_bound (i - n * n) n n ltac:(lia)) as (A & B & ->).
      apply (H2 (fun k => vget v (n * n + ((i - n * n) / n * n + k)))); [|auto]. intros t Ht.
      rewrite <- (proj2 (split_rows T n x v _ _ Hx A Ht)). rewrite HZ. apply vget_vzeros.
Qed.
End Gen.

Section Ord.
Context {K : Type} {O : Ops K} {F : Fld K} {O2 : OrdOps K} {OF : OrdFld K}.
Notation CK := (cplx K).
Add Field Kfld2 : (@k_field K O F).

Lemma psd_null : forall m (W : mat K) v, psd m W -> length v = m -> vdot v (mvmul W v) = 0 -> mvmul W v = vzeros m.
Proof.
  intros m W v (HW & HS & HP) Hv HQ. pose proof HW as (Hw & Hr & Hc). set (u := mvmul W v).
  assert (Lu : length u = m) by (unfold u; rewrite length_mvmul; auto).
  assert (Z : vdot u u = 0).
  { destruct (k_eq_dec (vdot u u) 0) as [E|N]; [exact E|exfalso].
    pose proof k2_neq0 as two.
    set (a := vdot u (mvmul W u)). set (b := vdot u u) in *. set (t := - (a + 1) / ((1 + 1) * b)).
    assert (Lw : length (vadd (vscal t v) u) = m) by (rewrite length_vadd, length_vscal; auto).
    pose proof (HP (vadd (vscal t v) u) Lw) as P.
    rewrite mvmul_vadd, mvmul_vscal in P by (rewrite ?length_vscal; lia). fold u in P.
    rewrite vdot_vadd_l in P by (rewrite length_vscal; lia).
    rewrite !vdot_vadd_r in P by (rewrite ?length_vscal, ?length_mvmul; lia).
    rewrite !vdot_vscal_l, !vdot_vscal_r in P by lia. fold u in HQ. rewrite HQ in P.
    replace (vdot v (mvmul W u)) with b in P by (unfold b, u at 1; rewrite (sym_bil W m) by auto; reflexivity).
    fold a b in P.
    replace (t * (t * 0) + t * b + (t * b + a)) with (- (1 : K)) in P by (unfold t; field; auto).
    apply (proj1 (klt_spec _ _) klt_01). apply (proj2 (kle_sub _ _)). replace (0 - 1) with (- (1 : K)) by ring. exact P. }
  apply vec_ext; [rewrite length_vzeros; auto|]. intros i Hi. rewrite vget_vzeros. apply sqr_zero.
  apply (sumn_nonneg_zero (length u) (fun j => vget u j * vget u j)); auto. intros; apply kle_sqr.
Qed.
(** the computed matrix is regular exactly if the regressor is injective *)
Lemma gram_inj : forall m p (W B : mat K), psd m W -> inj W -> shape B m p -> inj (mmul (tr B) (mmul W B)) <-> inj B.
Proof.
  intros m p W B HW HI HB. pose proof HW as (HWs & _). pose proof HWs as (_ & Wr & Wc). pose proof HB as (_ & Br & Bc).
  assert (E : forall v, length v = p -> mvmul (mmul (tr B) (mmul W B)) v = mvmul (tr B) (mvmul W (mvmul B v))).
  { intros v Hv. rewrite !mvmul_assoc by (cbn [nr nc mmul tr mtr mk]; lia). reflexivity. }
  split; intros H v Hv HZ.
  - apply H; [cbn [nc mmul mk]; auto|]. cbn [nr nc mmul tr mtr mk]. rewrite E by (rewrite Hv, Bc; auto). rewrite HZ, mvmul_vzeros, mvmul_vzeros. cbn [nr tr mtr mk]. reflexivity.
  - cbn [nr nc mmul tr mtr mk] in *. rewrite Bc in *. rewrite <- Bc. apply H; [lia|]. rewrite Br.
    assert (L : length (mvmul B v) = m) by (rewrite length_mvmul; auto).
    assert (Q : mvmul W (mvmul B v) = vzeros m).
    { apply psd_null; auto. rewrite vdot_comm by (rewrite !length_mvmul; lia). rewrite vdot_mvmul by (rewrite ?length_mvmul; lia). rewrite <- E by auto. rewrite HZ. apply sumn_zero. intros i Hi. rewrite vget_vzeros. ring. }
    rewrite <- Wc. apply HI; [rewrite Wc; auto|rewrite Wr; auto].
Qed.
Theorem p_fisher_regular : forall T n (x z Y : mat CK) X Z, (0 < n * T)%nat -> shape x T n -> shape Y n n -> psd (2 * (n * T)) X -> pdef (2 * (n * T)) Z ->
  exists W, psd (2 * (n * T)) W /\ swapped_inverse (n * T) (used_cov T n Y X Z) W /\ let G := mmul (tr (split_regressor x)) (mmul W (split_regressor x)) in
  psd (2 * (n * n)) G /\
  ((independent_columns T n (fun t k => re (get x t k)) /\ independent_columns T n (fun t k => im (get x t k)) ->
    exists C, fisher_info x z (Some X) (Some Z) Y = Ok (Info G C) /\ shape C (2 * (n * n)) (2 * (n * n)) /\ mmul G C = meye (2 * (n * n))) /\
   (~ (independent_columns T n (fun t k => re (get x t k)) /\ independent_columns T n (fun t k => im (get x t k))) ->
    fisher_info x z (Some X) (Some Z) Y = Err LinAlgError)).
Proof.
  intros T n x z Y X Z Hp Hx HY HX HZ. destruct (p_fisher_pdef T n x z Y X Z Hp Hx HY HX HZ) as (W & HWp & HW & HG & E).
  exists W. split; [auto|]. split; [auto|]. cbv zeta. split; [exact HG|]. rewrite E. pose proof HG as (HGs & _). pose proof HGs as (HGw & _).
  assert (Hn : (0 < n)%nat) by (destruct n; lia).
  assert (I : inj (mmul (tr (split_regressor x)) (mmul W (split_regressor x))) <->
    independent_columns T n (fun t k => re (get x t k)) /\ independent_columns T n (fun t k => im (get x t k))).
  { rewrite (gram_inj (2 * (n * T)) (2 * (n * n)) W); [apply split_inj; auto|auto|exact (swapped_inj (n * T) _ W Hp HW)|apply split_shape; auto]. }
  split; intros D.
  - destruct (inj_kinverse _ _ HGs (proj2 I D)) as (C & EC). exists C. rewrite EC. cbn [bind]. destruct (kinverse_sound _ _ _ HGs EC) as (S & S1 & _). auto.
  - destruct (kinverse (mmul (tr (split_regressor x)) (mmul W (split_regressor x)))) as [C|e] eqn:EC; [exfalso|cbn [bind]; rewrite (kinverse_err _ e EC HGw); reflexivity].
    apply D, (proj1 I). destruct (kinverse_sound _ _ _ HGs EC) as (S & _ & S2). exact (left_inverse_inj _ _ _ _ HGs S S2).
Qed.
End Ord.
