(** Total least squares on noise-free data. *)
From Coq Require Import Arith Lia List.
From Coq Require Import Ring Field.
From Verif Require Import BasePy BaseFld BaseOrd BaseSum BaseMat BaseLin SpecMatrix ModelLS SpecLS ProofLS.
Import ListNotations.
Local Open Scope K_scope.

Section TLS.
Context {K : Type} {O : Ops K} {F : Fld K} {O2 : OrdOps K} {OF : OrdFld K}.
Notation CK := (cplx K).
Add Field Kfld4 : (@k_field K O F).
Add Field CKfld4 : (@k_field CK _ _).
Local Arguments kmul : simpl never.
Local Arguments kadd : simpl never.
Local Arguments ksub : simpl never.
Local Arguments kopp : simpl never.
Local Arguments k0 : simpl never.
Local Arguments k1 : simpl never.

Lemma cre_zero : forall x : K, cre x = 0 :> CK -> x = 0.
Proof. intros x H. exact (f_equal re H). Qed.

(** padding with zeros *)
Definition pad (n : nat) (w : list CK) : list CK := w ++ vzeros (n - length w).
Lemma length_pad : forall n w, (length w <= n)%nat -> length (pad n w) = n.
Proof. intros. unfold pad. rewrite app_length, length_vzeros. lia. Qed.
Lemma vget_pad : forall n w i, vget (pad n w) i = vget w i.
Proof.
  intros n w i. unfold pad, vget. destruct (Nat.lt_ge_cases i (length w)).
  - rewrite app_nth1; auto.
  - rewrite app_nth2 by auto. rewrite (nth_overflow w) by auto. apply vget_vzeros.
Qed.

(** singular values beyond the rank of a factored matrix are zero *)
Lemma svd_rank : forall T n m (g a x u vh : mat CK) s,
  is_svd T m a u s vh -> a = mmul x g -> shape x T n -> shape g n m ->
  forall j, (n <= j)%nat -> (j < length s)%nat -> vget s j = 0.
Proof.
  intros T n m g a x u vh s (Sa & Su & Sv & Uu & V1 & V2 & Ls & Sp & Sd & Ea) Ex Sx Sg j Hj Hl.
  pose proof Sa as (Wa & Ra & Ca). pose proof Su as (Wu & Ru & Cu). pose proof Sv as (Wv & Rv & Cv).
  pose proof Sx as (Wx & Rx & Cx_). pose proof Sg as (Wg & Rg & Cg).
  destruct (k_eq_dec (vget s j) 0) as [|Nz]; auto. exfalso.
  (* the first n+1 right singular vectors cannot be separated by g *)
  set (v := ctr vh) in *. assert (Svv : shape v m m) by (apply shape_ctr; auto). pose proof Svv as (Wvv & Rvv & Cvv).
  set (H := mk n (S n) (fun i k => get (mmul g v) i k)).
  destruct (wide_kernel H n (S n) (shape_mk _ _ _) ltac:(lia)) as (w & Lw & Nw & Zw).
  set (w' := pad m w). assert (Lw' : length w' = m) by (apply length_pad; lia).
  assert (Z1 : mvmul (mmul g v) w' = vzeros n).
  { apply vec_ext; [rewrite length_mvmul, length_vzeros; simpl; auto|]. intros i Hi. rewrite length_mvmul in Hi. simpl in Hi.
    rewrite vget_vzeros, vget_mvmul by (simpl; auto). change (nc (mmul g v)) with (nc v).
    apply (f_equal (fun z => vget z i)) in Zw. rewrite vget_vzeros in Zw. rewrite vget_mvmul in Zw by (simpl; lia).
    unfold H in Zw. rewrite nc_mk in Zw. rewrite Cvv.
    replace m with (S n + (m - S n))%nat by lia. rewrite sumn_plus.
    rewrite (sumn_ext (S n) _ (fun k => get (mk n (S n) (fun i k => get (mmul g v) i k)) i k * vget w k)).
    - rewrite Zw. rewrite sumn_zero; [ring|]. intros k Hk. unfold w'. rewrite vget_pad. rewrite (vget_oob w) by lia. ring.
    - intros k Hk. unfold w'. rewrite vget_pad. rewrite get_mk by lia. auto. }
  (* so the data matrix maps them to zero *)
  assert (Z2 : mvmul a (mvmul v w') = vzeros T).
  { rewrite Ex, mvmul_assoc by congruence. rewrite <- (mvmul_assoc g v) by congruence. rewrite Z1. rewrite mvmul_vzeros. congruence. }
  (* while the decomposition scales them by non-zero singular values *)
  assert (Z3 : mvmul (sigma T m s) w' = vzeros T).
  { rewrite Ea in Z2. rewrite mvmul_assoc in Z2 by (simpl; auto). rewrite mvmul_assoc in Z2 by (simpl; auto).
    rewrite <- (mvmul_assoc vh v) in Z2 by congruence. rewrite V2 in Z2.
    rewrite <- Lw' in Z2 at 2. rewrite mvmul_1 in Z2.
    assert (Iu : inj u) by (apply (left_inverse_inj u (ctr u) T T); auto; apply shape_ctr; auto).
    rewrite <- Cu at 2. apply Iu; [rewrite length_mvmul; simpl; auto|congruence]. }
  apply Nw. apply vec_ext; [rewrite length_vzeros; auto|]. intros i Hi. rewrite Lw in Hi. rewrite vget_vzeros.
  apply (f_equal (fun z => vget z i)) in Z3. rewrite vget_vzeros in Z3.
  assert (i < T)%nat by lia.
  rewrite vget_mvmul in Z3 by (simpl; lia). simpl in Z3.
  rewrite (sumn_single m i) in Z3; [|lia|].
  - unfold sigma in Z3. rewrite get_mk in Z3 by lia. rewrite Nat.eqb_refl in Z3. unfold w' in Z3. rewrite vget_pad in Z3.
    apply kmul_integral in Z3. destruct Z3 as [Z3|Z3]; auto. exfalso. apply cre_zero in Z3.
    (* s_i = 0 but s_i >= s_j > 0 *)
    apply Nz. apply kle_antisym; auto. rewrite <- Z3 at 1. apply Sd; lia.
  - intros k Hk Hne. unfold sigma. rewrite get_mk by lia. destruct (i =? k)%nat eqn:Ei; [apply Nat.eqb_eq in Ei; congruence|]. ring.
Qed.

(** the corresponding right singular vectors span the kernel *)
Lemma svd_kernel : forall T n m (a u vh : mat CK) s,
  is_svd T m a u s vh -> (forall j, (n <= j)%nat -> (j < length s)%nat -> vget s j = 0) ->
  forall i j, (i < T)%nat -> (n <= j)%nat -> (j < m)%nat -> get (mmul a (ctr vh)) i j = 0.
Proof.
  intros T n m a u vh s (Sa & Su & Sv & Uu & V1 & V2 & Ls & Sp & Sd & Ea) Z i j Hi Hj Hm.
  pose proof Su as (Wu & Ru & Cu). pose proof Sv as (Wv & Rv & Cv).
  assert (E : mmul a (ctr vh) = mmul u (sigma T m s)).
  { rewrite Ea. rewrite mmul_assoc by (simpl; congruence). f_equal. rewrite mmul_assoc by (simpl; congruence). rewrite V2. apply mmul_1_r'; [apply wf_mk|auto]. }
  rewrite E. rewrite get_mmul by (simpl; lia). rewrite Cu. apply sumn_zero. intros k Hk. unfold sigma. rewrite get_mk by lia.
  destruct (k =? j)%nat eqn:Ek.
  - apply Nat.eqb_eq in Ek. subst k. rewrite Z by lia. change (cre 0) with (0 : CK). ring.
  - ring.
Qed.

Lemma tls_core : forall T n m (x y : mat CK) (u vh : mat CK) s,
  shape x T n -> shape y n m -> inj x ->
  is_svd T (n + m) (hstack2 x (mmul x y)) u s vh ->
  let v := ctr vh in
  let v_xy := mslice v 0 n n (n + m) in let v_yy := mslice v n (n + m) n (n + m) in
  inj v_yy /\ v_xy = mopp (mmul y v_yy).
Proof.
  intros T n m x y u vh s Sx Sy I Sv v v_xy v_yy.
  pose proof Sx as (Wx & Rx & Cx_). pose proof Sy as (Wy & Ry & Cy).
  pose proof Sv as (Sa & Su & Svh & Uu & V1 & V2 & _).
  pose proof Svh as (Wv & Rv & Cv).
  set (g := hstack2 (meye n) y : mat CK).
  assert (Sg : shape g n (n + m)) by (unfold g, hstack2; simpl; rewrite Cy; apply shape_mk).
  assert (Eg : hstack2 x (mmul x y) = mmul x g).
  { apply (gshape_ext _ _ T (n + m) Sa); [apply (shape_mmul x g T n (n + m)); auto; destruct Sg as (_ & _ & ?); auto|].
    intros i j Hi Hj. pose proof Sg as (_ & _ & Cg). rewrite get_mmul by lia. unfold hstack2. rewrite get_mk by (simpl; lia).
    destruct (j <? nc x)%nat eqn:Ej.
    - apply Nat.ltb_lt in Ej. rewrite (sumn_single (nc x) j) by (first [lia | intros k Hk Hne; unfold g, hstack2; rewrite get_mk by (simpl; lia);
        rewrite (proj2 (Nat.ltb_lt j (nc (meye n)))) by (simpl; lia); rewrite get_meye by lia; destruct (k =? j)%nat eqn:Ek; [apply Nat.eqb_eq in Ek; lia|ring]]).
      unfold g, hstack2. rewrite get_mk by (simpl; lia). rewrite (proj2 (Nat.ltb_lt j (nc (meye n)))) by (simpl; lia).
      rewrite get_meye by lia. rewrite Nat.eqb_refl. ring.
    - apply Nat.ltb_ge in Ej. rewrite get_mmul by lia. apply sumn_ext. intros k Hk. unfold g, hstack2. rewrite get_mk by (simpl; lia).
      rewrite (proj2 (Nat.ltb_ge j (nc (meye n)))) by (simpl; lia). simpl. rewrite Cx_. auto. }
  assert (Zs := svd_rank T n (n + m) g _ x u vh s Sv Eg Sx Sg).
  assert (Zk := svd_kernel T n (n + m) _ u vh s Sv Zs).
  assert (Svv : shape v (n + m) (n + m)) by (apply shape_ctr; auto). pose proof Svv as (Wvv & Rvv & Cvv).
  (* x (v_xy + y v_yy) = 0 *)
  assert (Exy : v_xy = mopp (mmul y v_yy)).
  { assert (Sxy : shape v_xy n m) by (unfold v_xy, mslice; replace (n + m - n)%nat with m by lia; replace (n - 0)%nat with n by lia; apply shape_mk).
    assert (Syy : shape v_yy m m) by (unfold v_yy, mslice; replace (n + m - n)%nat with m by lia; apply shape_mk).
    pose proof Sxy as (Wxy & Rxy & Cxy). pose proof Syy as (Wyy & Ryy & Cyy).
    assert (So : shape (mopp (mmul y v_yy)) n m) by (split; [apply wf_mk|split; [exact Ry|exact Cyy]]).
    apply (inj_mcancel x _ _ T n m I Sx Sxy So).
    apply (gshape_ext _ _ T m); [apply (shape_mmul x v_xy T n m); auto|apply (shape_mmul x (mopp (mmul y v_yy)) T n m); auto|].
    intros i j Hi Hj. specialize (Zk i (n + j)%nat Hi ltac:(lia) ltac:(lia)). fold v in Zk.
    rewrite Eg in Zk. rewrite mmul_assoc in Zk by (destruct Sg as (_ & ? & ?); congruence).
    rewrite get_mmul in Zk by (simpl; lia). rewrite !get_mmul by (simpl; lia).
    apply ksub_eq0. rewrite <- sumn_sub. etransitivity; [|exact Zk]. apply sumn_ext. intros k Hk.
    destruct Sg as (_ & Rg & Cg). rewrite get_mmul by lia. rewrite Cg, sumn_plus.
    rewrite (sumn_single n k) by (first [lia | intros l Hl Hne; unfold g, hstack2; rewrite get_mk by (simpl; lia);
       rewrite (proj2 (Nat.ltb_lt l (nc (meye n)))) by (simpl; lia); rewrite get_meye by lia; destruct (k =? l)%nat eqn:Ek; [apply Nat.eqb_eq in Ek; lia|ring]]).
    unfold g at 1. unfold hstack2. rewrite get_mk by (simpl; lia). rewrite (proj2 (Nat.ltb_lt k (nc (meye n)))) by (simpl; lia).
    rewrite get_meye by lia. rewrite Nat.eqb_refl.
    rewrite get_mopp by (simpl; lia). rewrite get_mmul by (simpl; lia). rewrite Cy.
    rewrite (sumn_ext m (fun l => get g k (n + l) * get v (n + l) (n + j)) (fun l => get y k l * get v_yy l j)).
    - unfold v_xy, mslice. rewrite get_mk by lia. simpl. ring.
    - intros l Hl. unfold g, hstack2. rewrite get_mk by (simpl; lia). rewrite (proj2 (Nat.ltb_ge (n + l) (nc (meye n)))) by (simpl; lia). simpl.
      replace (n + l - n)%nat with l by lia. unfold v_yy, mslice. rewrite get_mk by lia. auto. }
  split; [|exact Exy].
  (* v_yy w = 0 -> v_xy w = 0 -> v (0,w) = 0 -> w = 0 *)
  intros w Lw Zw. simpl in Lw, Zw. replace (n + m - n)%nat with m in * by lia.
  set (w' := vzeros n ++ w : list CK). assert (Lw' : length w' = (n + m)%nat) by (unfold w'; rewrite app_length, length_vzeros; lia).
  assert (Gw : forall k, vget w' (n + k) = vget w k).
  { intro k. unfold vget, w'. rewrite app_nth2 by (rewrite length_vzeros; lia). rewrite length_vzeros. f_equal. lia. }
  assert (Gz : forall k, (k < n)%nat -> vget w' k = 0).
  { intros k Hk. unfold vget, w'. rewrite app_nth1 by (rewrite length_vzeros; lia). apply vget_vzeros. }
  assert (Vw : mvmul v w' = vzeros (n + m)).
  { apply vec_ext; [rewrite length_mvmul, length_vzeros; auto|]. intros i Hi. rewrite length_mvmul in Hi. rewrite vget_vzeros, vget_mvmul by auto.
    rewrite Cvv, sumn_plus. rewrite sumn_zero by (intros k Hk; rewrite Gz by auto; ring).
    assert (Hyy : forall l, (l < m)%nat -> sumn m (fun k => get v (n + l) (n + k) * vget w k) = 0).
    { intros l Hl. apply (f_equal (fun z => vget z l)) in Zw. rewrite vget_vzeros in Zw. unfold v_yy in Zw.
      rewrite vget_mvmul in Zw by (simpl; lia). unfold mslice in Zw. rewrite nc_mk in Zw. replace (n + m - n)%nat with m in Zw by lia.
      etransitivity; [|exact Zw]. apply sumn_ext. intros k Hk. rewrite get_mk by lia. auto. }
    destruct (Nat.lt_ge_cases i n) as [Hn|Hn].
    - assert (Hx : sumn m (fun k => get v_xy i k * vget w k) = 0).
      { rewrite Exy. rewrite (sumn_ext m _ (fun k => - sumn m (fun l => get y i l * (get v (n + l) (n + k) * vget w k)))).
        - rewrite sumn_opp, sumn_swap. rewrite sumn_zero; [ring|]. intros l Hl. rewrite sumn_scal_l, Hyy by auto. ring.
        - intros k Hk. rewrite get_mopp by (simpl; lia). rewrite get_mmul by (simpl; lia). rewrite Cy.
          rewrite (sumn_ext m (fun l => get y i l * (get v (n + l) (n + k) * vget w k)) (fun l => get y i l * get v_yy l k * vget w k)).
          + rewrite sumn_scal_r. ring.
          + intros l Hl. unfold v_yy, mslice. rewrite get_mk by lia. ring. }
      rewrite (sumn_ext m _ (fun k => get v_xy i k * vget w k)); [rewrite Hx; ring|].
      intros k Hk. rewrite Gw. unfold v_xy, mslice. rewrite get_mk by lia. auto.
    - replace i with (n + (i - n))%nat by lia. rewrite (sumn_ext m _ (fun k => get v (n + (i - n)) (n + k) * vget w k)) by (intros; rewrite Gw; auto).
      rewrite Hyy by lia. ring. }
  assert (Iv : inj v).
  { apply (left_inverse_inj v vh (n + m) (n + m)); auto. }
  assert (W0 : w' = vzeros (n + m)).
  { rewrite <- Cvv. apply Iv; [congruence|]. rewrite Rvv. auto. }
  simpl. replace (n + m - n)%nat with m by lia. apply vec_ext; [rewrite length_vzeros; auto|]. intros i Hi. rewrite <- Gw, W0, !vget_vzeros. auto.
Qed.

Lemma p_tls_exact : forall svd T n m (x y : mat CK),
  shape x T n -> shape y n m -> inj x ->
  (let '(u, s, vh) := svd (hstack2 x (mmul x y)) in is_svd T (n + m) (hstack2 x (mmul x y)) u s vh) ->
  tls_fit svd x (A2 (mmul x y)) = Ok (if (1 <? m)%nat then A2 y else A1 (concat (dat y))).
Proof.
  intros svd T n m x y Sx Sy I Sv. pose proof Sx as (Wx & Rx & Cx_). pose proof Sy as (Wy & Ry & Cy).
  unfold tls_fit, np_block2. change (nr (mmul x y)) with (nr x). rewrite Nat.eqb_refl. cbn [bind].
  destruct (svd (hstack2 x (mmul x y))) as [[u s] vh].
  destruct (tls_core T n m x y u vh s Sx Sy I Sv) as [Iy Exy].
  destruct Sv as (_ & _ & (Wv & Rv & Cv) & _).
  change (mk (nc vh) (nr vh) (fun i j => conj (get vh j i))) with (ctr vh).
  assert (Nv : nr (ctr vh) = (n + m)%nat /\ nc (ctr vh) = (n + m)%nat) by (unfold ctr; simpl; auto). destruct Nv as [Rvv Cvv].
  rewrite Rvv, Cvv, Cx_.
  set (v_yy := mslice (ctr vh) n (n + m) n (n + m)) in *. set (v_xy := mslice (ctr vh) 0 n n (n + m)) in *.
  assert (Syy : shape v_yy m m) by (unfold v_yy, mslice; replace (n + m - n)%nat with m by lia; apply shape_mk).
  pose proof Syy as (Wyy & Ryy & Cyy).
  destruct (inj_kinverse v_yy m Syy Iy) as [b Eb]. rewrite Eb. cbn [bind].
  destruct (kinverse_sound v_yy m b Syy Eb) as (Sb & E1 & E2). pose proof Sb as (Wb & Rb & Cb).
  unfold matmul. assert (Nc : nc (mopp v_xy) = nr b) by (unfold v_xy; simpl; lia). rewrite Nc, Nat.eqb_refl. cbn [bind].
  assert (Ebeta : mmul (mopp v_xy) b = y).
  { rewrite Exy. rewrite mmul_mopp_l, mmul_mopp_l. rewrite mmul_assoc by congruence. rewrite E1. rewrite mmul_1_r' by auto.
    apply gmat_ext; try apply wf_mk; auto. simpl. intros i j Hi Hj. rewrite !get_mopp by (simpl; auto). ring. }
  rewrite Ebeta, Cy. reflexivity.
Qed.

(** a single output given as a 1-D array *)
Lemma p_tls_exact_1d : forall svd T n (x : mat CK) (y : list CK),
  shape x T n -> length y = n -> inj x ->
  (let '(u, s, vh) := svd (hstack2 x (colm (mvmul x y))) in is_svd T (n + 1) (hstack2 x (colm (mvmul x y))) u s vh) ->
  tls_fit svd x (A1 (mvmul x y)) = Ok (A1 y).
Proof.
  intros svd T n x y Sx Ly I Sv. pose proof Sx as (Wx & Rx & Cx_).
  assert (Sy : shape (colm y) n 1) by (unfold colm; rewrite Ly; apply shape_mk).
  assert (Ec : colm (mvmul x y) = mmul x (colm y)).
  { apply gmat_ext; try apply wf_mk; auto; [simpl; apply length_mvmul|]. simpl. rewrite length_mvmul. intros i j Hi Hj.
    unfold colm at 1. rewrite get_mk by (rewrite ?length_mvmul; lia). rewrite vget_mvmul by auto. rewrite get_mmul by (simpl; lia).
    apply sumn_ext. intros k Hk. unfold colm. rewrite get_mk by lia. auto. }
  rewrite Ec in Sv. generalize (p_tls_exact svd T n 1 x (colm y) Sx Sy I Sv). cbn [Nat.ltb Nat.leb]. intro H.
  unfold tls_fit in *. rewrite <- Ec in H. rewrite H. do 2 f_equal.
  transitivity (map (vget y) (range (length y))); [|symmetry; apply vec_eta].
  unfold colm, mk. cbn [dat]. generalize (range (length y)). induction l as [|a l IH]; [reflexivity|]. cbn [map concat]. rewrite IH. reflexivity.
Qed.
End TLS.
