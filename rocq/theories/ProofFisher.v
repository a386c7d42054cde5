(** Proofs about the Fisher information. *)
From Coq Require Import Arith ZArith Lia List Bool Ring Field.
From Verif Require Import BasePy BaseFld BaseSum BaseMat BaseNumpy BaseOrd BaseLin ModelMatrixOps SpecMatrix
  ProofRagged ProofMatrixOps ModelFit SpecFit ProofFitOpt ModelFisher SpecFisher.
Import ListNotations.
Local Open Scope K_scope.

Section Gen.
Context {K : Type} {O : Ops K} {F : Fld K}.
Notation CK := (cplx K).
Add Field Kfld : (@k_field K O F).

(** ** Permutation of rows and columns *)
Lemma fi_idxs_nth : forall T n k a, (k < T)%nat -> (a < 2 * n)%nat -> nth (k * (2 * n) + a) (fi_idxs T n) 0%nat = (a * T + k)%nat.
Proof.
  intros T n k a Hk Ha.
  change (fi_idxs T n) with (ragged (fun _ => (2 * n)%nat) T (fun k ii => (ii * T + k)%nat)).
  rewrite <- (off_const (2 * n) k). rewrite ragged_nth by auto. reflexivity.
Qed.

Lemma place_lt : forall T n c, (c < 2 * n * T)%nat -> (place T n c < 2 * n * T)%nat.
Proof.
  intros T n c Hc. destruct (divmod_bound c (2 * n) T Hc) as (H1 & H2 & H3). unfold place.
  pose proof (idx_bound (c mod T) (c / T) T (2 * n) H2 H1). lia.
Qed.
Lemma place_inv : forall T n c, (c < 2 * n * T)%nat -> nth (place T n c) (fi_idxs T n) 0%nat = c.
Proof.
  intros T n c Hc. destruct (divmod_bound c (2 * n) T Hc) as (H1 & H2 & H3). unfold place.
  rewrite fi_idxs_nth by auto. lia.
Qed.
Lemma idxs_place : forall T n r c, (r < 2 * n * T)%nat -> nth r (fi_idxs T n) 0%nat = c -> r = place T n c.
Proof.
  intros T n r c Hr E. assert (Hr' : (r < T * (2 * n))%nat) by lia.
  destruct (divmod_bound r T (2 * n) Hr') as (H1 & H2 & H3). rewrite H3 in E. rewrite fi_idxs_nth in E by auto.
  subst c. unfold place. destruct (divmod_add (r mod (2 * n)) (r / (2 * n)) T H1) as [-> ->]. lia.
Qed.
Lemma idxs_lt : forall T n r, (r < 2 * n * T)%nat -> (nth r (fi_idxs T n) 0 < 2 * n * T)%nat.
Proof.
  intros T n r Hr. assert (Hr' : (r < T * (2 * n))%nat) by lia.
  destruct (divmod_bound r T (2 * n) Hr') as (H1 & H2 & H3). rewrite H3 at 1. rewrite fi_idxs_nth by auto.
  apply idx_bound; auto.
Qed.

Lemma get_perm : forall T n r c, (r < 2 * n * T)%nat -> (c < 2 * n * T)%nat ->
  get (fi_perm T n : mat K) r c = if (nth r (fi_idxs T n) 0 =? c)%nat then 1 else 0.
Proof. intros. unfold fi_perm. rewrite get_mk by auto. reflexivity. Qed.

Lemma perm_both : forall T n (M : mat K) r r', shape M (2 * n * T) (2 * n * T) -> (r < 2 * n * T)%nat -> (r' < 2 * n * T)%nat ->
  get (mmul (mmul (fi_perm T n) M) (tr (fi_perm T n))) r r' = get M (nth r (fi_idxs T n) 0%nat) (nth r' (fi_idxs T n) 0%nat).
Proof.
  intros T n M r r' (Hw & HR & HC) Hr Hr'. set (N := (2 * n * T)%nat) in *.
  rewrite get_mmul by (cbn; auto). cbn [nc mmul mk]. rewrite HC.
  rewrite (sumn_single N (nth r' (fi_idxs T n) 0%nat)); [| apply idxs_lt; auto |].
  - rewrite get_mmul by (cbn; try rewrite HC; auto; apply idxs_lt; auto). change (nc (fi_perm T n : mat K)) with N.
    rewrite (sumn_single N (nth r (fi_idxs T n) 0%nat)); [| apply idxs_lt; auto |].
    + rewrite get_tr by (cbn; auto; apply idxs_lt; auto). rewrite !get_perm by (auto; apply idxs_lt; auto).
      rewrite !Nat.eqb_refl. ring.
    + intros i Hi Hne. rewrite get_perm by auto. destruct (Nat.eqb_spec (nth r (fi_idxs T n) 0%nat) i); [congruence|]. ring.
  - intros i Hi Hne. rewrite get_tr by (cbn; auto). rewrite get_perm by auto.
    destruct (Nat.eqb_spec (nth r' (fi_idxs T n) 0%nat) i); [congruence|]. ring.
Qed.

Lemma perm_back : forall T n (M : mat K) c c', shape M (2 * n * T) (2 * n * T) -> (c < 2 * n * T)%nat -> (c' < 2 * n * T)%nat ->
  get (mmul (mmul (tr (fi_perm T n)) M) (fi_perm T n)) c c' = get M (place T n c) (place T n c').
Proof.
  intros T n M c c' (Hw & HR & HC) Hc Hc'. set (N := (2 * n * T)%nat) in *.
  assert (Hp : forall d, (d < N)%nat -> (place T n d < N)%nat) by (intros; apply place_lt; auto).
  rewrite get_mmul by (cbn; auto). cbn [nc mmul mk]. rewrite HC.
  rewrite (sumn_single N (place T n c')); [| auto |].
  - rewrite get_mmul by (cbn; try rewrite HC; auto). change (nc (tr (fi_perm T n : mat K))) with N.
    rewrite (sumn_single N (place T n c)); [| auto |].
    + rewrite get_tr by (cbn; auto; apply Hp; auto). rewrite !get_perm by auto.
      rewrite !place_inv by auto. rewrite !Nat.eqb_refl. ring.
    + intros i Hi Hne. rewrite get_tr by (cbn; auto). rewrite get_perm by auto.
      destruct (Nat.eqb_spec (nth i (fi_idxs T n) 0%nat) c) as [E|E]; [|ring].
      apply idxs_place in E; auto; congruence.
  - intros i Hi Hne. rewrite get_perm by auto.
    destruct (Nat.eqb_spec (nth i (fi_idxs T n) 0%nat) c') as [E|E]; [|ring].
    apply idxs_place in E; auto; congruence.
Qed.

(** ** The covariance of the weights *)
Lemma y_real_vec : forall n (Y : mat CK) k, shape Y n n -> (k < 2 * (n * n))%nat ->
  vget (make_real_vector (vectorize_matrix Y)) k = y_real n Y k.
Proof.
  intros n Y k (Hw & HR & HC) Hk. assert (HL : length (vectorize_matrix Y) = (n * n)%nat).
  { rewrite length_vectorize. congruence. }
  rewrite vget_make_real_vector by lia. rewrite HL. unfold y_real.
  assert (Hv : forall q, (q < n * n)%nat -> vget (vectorize_matrix Y) q = get Y (q mod n) (q / n)).
  { intros q Hq. destruct (divmod_bound q n n Hq) as (H1 & H2 & H3). rewrite H3 at 1. rewrite <- HR at 2.
    rewrite vget_vectorize by congruence. reflexivity. }
  destruct (Nat.ltb_spec k (n * n)); rewrite Hv by lia; reflexivity.
Qed.

Lemma ws_inner : forall T n (X : mat K) (y : list K) k k', shape X (2 * n * T) (2 * n * T) -> length y = (2 * (n * n))%nat ->
  (k < T)%nat -> (k' < T)%nat ->
  let P := fi_perm T n in
  let bigy := mkron (meye T) (colm y) in
  get (mmul (mmul (tr bigy) (mkron (mmul (mmul P X) (tr P)) (meye n))) bigy) k k' =
  sumn (2 * n) (fun a => sumn (2 * n) (fun b =>
    get X (a * T + k) (b * T + k') * sumn n (fun j => vget y (a * n + j) * vget y (b * n + j)))).
Proof.
  intros T n X y k k' HX Hy Hk Hk' P bigy. set (L := (2 * (n * n))%nat) in *.
  assert (HL : L = (2 * n * n)%nat) by (unfold L; lia).
  assert (Hbig : forall i c, (i < T * L)%nat -> (c < T)%nat -> get bigy i c = (if (i / L =? c)%nat then 1 else 0) * vget y (i mod L)).
  { intros i c Hi Hc. unfold bigy. rewrite get_mkron' by (cbn; rewrite ?Hy; lia). cbn [nr nc colm mk]. rewrite Hy, Nat.div_1_r.
    destruct (divmod_bound i T L Hi) as (H1 & H2 & H3). rewrite get_meye by auto.
    unfold colm. rewrite get_mk by (rewrite ?Hy; auto; apply Nat.mod_upper_bound; lia). reflexivity. }
  assert (HnrB : nr bigy = (T * L)%nat) by (cbn; rewrite Hy; lia).
  assert (HncB : nc bigy = T) by (cbn; lia).
  set (M := mmul (mmul P X) (tr P)). set (N := (2 * n * T)%nat) in *.
  assert (HnrM : nr M = N) by reflexivity. assert (HncM : nc M = N) by reflexivity.
  assert (HTL : (T * L = N * n)%nat) by (unfold N; rewrite HL; ring).
  rewrite get_mmul by (cbn; lia). cbn [nc mmul mk]. change (nc (mkron M (meye n))) with (nc M * n)%nat.
  rewrite HncM, <- HTL, sumn_mul.
  rewrite (sumn_single T k'); [|auto|].
  2:{ intros i Hi Hne. apply sumn_zero. intros j Hj. rewrite Hbig by (auto; apply idx_bound; auto).
      destruct (divmod_add i j L Hj) as [-> ->]. destruct (Nat.eqb_spec i k'); [congruence|]. ring. }
  transitivity (sumn (2 * n) (fun b => sumn n (fun jb => sumn (2 * n) (fun a => sumn n (fun ja =>
     vget y (a * n + ja) * (get X (a * T + k) (b * T + k') * (if (ja =? jb)%nat then 1 else 0)) * vget y (b * n + jb)))))).
  - rewrite HL, sumn_mul. apply sumn_ext. intros b Hb. apply sumn_ext. intros jb Hjb.
    assert (Hq : (b * n + jb < L)%nat) by (rewrite HL; apply idx_bound; auto). rewrite <- HL.
    rewrite Hbig by (auto; apply idx_bound; auto). destruct (divmod_add k' (b * n + jb) L Hq) as [-> ->].
    rewrite Nat.eqb_refl. 
    assert (Hlt : (k' * L + (b * n + jb) < T * L)%nat) by (apply idx_bound; auto).
    rewrite get_mmul by (cbn [nr nc tr mtr mk mkron meye]; fold M; rewrite ?HncM; lia).
    change (nc (tr bigy)) with (nr bigy). rewrite HnrB, sumn_mul.
    rewrite (sumn_single T k); [|auto|].
    2:{ intros i Hi Hne. apply sumn_zero. intros j Hj. rewrite get_tr by (rewrite ?HncB, ?HnrB; auto; apply idx_bound; auto).
        rewrite Hbig by (auto; apply idx_bound; auto).
        destruct (divmod_add i j L Hj) as [-> ->]. destruct (Nat.eqb_spec i k); [congruence|]. ring. }
    transitivity (sumn (2 * n) (fun a => sumn n (fun ja =>
      vget y (a * n + ja) * (get X (a * T + k) (b * T + k') * (if (ja =? jb)%nat then 1 else 0)))) * vget y (b * n + jb)).
    2:{ rewrite <- sumn_scal_r. apply sumn_ext. intros a Ha. rewrite <- sumn_scal_r. apply sumn_ext. intros; ring. }
    replace ((1 : K) * vget y (b * n + jb)) with (vget y (b * n + jb)) by ring. f_equal.
    rewrite HL, sumn_mul. apply sumn_ext. intros a Ha. apply sumn_ext. intros ja Hja.
    assert (Hqa : (a * n + ja < L)%nat) by (rewrite HL; apply idx_bound; auto). rewrite <- HL.
    assert (Hlta : (k * L + (a * n + ja) < T * L)%nat) by (apply idx_bound; auto).
    rewrite get_tr by (rewrite ?HncB, ?HnrB; auto). rewrite Hbig by auto.
    destruct (divmod_add k (a * n + ja) L Hqa) as [-> ->]. rewrite Nat.eqb_refl.
    rewrite get_mkron' by (cbn [nr nc meye mk]; rewrite ?HnrM, ?HncM, <- ?HTL; auto).
    cbn [nr nc meye mk].
    replace (k * L + (a * n + ja))%nat with ((k * (2 * n) + a) * n + ja)%nat by (rewrite HL; ring).
    replace (k' * L + (b * n + jb))%nat with ((k' * (2 * n) + b) * n + jb)%nat by (rewrite HL; ring).
    destruct (divmod_add (k * (2 * n) + a) ja n Hja) as [-> ->].
    destruct (divmod_add (k' * (2 * n) + b) jb n Hjb) as [-> ->].
    rewrite get_meye by auto. unfold M, P.
    assert (Hka : (k * (2 * n) + a < 2 * n * T)%nat) by (pose proof (idx_bound k a T (2 * n) Hk Ha); lia).
    assert (Hkb : (k' * (2 * n) + b < 2 * n * T)%nat) by (pose proof (idx_bound k' b T (2 * n) Hk' Hb); lia).
    rewrite perm_both by auto. rewrite !fi_idxs_nth by auto. ring.
  - rewrite (sumn_ext (2 * n) _ (fun b => sumn (2 * n) (fun a => sumn n (fun jb => sumn n (fun ja =>
     vget y (a * n + ja) * (get X (a * T + k) (b * T + k') * (if (ja =? jb)%nat then 1 else 0)) * vget y (b * n + jb)))))).
    2:{ intros b Hb. rewrite sumn_swap. reflexivity. }
    rewrite sumn_swap. apply sumn_ext. intros a Ha. apply sumn_ext. intros b Hb.
    rewrite <- sumn_scal_l. apply sumn_ext. intros jb Hjb.
    rewrite (sumn_single n jb); [|auto|].
    + rewrite Nat.eqb_refl. ring.
    + intros i Hi Hne. destruct (Nat.eqb_spec i jb); [congruence|]. ring.
Qed.

Lemma fi_ws_ok : forall T n (X Z : mat K) (Y : mat CK), shape X (2 * (n * T)) (2 * (n * T)) -> shape Z (2 * (n * T)) (2 * (n * T)) ->
  shape Y n n -> exists V, fi_ws T n X Z (make_real_vector (vectorize_matrix Y)) = Ok V /\ shape V (2 * (n * T)) (2 * (n * T)) /\
  let P := fi_perm T n in
  let bigy := mkron (meye T) (colm (make_real_vector (vectorize_matrix Y))) in
  V = madd (mmul (mmul (tr P) (mkron (meye (2 * n))
        (mmul (mmul (tr bigy) (mkron (mmul (mmul P X) (tr P)) (meye n))) bigy))) P) Z /\
  forall c c', (c < 2 * (n * T))%nat -> (c' < 2 * (n * T))%nat -> get V c c' = used_cov T n Y X Z c c'.
Proof.
  intros T n X Z Y HX HZ HY. pose proof HX as (HXw & HXr & HXc). pose proof HZ as (HZw & HZr & HZc). pose proof HY as (HYw & HYr & HYc).
  set (y := make_real_vector (vectorize_matrix Y)).
  assert (Hy : length y = (2 * (n * n))%nat).
  { unfold y. rewrite length_make_real_vector, length_vectorize. congruence. }
  replace (2 * (n * T))%nat with (2 * n * T)%nat in * by ring.
  set (P := fi_perm T n). set (bigy := mkron (meye T) (colm y)).
  set (Ws := mmul (mmul (tr bigy) (mkron (mmul (mmul P X) (tr P)) (meye n))) bigy).
  assert (HWs : shape Ws T T) by (split; [apply wf_mk|cbn; lia]).
  set (N := (2 * n * T)%nat) in *.
  assert (HP1 : nr P = N) by reflexivity. assert (HP2 : nc P = N) by reflexivity.
  assert (Hb1 : nr bigy = (N * n)%nat).
  { unfold bigy. cbn [nr mkron mk meye colm]. rewrite Hy. unfold N. ring. }
  assert (Hb2 : nc bigy = T) by (unfold bigy; cbn; lia).
  set (Q := mkron (meye (2 * n)) Ws).
  assert (HQ : shape Q N N).
  { split; [apply wf_mk|]. unfold Q. cbn [nr nc mkron mk meye]. destruct HWs as (_ & -> & ->). split; reflexivity. }
  assert (HV : shape (madd (mmul (mmul (tr P) Q) P) Z) N N).
  { split; [apply wf_mk|]. split; reflexivity. }
  exists (madd (mmul (mmul (tr P) Q) P) Z). split.
  - unfold fi_ws. fold P bigy. rewrite matmul_ok by congruence. cbn [bind].
    rewrite matmul_ok by (cbn [nc nr mmul mk tr mtr]; congruence). cbn [bind].
    rewrite matmul_ok by (change (nc (tr bigy)) with (nr bigy); rewrite Hb1; cbn [nr mkron mk meye mmul]; rewrite HP1; reflexivity). cbn [bind].
    rewrite matmul_ok by (cbn [nc nr mmul mk mkron meye tr mtr]; rewrite Hb1, HP1; reflexivity). cbn [bind]. fold Ws.
    rewrite matmul_ok by (cbn [nc nr mmul mk mkron meye tr mtr]; rewrite HP1; destruct HWs as (_ & -> & _); reflexivity). cbn [bind].
    fold Q. rewrite matmul_ok by (cbn [nc nr mmul mk]; destruct HQ as (_ & _ & ->); rewrite HP1; reflexivity). cbn [bind].
    rewrite sp_add_ok by (cbn [nc nr mmul mk tr mtr]; congruence). reflexivity.
  - split; [exact HV|]. cbv zeta. split; [reflexivity|]. intros c c' Hc Hc'.
    rewrite get_madd by (cbn; auto). unfold P. rewrite perm_back by auto. unfold used_cov. f_equal.
    assert (Hpc : (place T n c < 2 * n * T)%nat) by (apply place_lt; auto).
    assert (Hpc' : (place T n c' < 2 * n * T)%nat) by (apply place_lt; auto).
    destruct HWs as (Hww & Hwr & Hwc).
    unfold Q. rewrite get_mkron' by (rewrite ?Hwr, ?Hwc; cbn; auto). rewrite Hwr, Hwc.
    destruct (divmod_bound _ _ _ Hpc) as (H1 & H2 & H3). destruct (divmod_bound _ _ _ Hpc') as (H1' & H2' & H3').
    rewrite get_meye by auto. destruct (place T n c / T =? place T n c' / T)%nat; [|ring].
    unfold Ws, bigy, P. rewrite ws_inner by auto. unfold mixed_input.
    match goal with |- 1 * ?a = _ => replace ((1 : K) * a) with a by ring end.
    apply sumn_ext. intros a Ha. apply sumn_ext. intros b Hb. f_equal. apply sumn_ext. intros j Hj.
    unfold y. rewrite !(y_real_vec n); auto; try (replace (2 * (n * n))%nat with (2 * n * n)%nat by ring; apply idx_bound; auto).
Qed.

(** ** Block products *)
Lemma madd_hstack : forall a b c d : mat K, nr a = nr b -> nr c = nr a -> nr d = nr a -> nc a = nc c -> nc b = nc d ->
  madd (hstack2 a b) (hstack2 c d) = hstack2 (madd a c) (madd b d).
Proof.
  intros. apply (gshape_ext _ _ (nr a) (nc a + nc b)); [split; [apply wf_mk|cbn; auto]|split; [apply wf_mk|cbn; auto]|].
  intros i j Hi Hj. rewrite get_madd by (cbn; auto). rewrite !get_hstack2 by (cbn; lia).
  cbn [nc madd mk]. replace (nc c) with (nc a) by lia. destruct (Nat.ltb_spec j (nc a)); rewrite get_madd by lia; reflexivity.
Qed.
Lemma mmul_mblock : forall a b c d e f g h : mat K,
  nr a = nr b -> nr c = nr d -> nc a = nc c -> nc b = nc d -> nr e = nr f -> nr g = nr h -> nc e = nc g -> nc f = nc h ->
  nc a = nr e -> nc b = nr g ->
  mmul (mblock a b c d) (mblock e f g h) =
  mblock (madd (mmul a e) (mmul b g)) (madd (mmul a f) (mmul b h)) (madd (mmul c e) (mmul d g)) (madd (mmul c f) (mmul d h)).
Proof.
  intros. unfold mblock. rewrite mmul_vstack_l by (cbn; congruence).
  rewrite !mmul_hv by (cbn; congruence). rewrite !mmul_hstack_r by congruence.
  rewrite !madd_hstack by (cbn; congruence). reflexivity.
Qed.
Lemma mmul_zeros_r : forall (a : mat K) r c, mmul a (mzeros r c) = mzeros (nr a) c.
Proof.
  intros. apply mk_eq; auto. intros i j Hi Hj. apply sumn_zero. intros k Hk.
  unfold mzeros, get, gget. 
  destruct (Nat.ltb_spec k r) as [Hr|Hr].
  - change (nth j (nth k (dat (mk r c (fun _ _ => 0))) []) 0) with (get (mk r c (fun _ _ : nat => (0 : K))) k j). 
    rewrite get_mk by (auto). ring.
  - cbn [dat mk]. rewrite (nth_overflow _ [] (n:=k)) by (rewrite map_length, length_range; auto).
    destruct j; cbn [nth]; ring.
Qed.
Lemma mmul_zeros_l : forall (a : mat K) r, mmul (mzeros r (nr a)) a = mzeros r (nc a).
Proof.
  intros. apply mk_eq; auto. intros i j Hi Hj. apply sumn_zero. intros k Hk.
  cbn [mzeros nc mk] in Hk. unfold mzeros. rewrite get_mk by auto. ring.
Qed.
Lemma madd_zeros_r : forall (a : mat K), wf a -> madd a (mzeros (nr a) (nc a)) = a.
Proof.
  intros a Ha. apply (gshape_ext _ _ (nr a) (nc a)); [split; [apply wf_mk|cbn; auto]|split; auto|].
  intros i j Hi Hj. rewrite get_madd by auto. unfold mzeros. rewrite get_mk by auto. ring.
Qed.
Lemma madd_zeros_l : forall (a : mat K), wf a -> madd (mzeros (nr a) (nc a)) a = a.
Proof.
  intros a Ha. apply (gshape_ext _ _ (nr a) (nc a)); [split; [apply wf_mk|cbn; auto]|split; auto|].
  intros i j Hi Hj. rewrite get_madd by auto. unfold mzeros. rewrite get_mk by auto. ring.
Qed.
Lemma tr_mblock : forall a b c d : mat K, nr a = nr b -> nr c = nr d -> nc a = nc c -> nc b = nc d ->
  tr (mblock a b c d) = mblock (tr a) (tr c) (tr b) (tr d).
Proof.
  intros a b c d H1 H2 H3 H4.
  apply (gshape_ext _ _ (nc a + nc b) (nr a + nr c)); [split; [apply wf_mk|cbn; auto]|split; [apply wf_mk|cbn; auto]|].
  intros i j Hi Hj. rewrite get_tr by (cbn; auto). rewrite !get_mblock by (cbn; lia). cbn [nr nc tr mtr mk].
  destruct (Nat.ltb_spec i (nc a)); destruct (Nat.ltb_spec j (nr a)); rewrite get_tr by lia; reflexivity.
Qed.
Lemma tr_mzeros : forall r c, tr (mzeros r c : mat K) = mzeros c r.
Proof. intros. apply mk_eq; auto. intros i j Hi Hj. cbn in *. apply (get_mk r c (fun _ _ => 0)); auto. Qed.

Lemma split_gram : forall (a b p q r s : mat K) M N n1 n2, shape a M n1 -> shape b N n2 ->
  shape p M M -> shape q M N -> shape r N M -> shape s N N ->
  let B := mblock a (mzeros M n2) (mzeros N n1) b in
  mmul (tr B) (mmul (mblock p q r s) B) =
  mblock (mmul (mmul (tr a) p) a) (mmul (mmul (tr a) q) b) (mmul (mmul (tr b) r) a) (mmul (mmul (tr b) s) b).
Proof.
  intros a b p q r s M N n1 n2 (Ha & Ha1 & Ha2) (Hb & Hb1 & Hb2) (Hp & Hp1 & Hp2) (Hq & Hq1 & Hq2) (Hr & Hr1 & Hr2) (Hs & Hs1 & Hs2) B.
  unfold B. rewrite tr_mblock by (cbn; congruence). rewrite !tr_mzeros.
  rewrite mmul_mblock by (cbn; congruence). rewrite !mmul_zeros_r. rewrite Hp1, Hq1, Hr1, Hs1.
  assert (E1 : forall x : mat K, nr x = M -> nc x = n1 -> wf x -> madd x (mzeros M n1) = x) by (intros x <- <-; apply madd_zeros_r).
  assert (E2 : forall x : mat K, nr x = M -> nc x = n2 -> wf x -> madd (mzeros M n2) x = x) by (intros x <- <-; apply madd_zeros_l).
  assert (E3 : forall x : mat K, nr x = N -> nc x = n1 -> wf x -> madd x (mzeros N n1) = x) by (intros x <- <-; apply madd_zeros_r).
  assert (E4 : forall x : mat K, nr x = N -> nc x = n2 -> wf x -> madd (mzeros N n2) x = x) by (intros x <- <-; apply madd_zeros_l).
  rewrite E1, E2, E3, E4 by (try apply wf_mk; cbn; congruence).
  rewrite mmul_mblock by (cbn; congruence).
  assert (Z1 : forall x : mat K, nr x = N -> mmul (mzeros n1 N) x = mzeros n1 (nc x)) by (intros x <-; apply mmul_zeros_l).
  assert (Z2 : forall x : mat K, nr x = M -> mmul (mzeros n2 M) x = mzeros n2 (nc x)) by (intros x <-; apply mmul_zeros_l).
  rewrite !Z1, !Z2 by (cbn; congruence). cbn [nc mmul mk].
  assert (G1 : forall (x : mat K) u v, nr x = u -> nc x = v -> wf x -> madd x (mzeros u v) = x) by (intros x u v <- <-; apply madd_zeros_r).
  assert (G2 : forall (x : mat K) u v, nr x = u -> nc x = v -> wf x -> madd (mzeros u v) x = x) by (intros x u v <- <-; apply madd_zeros_l).
  rewrite !G1, !G2 by (try apply wf_mk; cbn; congruence).
  rewrite !mmul_assoc by (cbn; congruence). reflexivity.
Qed.

(** ** Weights *)
Lemma fi_weights_some : forall w1 w2 w3 p q r, fi_weights w1 w2 w3 = Some (p, q, r) ->
  p * w1 + q * w2 = 1 /\ p * w2 + q * w3 = 0 /\ q * w1 + r * w2 = 0 /\ q * w2 + r * w3 = 1 /\ w1 * w3 - w2 * w2 <> 0 /\ w1 <> 0 /\ w3 <> 0.
Proof.
  intros w1 w2 w3 p q r H. unfold fi_weights in H.
  destruct (keqb w3 0) eqn:E3; [discriminate|]. destruct (keqb w1 0) eqn:E1; [discriminate|].
  apply keqb_neq in E3. apply keqb_neq in E1.
  destruct (keqb (w1 - w2 * (w2 / w3)) 0) eqn:D1; [discriminate|].
  destruct (keqb (w3 - w2 * (w2 / w1)) 0) eqn:D3; [discriminate|].
  apply keqb_neq in D1. apply keqb_neq in D3. 
  assert (HD : w1 * w3 - w2 * w2 <> 0).
  { intro HD. apply D1. replace (w1 - w2 * (w2 / w3)) with ((w1 * w3 - w2 * w2) / w3) by (field; auto). rewrite HD. field; auto. }
  assert (HD' : w3 * w1 - w2 * w2 <> 0) by (intro HD0; apply HD; rewrite <- HD0; ring).
  injection H as <- <- <-. repeat split; auto; field; auto.
Qed.
Lemma fi_weights_none : forall w1 w2 w3, fi_weights w1 w2 w3 = None -> w1 = 0 \/ w3 = 0 \/ w1 * w3 - w2 * w2 = 0.
Proof.
  intros w1 w2 w3 H. unfold fi_weights in H.
  destruct (keqb w3 0) eqn:E3; [apply keqb_eq in E3; auto|]. destruct (keqb w1 0) eqn:E1; [apply keqb_eq in E1; auto|].
  apply keqb_neq in E3. apply keqb_neq in E1. right; right.
  destruct (keqb (w1 - w2 * (w2 / w3)) 0) eqn:D1.
  { apply keqb_eq in D1. replace (w1 * w3 - w2 * w2) with ((w1 - w2 * (w2 / w3)) * w3) by (field; auto). rewrite D1; ring. }
  destruct (keqb (w3 - w2 * (w2 / w1)) 0) eqn:D3; [|discriminate].
  apply keqb_eq in D3. replace (w1 * w3 - w2 * w2) with ((w3 - w2 * (w2 / w1)) * w1) by (field; auto). rewrite D3; ring.
Qed.
Lemma all_some_ok : forall A (l : list (option A)) t, all_some l = Some t -> l = map Some t.
Proof.
  induction l as [|[a|] l IH]; cbn; intros t H; [injection H as <-; auto| |discriminate].
  destruct (all_some l); [|discriminate]. injection H as <-. cbn. rewrite (IH l0); auto.
Qed.
Lemma all_some_none : forall A (l : list (option A)), all_some l = None -> In None l.
Proof.
  induction l as [|[a|] l IH]; cbn; intros H; [discriminate| |auto].
  destruct (all_some l); [discriminate|auto].
Qed.

Lemma get_mdiag : forall (v : list K) i j, (i < length v)%nat -> (j < length v)%nat ->
  get (mdiag v) i j = if (i =? j)%nat then vget v i else 0.
Proof. intros. unfold mdiag. rewrite get_mk by auto. reflexivity. Qed.

Lemma fisher_eq : forall T n (x z Y : mat CK) X Z, (0 < n * T)%nat -> shape x T n -> shape Y n n ->
  shape X (2 * (n * T)) (2 * (n * T)) -> shape Z (2 * (n * T)) (2 * (n * T)) ->
  let m := (n * T)%nat in
  let V := used_cov T n Y X Z in
  (fisher_info x z (Some X) (Some Z) Y = Ok DivZero /\
   exists c, (c < m)%nat /\ (V (m + c)%nat (m + c)%nat = 0 \/ V c c = 0 \/ V (m + c)%nat (m + c)%nat * V c c - V c (m + c)%nat * V c (m + c)%nat = 0)) \/
  (exists W, swapped_inverse m V W /\
   (forall c, (c < m)%nat -> V (m + c)%nat (m + c)%nat * V c c - V c (m + c)%nat * V c (m + c)%nat <> 0 /\ V c c <> 0 /\ V (m + c)%nat (m + c)%nat <> 0) /\
   let B := split_regressor x in
   let G := mmul (tr B) (mmul W B) in
   fisher_info x z (Some X) (Some Z) Y = bind (kinverse G) (fun C => Ok (Info G C))).
Proof.
  intros T n x z Y X Z Hpos Hx HY HX HZ m V. pose proof Hx as (Hxw & Hxr & Hxc).
  destruct (fi_ws_ok T n X Z Y HX HZ HY) as (Vm & E & HVm & _ & HV). fold V in HV.
  pose proof HVm as (HVw & HVr & HVc).
  unfold fisher_info. rewrite Hxr, Hxc. fold m. destruct (Nat.eqb_spec m 0) as [E0|E0]; [unfold m in *; lia|].
  rewrite E. cbn [bind]. rewrite HVr, HVc. replace (n * T)%nat with m in * by reflexivity.
  set (w1 := mdiagonal (mslice Vm m (2 * m) m (2 * m))). set (w2 := mdiagonal (mslice Vm 0 m m (2 * m))).
  set (w3 := mdiagonal (mslice Vm 0 m 0 m)).
  assert (L1 : length w1 = m) by (unfold w1, mdiagonal; rewrite length_mkv; cbn; lia).
  assert (V1 : forall c, (c < m)%nat -> vget w1 c = V (m + c)%nat (m + c)%nat).
  { intros c Hc. unfold w1, mdiagonal. rewrite vget_mkv by (cbn; lia). unfold mslice. rewrite get_mk by lia. apply HV; lia. }
  assert (V2 : forall c, (c < m)%nat -> vget w2 c = V c (m + c)%nat).
  { intros c Hc. unfold w2, mdiagonal. rewrite vget_mkv by (cbn; lia). unfold mslice. rewrite get_mk by lia. apply HV; lia. }
  assert (V3 : forall c, (c < m)%nat -> vget w3 c = V c c).
  { intros c Hc. unfold w3, mdiagonal. rewrite vget_mkv by (cbn; lia). unfold mslice. rewrite get_mk by lia. apply HV; lia. }
  rewrite L1.
  destruct (all_some (map (fun k => fi_weights (vget w1 k) (vget w2 k) (vget w3 k)) (range m))) as [ws|] eqn:EW.
  2:{ left. split; [reflexivity|]. apply all_some_none in EW. apply in_map_iff in EW. destruct EW as (c & Ec & Hc).
      apply in_range in Hc. exists c. split; auto. apply fi_weights_none in Ec. rewrite V1, V2, V3 in Ec by auto. exact Ec. }
  right. apply all_some_ok in EW.
  assert (LW : length ws = m).
  { apply (f_equal (@length _)) in EW. rewrite !map_length, length_range in EW. auto. }
  set (d := (0, 0, 0) : K * K * K).
  assert (HW : forall c, (c < m)%nat -> fi_weights (V (m + c)%nat (m + c)%nat) (V c (m + c)%nat) (V c c) = Some (nth c ws d)).
  { intros c Hc. rewrite <- V1, <- V2, <- V3 by auto.
    rewrite <- (nth_map_range _ (fun k => fi_weights (vget w1 k) (vget w2 k) (vget w3 k)) m c None) by auto.
    rewrite EW. rewrite (nth_indep _ None (Some d)) by (rewrite map_length; lia). apply map_nth. }
  set (p1 := map (fun w : K * K * K => fst (fst w)) ws). set (p2 := map (fun w : K * K * K => snd (fst w)) ws).
  set (p3 := map (fun w : K * K * K => snd w) ws).
  assert (P1 : forall c, (c < m)%nat -> vget p1 c = fst (fst (nth c ws d))) by (intros; unfold p1; apply (vget_map _ (fun w : K * K * K => fst (fst w)) ws d); lia).
  assert (P2 : forall c, (c < m)%nat -> vget p2 c = snd (fst (nth c ws d))) by (intros; unfold p2; apply (vget_map _ (fun w : K * K * K => snd (fst w)) ws d); lia).
  assert (P3 : forall c, (c < m)%nat -> vget p3 c = snd (nth c ws d)) by (intros; unfold p3; apply (vget_map _ (fun w : K * K * K => snd w) ws d); lia).
  assert (S1 : length p1 = m) by (unfold p1; rewrite map_length; auto).
  assert (S2 : length p2 = m) by (unfold p2; rewrite map_length; auto).
  assert (S3 : length p3 = m) by (unfold p3; rewrite map_length; auto).
  assert (D1 : shape (mdiag p1) m m) by (rewrite <- S1; apply shape_mk).
  assert (D2 : shape (mdiag p2) m m) by (rewrite <- S2; apply shape_mk).
  assert (D3 : shape (mdiag p3) m m) by (rewrite <- S3; apply shape_mk).
  pose proof D1 as (_ & D1r & D1c). pose proof D2 as (_ & D2r & D2c). pose proof D3 as (_ & D3r & D3c).
  set (W := mblock (mdiag p1) (mdiag p2) (mdiag p2) (mdiag p3)).
  assert (GW : forall i j, (i < 2 * m)%nat -> (j < 2 * m)%nat -> get W i j =
    if (i <? m)%nat then if (j <? m)%nat then get (mdiag p1) i j else get (mdiag p2) i (j - m)
    else if (j <? m)%nat then get (mdiag p2) (i - m) j else get (mdiag p3) (i - m) (j - m)).
  { intros i j Hi Hj. unfold W. rewrite get_mblock by lia. rewrite D1r, D1c. reflexivity. }
  exists W. split; [|split].
  - split; [|split].
    + split; [split; [apply wf_mk|cbn; lia]|]. intros i j Hi Hj Hne. rewrite GW by auto.
      assert (Hi' : i mod m = if (i <? m)%nat then i else (i - m)%nat).
      { destruct (Nat.ltb_spec i m); [apply Nat.mod_small; auto|]. replace i with ((i - m) + 1 * m)%nat at 1 by lia.
        rewrite Nat.mod_add by lia. apply Nat.mod_small. lia. }
      assert (Hj' : j mod m = if (j <? m)%nat then j else (j - m)%nat).
      { destruct (Nat.ltb_spec j m); [apply Nat.mod_small; auto|]. replace j with ((j - m) + 1 * m)%nat at 1 by lia.
        rewrite Nat.mod_add by lia. apply Nat.mod_small. lia. }
      rewrite Hi', Hj' in Hne.
      destruct (Nat.ltb_spec i m); destruct (Nat.ltb_spec j m); rewrite get_mdiag by lia;
        match goal with |- (if (?a =? ?b)%nat then _ else _) = _ => destruct (Nat.eqb_spec a b); [congruence|reflexivity] end.
    + assert (TD : forall v : list K, tr (mdiag v) = mdiag v).
      { intros v. apply mk_eq; auto. intros i j Hi Hj. change (gget 0 (mdiag v) j i) with (get (mdiag v) j i). rewrite get_mdiag by auto.
        rewrite (Nat.eqb_sym j i). destruct (Nat.eqb_spec i j); subst; reflexivity. }
      unfold W. rewrite tr_mblock by congruence. rewrite !TD. reflexivity.
    + intros c Hc. rewrite !GW by lia.
      destruct (Nat.ltb_spec c m); [|lia]. destruct (Nat.ltb_spec (m + c) m); [lia|].
      replace (m + c - m)%nat with c by lia. rewrite !get_mdiag by lia. rewrite !Nat.eqb_refl, P1, P2, P3 by auto.
      pose proof (HW c Hc) as Hc'. destruct (nth c ws d) as [[p q] r]. cbn [fst snd].
      apply fi_weights_some in Hc'. tauto.
  - intros c Hc. pose proof (HW c Hc) as Hc'. destruct (nth c ws d) as [[p q] r]. apply fi_weights_some in Hc'. tauto.
  - cbv zeta. unfold split_regressor. rewrite Hxr, Hxc. fold m. unfold W.
    rewrite (split_gram _ _ _ _ _ _ m m (n * n) (n * n)); auto.
    + split; [apply wf_mk|]. cbn. rewrite Hxr, Hxc. auto.
    + split; [apply wf_mk|]. cbn. rewrite Hxr, Hxc. auto.
Qed.
End Gen.

Section Ord.
Context {K : Type} {O : Ops K} {F : Fld K} {O2 : OrdOps K} {OF : OrdFld K}.
Notation CK := (cplx K).
Add Field Kfld2 : (@k_field K O F).

Lemma psd_congr : forall m p (M B : mat K), psd m M -> shape B m p -> psd p (mmul (mmul (tr B) M) B).
Proof.
  intros m p M B ((Hw & HR & HC) & Ht & Hq) (HBw & HBr & HBc). split; [|split].
  - split; [apply wf_mk|]. cbn. auto.
  - rewrite tr_mmul by (cbn; congruence). rewrite tr_mmul by (cbn; congruence). rewrite tr_tr by auto. rewrite Ht.
    rewrite mmul_assoc by (cbn; congruence). reflexivity.
  - intros v Hv. rewrite !mvmul_assoc by (cbn; congruence).
    rewrite vdot_mvmul by (cbn; rewrite ?length_mvmul; congruence). rewrite tr_tr by auto.
    apply Hq. rewrite length_mvmul. auto.
Qed.

Lemma psd_kron_l : forall m k (M : mat K), psd m M -> psd (k * m) (mkron (meye k) M).
Proof.
  intros m k M ((Hw & HR & HC) & Ht & Hq). split; [|split].
  - split; [apply wf_mk|]. cbn. rewrite HR, HC. auto.
  - rewrite tr_mkron, tr_meye, Ht. reflexivity.
  - intros v Hv. unfold vdot. rewrite Hv, sumn_mul. apply sumn_nonneg. intros a Ha.
    pose proof (Hq (mkv m (fun r => vget v (a * m + r))) (length_mkv _ _ _)) as H.
    replace (sumn m (fun j => vget v (a * m + j) * vget (mvmul (mkron (meye k) M) v) (a * m + j)))
      with (vdot (mkv m (fun r => vget v (a * m + r))) (mvmul M (mkv m (fun r => vget v (a * m + r))))); auto.
    unfold vdot. rewrite length_mkv. apply sumn_ext. intros j Hj. rewrite vget_mkv by auto. f_equal.
    rewrite !vget_mvmul by (cbn; rewrite ?HR; auto; apply idx_bound; auto). cbn [nc mkron mk meye]. rewrite HC, sumn_mul.
    rewrite (sumn_single k a); auto.
    + apply sumn_ext. intros l Hl. rewrite vget_mkv by auto.
      assert (E := get_mkron (meye k) M a a j l). rewrite HR, HC in E. cbn [nr nc meye mk] in E. rewrite E by auto.
      rewrite get_meye by auto. rewrite Nat.eqb_refl. ring.
    + intros i Hi Hne. apply sumn_zero. intros l Hl.
      assert (E := get_mkron (meye k) M a i j l). rewrite HR, HC in E. cbn [nr nc meye mk] in E. rewrite E by auto.
      rewrite get_meye by auto. destruct (Nat.eqb_spec a i); [congruence|ring].
Qed.

Lemma psd_kron_r : forall m k (M : mat K), psd m M -> psd (m * k) (mkron M (meye k)).
Proof.
  intros m k M ((Hw & HR & HC) & Ht & Hq). split; [|split].
  - split; [apply wf_mk|]. cbn. rewrite HR, HC. auto.
  - rewrite tr_mkron, tr_meye, Ht. reflexivity.
  - intros v Hv. unfold vdot. rewrite Hv, sumn_mul, sumn_swap. apply sumn_nonneg. intros a Ha.
    pose proof (Hq (mkv m (fun r => vget v (r * k + a))) (length_mkv _ _ _)) as H.
    replace (sumn m (fun j => vget v (j * k + a) * vget (mvmul (mkron M (meye k)) v) (j * k + a)))
      with (vdot (mkv m (fun r => vget v (r * k + a))) (mvmul M (mkv m (fun r => vget v (r * k + a))))); auto.
    unfold vdot. rewrite length_mkv. apply sumn_ext. intros j Hj. rewrite vget_mkv by auto. f_equal.
    rewrite !vget_mvmul by (cbn; rewrite ?HR; auto; apply idx_bound; auto). cbn [nc mkron mk meye]. rewrite HC, sumn_mul.
    apply sumn_ext. intros l Hl. rewrite vget_mkv by auto. rewrite (sumn_single k a); auto.
    + assert (E := get_mkron M (meye k) j l a a). cbn [nr nc meye mk] in E. rewrite E by congruence. 
      rewrite get_meye by auto. rewrite Nat.eqb_refl. ring.
    + intros i Hi Hne. assert (E := get_mkron M (meye k) j l a i). cbn [nr nc meye mk] in E. rewrite E by congruence.
      rewrite get_meye by auto. destruct (Nat.eqb_spec a i); [congruence|ring].
Qed.

Lemma shape_madd : forall (A B : mat K) r c, shape A r c -> shape (madd A B) r c.
Proof. intros A B r c (_ & <- & <-). apply shape_mk. Qed.
Lemma tr_madd : forall (A B : mat K) r c, shape A r c -> shape B r c -> tr (madd A B) = madd (tr A) (tr B).
Proof.
  intros A B r c (Ha & Ha1 & Ha2) (Hb & Hb1 & Hb2). apply mk_eq; auto. intros i j Hi Hj. cbn in Hi, Hj.
  change (gget 0 (madd A B) j i) with (get (madd A B) j i).
  rewrite get_madd by auto. rewrite !get_tr by congruence. reflexivity.
Qed.
Lemma quad_madd : forall (A B : mat K) m v, shape A m m -> shape B m m -> length v = m ->
  vdot v (mvmul (madd A B) v) = vdot v (mvmul A v) + vdot v (mvmul B v).
Proof.
  intros A B m v (Ha & Ha1 & Ha2) (Hb & Hb1 & Hb2) Hv. rewrite mvmul_madd by congruence.
  apply vdot_vadd_r; rewrite ?length_mvmul; congruence.
Qed.
Lemma pdef_madd : forall m (A B : mat K), psd m A -> pdef m B -> pdef m (madd A B).
Proof.
  intros m A B (Ha & Hat & Haq) (Hb & Hbt & Hbq). split; [|split].
  - apply shape_madd; auto.
  - rewrite (tr_madd _ _ m m), Hat, Hbt; auto.
  - intros v Hv Hne. rewrite (quad_madd _ _ m) by auto. apply klt_add; auto.
Qed.
Lemma psd_madd : forall m (A B : mat K), psd m A -> psd m B -> psd m (madd A B).
Proof.
  intros m A B (Ha & Hat & Haq) (Hb & Hbt & Hbq). split; [|split].
  - apply shape_madd; auto.
  - rewrite (tr_madd _ _ m m), Hat, Hbt; auto.
  - intros v Hv. rewrite (quad_madd _ _ m) by auto. apply kle_0_add; auto.
Qed.

(** quadratic form of a vector with two entries *)
Definition two (m i j : nat) (a b : K) : list K := mkv m (fun k => if (k =? i)%nat then a else if (k =? j)%nat then b else 0).
Lemma quad_two : forall m (M : mat K) i j a b, shape M m m -> tr M = M -> (i < m)%nat -> (j < m)%nat -> i <> j ->
  vdot (two m i j a b) (mvmul M (two m i j a b)) = a * a * get M i i + (a * b + a * b) * get M i j + b * b * get M j j.
Proof.
  intros m M i j a b (Hw & HR & HC) Ht Hi Hj Hij.
  assert (Hg : get M j i = get M i j) by (rewrite <- Ht at 1; rewrite get_tr by congruence; reflexivity).
  assert (Hv : forall k, (k < m)%nat -> vget (two m i j a b) k = if (k =? i)%nat then a else if (k =? j)%nat then b else 0) by (intros; unfold two; apply vget_mkv; auto).
  assert (Hvi : vget (two m i j a b) i = a) by (rewrite Hv by auto; rewrite Nat.eqb_refl; auto).
  assert (Hvj : vget (two m i j a b) j = b) by (rewrite Hv by auto; destruct (Nat.eqb_spec j i); [congruence|rewrite Nat.eqb_refl; auto]).
  assert (Hvo : forall k, (k < m)%nat -> k <> i -> k <> j -> vget (two m i j a b) k = 0).
  { intros k Hk H1 H2. rewrite Hv by auto. destruct (Nat.eqb_spec k i); [congruence|]. destruct (Nat.eqb_spec k j); [congruence|auto]. }
  assert (Hm : forall r, (r < m)%nat -> vget (mvmul M (two m i j a b)) r = get M r i * a + get M r j * b).
  { intros r Hr. rewrite vget_mvmul by congruence. rewrite HC. rewrite (sumn_two m i j); auto.
    - rewrite Hvi, Hvj. reflexivity.
    - intros k Hk H1 H2. rewrite Hvo by auto. ring. }
  unfold vdot. unfold two at 1. rewrite length_mkv. rewrite (sumn_two m i j); auto.
  - rewrite Hvi, Hvj, !Hm by auto. rewrite Hg. ring.
  - intros k Hk H1 H2. rewrite Hvo by auto. ring.
Qed.
Lemma klt_mul_pos : forall a b, 0 <=! a -> 0 <! a * b -> 0 <! b.
Proof.
  intros a b Ha H. destruct (kle_dec b 0) as [Hb|Hb]; auto. exfalso.
  apply klt_spec in H. apply H. replace (a * b) with (- (a * - b)) by ring.
  pose proof (kle_mul a (- b) Ha (kle_opp _ Hb)) as H1. apply kle_sub. replace (0 - - (a * - b)) with (a * - b) by ring. auto.
Qed.
Lemma pdef_minor : forall m (M : mat K) i j, pdef m M -> (i < m)%nat -> (j < m)%nat -> i <> j ->
  0 <! get M i i /\ 0 <! get M j j /\ 0 <! get M j j * get M i i - get M i j * get M i j.
Proof.
  intros m M i j (Hs & Ht & Hq) Hi Hj Hij.
  assert (H0 : forall a b, a <> 0 \/ b <> 0 -> 0 <! a * a * get M i i + (a * b + a * b) * get M i j + b * b * get M j j).
  { intros a b Hab. rewrite <- (quad_two m) by auto. apply Hq; [apply length_mkv|].
    intro E. destruct Hab as [Hab|Hab]; apply Hab.
    - apply (f_equal (fun v => vget v i)) in E. rewrite vget_vzeros in E. unfold two in E. rewrite vget_mkv in E by auto.
      rewrite Nat.eqb_refl in E. auto.
    - apply (f_equal (fun v => vget v j)) in E. rewrite vget_vzeros in E. unfold two in E. rewrite vget_mkv in E by auto.
      rewrite Nat.eqb_refl in E. destruct (Nat.eqb_spec j i); [congruence|auto]. }
  assert (Hii : 0 <! get M i i).
  { pose proof (H0 1 0 (or_introl k1_neq0)) as H. replace (get M i i) with (1 * 1 * get M i i + (1 * 0 + 1 * 0) * get M i j + 0 * 0 * get M j j) by ring. auto. }
  assert (Hjj : 0 <! get M j j).
  { pose proof (H0 0 1 (or_intror k1_neq0)) as H. replace (get M j j) with (0 * 0 * get M i i + (0 * 1 + 0 * 1) * get M i j + 1 * 1 * get M j j) by ring. auto. }
  split; auto. split; auto. apply (klt_mul_pos (get M i i)); [apply klt_le; auto|].
  pose proof (H0 (- get M i j) (get M i i) (or_intror (klt_neq _ Hii))) as H.
  replace (get M i i * (get M j j * get M i i - get M i j * get M i j)) with
    (- get M i j * - get M i j * get M i i + (- get M i j * get M i i + - get M i j * get M i i) * get M i j + get M i i * get M i i * get M j j) by ring.
  auto.
Qed.
Lemma psd_minor : forall m (M : mat K) i j, psd m M -> (i < m)%nat -> (j < m)%nat -> i <> j ->
  0 <=! get M i i /\ 0 <=! get M j j /\ 0 <=! get M i i * (get M j j * get M i i - get M i j * get M i j).
Proof.
  intros m M i j (Hs & Ht & Hq) Hi Hj Hij.
  assert (H0 : forall a b, 0 <=! a * a * get M i i + (a * b + a * b) * get M i j + b * b * get M j j).
  { intros a b. rewrite <- (quad_two m) by auto. apply Hq. apply length_mkv. }
  split; [|split].
  - replace (get M i i) with (1 * 1 * get M i i + (1 * 0 + 1 * 0) * get M i j + 0 * 0 * get M j j) by ring. auto.
  - replace (get M j j) with (0 * 0 * get M i i + (0 * 1 + 0 * 1) * get M i j + 1 * 1 * get M j j) by ring. auto.
  - replace (get M i i * (get M j j * get M i i - get M i j * get M i j)) with
    (- get M i j * - get M i j * get M i i + (- get M i j * get M i i + - get M i j * get M i i) * get M i j + get M i i * get M i i * get M j j) by ring.
    auto.
Qed.

(** the input part of the covariance is positive semidefinite *)
Lemma used_cov_psd : forall T n (Y : mat CK) X Z, shape Y n n -> psd (2 * (n * T)) X -> shape Z (2 * (n * T)) (2 * (n * T)) ->
  exists S, psd (2 * (n * T)) S /\ forall c c', (c < 2 * (n * T))%nat -> (c' < 2 * (n * T))%nat ->
    get (madd S Z) c c' = used_cov T n Y X Z c c'.
Proof.
  intros T n Y X Z HY HX HZ. pose proof HX as (HXs & _).
  destruct (fi_ws_ok T n X Z Y HXs HZ HY) as (V & _ & _ & EV & HV). cbv zeta in EV. subst V.
  eexists. split; [|exact HV].
  replace (2 * (n * T))%nat with (2 * n * T)%nat in * by ring. destruct HY as (HYw & HYr & HYc).
  set (y := make_real_vector (vectorize_matrix Y)).
  assert (Hy : length y = (2 * (n * n))%nat).
  { unfold y. rewrite length_make_real_vector, length_vectorize. congruence. }
  assert (HP : shape (fi_perm T n : mat K) (2 * n * T) (2 * n * T)) by (apply shape_mk).
  apply (psd_congr (2 * n * T)); [|exact HP]. apply psd_kron_l.
  apply (psd_congr (2 * n * T * n)).
  - apply psd_kron_r.
    assert (E : mmul (mmul (fi_perm T n) X) (tr (fi_perm T n)) = mmul (mmul (tr (tr (fi_perm T n))) X) (tr (fi_perm T n))).
    { rewrite tr_tr by apply wf_mk. reflexivity. }
    rewrite E. apply (psd_congr (2 * n * T)); auto. split; [apply wf_mk|]. split; reflexivity.
  - split; [apply wf_mk|]. cbn [nr nc mkron mk meye colm]. rewrite Hy. lia.
Qed.

Lemma swapped_psd : forall m V (W : mat K), swapped_inverse m V W -> (0 < m)%nat ->
  (forall c, (c < m)%nat -> 0 <=! V c c /\ 0 <=! V (m + c)%nat (m + c)%nat /\ 0 <! V (m + c)%nat (m + c)%nat * V c c - V c (m + c)%nat * V c (m + c)%nat) ->
  psd (2 * m) W.
Proof.
  intros m V W ((HWs & HWd) & HWt & HWi) Hm HV. split; auto. split; auto. intros v Hv.
  pose proof HWs as (HWw & HWr & HWc).
  assert (HVW : forall r, (r < m)%nat ->
     vget v r * vget (mvmul W v) r + vget v (m + r) * vget (mvmul W v) (m + r) =
     get W r r * (vget v r * vget v r) + (get W r (m + r) + get W r (m + r)) * (vget v r * vget v (m + r)) + get W (m + r) (m + r) * (vget v (m + r) * vget v (m + r))).
  { intros r Hr.
    assert (Hmod : forall i, (i < 2 * m)%nat -> i <> r -> i <> (m + r)%nat -> i mod m <> r).
    { intros i Hi H1 H2 H3. destruct (divmod_bound i 2 m Hi) as (Q1 & Q2 & Q3). rewrite H3 in Q3.
      destruct (i / m)%nat as [|[|q]]; lia. }
    assert (Hrm : r mod m = r) by (apply Nat.mod_small; auto).
    assert (Hmrm : (m + r) mod m = r).
    { replace (m + r)%nat with (r + 1 * m)%nat by lia. rewrite Nat.mod_add by lia. auto. }
    assert (Hrow : forall q, (q < 2 * m)%nat -> q mod m = r -> vget (mvmul W v) q = get W q r * vget v r + get W q (m + r) * vget v (m + r)).
    { intros q Hq Hqm. rewrite vget_mvmul by lia. rewrite HWc. apply (sumn_two (2 * m) r (m + r) (fun k => get W q k * vget v k)); try lia.
      intros i Hi H1 H2. rewrite HWd by (auto; rewrite Hqm; intro E; apply (Hmod i Hi H1 H2); auto). ring. }
    rewrite !Hrow by (auto; lia).
    assert (Es : get W (m + r) r = get W r (m + r)).
    { rewrite <- HWt at 1. rewrite get_tr by lia. reflexivity. }
    rewrite Es. ring. }
  unfold vdot. rewrite Hv. replace (2 * m)%nat with (m + m)%nat by lia. rewrite sumn_plus, <- sumn_add.
  apply sumn_nonneg. intros c Hc. rewrite HVW by auto.
  destruct (HV c Hc) as (Hr & Hi & HD). destruct (HWi c Hc) as (E1 & E2 & E3 & E4).
  set (D := V (m + c)%nat (m + c)%nat * V c c - V c (m + c)%nat * V c (m + c)%nat) in *.
  set (r := V c c) in *. set (i := V (m + c)%nat (m + c)%nat) in *. set (q := V c (m + c)%nat) in *.
  set (p := get W c c) in *. set (s := get W c (m + c)) in *. set (t := get W (m + c) (m + c)) in *.
  assert (HDn : D <> 0) by (apply klt_neq; auto).
  assert (Ep : p = r / D).
  { assert (Hp : p * D = r). { unfold D. replace (p * (i * r - q * q)) with ((p * i + s * q) * r - (p * q + s * r) * q) by ring. rewrite E1, E2. ring. }
    rewrite <- Hp. field; auto. }
  assert (Et : t = i / D).
  { assert (Hp : t * D = i). { unfold D. replace (t * (i * r - q * q)) with ((s * q + t * r) * i - (s * i + t * q) * q) by ring. rewrite E3, E4. ring. }
    rewrite <- Hp. field; auto. }
  assert (Es : s = - q / D).
  { assert (Hp : s * D = - q). { unfold D. replace (s * (i * r - q * q)) with ((p * q + s * r) * i - (p * i + s * q) * q) by ring. rewrite E1, E2. ring. }
    replace (- q) with (s * D). field; auto. }
  set (a := vget v c). set (b := vget v (m + c)).
  assert (Hrn : r <> 0 \/ r = 0) by (destruct (keqb r 0) eqn:E; [apply keqb_eq in E; auto|apply keqb_neq in E; auto]).
  destruct Hrn as [Hrn|Hrn].
  - replace (p * (a * a) + (s + s) * (a * b) + t * (b * b)) with
      (((r * a - q * b) * (r * a - q * b) + D * (b * b)) / (r * D)).
    + apply kle_div; [|].
      * apply kle_0_add; [apply kle_sqr|]. apply kle_mul; [apply klt_le; auto|apply kle_sqr].
      * apply klt_spec2. split; [apply kle_mul; [auto|apply klt_le; auto]|].
        intro E. symmetry in E. destruct (kmul_integral _ _ E); auto.
    + rewrite Ep, Et, Es. unfold D in *. field. auto.
  - exfalso. unfold D in HD. rewrite Hrn in HD. apply klt_spec in HD. apply HD.
    replace (i * 0 - q * q) with (- (q * q)) by ring. apply kle_sub. replace (0 - - (q * q)) with (q * q) by ring. apply kle_sqr.
Qed.

(** ** The properties *)
Theorem p_fisher_form : forall T n (x z Y : mat CK) X Z G C, shape x T n -> shape Y n n ->
  shape X (2 * (n * T)) (2 * (n * T)) -> shape Z (2 * (n * T)) (2 * (n * T)) ->
  fisher_info x z (Some X) (Some Z) Y = Ok (Info G C) ->
  shape G (2 * (n * n)) (2 * (n * n)) /\ tr G = G /\ mmul G C = meye (2 * (n * n)) /\ mmul C G = meye (2 * (n * n)) /\
  exists W, swapped_inverse (n * T) (used_cov T n Y X Z) W /\ G = mmul (tr (split_regressor x)) (mmul W (split_regressor x)).
Proof.
  intros T n x z Y X Z G C Hx HY HX HZ H. pose proof Hx as (Hxw & Hxr & Hxc).
  assert (Hp : (0 < n * T)%nat).
  { unfold fisher_info in H. rewrite Hxr, Hxc in H. destruct (Nat.eqb_spec (n * T) 0); [discriminate|lia]. }
  destruct (fisher_eq T n x z Y X Z Hp Hx HY HX HZ) as [[E _]|(W & HW & _ & E)]; rewrite E in H; [discriminate|].
  apply bind_ok in H. destruct H as (C' & Hi & Ho). injection Ho as <- <-.
  set (B := split_regressor x) in *.
  assert (HB : shape B (2 * (n * T)) (2 * (n * n))).
  { split; [apply wf_mk|]. unfold B, split_regressor. cbn. rewrite Hxr, Hxc. lia. }
  destruct HB as (HBw & HBr & HBc). pose proof HW as ((HWs & _) & HWt & _). destruct HWs as (HWw & HWr & HWc).
  assert (HG : shape (mmul (tr B) (mmul W B)) (2 * (n * n)) (2 * (n * n))).
  { split; [apply wf_mk|]. cbn [nr nc mmul mk tr mtr]. auto. }
  split; auto. split.
  { rewrite tr_mmul by (cbn [nr nc mmul mk tr mtr]; congruence). rewrite tr_mmul by congruence. rewrite tr_tr by auto. rewrite HWt.
    rewrite mmul_assoc by (cbn [nr nc mmul mk tr mtr]; congruence). reflexivity. }
  destruct (kinverse_sound _ _ _ HG Hi) as (_ & H1 & H2). split; auto. split; auto. exists W. auto.
Qed.

Theorem p_fisher_pdef : forall T n (x z Y : mat CK) X Z, (0 < n * T)%nat -> shape x T n -> shape Y n n ->
  psd (2 * (n * T)) X -> pdef (2 * (n * T)) Z ->
  exists W, psd (2 * (n * T)) W /\ swapped_inverse (n * T) (used_cov T n Y X Z) W /\
  let B := split_regressor x in let G := mmul (tr B) (mmul W B) in
  psd (2 * (n * n)) G /\
  fisher_info x z (Some X) (Some Z) Y = bind (kinverse G) (fun C => Ok (Info G C)).
Proof.
  intros T n x z Y X Z Hp Hx HY HX HZ. pose proof HX as (HXs & _). pose proof HZ as (HZs & _). pose proof Hx as (Hxw & Hxr & Hxc).
  destruct (used_cov_psd T n Y X Z HY HX HZs) as (S' & HS & HV).
  pose proof (pdef_madd _ _ _ HS HZ) as HD.
  assert (HM : forall c, (c < n * T)%nat -> 0 <! used_cov T n Y X Z c c /\ 0 <! used_cov T n Y X Z (n * T + c) (n * T + c) /\
    0 <! used_cov T n Y X Z (n * T + c) (n * T + c) * used_cov T n Y X Z c c - used_cov T n Y X Z c (n * T + c) * used_cov T n Y X Z c (n * T + c)).
  { intros c Hc. pose proof (pdef_minor _ _ c (n * T + c)%nat HD) as Hm. rewrite !HV in Hm by lia. apply Hm; lia. }
  destruct (fisher_eq T n x z Y X Z Hp Hx HY HXs HZs) as [[_ (c & Hc & H0)]|(W & HW & _ & E)].
  - exfalso. destruct (HM c Hc) as (H1 & H2 & H3). apply klt_neq in H1, H2, H3. tauto.
  - assert (HWp : psd (2 * (n * T)) W).
    { apply (swapped_psd _ _ _ HW Hp). intros c Hc. destruct (HM c Hc) as (H1 & H2 & H3). repeat split; auto using klt_le. }
    exists W. split; auto. split; auto. cbv zeta. split; [|exact E].
    rewrite <- mmul_assoc.
    + apply (psd_congr (2 * (n * T))); auto. split; [apply wf_mk|]. unfold split_regressor. cbn. rewrite Hxr, Hxc. lia.
    + unfold split_regressor. cbn [nc tr mtr mk mblock vstack2 hstack2 nr mkron meye mmap mzeros]. rewrite Hxr, Hxc.
      destruct HWp as ((_ & -> & _) & _). lia.
    + unfold split_regressor. destruct HWp as ((_ & _ & ->) & _). cbn. rewrite Hxr. lia.
Qed.

Theorem p_fisher_real : forall T n (x z Y : mat CK) X Z, (0 < n * T)%nat -> shape x T n -> shape Y n n ->
  psd (2 * (n * T)) X -> pdef (2 * (n * T)) Z ->
  (forall i j, (i < T)%nat -> (j < n)%nat -> im (get x i j) = 0) ->
  fisher_info x z (Some X) (Some Z) Y = Err LinAlgError.
Proof.
  intros T n x z Y X Z Hp Hx HY HX HZ Hreal. pose proof Hx as (Hxw & Hxr & Hxc).
  destruct (p_fisher_pdef T n x z Y X Z Hp Hx HY HX HZ) as (W & HWp & HW & HG & E). rewrite E.
  set (B := split_regressor x) in *. set (G := mmul (tr B) (mmul W B)) in *.
  assert (Hn : (0 < n)%nat) by (destruct n; lia).
  destruct HG as (HGs & _). pose proof HGs as (HGw & HGr & HGc).
  destruct (kinverse G) as [C|e] eqn:EC.
  - exfalso. destruct (kinverse_sound _ _ _ HGs EC) as (HC & H1 & _).
    set (l := (n * n)%nat).
    assert (Hrow : forall j, (j < 2 * (n * n))%nat -> get G l j = 0).
    { intros j Hj. unfold G. assert (HBn : nc B = (2 * (n * n))%nat) by (unfold B, split_regressor; cbn; rewrite Hxc; lia).
      assert (HBr : nr B = (2 * (n * T))%nat) by (unfold B, split_regressor; cbn; rewrite Hxr, Hxc; lia).
      rewrite get_mmul by (cbn [nr nc tr mtr mk mmul]; rewrite ?HBn; unfold l; try nia; auto).
      apply sumn_zero. intros k Hk. cbn [nc tr mtr mk] in Hk. rewrite HBr in Hk.
      rewrite get_tr by (rewrite ?HBn, ?HBr; unfold l; nia).
      assert (Ez : get B k l = 0).
      { unfold B, split_regressor. rewrite Hxr, Hxc. rewrite get_mblock by (cbn; rewrite ?Hxr, ?Hxc; unfold l; nia).
        cbn [nr nc mkron meye mk mmap]. rewrite Hxr, Hxc. fold l. rewrite Nat.ltb_irrefl. rewrite Nat.sub_diag.
        destruct (Nat.ltb_spec k (n * T)).
        - unfold mzeros. rewrite get_mk by (auto; unfold l; nia). reflexivity.
        - rewrite get_mkron' by (cbn; rewrite ?Hxr, ?Hxc; nia). cbn [nr nc mmap]. rewrite Hxr, Hxc.
          rewrite Nat.mod_0_l by lia. rewrite get_mmap_im.
          + rewrite Hreal; [ring| |lia]. apply Nat.mod_upper_bound. destruct T; lia.
          + auto.
          + rewrite Hxr. apply Nat.mod_upper_bound. destruct T; lia.
          + lia. }
      rewrite Ez. ring. }
    assert (Hll : get (mmul G C) l l = 0).
    { rewrite get_mmul by (destruct HC as (_ & _ & HCc); rewrite ?HGr, ?HCc; unfold l; nia).
      rewrite HGc. apply sumn_zero. intros k Hk. rewrite Hrow by auto. ring. }
    rewrite H1, get_meye in Hll by (unfold l; nia). rewrite Nat.eqb_refl in Hll. exact (k1_neq0 Hll).
  - cbn [bind]. rewrite (kinverse_err G e EC HGw). reflexivity.
Qed.

Theorem p_fisher_missing : forall (x z Y : mat CK) xc zc, (nc x * nr x <> 0)%nat -> xc = None \/ zc = None ->
  fisher_info x z xc zc Y = Err TypeError.
Proof.
  intros x z Y xc zc Hn H. unfold fisher_info. destruct (Nat.eqb_spec (nc x * nr x) 0); [congruence|].
  destruct xc, zc; auto; destruct H; discriminate.
Qed.
End Ord.
