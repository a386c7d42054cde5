(** Error metrics of matrices, the invariance of the Frobenius norm under the change between phases and sequences. *)
From Coq Require Import String.
From Coq Require Import List Reals Bool ZArith Lia Lra.
From Verif Require Import BasePy BaseFld BaseSum BaseMat BaseReal ModelErrorMetrics ModelLines ModelRun ModelPlot SpecPlot ProofMetrics ProofLines ProofMask.
Import ListNotations.
Close Scope string_scope.
Local Open Scope R_scope.

Lemma cabs_sq : forall z, cabs z * cabs z = sq z.
Proof. exact cabs_sqr. Qed.
Lemma sq_zero : forall z, sq z = 0 <-> z = dflt0.
Proof.
  intro z. split; intro H.
  - apply cabs_zero. rewrite <- cabs_sq in H. nra.
  - subst z. unfold sq. cbn. ring.
Qed.
Lemma sq_nonneg : forall z, 0 <= sq z.
Proof. intro z. unfold sq. nra. Qed.

(** ** lists *)
Definition lsize2 (l : list C) : R := sumn (length l) (fun i => sq (nth i l dflt0)).
Definition lgap2 (y h : list C) : R := sumn (length y) (fun i => sq (csub (nth i y dflt0) (nth i h dflt0))).
Definition lgap2_present (y h : list C) : R :=
  sumn (length y) (fun i => if Req_EM_T (sq (nth i y dflt0)) 0 then 0 else sq (csub (nth i y dflt0) (nth i h dflt0))).

Lemma sumr_nonneg : forall n (f : nat -> R), (forall i, (i < n)%nat -> 0 <= f i) -> 0 <= sumn n f.
Proof.
  induction n as [|n IH]; intros f H; cbn; [apply Rle_refl|]. apply Rplus_le_le_0_compat; [apply IH; intros; apply H; lia|apply H; lia].
Qed.
Lemma sumr_scal : forall n (c : R) (f : nat -> R), c * sumn n f = sumn n (fun i => c * f i).
Proof. intros. symmetry. exact (sumn_scal_l n c f). Qed.
Lemma norm2_sqr : forall n f, norm2 n f * norm2 n f = sumn n (fun i => f i * f i).
Proof.
  intros n f. unfold norm2. rewrite sqrt_sqrt; [reflexivity|]. apply sumr_nonneg. intros i Hi. apply Rle_0_sqr.
Qed.
Lemma gap_sq : forall y h i, gap y h i * gap y h i = sq (csub (nth i y dflt0) (nth i h dflt0)).
Proof. intros. apply cabs_sq. Qed.
Lemma norm2_pos : forall n f, 0 <= norm2 n f.
Proof. intros. apply sqrt_pos. Qed.
Lemma lsize2_np : forall l, np_norm l * np_norm l = lsize2 l.
Proof. intro l. rewrite np_norm_norm2, norm2_sqr. apply sumn_ext. intros i Hi. apply cabs_sq. Qed.
Lemma lgap2_n : forall y h, norm2 (length y) (gap y h) * norm2 (length y) (gap y h) = lgap2 y h.
Proof. intros. rewrite norm2_sqr. apply sumn_ext. intros i Hi. apply gap_sq. Qed.
Lemma percentage_of : forall f s d, f * f = d -> 0 <= f -> 0 <= s -> percentage (s * s) d (fscale (fdiv f s) 100).
Proof.
  intros f s d Hf Hf0 Hs. unfold percentage, fdiv. split; intro Z.
  - assert (s = 0) by nra. subst s. destruct (Req_EM_T 0 0); [reflexivity|lra].
  - destruct (Req_EM_T s 0) as [->|Hs0]; [exfalso; apply Z; ring|]. cbn. eexists. split; [reflexivity|]. split.
    + apply Rmult_le_pos; [|lra]. apply Rmult_le_pos; [assumption|]. apply Rlt_le, Rinv_0_lt_compat. lra.
    + rewrite <- Hf. field. assumption.
Qed.

Lemma rgap_sq : forall y h, norm2 (length y) (rgap y h) * norm2 (length y) (rgap y h) = lgap2_present y h.
Proof.
  intros y h. rewrite norm2_sqr. apply sumn_ext. intros i Hi. unfold rgap.
  destruct (Req_EM_T (sq (nth i y dflt0)) 0) as [Z|Z].
  - apply sq_zero in Z. rewrite Z. destruct (dflt0 =? 0)%K eqn:E; [ring|]. exfalso. assert ((dflt0 =? 0)%K = true) by (apply keqb_eq; reflexivity). congruence.
  - destruct (nth i y dflt0 =? 0)%K eqn:E; [|apply gap_sq]. exfalso. apply Z. apply sq_zero. apply keqb_eq in E. exact E.
Qed.

Lemma metrics_of_lists : forall y h, length y = length h -> y <> [] -> exists m, error_metrics y h = Ok m /\
  0 <= em_fro m /\ em_fro m * em_fro m = lgap2 y h /\
  (exists i, (i < length y)%nat /\ em_max m = cabs (csub (nth i y dflt0) (nth i h dflt0))) /\
  (forall i, (i < length y)%nat -> cabs (csub (nth i y dflt0) (nth i h dflt0)) <= em_max m) /\
  percentage (lsize2 y) (lgap2 y h) (em_rrms m) /\ percentage (lsize2 y) (lgap2_present y h) (em_map m).
Proof.
  intros y h E Hne. unfold error_metrics, rrms_error. rewrite (fro_error_ok y h E). cbn [bind].
  destruct (max_error_ok y h E Hne) as (mx & -> & Hin & Hub). cbn [bind].
  unfold map_error. fold (nzmask y). unfold np_mask at 1 2. unfold nzmask at 1 3. rewrite !map_length, <- E, Nat.eqb_refl. cbn [bind].
  unfold np_sub. rewrite (select_length (nzmask y) y h E), Nat.eqb_refl. cbn [bind].
  rewrite map_num, rnorm_select by auto. eexists. split; [reflexivity|]. cbn [em_fro em_max em_rrms em_map].
  split; [apply norm2_pos|]. split; [apply lgap2_n|]. split; [exact Hin|]. split; [exact Hub|].
  rewrite <- lsize2_np. assert (P : 0 <= np_norm y) by apply sqrt_pos.
  split; apply percentage_of; auto using norm2_pos, lgap2_n, rgap_sq.
Qed.
Lemma metrics_empty : error_metrics [] [] = Err ValueError.
Proof. reflexivity. Qed.

(** ** matrices *)
Lemma nth_flatten : forall (A : mat C) r c i j, shape A r c -> (i < r)%nat -> (j < c)%nat -> nth (i * c + j) (flatten A) dflt0 = get A i j.
Proof.
  intros A r c i j (W & Hr & Hc) Hi Hj. unfold flatten. rewrite nth_concat_w; [reflexivity| |assumption].
  rewrite <- Hc. apply wf_rows. assumption.
Qed.
Lemma length_flatten : forall (A : mat C) r c, shape A r c -> length (flatten A) = (r * c)%nat.
Proof.
  intros A r c (W & Hr & Hc). unfold flatten. rewrite (length_concat_w _ c).
  - destruct W as [W _]. congruence.
  - rewrite <- Hc. apply wf_rows. assumption.
Qed.
Lemma flatten_sum : forall (A : mat C) r c (g : nat -> nat -> R) (f : nat -> R), shape A r c ->
  (forall i j, (i < r)%nat -> (j < c)%nat -> f (i * c + j)%nat = g i j) ->
  sumn (length (flatten A)) f = sumn r (fun i => sumn c (fun j => g i j)).
Proof.
  intros A r c g f HA H. rewrite (length_flatten A r c HA), sumn_mul. apply sumn_ext. intros i Hi. apply sumn_ext. auto.
Qed.
Lemma split_index : forall r c i, (i < r * c)%nat -> exists a b, (a < r)%nat /\ (b < c)%nat /\ i = (a * c + b)%nat.
Proof.
  intros r c i Hi. assert (c <> 0)%nat by nia. exists (i / c)%nat, (i mod c)%nat.
  split; [apply Nat.div_lt_upper_bound; lia|]. split; [apply Nat.mod_upper_bound; lia|].
  pose proof (Nat.div_mod i c). lia.
Qed.

Lemma matrix_metrics_ok : forall y h r c, shape y r c -> shape h r c -> (0 < r)%nat -> (0 < c)%nat ->
  exists m, matrix_metrics y h = Ok m /\ overall y h m /\ entrywise y h m.
Proof.
  intros y h r c Hy Hh Pr Pc. unfold matrix_metrics, same_size.
  destruct (proj2 Hy) as (R1 & C1), (proj2 Hh) as (R2 & C2). rewrite R1, C1, R2, C2, !Nat.eqb_refl. cbn [andb].
  assert (Ly := length_flatten y r c Hy). assert (Lh := length_flatten h r c Hh).
  destruct (metrics_of_lists (flatten y) (flatten h)) as (m & Hm & F0 & F1 & M0 & M1 & P1 & P2).
  { congruence. }
  { intro Z. rewrite Z in Ly. cbn in Ly. nia. }
  assert (G : forall i j, (i < r)%nat -> (j < c)%nat -> csub (nth (i * c + j) (flatten y) dflt0) (nth (i * c + j) (flatten h) dflt0) = (get y i j - get h i j)%K).
  { intros i j Hi Hj. rewrite (nth_flatten y r c), (nth_flatten h r c) by assumption. reflexivity. }
  assert (S1 : lsize2 (flatten y) = size2 y).
  { unfold lsize2, size2. rewrite R1, C1. apply (flatten_sum y r c); [assumption|]. intros i j Hi Hj. rewrite (nth_flatten y r c) by assumption. reflexivity. }
  assert (S2 : lgap2 (flatten y) (flatten h) = gap2 y h).
  { unfold lgap2, gap2. rewrite R1, C1. apply (flatten_sum y r c); [assumption|]. intros i j Hi Hj. rewrite G by assumption. reflexivity. }
  assert (S3 : lgap2_present (flatten y) (flatten h) = gap2_present y h).
  { unfold lgap2_present, gap2_present. rewrite R1, C1.
    apply (flatten_sum y r c (fun i j => if Req_EM_T (sq (get y i j)) 0 then 0 else sq (get y i j - get h i j)%K)); [assumption|].
    intros i j Hi Hj. rewrite G by assumption. rewrite (nth_flatten y r c) by assumption. reflexivity. }
  rewrite S1, S2 in P1. rewrite S1, S3 in P2. rewrite S2 in F1. exists m. split; [exact Hm|]. split.
  - split; [exact F0|]. split; [exact F1|exact P1].
  - split; [|split; [|exact P2]].
    + destruct M0 as (k & Hk & E). rewrite Ly in Hk. destruct (split_index r c k Hk) as (a & b & Ha & Hb & ->).
      exists a, b. rewrite R1, C1. split; [exact Ha|]. split; [exact Hb|]. rewrite <- G by assumption. exact E.
    + intros i j Hi Hj. rewrite R1 in Hi. rewrite C1 in Hj. rewrite <- G by assumption. apply M1. rewrite Ly. nia.
Qed.
Lemma matrix_metrics_inv : forall y h m, matrix_metrics y h = Ok m -> nr y = nr h /\ nc y = nc h /\ (wf y -> 0 < nr y /\ 0 < nc y)%nat.
Proof.
  intros y h m H. unfold matrix_metrics, same_size in H.
  destruct (Nat.eqb_spec (nr y) (nr h)) as [E1|]; [|discriminate]. destruct (Nat.eqb_spec (nc y) (nc h)) as [E2|]; [|discriminate].
  split; [exact E1|]. split; [exact E2|]. intro W. cbn [andb] in H.
  assert (flatten y <> []).
  { intro Z. rewrite Z in H. destruct (flatten h); cbn in H; discriminate. }
  assert (L := length_flatten y (nr y) (nc y) (Logic.conj W (Logic.conj eq_refl eq_refl))).
  destruct (flatten y); [congruence|]. cbn in L. nia.
Qed.

(** ** the change between phases and sequences keeps the Frobenius norm *)
Lemma blocks_l : forall n (B Y : mat C) i p j, shape B 3 3 -> shape Y (n * 3) (n * 3) -> (i < n)%nat -> (p < 3)%nat -> (j < n * 3)%nat ->
  get (mmul (mkron (meye n) B) Y) (i * 3 + p) j = sumn 3 (fun q => get B p q * get Y (i * 3 + q) j)%K.
Proof.
  intros n B Y i p j HB (W & Hr & Hc) Hi Hp Hj. destruct HB as (WB & Br & Bc).
  rewrite get_mmul by (rewrite ?Hc; cbn; rewrite ?Br; lia).
  replace (nc (mkron (meye n) B)) with (n * 3)%nat by (cbn; rewrite Bc; reflexivity).
  rewrite sumn_mul. rewrite (sumn_single _ i); [|assumption|].
  - apply sumn_ext. intros q Hq. f_equal.
    replace (i * 3 + p)%nat with (i * nr B + p)%nat by (rewrite Br; reflexivity).
    replace (i * 3 + q)%nat with (i * nc B + q)%nat by (rewrite Bc; reflexivity).
    rewrite get_mkron by (cbn; lia). rewrite get_meye, Nat.eqb_refl by assumption. ring.
  - intros k Hk Hne. apply sumn_zero. intros q Hq.
    replace (i * 3 + p)%nat with (i * nr B + p)%nat by (rewrite Br; reflexivity).
    replace (get (mkron (meye n) B) (i * nr B + p) (k * 3 + q)) with (0%K : C); [ring|]. symmetry.
    replace (k * 3 + q)%nat with (k * nc B + q)%nat by (rewrite Bc; reflexivity).
    rewrite get_mkron by (cbn; lia). rewrite get_meye by assumption.
    destruct (Nat.eqb_spec i k); [congruence|]. ring.
Qed.

Lemma blocks_r : forall n (B Y : mat C) i p j, shape B 3 3 -> shape Y (n * 3) (n * 3) -> (i < n)%nat -> (p < 3)%nat -> (j < n * 3)%nat ->
  get (mmul Y (mkron (meye n) B)) j (i * 3 + p) = sumn 3 (fun q => get Y j (i * 3 + q) * get B q p)%K.
Proof.
  intros n B Y i p j HB (W & Hr & Hc) Hi Hp Hj. destruct HB as (WB & Br & Bc).
  rewrite get_mmul by (rewrite ?Hr; cbn; rewrite ?Bc; lia). rewrite Hc, sumn_mul. rewrite (sumn_single _ i); [|assumption|].
  - apply sumn_ext. intros q Hq. f_equal.
    replace (i * 3 + p)%nat with (i * nc B + p)%nat by (rewrite Bc; reflexivity).
    replace (i * 3 + q)%nat with (i * nr B + q)%nat by (rewrite Br; reflexivity).
    rewrite get_mkron by (cbn; lia). rewrite get_meye, Nat.eqb_refl by assumption. ring.
  - intros k Hk Hne. apply sumn_zero. intros q Hq.
    replace (get (mkron (meye n) B) (k * 3 + q) (i * 3 + p)) with (0%K : C); [ring|]. symmetry.
    replace (i * 3 + p)%nat with (i * nc B + p)%nat by (rewrite Bc; reflexivity).
    replace (k * 3 + q)%nat with (k * nr B + q)%nat by (rewrite Br; reflexivity).
    rewrite get_mkron by (cbn; lia). rewrite get_meye by assumption.
    destruct (Nat.eqb_spec k i); [congruence|]. ring.
Qed.
(** [B] stretches every vector of three numbers by [c] *)
Definition stretches (B : mat C) (c : R) : Prop := forall x : nat -> C,
  sumn 3 (fun p => sq (sumn 3 (fun q => get B p q * x q)%K)) = c * sumn 3 (fun q => sq (x q)) /\
  sumn 3 (fun p => sq (sumn 3 (fun q => x q * get B q p)%K)) = c * sumn 3 (fun q => sq (x q)).

Lemma stretch_l : forall n B Y c, shape B 3 3 -> stretches B c -> shape Y (n * 3) (n * 3) -> size2 (mmul (mkron (meye n) B) Y) = c * size2 Y.
Proof.
  intros n B Y c HB Hs HY. unfold size2. rewrite (proj1 (proj2 HY)), (proj2 (proj2 HY)).
  replace (nr (mmul (mkron (meye n) B) Y)) with (n * 3)%nat by (cbn; rewrite (proj1 (proj2 HB)); reflexivity).
  replace (nc (mmul (mkron (meye n) B) Y)) with (n * 3)%nat by (cbn; symmetry; apply HY).
  rewrite (sumn_swap _ _ (fun i j => sq (get Y i j))). etransitivity; [apply sumn_swap|]. rewrite sumr_scal. apply sumn_ext. intros j Hj.
  rewrite !sumn_mul. rewrite sumr_scal. apply sumn_ext. intros i Hi.
  rewrite <- (proj1 (Hs (fun q => get Y (i * 3 + q) j))). apply sumn_ext. intros p Hp. rewrite (blocks_l n B Y) by assumption. reflexivity.
Qed.
Lemma stretch_r : forall n B Y c, shape B 3 3 -> stretches B c -> shape Y (n * 3) (n * 3) -> size2 (mmul Y (mkron (meye n) B)) = c * size2 Y.
Proof.
  intros n B Y c HB Hs HY. unfold size2. rewrite (proj1 (proj2 HY)), (proj2 (proj2 HY)).
  replace (nr (mmul Y (mkron (meye n) B))) with (n * 3)%nat by (cbn; symmetry; apply HY).
  replace (nc (mmul Y (mkron (meye n) B))) with (n * 3)%nat by (cbn; rewrite (proj2 (proj2 HB)); reflexivity).
  rewrite sumr_scal. apply sumn_ext. intros j Hj.
  rewrite !sumn_mul. rewrite sumr_scal. apply sumn_ext. intros i Hi.
  rewrite <- (proj2 (Hs (fun q => get Y j (i * 3 + q)))). apply sumn_ext. intros p Hp. rewrite (blocks_r n B Y) by assumption. reflexivity.
Qed.
Lemma sumn3r : forall f : nat -> R, sumn 3 f = f 0%nat + f 1%nat + f 2%nat.
Proof. intro f. cbn. ring. Qed.
Lemma sumn3c : forall f : nat -> C, sumn 3 f = (f 0%nat + f 1%nat + f 2%nat)%K.
Proof. intro f. apply sumn_three. reflexivity. Qed.
Lemma abc_stretches : stretches block_abc 3.
Proof.
  assert (S3 := sqrt3). intro x. rewrite !sumn3r, !sumn3c. rewrite !get_abc by lia. unfold w3. cbn [Nat.mul Nat.add Nat.modulo Nat.divmod fst snd Nat.sub].
  destruct (x 0%nat) as [a0 b0], (x 1%nat) as [a1 b1], (x 2%nat) as [a2 b2]. unfold sq. cbn [kadd kmul cplx_ops re im cadd cmul].
  set (t := sqrt 3) in *. split; cbn; field [S3].
Qed.

Lemma seq_stretches : stretches block_012 (1 / 3).
Proof.
  assert (S3 := sqrt3). intro x. rewrite !sumn3r, !sumn3c. rewrite !get_012 by lia. unfold v3. cbn [Nat.mul Nat.add Nat.modulo Nat.divmod fst snd Nat.sub].
  destruct (x 0%nat) as [a0 b0], (x 1%nat) as [a1 b1], (x 2%nat) as [a2 b2]. unfold sq. cbn [kadd kmul cplx_ops re im cadd cmul].
  set (t := sqrt 3) in *. split; cbn; field [S3].
Qed.
Lemma to_phase_size : forall n Y Z, shape Y (n * 3) (n * 3) -> admittance_sequence_to_phase Y = Ok Z -> shape Z (n * 3) (n * 3) /\ size2 Z = size2 Y.
Proof.
  intros n Y Z HY E. rewrite (seq_to_phase_eq n Y HY) in E. injection E as <-. split; [apply shape_conj; [apply shape_TA|apply shape_TS]|].
  unfold TS. rewrite (stretch_r n block_012 _ (1 / 3)); [|apply shape_012|apply seq_stretches|].
  - unfold TA. rewrite (stretch_l n block_abc Y 3); [field|apply shape_abc|apply abc_stretches|assumption].
  - apply (shape_mmul _ _ _ (n * 3)); [apply (shape_TA n)|apply HY|apply (shape_TA n)].
Qed.
Lemma to_seq_size : forall n Y Z, shape Y (n * 3) (n * 3) -> admittance_phase_to_sequence Y = Ok Z -> shape Z (n * 3) (n * 3) /\ size2 Z = size2 Y.
Proof.
  intros n Y Z HY E. rewrite (phase_to_seq_eq n Y HY) in E. injection E as <-. split; [apply shape_conj; [apply shape_TS|apply shape_TA]|].
  unfold TA. rewrite (stretch_r n block_abc _ 3); [|apply shape_abc|apply abc_stretches|].
  - unfold TS. rewrite (stretch_l n block_012 Y (1 / 3)); [field|apply shape_012|apply seq_stretches|assumption].
  - apply (shape_mmul _ _ _ (n * 3)); [apply (shape_TS n)|apply HY|apply (shape_TS n)].
Qed.

Definition mdiff (A B : mat C) : mat C := mk (nr A) (nc A) (fun i j => get A i j - get B i j)%K.
Lemma gap2_diff : forall A B, gap2 A B = size2 (mdiff A B).
Proof.
  intros A B. unfold gap2, size2. cbn [nr nc mdiff mk]. apply sumn_ext. intros i Hi. apply sumn_ext. intros j Hj.
  unfold mdiff. rewrite get_mk by assumption. reflexivity.
Qed.
Lemma diff_l : forall A B D n, shape A n n -> shape B n n -> shape D n n -> mmul D (mdiff A B) = mdiff (mmul D A) (mmul D B).
Proof.
  intros A B D n (WA & RA & CA) (WB & RB & CB) (WD & RD & CD). apply (gshape_ext _ _ n n).
  - apply (shape_mmul _ _ _ n); cbn; congruence.
  - unfold mdiff. split; [apply wf_mk|]. cbn. split; congruence.
  - intros i j Hi Hj. unfold mdiff. rewrite get_mk by (cbn; congruence). rewrite !get_mmul by (cbn; congruence). rewrite <- sumn_sub.
    apply sumn_ext. intros k Hk. rewrite get_mk by congruence. ring.
Qed.
Lemma diff_r : forall A B D n, shape A n n -> shape B n n -> shape D n n -> mmul (mdiff A B) D = mdiff (mmul A D) (mmul B D).
Proof.
  intros A B D n (WA & RA & CA) (WB & RB & CB) (WD & RD & CD). apply (gshape_ext _ _ n n).
  - apply (shape_mmul _ _ _ n); cbn; congruence.
  - unfold mdiff. split; [apply wf_mk|]. cbn. split; congruence.
  - intros i j Hi Hj. unfold mdiff. rewrite get_mk by (cbn; congruence). rewrite !get_mmul by (cbn; congruence). cbn [nc mk]. rewrite CA, CB.
    rewrite <- sumn_sub. apply sumn_ext. intros k Hk. rewrite get_mk by congruence. ring.
Qed.
Lemma shape_mdiff : forall A B n, shape A n n -> shape (mdiff A B) n n.
Proof. intros A B n (W & R & Cc). split; [apply wf_mk|]. cbn. split; congruence. Qed.

Lemma shows_three : forall p q A B, wf A -> shows p q A B ->
  (~ (p = "012"%string /\ q = false) /\ ~ (p = "123"%string /\ q = true) /\ B = A) \/ exists n, shape A (n * 3) (n * 3) /\ shape B (n * 3) (n * 3) /\
  ((admittance_sequence_to_phase A = Ok B /\ p = "012"%string /\ q = false) \/ (admittance_phase_to_sequence A = Ok B /\ p = "123"%string /\ q = true)).
Proof.
  intros p q A B W H.
  assert (D : forall (f : mat C -> res (mat C)), (f = admittance_sequence_to_phase \/ f = admittance_phase_to_sequence) -> f A = Ok B ->
     exists n, shape A (n * 3) (n * 3) /\ shape B (n * 3) (n * 3)).
  { intros f Hf E. destruct (Nat.eq_dec (nc A mod 3) 0) as [M|M].
    2:{ destruct (p_rejected A M) as (_ & _ & E1 & E2). destruct Hf as [-> | ->]; congruence. }
    destruct (Nat.eq_dec (nr A) (nc A)) as [S|S].
    2:{ destruct (p_rejected_square A S) as (E1 & E2). destruct Hf as [-> | ->]; congruence. }
    exists (nc A / 3)%nat. assert (L : (nc A / 3 * 3 = nc A)%nat) by (pose proof (Nat.div_mod (nc A) 3); lia).
    assert (SA : shape A (nc A / 3 * 3) (nc A / 3 * 3)) by (split; [assumption|lia]). split; [exact SA|].
    destruct Hf as [-> | ->]; [apply (to_phase_size _ A); assumption|apply (to_seq_size _ A); assumption]. }
  destruct H as [(P & Q & E)|[(P & Q & E)|E]]; [right|right|left; assumption].
  - destruct (D _ (or_introl eq_refl) E) as (n & S1 & S2). exists n. split; [exact S1|]. split; [exact S2|]. left. auto.
  - destruct (D _ (or_intror eq_refl) E) as (n & S1 & S2). exists n. split; [exact S1|]. split; [exact S2|]. right. auto.
Qed.
Lemma shows_size : forall p q A B, wf A -> shows p q A B -> size2 B = size2 A.
Proof.
  intros p q A B W H. destruct (shows_three p q A B W H) as [(_ & _ & ->)|(n & S1 & S2 & [(E & _)|(E & _)])]; [reflexivity| |].
  - apply (to_phase_size n A); assumption.
  - apply (to_seq_size n A); assumption.
Qed.
Lemma shows_shape : forall p q A B n, shape A n n -> shows p q A B -> shape B n n.
Proof.
  intros p q A B n HA H. destruct (shows_three p q A B (proj1 HA) H) as [(_ & _ & ->)|(k & S1 & S2 & _)]; [assumption|].
  destruct HA as (W & R1 & C1), S1 as (_ & R2 & _). replace n with (k * 3)%nat by congruence. assumption.
Qed.
Lemma diff_conj : forall k (P Q A A' : mat C), shape P (k * 3) (k * 3) -> shape Q (k * 3) (k * 3) -> shape A (k * 3) (k * 3) -> shape A' (k * 3) (k * 3) ->
  mdiff (mmul (mmul P A) Q) (mmul (mmul P A') Q) = mmul (mmul P (mdiff A A')) Q.
Proof.
  intros k P Q A A' HP HQ HA HA'. rewrite (diff_l A A' P (k * 3)) by assumption.
  rewrite (diff_r (mmul P A) (mmul P A') Q (k * 3)); [reflexivity| | |assumption]; apply (shape_mmul _ _ _ (k * 3)); try apply HP; [apply HA|apply HA'].
Qed.
Lemma shows_gap : forall p q A B A' B' n, shape A n n -> shape A' n n -> shows p q A B -> shows p q A' B' -> gap2 B B' = gap2 A A'.
Proof.
  intros p q A B A' B' n HA HA' H H'. rewrite !gap2_diff.
  destruct (shows_three p q A B (proj1 HA) H) as [(N1 & N2 & ->)|(k & S1 & S2 & D)].
  - destruct H' as [(P & Q & _)|[(P & Q & _)|(_ & _ & ->)]]; [tauto|tauto|reflexivity].
  - assert (L : n = (k * 3)%nat) by (destruct HA as (_ & R1 & _), S1 as (_ & R2 & _); congruence). subst n.
    assert (SD := shape_mdiff A A' (k * 3) HA). destruct D as [(E & P & Q)|(E & P & Q)].
    + assert (E' : admittance_sequence_to_phase A' = Ok B') by (destruct H' as [(_ & _ & E')|[(P' & _)|(N1 & _)]]; [assumption|congruence|tauto]).
      rewrite (seq_to_phase_eq k A HA) in E. rewrite (seq_to_phase_eq k A' HA') in E'. injection E as <-. injection E' as <-.
      rewrite (diff_conj k (TA k) (TS k) A A' (shape_TA k) (shape_TS k) HA HA').
      exact (proj2 (to_phase_size k (mdiff A A') _ SD (seq_to_phase_eq k _ SD))).
    + assert (E' : admittance_phase_to_sequence A' = Ok B') by (destruct H' as [(P' & _)|[(_ & _ & E')|(_ & N2 & _)]]; [congruence|assumption|tauto]).
      rewrite (phase_to_seq_eq k A HA) in E. rewrite (phase_to_seq_eq k A' HA') in E'. injection E as <-. injection E' as <-.
      rewrite (diff_conj k (TS k) (TA k) A A' (shape_TS k) (shape_TA k) HA HA').
      exact (proj2 (to_seq_size k (mdiff A A') _ SD (phase_to_seq_eq k _ SD))).
Qed.
Lemma shows_overall : forall p q A B A' B' n m, shape A n n -> shape A' n n -> shows p q A B -> shows p q A' B' -> overall B B' m -> overall A A' m.
Proof.
  intros p q A B A' B' n m HA HA' H H'. unfold overall. rewrite (shows_gap p q A B A' B' n) by assumption.
  rewrite (shows_size p q A B) by (assumption || apply HA). auto.
Qed.
Lemma correct_shows : forall p q A B, correct_component p q A = Ok B -> shows p q A B.
Proof.
  intros p q A B H. unfold correct_component in H. unfold shows.
  destruct (String.eqb_spec p "012") as [P|P]; cbn [negb andb] in H.
  - destruct q; cbn [negb andb] in H; [|left; auto].
    destruct (String.eqb_spec p "123") as [P'|P']; cbn in H; [congruence|]. injection H as <-. right. right. repeat split; intros (? & ?); congruence.
  - destruct (String.eqb_spec p "123") as [P'|P']; cbn [negb andb] in H.
    + destruct q; cbn in H; [right; left; auto|]. injection H as <-. right. right. repeat split; intros (? & ?); congruence.
    + injection H as <-. right. right. repeat split; intros (? & ?); congruence.
Qed.
Lemma shows_correct : forall p q A B, shows p q A B -> correct_component p q A = Ok B.
Proof.
  intros p q A B H. unfold correct_component.
  destruct H as [(-> & -> & E)|[(-> & -> & E)|(N1 & N2 & ->)]]; [exact E|exact E|].
  destruct (String.eqb_spec p "012") as [P|P]; cbn [negb andb].
  - destruct q; cbn [negb andb]; [|tauto]. destruct (String.eqb_spec p "123") as [P'|P']; cbn; [congruence|reflexivity].
  - destruct (String.eqb_spec p "123") as [P'|P']; cbn [negb andb]; [|reflexivity]. destruct q; [tauto|reflexivity].
Qed.
Lemma shown_exists : forall p q A k, shape A (k * 3) (k * 3) -> exists B, shows p q A B.
Proof.
  intros p q A k HA. unfold shows. destruct (String.string_dec p "012") as [->|P].
  - destruct q; [exists A; right; right; repeat split; intros (? & ?); congruence|]. eexists. left. split; [reflexivity|]. split; [reflexivity|]. apply (seq_to_phase_eq k). assumption.
  - destruct (String.string_dec p "123") as [->|P']; [|exists A; right; right; repeat split; intros (? & ?); congruence].
    destruct q; [|exists A; right; right; repeat split; intros (? & ?); congruence]. eexists. right. left. split; [reflexivity|]. split; [reflexivity|]. apply (phase_to_seq_eq k). assumption.
Qed.

(** ** pairs of nodes *)
Definition lo (lap : bool) (b : nat) : nat := if lap then S b else b.
Definition pairs (lap : bool) (n : nat) : list (nat * nat) := flat_map (fun b => map (fun a => (a, b)) (seq (lo lap b) (n - lo lap b))) (range n).
Lemma map_flat_map : forall A B D (f : B -> D) (g : A -> list B) l, map f (flat_map g l) = flat_map (fun x => map f (g x)) l.
Proof. intros A B D f g l. induction l as [|x l IH]; [reflexivity|]. cbn. rewrite map_app, IH. reflexivity. Qed.
Lemma in_pairs : forall lap n a b, In (a, b) (pairs lap n) <-> (lo lap b <= a /\ a < n)%nat.
Proof.
  intros lap n a b. unfold pairs. rewrite in_flat_map. split.
  - intros (x & Hx & H). apply in_map_iff in H. destruct H as (z & E & Hz). injection E as -> ->. apply in_seq in Hz. lia.
  - intros (H1 & H2). exists b. split; [apply in_seq; unfold lo in H1; destruct lap; lia|]. apply in_map_iff. exists a. split; [reflexivity|]. apply in_seq. lia.
Qed.
Lemma select_map : forall A B (f : A -> bool) (g : A -> B) l, select (map f l) (map g l) = map g (filter f l).
Proof. intros A B f g l. induction l as [|x l IH]; [reflexivity|]. cbn. destruct (f x); cbn; rewrite IH; reflexivity. Qed.
Lemma lsum_app : forall a b : list R, lsum (a ++ b) = lsum a + lsum b.
Proof. induction a as [|x a IH]; intro b; [cbn; ring|]. change (x + lsum (a ++ b) = x + lsum a + lsum b). rewrite IH. ring. Qed.
Lemma lsum_filter : forall A (f : A -> bool) (g : A -> R) l, lsum (map g (filter f l)) = lsum (map (fun x => if f x then g x else 0) l).
Proof.
  intros A f g l. induction l as [|x l IH]; [reflexivity|]. cbn [filter map].
  change (lsum (map g (if f x then x :: filter f l else filter f l)) = (if f x then g x else 0) + lsum (map (fun x => if f x then g x else 0) l)).
  destruct (f x); [change (g x + lsum (map g (filter f l)) = g x + lsum (map (fun x => if f x then g x else 0) l))|]; rewrite IH; ring.
Qed.
Lemma lsum_flat : forall A (g : A -> R) (h : nat -> list A) n, lsum (map g (flat_map h (range n))) = sumn n (fun b => lsum (map g (h b))).
Proof.
  intros A g h n. induction n as [|n IH]; [reflexivity|]. unfold range. rewrite seq_S. fold (range n). rewrite flat_map_app, map_app, lsum_app, IH. cbn.
  rewrite app_nil_r. reflexivity.
Qed.
Lemma lsum_seq : forall (g : nat -> R) n k, (k <= n)%nat -> lsum (map g (seq k (n - k))) = sumn n (fun a => if (k <=? a)%nat then g a else 0).
Proof.
  intros g n k. induction n as [|n IH]; intro H.
  - replace (0 - k)%nat with 0%nat by lia. reflexivity.
  - destruct (Nat.eq_dec k (S n)) as [->|Hne].
    + rewrite Nat.sub_diag. cbn [seq map]. symmetry. apply sumn_zero. intros i Hi. destruct (Nat.leb_spec (S n) i); [lia|reflexivity].
    + replace (S n - k)%nat with (S (n - k)) by lia. rewrite seq_S, map_app, lsum_app, IH by lia. cbn. replace (k + (n - k))%nat with n by lia.
      destruct (Nat.leb_spec k n); [|lia]. ring.
Qed.
Lemma sum_pairs : forall lap n (g : nat * nat -> R), lsum (map g (pairs lap n)) = sumn n (fun a => sumn n (fun b => if (lo lap b <=? a)%nat then g (a, b) else 0)).
Proof.
  intros lap n g. unfold pairs. rewrite lsum_flat. etransitivity; [|symmetry; apply sumn_swap]. apply sumn_ext. intros b Hb.
  rewrite map_map. apply (lsum_seq (fun a => g (a, b))). unfold lo. destruct lap; lia.
Qed.
