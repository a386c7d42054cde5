(** Renumbered nodes: the weights that are computed from the measurements. *)
From Coq Require Import Bool Arith List Lia Ring Field Permutation Reals.
From Verif Require Import BasePy BaseFld BaseOrd BaseSum BaseMat BaseNumpy BaseLin ModelMatrixOps ModelErrorMetrics ModelFit ModelNoiseCov SpecMatrix SpecFit SpecNoise SpecOrder SpecTLS SpecRenumber ProofRagged ProofMatrixOps ProofNoiseCov ProofFitBase ProofFitEIV ProofFitFix ProofOrder5 ProofRenumber ProofEquiv ProofEquiv2 ProofEquiv4.
Import ListNotations.
Close Scope R_scope.
Local Open Scope K_scope.

Section Blocks.
Context {K : Type} {O : Ops K} {F : Fld K}.
Notation CK := (cplx K).
Add Field KfldRC : (@k_field K O F).
(** weights of each phasor on its own: four diagonal blocks *)
Definition blocks (N : nat) (r i c : nat -> K) : mat K :=
  mk (N + N) (N + N) (fun a b =>
    if Nat.ltb a N
    then (if Nat.ltb b N then (if Nat.eqb a b then r a else 0)
          else (if Nat.eqb a (b - N) then c a else 0))
    else (if Nat.ltb b N then (if Nat.eqb (a - N) b then c b else 0)
          else (if Nat.eqb a b then i (a - N)%nat else 0))).
Lemma blocks_tr : forall N r i c, tr (blocks N r i c) = blocks N r i c.
Proof.
  intros N r i c. assert (S : shape (blocks N r i c) (N + N) (N + N)) by apply shape_mk. apply (gshape_ext _ _ (N + N) (N + N)); [apply shape_mk|exact S|].
  intros a b Ha Hb. rewrite get_tr by (cbn [nr nc blocks mk]; assumption). unfold blocks. rewrite !get_mk by assumption.
  destruct (Nat.ltb_spec a N), (Nat.ltb_spec b N).
  - rewrite Nat.eqb_sym. destruct (Nat.eqb_spec a b) as [->|]; reflexivity.
  - rewrite Nat.eqb_sym. reflexivity.
  - rewrite Nat.eqb_sym. reflexivity.
  - rewrite Nat.eqb_sym. destruct (Nat.eqb_spec a b) as [->|]; reflexivity.
Qed.
Lemma blocks_cost : forall T n r i c (X : mat CK), shape X T n ->
  wnorm2 (blocks (n * T) r i c) X = sumn n (fun j => sumn T (fun t => let z := get X t j in let k := (j * T + t)%nat in r k * (re z * re z) + (c k * (re z * im z) + c k * (re z * im z)) + i k * (im z * im z))).
Proof.
  intros T n r i c X HX. pose proof (length_rv T n X HX) as L. destruct HX as (W & R & C). set (N := (n * T)%nat) in *. unfold wnorm2. set (v := make_real_vector (vectorize_matrix X)) in *.
  assert (Hr : forall k, (k < N)%nat -> vget v k = re (vget (vectorize_matrix X) k)).
  { intros k Hk. unfold v. rewrite vget_make_real_vector by (rewrite length_vectorize, R, C; unfold N in Hk; lia). rewrite length_vectorize, R, C. destruct (Nat.ltb_spec k (T * n)); [reflexivity|unfold N in Hk; lia]. }
  assert (Hi : forall k, (k < N)%nat -> vget v (N + k) = im (vget (vectorize_matrix X) k)).
  { intros k Hk. unfold v. rewrite vget_make_real_vector by (rewrite length_vectorize, R, C; unfold N in *; lia). rewrite length_vectorize, R, C. destruct (Nat.ltb_spec (N + k) (T * n)); [unfold N in *; lia|]. do 2 f_equal. unfold N. lia. }
  change (vdot v (mvmul (blocks N r i c) v)) with (form (blocks N r i c) v).
  rewrite (form_sum _ (N + N)) by (try apply shape_mk; lia).
  assert (B : forall f : nat -> K, sumn (N + N) f = sumn N f + sumn N (fun k => f (N + k)%nat)) by (intro f; apply sumn_plus).
  rewrite B.
  assert (E1 : forall a, (a < N)%nat -> sumn (N + N) (fun b => vget v a * get (blocks N r i c) a b * vget v b) = r a * (vget v a * vget v a) + c a * (vget v a * vget v (N + a)%nat)).
  { intros a Ha. rewrite B. rewrite (sumn_single N a) by (first [exact Ha|intros b Hb Hab; unfold blocks; rewrite get_mk by lia; rewrite (proj2 (Nat.ltb_lt a N) Ha), (proj2 (Nat.ltb_lt b N) Hb); destruct (Nat.eqb_spec a b); [lia|ring]]).
    rewrite (sumn_single N a) by (first [exact Ha|intros b Hb Hab; unfold blocks; rewrite get_mk by lia; rewrite (proj2 (Nat.ltb_lt a N) Ha), (proj2 (Nat.ltb_ge (N + b) N)) by lia; destruct (Nat.eqb_spec a (N + b - N)); [lia|ring]]).
    unfold blocks. rewrite !get_mk by lia. rewrite (proj2 (Nat.ltb_lt a N) Ha), (proj2 (Nat.ltb_ge (N + a) N)) by lia. replace (N + a - N)%nat with a by lia. rewrite Nat.eqb_refl. ring. }
  assert (E2 : forall a, (a < N)%nat -> sumn (N + N) (fun b => vget v (N + a)%nat * get (blocks N r i c) (N + a) b * vget v b) = c a * (vget v a * vget v (N + a)%nat) + i a * (vget v (N + a)%nat * vget v (N + a)%nat)).
  { intros a Ha. rewrite B. rewrite (sumn_single N a) by (first [exact Ha|intros b Hb Hab; unfold blocks; rewrite get_mk by lia; rewrite (proj2 (Nat.ltb_ge (N + a) N)), (proj2 (Nat.ltb_lt b N) Hb) by lia; destruct (Nat.eqb_spec (N + a - N) b); [lia|ring]]).
    rewrite (sumn_single N a) by (first [exact Ha|intros b Hb Hab; unfold blocks; rewrite get_mk by lia; rewrite (proj2 (Nat.ltb_ge (N + a) N)), (proj2 (Nat.ltb_ge (N + b) N)) by lia; destruct (Nat.eqb_spec (N + a) (N + b)); [lia|ring]]).
    unfold blocks. rewrite !get_mk by lia. rewrite (proj2 (Nat.ltb_ge (N + a) N)), (proj2 (Nat.ltb_lt a N) Ha) by lia. replace (N + a - N)%nat with a by lia. rewrite !Nat.eqb_refl. ring. }
  rewrite (sumn_ext N _ _ E1), (sumn_ext N _ _ E2). rewrite <- sumn_add. unfold N at 1. rewrite sumn_mul. apply sumn_ext. intros j Hj. apply sumn_ext. intros t Ht.
  assert (Hk : (j * T + t < N)%nat) by (unfold N; nia). cbv zeta. rewrite (Hr _ Hk), (Hi _ Hk). replace (vget (vectorize_matrix X) (j * T + t)) with (get X t j) by (rewrite <- R; symmetry; apply vget_vectorize; lia). ring.
Qed.
Lemma blocks_ren : forall T n p r i c r' i' c', numbering n p ->
  (forall j t, (j < n)%nat -> (t < T)%nat -> r' (j * T + t)%nat = r (p j * T + t)%nat /\ i' (j * T + t)%nat = i (p j * T + t)%nat /\ c' (j * T + t)%nat = c (p j * T + t)%nat) ->
  weights_renumbered T n p (blocks (n * T) r i c) (blocks (n * T) r' i' c').
Proof.
  intros T n p r i c r' i' c' HP E. split; [replace (2 * (n * T))%nat with (n * T + n * T)%nat by lia; apply shape_mk|]. split; [apply blocks_tr|].
  intros X X' (SX & SX' & EX). rewrite (blocks_cost T n _ _ _ X' SX'), (blocks_cost T n _ _ _ X SX).
  rewrite <- (sum_numbering n p (fun j => sumn T (fun t => let z := get X t j in let k := (j * T + t)%nat in r k * (re z * re z) + (c k * (re z * im z) + c k * (re z * im z)) + i k * (im z * im z))) HP).
  apply sumn_ext. intros j Hj. apply sumn_ext. intros t Ht. cbv zeta. destruct (E j t Hj Ht) as (-> & -> & ->). rewrite EX by assumption. reflexivity.
Qed.
End Blocks.

Definition unfin (x : flt) : R := match x with Fin a => a | NonFinite => 0%R end.
Definition entry (inv : bool) (a b d : R) : flt * flt * flt := if inv then invert_entry (Fin a) (Fin b) (Fin d) else (Fin a, Fin b, Fin d).
Lemma finish_blocks : forall inv r i c Q, finite (finish_covariance inv r i c) Q ->
  Q = blocks (length r) (fun k => unfin (fst (fst (entry inv (vget r k) (vget i k) (vget c k))))) (fun k => unfin (snd (fst (entry inv (vget r k) (vget i k) (vget c k))))) (fun k => unfin (snd (entry inv (vget r k) (vget i k) (vget c k)))).
Proof.
  intros inv r i c Q (WQ & E). set (N := length r).
  assert (EF : finish_covariance inv r i c = sparse_bmat (map (fun k => fst (fst (entry inv (vget r k) (vget i k) (vget c k)))) (range N)) (map (fun k => snd (fst (entry inv (vget r k) (vget i k) (vget c k)))) (range N)) (map (fun k => snd (entry inv (vget r k) (vget i k) (vget c k))) (range N))).
  { unfold finish_covariance. fold N. destruct inv; rewrite !map_map; reflexivity. }
  rewrite EF in E. assert (D : nr Q = (N + N)%nat /\ nc Q = (N + N)%nat).
  { pose proof (f_equal (@nr flt) E) as E1. pose proof (f_equal (@nc flt) E) as E2. cbn [sparse_bmat nr nc mk mmap] in E1, E2. rewrite map_length in E1, E2. unfold range in E1, E2. rewrite seq_length in E1, E2. split; congruence. }
  destruct D as [D1 D2]. apply (gshape_ext _ _ (N + N) (N + N)); [split; auto|apply shape_mk|]. intros a b Ha Hb.
  assert (G : gget (Fin 0%R) (mmap Fin Q) a b = Fin (get Q a b)) by (apply gget_mmap; congruence).
  rewrite <- E in G. unfold sparse_bmat in G. cbv zeta in G. rewrite map_length in G. replace (length (range N)) with N in G by (unfold range; rewrite seq_length; reflexivity). rewrite gget_mk in G by assumption.
  unfold blocks. rewrite get_mk by assumption.
  assert (U : forall x y, x = Fin y -> y = unfin x) by (intros x y ->; reflexivity). apply U in G. rewrite G.
  destruct (Nat.ltb_spec a N), (Nat.ltb_spec b N); try (destruct (Nat.eqb_spec a b)); try (destruct (Nat.eqb_spec a (b - N))); try (destruct (Nat.eqb_spec (a - N) b)); try reflexivity; rewrite fnth_map by lia; reflexivity.
Qed.
Lemma cov_ren : forall T n p column all M M' sd sd' sp inv s s' W W' Q Q', numbering n p -> kernel_eq column all -> sd_means n sd s -> sd_means n sd' s' -> (forall j, (j < n)%nat -> s' j = s (p j)) -> columns_renumbered T n p M M' ->
  covariance column all M sd sp inv = Ok W -> covariance column all M' sd' sp inv = Ok W' -> finite W Q -> finite W' Q' -> weights_renumbered T n p Q Q'.
Proof.
  intros T n p column all M M' sd sd' sp inv s s' W W' Q Q' HP HK HS HS' ES ((WM & R & C) & (WM' & R' & C') & E) H H' FQ FQ'.
  rewrite (covariance_eq column all M sd sp inv s HK) in H by (rewrite C; exact HS). rewrite (covariance_eq column all M' sd' sp inv s' HK) in H' by (rewrite C'; exact HS').
  assert (X : W = finish_covariance inv (entries (k_real column) M s sp) (entries (k_imag column) M s sp) (entries (k_cov column) M s sp)) by congruence.
  assert (X' : W' = finish_covariance inv (entries (k_real column) M' s' sp) (entries (k_imag column) M' s' sp) (entries (k_cov column) M' s' sp)) by congruence.
  subst W W'. apply finish_blocks in FQ. apply finish_blocks in FQ'. rewrite length_entries in FQ, FQ'. rewrite R, C, Nat.mul_comm in FQ. rewrite R', C', Nat.mul_comm in FQ'. rewrite FQ, FQ'. apply blocks_ren; [exact HP|].
  intros j t Hj Ht. pose proof (order_lt n p HP j Hj) as Hp.
  assert (EN : forall g, vget (entries g M' s' sp) (j * T + t) = vget (entries g M s sp) (p j * T + t)).
  { intros g. rewrite <- R' at 1. rewrite vget_entries by lia. rewrite <- R at 1. rewrite vget_entries by lia. rewrite E, ES by assumption. reflexivity. }
  rewrite !EN. auto.
Qed.
