(** Proofs about resampling. *)
From Coq Require Import Arith Lia List Bool Ring Field.
From Verif Require Import BasePy BaseFld BaseSum BaseMat BaseOrd BaseLin ProofMatrixOps ModelResample SpecResample.
Import ListNotations.
Local Open Scope K_scope.

Section Resample.
Context {K : Type} {O : Ops K} {F : Fld K} {O2 : OrdOps K} {OF : OrdFld K}.
Notation CK := (cplx K).
Add Field Kfld : (@k_field K O F).

Lemma increasing_tail : forall a x, increasing (a :: x : list K) -> increasing x.
Proof. intros a x H i j Hij Hj. apply (H (S i) (S j)); cbn; lia. Qed.
Lemma klt_asym_le : forall a b : K, a <! b -> kleb b a = false.
Proof. intros a b H. unfold klt, kltb in H. destruct (kleb b a); auto; discriminate. Qed.
Lemma kleb_true : forall a b : K, a <! b -> kleb a b = true.
Proof. intros a b H. apply klt_le in H. exact H. Qed.

Lemma sort_sorted : forall (x : list K) (y : list CK), increasing x -> sort_points (combine x y) = combine x y.
Proof.
  induction x as [|a x IH]; intros y H; [reflexivity|]. destruct y as [|b y]; [reflexivity|].
  cbn [combine sort_points]. rewrite IH by (eapply increasing_tail; eauto).
  destruct x as [|a' x']; [destruct y; reflexivity|]. destruct y as [|b' y]; [reflexivity|].
  cbn [combine insert_point fst]. rewrite kleb_true; [reflexivity|]. apply (H 0%nat 1%nat); cbn; lia.
Qed.

Lemma search_spec : forall (x : list K) v i, increasing x -> (i < length x)%nat -> ((i < search x v)%nat <-> vget x i <! v).
Proof.
  induction x as [|a x IH]; intros v i Hinc Hi; [cbn in Hi; lia|].
  unfold search in *. cbn [filter]. destruct (kltb a v) eqn:Ea.
  - cbn [length]. destruct i as [|i].
    + split; intros _; [exact Ea|lia].
    + change (vget (a :: x) (S i)) with (vget x i). rewrite <- IH by (eauto using increasing_tail; cbn in Hi; lia). lia.
  - assert (Hz : filter (fun b => kltb b v) x = []).
    { assert (G : forall b, In b x -> kltb b v = false).
      { intros b Hb. destruct (In_nth _ _ 0 Hb) as (k & Hk & <-). change (nth k x 0) with (vget (a :: x) (S k)).
        pose proof (Hinc 0%nat (S k) ltac:(lia) ltac:(cbn; lia)) as H1. change (vget (a :: x) 0) with a in H1.
        destruct (kltb (vget (a :: x) (S k)) v) eqn:E; auto. exfalso.
        assert (a <! v) by (apply klt_spec2; split;
          [apply (kle_trans _ (vget (a :: x) (S k))); apply klt_le; auto
          |intro; subst v; apply klt_spec in E; apply E; apply klt_le; auto]).
        unfold klt in H. congruence. }
      clear - G. induction x as [|b x IH]; auto. cbn [filter]. rewrite G by (left; auto). apply IH. intros; apply G; right; auto. }
    rewrite Hz. cbn [length]. split; [lia|]. intros H. exfalso.
    assert (Ha : a <! v).
    { destruct i as [|i]; [exact H|].
      pose proof (Hinc 0%nat (S i) ltac:(lia) Hi) as H1. change (vget (a :: x) 0) with a in H1.
      apply klt_spec2. split; [apply (kle_trans _ (vget (a :: x) (S i))); apply klt_le; auto|].
      intro; subst v. apply klt_spec in H. apply H. apply klt_le; auto. }
    unfold klt in Ha. congruence.
Qed.

Lemma nlt_le : forall a b : K, ~ a <! b -> b <=! a.
Proof. intros a b H. destruct (kle_dec b a); auto. contradiction. Qed.

(** the interval that is chosen *)
Lemma interval : forall (x : list K) v, increasing x -> (2 <= length x)%nat -> vget x 0 <=! v -> v <=! vget x (length x - 1) ->
  let hi := clip 1 (length x - 1) (search x v) in
  (1 <= hi)%nat /\ (hi < length x)%nat /\ vget x (hi - 1) <=! v /\ v <=! vget x hi.
Proof.
  intros x v Hinc HL Hlo Hhi hi.
  assert (H1 : (1 <= hi)%nat /\ (hi < length x)%nat) by (unfold hi, clip; lia). destruct H1 as [H1 H2].
  split; auto. split; auto. split.
  - destruct (Nat.eq_dec hi 1) as [E|E]; [rewrite E; exact Hlo|].
    apply klt_le. apply search_spec; auto; [lia|]. unfold hi, clip in *. lia.
  - destruct (Nat.eq_dec hi (length x - 1)) as [E|E]; [rewrite E; exact Hhi|].
    apply nlt_le. intro H. apply search_spec in H; auto. unfold hi, clip in *. lia.
Qed.

Lemma interp_at_re : forall x y v, increasing x -> (2 <= length x)%nat -> vget x 0 <=! v -> v <=! vget x (length x - 1) ->
  interpolates x (fun r => re (vget y r)) v (re (interp_at x y v)) /\
  interpolates x (fun r => im (vget y r)) v (im (interp_at x y v)).
Proof.
  intros x y v Hinc HL Hlo Hhi. destruct (interval x v Hinc HL Hlo Hhi) as (H1 & H2 & H3 & H4).
  unfold interp_at. set (hi := clip 1 (length x - 1) (search x v)) in *.
  assert (E : hi = S (hi - 1)) by lia. set (lo := (hi - 1)%nat) in *.
  assert (Hd : vget x hi - vget x lo <> 0).
  { pose proof (Hinc lo hi ltac:(lia) H2) as H. apply klt_spec2 in H. destruct H as [_ H]. intro E0. apply H.
    replace (vget x hi) with (vget x lo + (vget x hi - vget x lo)) by ring. rewrite E0. ring. }
  split; exists lo; rewrite <- E; (split; [auto|]; split; [auto|]; split; [auto|]); cbn [re im cadd csub]; field; auto.
Qed.

Lemma interpolates_unique : forall x y v w w', increasing x -> interpolates x y v w -> interpolates x y v w' -> w = w'.
Proof.
  intros x y v w w' Hinc (j & Hj & H1 & H2 & H3) (j' & Hj' & H1' & H2' & H3').
  assert (Hd : forall k, (S k < length x)%nat -> vget x (S k) - vget x k <> 0).
  { intros k Hk E. pose proof (Hinc k (S k) ltac:(lia) Hk) as H. apply klt_spec2 in H. destruct H as [_ H]. apply H.
    replace (vget x (S k)) with (vget x k + (vget x (S k) - vget x k)) by ring. rewrite E. ring. }
  assert (Hle : forall a b, (a <= b)%nat -> (b < length x)%nat -> vget x a <=! vget x b).
  { intros a b Hab Hb. destruct (Nat.eq_dec a b); [subst; apply kle_refl|]. apply klt_le. apply Hinc; lia. }
  assert (Hval : forall k u, (S k < length x)%nat -> u * (vget x (S k) - vget x k) = y k * (vget x (S k) - v) + y (S k) * (v - vget x k) ->
    (v = vget x k -> u = y k) /\ (v = vget x (S k) -> u = y (S k))).
  { intros k u Hk E. split; intros ->; apply (kmul_cancel_l (vget x (S k) - vget x k)); auto.
    - transitivity (u * (vget x (S k) - vget x k)); [ring|]. rewrite E. ring.
    - transitivity (u * (vget x (S k) - vget x k)); [ring|]. rewrite E. ring. }
  destruct (lt_eq_lt_dec j j') as [[Hlt|<-]|Hgt].
  - assert (E : v = vget x (S j)).
    { apply kle_antisym; auto. apply (kle_trans _ (vget x j')); auto. apply Hle; lia. }
    assert (E' : v = vget x j').
    { apply kle_antisym; auto. rewrite E. apply Hle; lia. }
    assert (EJ : j' = S j).
    { destruct (Nat.eq_dec j' (S j)); auto. exfalso. pose proof (Hinc (S j) j' ltac:(lia) ltac:(lia)) as H. apply klt_spec2 in H. destruct H as [_ H]. congruence. }
    rewrite (proj2 (Hval j w Hj H3) E), (proj1 (Hval j' w' Hj' H3') E'), EJ. reflexivity.
  - apply (kmul_cancel_l (vget x (S j) - vget x j)); auto.
    transitivity (w * (vget x (S j) - vget x j)); [ring|]. rewrite H3, <- H3'. ring.
  - assert (E : v = vget x (S j')).
    { apply kle_antisym; auto. apply (kle_trans _ (vget x j)); auto. apply Hle; lia. }
    assert (E' : v = vget x j).
    { apply kle_antisym; auto. rewrite E. apply Hle; lia. }
    assert (EJ : j = S j').
    { destruct (Nat.eq_dec j (S j')); auto. exfalso. pose proof (Hinc (S j') j ltac:(lia) ltac:(lia)) as H. apply klt_spec2 in H. destruct H as [_ H]. congruence. }
    rewrite (proj2 (Hval j' w' Hj' H3') E), (proj1 (Hval j w Hj H3) E'), EJ. reflexivity.
Qed.

Lemma existsb_false : forall A (f : A -> bool) l, (forall a, In a l -> f a = false) -> existsb f l = false.
Proof. induction l; cbn; intros H; auto. rewrite (H a) by auto. cbn. auto. Qed.

Lemma interp1d_ok : forall x (y : list CK) new, increasing x -> (2 <= length x)%nat -> length x = length y -> within x new ->
  interp1d x y new = Ok (map (interp_at x y) new).
Proof.
  intros x y new Hinc HL Hxy Hw. unfold interp1d. rewrite Hxy, Nat.eqb_refl. cbn [negb]. rewrite <- Hxy.
  destruct (Nat.ltb_spec (length x) 2); [lia|]. rewrite sort_sorted by auto.
  assert (E1 : map fst (combine x y) = x).
  { clear - Hxy. revert y Hxy. induction x; intros [|b y] H; cbn in *; try lia; auto. f_equal; auto. }
  assert (E2 : map snd (combine x y) = y).
  { clear - Hxy. revert y Hxy. induction x; intros [|b y] H; cbn in *; try lia; auto. f_equal; auto. }
  rewrite E1, E2. rewrite existsb_false; auto.
  intros v Hv. destruct (Hw v Hv) as [H1 H2]. unfold kltb. unfold kle in H1, H2. rewrite H1, H2. reflexivity.
Qed.

Lemma interp1d_outside : forall x (y : list CK) new v, increasing x -> length x = length y -> In v new ->
  v <! vget x 0 \/ vget x (length x - 1) <! v -> interp1d x y new = Err ValueError.
Proof.
  intros x y new v Hinc Hxy Hv Ho. unfold interp1d. rewrite Hxy, Nat.eqb_refl. cbn [negb]. rewrite <- Hxy.
  destruct (Nat.ltb_spec (length x) 2); auto. rewrite sort_sorted by auto.
  assert (E1 : map fst (combine x y) = x).
  { clear - Hxy. revert y Hxy. induction x; intros [|b y] H; cbn in *; try lia; auto. f_equal; auto. }
  rewrite E1.
  destruct (existsb _ new) eqn:E; auto. exfalso.
  assert (Ht : existsb (fun v => kltb v (vget x 0) || kltb (vget x (length x - 1)) v) new = true).
  { apply existsb_exists. exists v. split; auto. unfold klt in Ho. destruct Ho as [-> | ->]; [reflexivity|apply orb_true_r]. }
  congruence.
Qed.

(** ** Without noise *)
Context {St D : Type}.
Notation resample := (@filter_and_resample_measurement K O O2 St D).

Definition block (f t : nat) (l : list CK) : CK :=
  let sum := lsum (firstn f (skipn (t * f) l)) in Cx (re sum / knat f) (im sum / knat f).

Definition noiseless (std_m std_p : option (stdarg D)) (nf : option (@noise_fun K St D)) : Prop :=
  nf = None \/ std_m = None \/ std_p = None.
Lemma add_noise_none : forall nf std_m std_p i v s, noiseless std_m std_p nf -> add_noise nf std_m std_p i v s = Ok (v, s).
Proof. intros nf sm sp i v s [-> | [-> | ->]]; unfold add_noise; [reflexivity|destruct nf; reflexivity|destruct nf; [destruct sm|]; reflexivity]. Qed.

Lemma columns_ok : forall M old new steps f nf sm sp cols s, noiseless sm sp nf -> increasing old -> (2 <= length old)%nat ->
  nr M = length old -> within old new ->
  resample_columns M old new steps f nf sm sp cols s =
  Ok (map (fun i => map (fun t => block f t (map (interp_at old (mcol M i)) new)) (range steps)) cols, s).
Proof.
  intros M old new steps f nf sm sp cols s Hn Hinc HL HM Hw. induction cols as [|i r IH]; [reflexivity|].
  cbn [resample_columns]. rewrite interp1d_ok by (auto; rewrite length_mcol; auto). cbn [bind].
  rewrite add_noise_none by auto. cbn [bind]. rewrite IH. cbn [bind map]. reflexivity.
Qed.

Theorem resample_eq : forall M old new f nf sm sp s, noiseless sm sp nf -> increasing old -> (2 <= length old)%nat ->
  nr M = length old -> within old new -> (0 < f)%nat ->
  resample M (Some old) (Some new) f sm sp nf s =
  Ok (mk (length new / f) (nc M) (fun t i => block f t (map (interp_at old (mcol M i)) new)), s).
Proof.
  intros M old new f nf sm sp s Hn Hinc HL HM Hw Hf. unfold filter_and_resample_measurement.
  destruct (Nat.eqb_spec f 0); [lia|]. rewrite columns_ok by auto. cbn [bind]. f_equal. f_equal.
  apply mk_ext. intros t i Ht Hi. rewrite (nth_map_range _ _ (nc M) i []) by auto.
  unfold vget. rewrite (nth_map_range _ _ (length new / f) t) by auto. reflexivity.
Qed.

Lemma nth_firstn_skipn : forall A (l : list A) a f k d, (k < f)%nat -> (a + k < length l)%nat -> nth k (firstn f (skipn a l)) d = nth (a + k) l d.
Proof.
  intros A l a f k d Hk Hl. rewrite <- (firstn_skipn a l) at 2. 
  rewrite app_nth2 by (rewrite firstn_length; lia). rewrite firstn_length, Nat.min_l by lia. replace (a + k - a)%nat with k by lia.
  rewrite <- (firstn_skipn f (skipn a l)) at 2. rewrite app_nth1; auto. rewrite firstn_length, skipn_length. lia.
Qed.

Lemma re_lsum : forall l : list CK, re (lsum l) = sumn (length l) (fun i => re (nth i l 0)).
Proof.
  intros l. rewrite lsum_nth, re_sumn. reflexivity.
Qed.
Lemma im_lsum : forall l : list CK, im (lsum l) = sumn (length l) (fun i => im (nth i l 0)).
Proof.
  intros l. rewrite lsum_nth, im_sumn. reflexivity.
Qed.

Lemma block_value : forall f t (l : list CK), (0 < f)%nat -> ((t + 1) * f <= length l)%nat ->
  knat f * re (block f t l) = sumn f (fun k => re (vget l (t * f + k))) /\
  knat f * im (block f t l) = sumn f (fun k => im (vget l (t * f + k))).
Proof.
  intros f t l Hf Hl. unfold block. cbn [re im].
  assert (Hk : knat f <> (0 : K)) by (destruct f; [lia|apply k_char0]).
  assert (HL : length (firstn f (skipn (t * f) l)) = f) by (rewrite firstn_length, skipn_length; lia).
  rewrite re_lsum, im_lsum, HL. split.
  - transitivity (sumn f (fun i => re (nth i (firstn f (skipn (t * f) l)) 0))); [field; auto|].
    apply sumn_ext. intros k Hk'. rewrite nth_firstn_skipn by lia. reflexivity.
  - transitivity (sumn f (fun i => im (nth i (firstn f (skipn (t * f) l)) 0))); [field; auto|].
    apply sumn_ext. intros k Hk'. rewrite nth_firstn_skipn by lia. reflexivity.
Qed.

Lemma row_fits : forall n f t, (0 < f)%nat -> (t < n / f)%nat -> ((t + 1) * f <= n)%nat.
Proof.
  intros n f t Hf Ht. pose proof (Nat.mul_div_le n f ltac:(lia)). nia.
Qed.

Lemma interpolates_ext : forall x (y y' : nat -> K) v w, (forall j, (j < length x)%nat -> y j = y' j) -> interpolates x y v w -> interpolates x y' v w.
Proof. intros x y y' v w H (j & H1 & H2 & H3 & H4). exists j. rewrite <- !H by lia. auto. Qed.

Theorem p_resample : forall M old new f nf sm sp s, noiseless sm sp nf -> increasing old -> (2 <= length old)%nat ->
  nr M = length old -> within old new -> (0 < f)%nat ->
  exists out, resample M (Some old) (Some new) f sm sp nf s = Ok (out, s) /\ averages M old new f out.
Proof.
  intros M old new f nf sm sp s Hn Hinc HL HM Hw Hf. eexists. split; [apply resample_eq; auto|].
  split; [apply shape_mk|]. intros t i Ht Hi. rewrite get_mk by auto.
  set (l := map (interp_at old (mcol M i)) new). pose proof (row_fits _ _ _ Hf Ht) as Hr.
  assert (Hl : length l = length new) by (unfold l; apply map_length).
  destruct (block_value f t l Hf) as [H1 H2]; [lia|].
  exists (fun k => re (vget l (t * f + k))), (fun k => im (vget l (t * f + k))). split; [|auto].
  intros k Hk. assert (Hi' : (t * f + k < length new)%nat) by nia.
  assert (El : vget l (t * f + k) = interp_at old (mcol M i) (vget new (t * f + k))).
  { unfold l. rewrite (vget_map _ _ _ 0) by auto. reflexivity. }
  rewrite El. destruct (Hw (vget new (t * f + k))) as [W1 W2]; [apply nth_In; auto|].
  destruct (interp_at_re old (mcol M i) _ Hinc HL W1 W2) as [R1 R2].
  split; (eapply interpolates_ext; [|eassumption]); intros j Hj; cbv beta; rewrite vget_mcol by lia; reflexivity.
Qed.

(** the averages are determined *)
Theorem p_averages_unique : forall M old new f out out', increasing old -> (0 < f)%nat ->
  averages M old new f out -> averages M old new f out' -> out = out'.
Proof.
  intros M old new f out out' Hinc Hf (Hs & H) (Hs' & H'). apply (gshape_ext _ _ _ _ Hs Hs'). intros t i Ht Hi.
  destruct (H t i Ht Hi) as (a & b & Hab & Ha & Hb). destruct (H' t i Ht Hi) as (a' & b' & Hab' & Ha' & Hb').
  assert (Hk : knat f <> (0 : K)) by (destruct f; [lia|apply k_char0]).
  assert (E1 : re (get out t i) = re (get out' t i)).
  { apply (kmul_cancel_l (knat f)); auto. rewrite Ha, Ha'. apply sumn_ext. intros k Hk'.
    destruct (Hab k Hk') as [X _]. destruct (Hab' k Hk') as [X' _]. eapply interpolates_unique; eauto. }
  assert (E2 : im (get out t i) = im (get out' t i)).
  { apply (kmul_cancel_l (knat f)); auto. rewrite Hb, Hb'. apply sumn_ext. intros k Hk'.
    destruct (Hab k Hk') as [_ X]. destruct (Hab' k Hk') as [_ X']. eapply interpolates_unique; eauto. }
  destruct (get out t i), (get out' t i). cbn in *. congruence.
Qed.

(** bounds of an interpolated value *)
Lemma interpolates_bound : forall x y v w lo hi, increasing x -> (forall j, (j < length x)%nat -> lo <=! y j /\ y j <=! hi) ->
  interpolates x y v w -> lo <=! w /\ w <=! hi.
Proof.
  intros x y v w lo hi Hinc Hb (j & Hj & H1 & H2 & H3).
  pose proof (Hinc j (S j) ltac:(lia) Hj) as Hlt.
  set (d := vget x (S j) - vget x j) in *.
  assert (Hd : 0 <! d).
  { apply klt_spec2 in Hlt. destruct Hlt as [L N]. apply klt_spec2. split; [apply kle_sub in L; exact L|]. intro E. apply N.
    replace (vget x (S j)) with (d + vget x j) by (unfold d; ring). rewrite <- E. ring. }
  assert (Hdn : d <> 0) by (apply klt_neq; auto).
  assert (A1 : 0 <=! vget x (S j) - v) by (apply kle_sub in H2; auto).
  assert (A2 : 0 <=! v - vget x j) by (apply kle_sub in H1; auto).
  destruct (Hb j ltac:(lia)) as [B1 B2]. destruct (Hb (S j) ltac:(lia)) as [B3 B4].
  apply kle_sub in B1, B2, B3, B4. split; apply kle_sub.
  - replace (w - lo) with (((y j - lo) * (vget x (S j) - v) + (y (S j) - lo) * (v - vget x j)) / d).
    + apply kle_div; auto. apply kle_0_add; apply kle_mul; auto.
    + replace ((y j - lo) * (vget x (S j) - v) + (y (S j) - lo) * (v - vget x j)) with (w * d - lo * d) by (rewrite H3; unfold d; ring). field; auto.
  - replace (hi - w) with (((hi - y j) * (vget x (S j) - v) + (hi - y (S j)) * (v - vget x j)) / d).
    + apply kle_div; auto. apply kle_0_add; apply kle_mul; auto.
    + replace ((hi - y j) * (vget x (S j) - v) + (hi - y (S j)) * (v - vget x j)) with (hi * d - w * d) by (rewrite H3; unfold d; ring). field; auto.
Qed.

Lemma knat_pos : forall f, (0 < f)%nat -> (0 : K) <! knat f.
Proof.
  induction f as [|f IH]; intros H; [lia|]. cbn [knat].
  assert (H0 : (0 : K) <=! knat f) by (destruct f; [apply kle_refl|apply klt_le, IH; lia]).
  apply klt_add; [auto|apply klt_01].
Qed.
Lemma mean_bound : forall f (a : nat -> K) m lo hi, (0 < f)%nat -> (forall k, (k < f)%nat -> lo <=! a k /\ a k <=! hi) ->
  knat f * m = sumn f a -> lo <=! m /\ m <=! hi.
Proof.
  intros f a m lo hi Hf Ha Hm. pose proof (knat_pos f Hf) as Hp. assert (Hn : knat f <> (0 : K)) by (apply klt_neq; auto).
  split; apply kle_sub.
  - replace (m - lo) with (sumn f (fun k => a k - lo) / knat f).
    + apply kle_div; auto. apply sumn_nonneg. intros k Hk. apply kle_sub with (x := lo). apply (proj1 (Ha k Hk)).
    + rewrite sumn_sub, sumn_const, <- Hm. field; auto.
  - replace (hi - m) with (sumn f (fun k => hi - a k) / knat f).
    + apply kle_div; auto. apply sumn_nonneg. intros k Hk. apply kle_sub with (y := hi). apply (proj2 (Ha k Hk)).
    + rewrite sumn_sub, sumn_const, <- Hm. field; auto.
Qed.

Theorem p_averages_bounds : forall M old new f out i lo hi lo' hi', increasing old -> (0 < f)%nat -> nr M = length old ->
  averages M old new f out -> (i < nc M)%nat ->
  (forall r, (r < nr M)%nat -> lo <=! re (get M r i) /\ re (get M r i) <=! hi /\ lo' <=! im (get M r i) /\ im (get M r i) <=! hi') ->
  forall t, (t < nr out)%nat -> lo <=! re (get out t i) /\ re (get out t i) <=! hi /\ lo' <=! im (get out t i) /\ im (get out t i) <=! hi'.
Proof.
  intros M old new f out i lo hi lo' hi' Hinc Hf HM ((_ & Hr & _) & H) Hi Hb t Ht. rewrite Hr in Ht.
  destruct (H t i Ht Hi) as (a & b & Hab & Ha & Hb').
  assert (B1 : lo <=! re (get out t i) /\ re (get out t i) <=! hi).
  { apply (mean_bound f a); auto. intros k Hk. destruct (Hab k Hk) as [X _].
    apply (interpolates_bound _ _ _ _ lo hi Hinc) in X; auto. intros j Hj. destruct (Hb j ltac:(lia)) as (? & ? & _). auto. }
  assert (B2 : lo' <=! im (get out t i) /\ im (get out t i) <=! hi').
  { apply (mean_bound f b); auto. intros k Hk. destruct (Hab k Hk) as [_ X].
    apply (interpolates_bound _ _ _ _ lo' hi' Hinc) in X; auto. intros j Hj. destruct (Hb j ltac:(lia)) as (_ & _ & ? & ?). auto. }
  tauto.
Qed.

Theorem p_averages_constant : forall M old new f out i c, increasing old -> (0 < f)%nat -> nr M = length old ->
  averages M old new f out -> (i < nc M)%nat -> (forall r, (r < nr M)%nat -> get M r i = c) ->
  forall t, (t < nr out)%nat -> get out t i = c.
Proof.
  intros M old new f out i c Hinc Hf HM Hav Hi Hc t Ht.
  destruct (p_averages_bounds M old new f out i (re c) (re c) (im c) (im c) Hinc Hf HM Hav Hi) with (t := t) as (B1 & B2 & B3 & B4); auto.
  - intros r Hr. rewrite Hc by auto. repeat split; apply kle_refl.
  - destruct (get out t i), c. cbn in *. f_equal; apply kle_antisym; auto.
Qed.

Lemma interpolates_lin : forall x y y' v w w' p q, increasing x -> interpolates x y v w -> interpolates x y' v w' ->
  interpolates x (fun j => p * y j + q * y' j) v (p * w + q * w').
Proof.
  intros x y y' v w w' p q Hinc (j & Hj & H1 & H2 & H3) Hw'. exists j. split; auto. split; auto. split; auto.
  assert (Hd : vget x (S j) - vget x j <> 0).
  { intros E. pose proof (Hinc j (S j) ltac:(lia) Hj) as H. apply klt_spec2 in H. destruct H as [_ H]. apply H.
    replace (vget x (S j)) with (vget x j + (vget x (S j) - vget x j)) by ring. rewrite E. ring. }
  set (u := (y' j * (vget x (S j) - v) + y' (S j) * (v - vget x j)) / (vget x (S j) - vget x j)).
  assert (Hu : u * (vget x (S j) - vget x j) = y' j * (vget x (S j) - v) + y' (S j) * (v - vget x j)) by (unfold u; field; auto).
  assert (E : w' = u).
  { apply (interpolates_unique x y' v w' u Hinc Hw'). exists j. auto. }
  rewrite E. transitivity (p * (w * (vget x (S j) - vget x j)) + q * (u * (vget x (S j) - vget x j))); [ring|].
  rewrite H3, Hu. ring.
Qed.

Lemma re_cmul' : forall a b : CK, re (a * b) = re a * re b + - im a * im b.
Proof. intros [a b] [c d]. cbn. ring. Qed.
Lemma im_cmul' : forall a b : CK, im (a * b) = re a * im b + im a * re b.
Proof. intros [a b] [c d]. cbn. ring. Qed.
Lemma re_cadd' : forall a b : CK, re (a + b) = re a + re b. Proof. reflexivity. Qed.
Lemma im_cadd' : forall a b : CK, im (a + b) = im a + im b. Proof. reflexivity. Qed.

Theorem p_averages_linear : forall M N old new f out out' (p q : CK), increasing old -> (0 < f)%nat -> nr M = length old ->
  nr N = nr M -> nc N = nc M -> averages M old new f out -> averages N old new f out' ->
  averages (madd (mscal p M) (mscal q N)) old new f (madd (mscal p out) (mscal q out')).
Proof.
  intros M N old new f out out' p q Hinc Hf HM HN1 HN2 (Hs & H) (Hs' & H').
  destruct Hs as (Hw & Hr & Hc). destruct Hs' as (Hw' & Hr' & Hc'). split.
  { split; [apply wf_mk|]. cbn. auto. }
  cbn [nc madd mk mscal]. intros t i Ht Hi. rewrite get_madd by (cbn; lia). rewrite !get_mscal by lia.
  destruct (H t i Ht Hi) as (a & b & Hab & Ha & Hb). destruct (H' t i Ht ltac:(lia)) as (a' & b' & Hab' & Ha' & Hb').
  exists (fun k => (re p * a k + - im p * b k) + (re q * a' k + - im q * b' k)).
  exists (fun k => (re p * b k + im p * a k) + (re q * b' k + im q * a' k)). split; [|split].
  - intros k Hk. destruct (Hab k Hk) as [X1 X2]. destruct (Hab' k Hk) as [Y1 Y2].
    pose proof (interpolates_lin _ _ _ _ _ _ (re p) (- im p) Hinc X1 X2) as Z1.
    pose proof (interpolates_lin _ _ _ _ _ _ (re q) (- im q) Hinc Y1 Y2) as Z2.
    pose proof (interpolates_lin _ _ _ _ _ _ 1 1 Hinc Z1 Z2) as Z3.
    pose proof (interpolates_lin _ _ _ _ _ _ (re p) (im p) Hinc X2 X1) as U1.
    pose proof (interpolates_lin _ _ _ _ _ _ (re q) (im q) Hinc Y2 Y1) as U2.
    pose proof (interpolates_lin _ _ _ _ _ _ 1 1 Hinc U1 U2) as U3.
    split.
    + replace (re p * a k + - im p * b k + (re q * a' k + - im q * b' k)) with (1 * (re p * a k + - im p * b k) + 1 * (re q * a' k + - im q * b' k)) by ring.
      eapply interpolates_ext; [|exact Z3]. intros j Hj. cbv beta. rewrite get_madd by (cbn; lia). rewrite !get_mscal by lia.
      rewrite re_cadd', !re_cmul'. ring.
    + replace (re p * b k + im p * a k + (re q * b' k + im q * a' k)) with (1 * (re p * b k + im p * a k) + 1 * (re q * b' k + im q * a' k)) by ring.
      eapply interpolates_ext; [|exact U3]. intros j Hj. cbv beta. rewrite get_madd by (cbn; lia). rewrite !get_mscal by lia.
      rewrite im_cadd', !im_cmul'. ring.
  - rewrite re_cadd', !re_cmul'. rewrite !sumn_add, !sumn_scal_l, <- Ha, <- Hb, <- Ha', <- Hb'. ring.
  - rewrite im_cadd', !im_cmul'. rewrite !sumn_add, !sumn_scal_l, <- Ha, <- Hb, <- Ha', <- Hb'. ring.
Qed.

Theorem p_averages_columns : forall M N old new f out out' i j, increasing old -> (0 < f)%nat -> nr M = length old -> nr N = length old ->
  averages M old new f out -> averages N old new f out' -> (i < nc M)%nat -> (j < nc N)%nat ->
  (forall r, (r < nr M)%nat -> get M r i = get N r j) ->
  forall t, (t < nr out)%nat -> get out t i = get out' t j.
Proof.
  intros M N old new f out out' i j Hinc Hf HM HN ((_ & Hr & _) & H) ((_ & Hr' & _) & H') Hi Hj He t Ht. rewrite Hr in Ht.
  destruct (H t i Ht Hi) as (a & b & Hab & Ha & Hb). destruct (H' t j Ht Hj) as (a' & b' & Hab' & Ha' & Hb').
  assert (Hk : knat f <> (0 : K)) by (destruct f; [lia|apply k_char0]).
  assert (E1 : re (get out t i) = re (get out' t j)).
  { apply (kmul_cancel_l (knat f)); auto. rewrite Ha, Ha'. apply sumn_ext. intros k Hk'.
    destruct (Hab k Hk') as [X _]. destruct (Hab' k Hk') as [X' _]. eapply interpolates_unique; [exact Hinc|exact X|].
    eapply interpolates_ext; [|exact X']. intros r Hr''. cbv beta. rewrite He by lia. reflexivity. }
  assert (E2 : im (get out t i) = im (get out' t j)).
  { apply (kmul_cancel_l (knat f)); auto. rewrite Hb, Hb'. apply sumn_ext. intros k Hk'.
    destruct (Hab k Hk') as [_ X]. destruct (Hab' k Hk') as [_ X']. eapply interpolates_unique; [exact Hinc|exact X|].
    eapply interpolates_ext; [|exact X']. intros r Hr''. cbv beta. rewrite He by lia. reflexivity. }
  destruct (get out t i), (get out' t j). cbn in *. congruence.
Qed.

(** same times and no averaging *)
Theorem p_averages_identity : forall M old out, increasing old -> (2 <= length old)%nat -> wf M -> nr M = length old ->
  averages M old old 1 out -> out = M.
Proof.
  intros M old out Hinc HL Hwf HM Hav. apply (p_averages_unique M old old 1 out M Hinc ltac:(lia) Hav).
  split; [split; [auto|]; rewrite Nat.div_1_r; auto|]. rewrite Nat.div_1_r. intros t i Ht Hi.
  exists (fun _ => re (get M t i)), (fun _ => im (get M t i)). split; [|cbn; split; ring].
  intros k Hk. replace (t * 1 + k)%nat with t by lia.
  assert (G : forall y : nat -> K, interpolates old y (vget old t) (y t)).
  { intros y. destruct (Nat.eq_dec (S t) (length old)) as [E|E].
    - exists (t - 1)%nat. replace (S (t - 1)) with t by lia. split; [lia|]. split; [apply klt_le, Hinc; lia|]. split; [apply kle_refl|]. ring.
    - exists t. split; [lia|]. split; [apply kle_refl|]. split; [apply klt_le, Hinc; lia|]. ring. }
  split; [apply (G (fun r => re (get M r i)))|apply (G (fun r => im (get M r i)))].
Qed.

(** ** Failures *)
Lemma columns_err : forall M old new steps f (nf : option (@noise_fun K St D)) sm sp n s e, (0 < n)%nat ->
  interp1d old (mcol M 0) new = Err e -> resample_columns M old new steps f nf sm sp (range n) s = Err e.
Proof.
  intros M old new steps f nf sm sp n s e Hn He. destruct n; [lia|].
  assert (E : range (S n) = 0%nat :: map S (range n)) by (unfold range; cbn; f_equal; apply eq_sym, seq_shift).
  rewrite E. cbn [resample_columns]. rewrite He. reflexivity.
Qed.

Theorem p_resample_outside : forall M old new f nf sm sp s v, increasing old -> nr M = length old -> (0 < f)%nat -> (0 < nc M)%nat ->
  In v new -> v <! vget old 0 \/ vget old (length old - 1) <! v ->
  resample M (Some old) (Some new) f sm sp nf s = Err ValueError.
Proof.
  intros M old new f nf sm sp s v Hinc HM Hf Hn Hv Ho. unfold filter_and_resample_measurement.
  destruct (Nat.eqb_spec f 0); [lia|]. rewrite (columns_err _ _ _ _ _ _ _ _ _ _ ValueError); auto.
  apply (interp1d_outside _ _ _ v); auto. rewrite length_mcol. auto.
Qed.

Theorem p_resample_length : forall M old new f nf sm sp s, nr M <> length old -> (0 < f)%nat -> (0 < nc M)%nat ->
  resample M (Some old) (Some new) f sm sp nf s = Err ValueError.
Proof.
  intros M old new f nf sm sp s HM Hf Hn. unfold filter_and_resample_measurement.
  destruct (Nat.eqb_spec f 0); [lia|]. rewrite (columns_err _ _ _ _ _ _ _ _ _ _ ValueError); auto.
  unfold interp1d. rewrite length_mcol. destruct (Nat.eqb_spec (length old) (nr M)); [lia|reflexivity].
Qed.

Theorem p_default_new : forall M old f nf sm sp s, resample M old None f sm sp nf s = Err TypeError.
Proof. reflexivity. Qed.

Theorem p_default_old : forall M new f nf sm sp s, (0 < f)%nat -> (0 < nc M)%nat -> nr M <> (length new / f)%nat ->
  resample M None (Some new) f sm sp nf s = Err ValueError.
Proof.
  intros M new f nf sm sp s Hf Hn HM. unfold filter_and_resample_measurement.
  destruct (Nat.eqb_spec f 0); [lia|]. rewrite (columns_err _ _ _ _ _ _ _ _ _ _ ValueError); auto.
  unfold interp1d. rewrite length_mcol, map_length, length_range. destruct (Nat.eqb_spec (length new / f) (nr M)); [congruence|reflexivity].
Qed.
End Resample.

(** ** With noise *)
Section Noisy.
Context {K : Type} {O : Ops K} {F : Fld K} {O2 : OrdOps K} {OF : OrdFld K}.
Notation CK := (cplx K).
Context {St D : Type}.
Notation resample := (@filter_and_resample_measurement K O O2 St D).
Lemma std_given : forall n (a : stdarg D) d i, given n a d -> (i < n)%nat -> std_at a i = Ok (d i).
Proof. intros n [x|l] d i H Hi; cbn in *; [rewrite H|rewrite H]; auto. Qed.
Lemma interpolated_col : forall M old new i, increasing old -> (2 <= length old)%nat -> nr M = length old -> within old new ->
  interpolated M old new i (map (interp_at old (mcol M i)) new).
Proof.
  intros M old new i Hinc HL HM Hw. split; [apply map_length|]. intros k Hk. rewrite (vget_map _ _ _ 0) by auto.
  change (nth k new 0) with (vget new k). destruct (Hw (vget new k)) as [W1 W2]; [apply nth_In; auto|].
  destruct (interp_at_re old (mcol M i) _ Hinc HL W1 W2) as [R1 R2].
  split; (eapply interpolates_ext; [|eassumption]); intros j Hj; cbv beta; rewrite vget_mcol by lia; reflexivity.
Qed.
Lemma noisy_columns : forall M old new steps f (nf : @noise_fun K St D) sm sp m p n, given n sm m -> given n sp p -> increasing old -> (2 <= length old)%nat ->
  nr M = length old -> within old new ->
  forall cnt a s cols s', (a + cnt <= n)%nat -> resample_columns M old new steps f (Some nf) (Some sm) (Some sp) (seq a cnt) s = Ok (cols, s') ->
  exists st W, st a = s /\ st (a + cnt)%nat = s' /\ length cols = cnt /\ forall i, (i < cnt)%nat ->
    nf (map (interp_at old (mcol M (a + i))) new) (m (a + i)%nat) (p (a + i)%nat) (st (a + i)%nat) = Ok (W (a + i)%nat, st (S (a + i))) /\
    nth i cols [] = map (fun t => block f t (W (a + i)%nat)) (range steps).
Proof.
  intros M old new steps f nf sm sp m p n Hm Hp Hinc HL HM Hw. induction cnt as [|cnt IH]; intros a s cols s' Ha H.
  - cbn in H. injection H as <- <-. exists (fun _ => s), (fun _ => []). split; [auto|]. split; [auto|]. split; [auto|]. intros; lia.
  - cbn [seq resample_columns] in H. rewrite interp1d_ok in H by (auto; rewrite length_mcol; auto). cbn [bind add_noise] in H.
    rewrite (std_given n sm m a), (std_given n sp p a) in H by (auto; lia). cbn [bind] in H.
    destruct (nf _ (m a) (p a) s) as [[w s1]|e] eqn:E; cbn [bind] in H; [|discriminate].
    destruct (resample_columns M old new steps f (Some nf) (Some sm) (Some sp) (seq (S a) cnt) s1) as [[rest s2]|e] eqn:E2; cbn [bind] in H; [|discriminate].
    injection H as <- <-. destruct (IH (S a) s1 rest s2) as (st & W & H1 & H2 & H3 & H4); [lia|auto|].
    exists (fun i => if (i =? a)%nat then s else st i), (fun i => if (i =? a)%nat then w else W i).
    split; [rewrite Nat.eqb_refl; auto|].
    split; [destruct (Nat.eqb_spec (a + S cnt) a); [lia|]; rewrite <- H2; f_equal; lia|]. split; [cbn; auto|].
    intros [|i] Hi.
    + rewrite Nat.add_0_r, Nat.eqb_refl. destruct (Nat.eqb_spec (S a) a); [lia|]. rewrite H1. split; [exact E|reflexivity].
    + replace (a + S i)%nat with (S a + i)%nat by lia. destruct (Nat.eqb_spec (S a + i) a); [lia|]. destruct (Nat.eqb_spec (S (S a + i)) a); [lia|].
      cbn [nth]. apply H4. lia.
Qed.
Theorem p_resample_noisy : forall M old new f (nf : @noise_fun K St D) sm sp m p s out s', given (nc M) sm m -> given (nc M) sp p -> increasing old -> (2 <= length old)%nat ->
  nr M = length old -> within old new -> (0 < f)%nat ->
  (forall v a b s v' s', nf v a b s = Ok (v', s') -> length v' = length v) ->
  resample M (Some old) (Some new) f (Some sm) (Some sp) (Some nf) s = Ok (out, s') ->
  shape out (length new / f) (nc M) /\ exists st X W, st 0%nat = s /\ st (nc M) = s' /\ forall i, (i < nc M)%nat ->
    interpolated M old new i (X i) /\ nf (X i) (m i) (p i) (st i) = Ok (W i, st (S i)) /\
    forall t, (t < length new / f)%nat ->
      knat f * re (get out t i) = sumn f (fun k => re (vget (W i) (t * f + k))) /\
      knat f * im (get out t i) = sumn f (fun k => im (vget (W i) (t * f + k))).
Proof.
  intros M old new f nf sm sp m p s out s' Hm Hp Hinc HL HM Hw Hf Hlen H. unfold filter_and_resample_measurement in H.
  destruct (Nat.eqb_spec f 0); [lia|].
  destruct (resample_columns M old new (length new / f) f (Some nf) (Some sm) (Some sp) (range (nc M)) s) as [[cols s2]|e] eqn:E; cbn [bind] in H; [|discriminate].
  injection H as <- <-. split; [apply shape_mk|].
  destruct (noisy_columns M old new (length new / f) f nf sm sp m p (nc M) Hm Hp Hinc HL HM Hw (nc M) 0%nat s cols s2) as (st & W & H1 & H2 & H3 & H4); [lia|exact E|].
  exists st, (fun i => map (interp_at old (mcol M i)) new), W. split; [exact H1|]. split; [exact H2|]. intros i Hi.
  destruct (H4 i Hi) as [A B]. cbn [Nat.add] in A, B. split; [apply interpolated_col; auto|]. split; [exact A|].
  intros t Ht. rewrite get_mk by auto. rewrite B. unfold vget at 1 3. rewrite (nth_map_range _ _ (length new / f) t) by auto.
  apply block_value; auto. apply Hlen in A. rewrite map_length in A. pose proof (row_fits _ _ _ Hf Ht). lia.
Qed.
End Noisy.
