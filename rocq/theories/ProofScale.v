(** Proofs about the units of load profiles. *)
From Coq Require Import Bool Arith List ZArith Lia.
From Coq Require Import Ring Field.
From Verif Require Import BasePy BaseFld BaseOrd BaseSum BaseMat BaseLin BaseNumpy BaseEx ModelNet ModelLoads ModelCsv SpecLoads SpecCsv ProofLoads ProofCsv ProofPenalty.
Import ListNotations.
Local Open Scope nat_scope.

Section Scale.
Context {K : Type} {O : Ops K} {F : Fld K} {O2 : OrdOps K} {OF : OrdFld K}.
Add Field KfldScale : (@k_field K O F).

Lemma get_outside : forall (m : mat K) i j, wf m -> nr m <= i \/ nc m <= j -> get m i j = 0%K.
Proof.
  intros m i j [H1 H2] H. unfold get, gget. destruct (Nat.lt_ge_cases i (nr m)) as [Hi|Hi].
  - apply nth_overflow. assert (N : In (nth i (dat m) []) (dat m)) by (apply nth_In; lia). rewrite Forall_forall in H2. rewrite (H2 _ N). destruct H; lia.
  - rewrite (nth_overflow (dat m)) by lia. destruct j; reflexivity.
Qed.
Lemma get_scal : forall k (m : mat K) i j, wf m -> get (mscal k m) i j = (k * get m i j)%K.
Proof.
  intros k m i j W. destruct (Nat.lt_ge_cases i (nr m)) as [Hi|Hi]; [destruct (Nat.lt_ge_cases j (nc m)) as [Hj|Hj]; [apply get_mscal; assumption|]|];
    rewrite !get_outside by (first [apply wf_mk|exact W|cbn; lia]); ring.
Qed.
Section Positive.
Variable k : K.
Hypothesis Hk : (0 <! k)%K.
Lemma k_nz : k <> 0%K. Proof. intros E. rewrite E in Hk. apply klt_spec in Hk. apply Hk. apply kle_refl. Qed.
Lemma k_le : (0 <=! k)%K. Proof. apply klt_spec2 in Hk. apply Hk. Qed.
Lemma kleb_scal : forall x y, kleb (k * x)%K (k * y)%K = kleb x y.
Proof.
  intros x y. destruct (kleb x y) eqn:E; [exact (kle_mul_l k x y k_le E)|]. destruct (kleb (k * x)%K (k * y)%K) eqn:E2; [|reflexivity]. rewrite <- E. symmetry.
  assert (I : (0 <=! 1 / k)%K) by (apply kle_inv; exact Hk). pose proof (kle_mul_l (1 / k)%K _ _ I E2) as Q. replace (1 / k * (k * x))%K with x in Q by (field; exact k_nz). replace (1 / k * (k * y))%K with y in Q by (field; exact k_nz). exact Q.
Qed.
Lemma insert_scal : forall x l, insert_value (k * x)%K (map (kmul k) l) = map (kmul k) (insert_value x l).
Proof. intros x. induction l as [|y l IH]; [reflexivity|]. cbn [map insert_value]. rewrite kleb_scal. destruct (kleb x y); [reflexivity|]. cbn [map]. rewrite IH. reflexivity. Qed.
Lemma sort_scal : forall l, sort_values (map (kmul k) l) = map (kmul k) (sort_values l).
Proof. induction l as [|x l IH]; [reflexivity|]. cbn [map sort_values]. rewrite IH. apply insert_scal. Qed.
Lemma vget_scal : forall l i, vget (map (kmul k) l) i = (k * vget l i)%K.
Proof. induction l as [|x l IH]; intros [|i]; unfold vget in *; cbn [map nth]; try ring. apply IH. Qed.
Lemma percentile_scal : forall l, percentile90 (map (kmul k) l) = (k * percentile90 l)%K.
Proof. intros l. unfold percentile90. cbv zeta. rewrite sort_scal, !vget_scal, map_length. ring. Qed.
Lemma mean_scal : forall m, wf m -> mean_percentile (mscal k m) = (k * mean_percentile m)%K.
Proof.
  intros m W. unfold mean_percentile. cbn [nc mscal mk]. transitivity ((k * sumn (nc m) (fun j => percentile90 (map kabs (mcol m j)))) / knat (nc m))%K; [|rewrite !kdiv_def; ring].
  f_equal. rewrite <- sumn_scal_l. apply sumn_ext. intros j Hj. rewrite <- percentile_scal. f_equal. unfold mcol, mkv. cbn [nr mscal mk]. rewrite !map_map. apply map_ext. intro t. rewrite get_scal by exact W. rewrite kabs_mul. f_equal.
  unfold kabs. pose proof k_le as L. unfold kle in L. rewrite L. reflexivity.
Qed.
(** one column *)
Context (rnd : K -> Z) {St : Type} (randint : nat -> nat -> St -> list nat * St).
Lemma assign_scal : forall m r s, wf m -> assign rnd randint (mscal k m) (k * r)%K s = ('(c, s') <- assign rnd randint m r s ;; Ok (map (kmul k) c, s')).
Proof.
  intros m r s W. unfold assign, households. rewrite mean_scal by exact W. cbn [nr nc mscal mk].
  destruct ((nr m =? 0) || (nc m =? 0)); [reflexivity|].
  assert (Z : forall x : K, keqb (k * x)%K 0%K = keqb x 0%K).
  { intro x. destruct (keqb x 0%K) eqn:E; [apply keqb_eq in E; rewrite E; apply keqb_eq; ring|]. destruct (keqb (k * x)%K 0%K) eqn:E2; [|reflexivity]. exfalso. apply keqb_eq in E2. destruct (kmul_integral _ _ E2) as [H|H]; [exact (k_nz H)|].
    rewrite H in E. rewrite keqb_refl in E. discriminate E. }
  rewrite !Z. destruct (keqb (mean_percentile m) 0%K) eqn:E; [reflexivity|]. cbn [bind].
  assert (N : mean_percentile m <> 0%K) by (intro Q; rewrite Q, keqb_refl in E; discriminate E).
  replace (k * r / (k * mean_percentile m))%K with (r / mean_percentile m)%K by (field; split; [exact N|exact k_nz]).
  destruct (rnd (r / mean_percentile m)%K <? 0)%Z; [reflexivity|].
  destruct (if (rnd (r / mean_percentile m)%K =? 0)%Z then ([], s) else randint (nc m) (Z.to_nat (rnd (r / mean_percentile m)%K)) s) as [picks s']. cbn [bind].
  do 2 f_equal. unfold mkv. rewrite map_map. apply map_ext. intro t. induction picks as [|h l IH]; cbn [map lsum]; [ring|]. rewrite IH, get_scal by exact W. ring.
Qed.
End Positive.
(** all columns, each with its own factor *)
Context (rnd : K -> Z) {St : Type} (randint : nat -> nat -> St -> list nat * St).
Definition scale_one (e : (mat K * K) * K) : mat K * K := (mscal (snd e) (fst (fst e)), (snd e * snd (fst e))%K).
Lemma all_scal : forall L s, (forall e, In e L -> wf (fst (fst e)) /\ (0 <! snd e)%K) ->
  match assign_all rnd randint (map fst L) s with
  | Err e => assign_all rnd randint (map scale_one L) s = Err e
  | Ok (cols, s') => exists cols', assign_all rnd randint (map scale_one L) s = Ok (cols', s') /\ forall x, x < length L -> nth x cols' [] = map (kmul (nth x (map snd L) 0%K)) (nth x cols [])
  end.
Proof.
  induction L as [|[[m r] k] L IH]; intros s H; [exists []; split; [reflexivity|intros x Hx; cbn in Hx; lia]|]. destruct (H _ (or_introl eq_refl)) as [W Hk]. cbn [fst snd] in W, Hk.
  cbn [map fst assign_all scale_one snd]. rewrite (assign_scal k Hk rnd randint m r s W). destruct (assign rnd randint m r s) as [[c s1]|e]; cbn [bind]; [|reflexivity].
  specialize (IH s1 (fun e He => H e (or_intror He))). destruct (assign_all rnd randint (map fst L) s1) as [[cols s2]|e]; cbn [bind]; [|rewrite IH; reflexivity].
  destruct IH as (cols' & E & N). rewrite E. cbn [bind]. eexists. split; [reflexivity|]. intros [|x] Hx; cbn [nth]; [reflexivity|]. apply N. cbn in Hx. lia.
Qed.
Lemma nth_blocks : forall (A : Type) (B : Type) (f : A -> list B) w (l : list A) i j d e, (forall a, length (f a) = w) -> i < length l -> j < w -> nth (w * i + j) (flat_map f l) d = nth j (f (nth i l e)) d.
Proof.
  intros A B f w l. induction l as [|a l IH]; intros i j d e Hw Hi Hj; [cbn in Hi; lia|]. cbn [flat_map]. destruct i as [|i].
  - rewrite Nat.mul_0_r. cbn [Nat.add nth]. rewrite app_nth1 by (rewrite Hw; exact Hj). reflexivity.
  - rewrite app_nth2 by (rewrite Hw; nia). rewrite Hw. replace (w * S i + j - w) with (w * i + j) by nia. cbn [nth]. apply IH; [exact Hw|cbn in Hi; lia|exact Hj].
Qed.
Lemma length_blocks : forall (A B : Type) (f : A -> list B) w (l : list A), (forall a, length (f a) = w) -> length (flat_map f l) = w * length l.
Proof. intros A B f w l Hw. induction l as [|a l IH]; [cbn; lia|]. cbn [flat_map length]. rewrite app_length, Hw, IH. nia. Qed.
Lemma map_blocks : forall (A B D : Type) (g : B -> D) (f : A -> list B) l, map g (flat_map f l) = flat_map (fun a => map g (f a)) l.
Proof. intros A B D g f. induction l as [|a l IH]; [reflexivity|]. cbn [flat_map]. rewrite map_app, IH. reflexivity. Qed.
Lemma collect_scal : forall k (cols cols' : list (list K)) rows w n j, (forall i, i < n -> nth (w * i + j) cols' [] = map (kmul k) (nth (w * i + j) cols [])) -> collect cols' rows w n j = mscal k (collect cols rows w n j).
Proof.
  intros k cols cols' rows w n j H. unfold collect at 1. apply (gshape_ext _ _ rows n (shape_mk _ _ _)); [unfold mscal; cbn [nr nc collect mk]; apply shape_mk|]. intros t i Ht Hi. rewrite get_mscal by assumption. unfold collect. rewrite !get_mk by assumption. rewrite H by exact Hi. apply vget_scal.
Qed.
Theorem fill_scal : forall k1 k2 P Q refs s, (0 <! k1)%K -> (0 <! k2)%K -> wf P -> wf Q ->
  fill_loads rnd randint (mscal k1 P) (mscal k2 Q) (map (fun r => (k1 * fst r, k2 * snd r)%K) refs) s = ('(A, B, s') <- fill_loads rnd randint P Q refs s ;; Ok (mscal k1 A, mscal k2 B, s')).
Proof.
  intros k1 k2 P Q refs s H1 H2 WP WQ. unfold fill_loads. rewrite map_length.
  set (f := fun r : K * K => [((P, fst r), k1); ((Q, snd r), k2)]). assert (HW : forall r, length (f r) = 2) by reflexivity.
  pose proof (all_scal (flat_map f refs) s) as A. rewrite !map_blocks in A. rewrite (length_blocks _ _ f 2 refs HW) in A.
  replace (flat_map (fun r : K * K => [(mscal k1 P, fst r); (mscal k2 Q, snd r)]) (map (fun r : K * K => (k1 * fst r, k2 * snd r)%K) refs)) with (flat_map (fun a => map scale_one (f a)) refs) by (clear; induction refs as [|r l IH]; [reflexivity|cbn [flat_map map]; rewrite IH; reflexivity]).
  change (flat_map (fun r : K * K => [(P, fst r); (Q, snd r)]) refs) with (flat_map (fun a => map fst (f a)) refs).
  assert (HE : forall e, In e (flat_map f refs) -> wf (fst (fst e)) /\ (0 <! snd e)%K) by (intros e He; apply in_flat_map in He; destruct He as (r & _ & [<-|[<-|[]]]); auto). specialize (A HE).
  destruct (assign_all rnd randint (flat_map (fun a => map fst (f a)) refs) s) as [[cols s']|e]; cbn [bind]; [|rewrite A; reflexivity]. destruct A as (cols' & E & N). rewrite E. cbn [bind nr nc mscal mk].
  assert (G : forall j, j < 2 -> forall i, i < length refs -> nth (2 * i + j) cols' [] = map (kmul (nth j [k1; k2] 0%K)) (nth (2 * i + j) cols [])).
  { intros j Hj i Hi. rewrite N by lia. rewrite (nth_blocks _ _ (fun a => map snd (f a)) 2 refs i j 0%K (0%K, 0%K) (fun _ => eq_refl) Hi Hj). reflexivity. }
  rewrite (collect_scal k1 cols cols' _ 2 _ 0 (G 0 ltac:(lia))), (collect_scal k2 cols cols' _ 2 _ 1 (G 1 ltac:(lia))). reflexivity.
Qed.
Definition phased_scal (k1 k2 : K) (r : phased (K := K)) : phased := Phased (k1 * pa r)%K (k1 * pb r)%K (k1 * pc r)%K (k2 * qa r)%K (k2 * qb r)%K (k2 * qc r)%K.
Theorem asym_scal : forall k1 k2 P Q refs s, (0 <! k1)%K -> (0 <! k2)%K -> wf P -> wf Q ->
  fill_asym rnd randint (mscal k1 P) (mscal k2 Q) (map (phased_scal k1 k2) refs) s =
  ('(l, s') <- fill_asym rnd randint P Q refs s ;; Ok (map (mscal k1) (firstn 3 l) ++ map (mscal k2) (skipn 3 l), s')).
Proof.
  intros k1 k2 P Q refs s H1 H2 WP WQ. unfold fill_asym. rewrite map_length.
  set (f := fun r : phased (K := K) => [((P, pa r), k1); ((P, pb r), k1); ((P, pc r), k1); ((Q, qa r), k2); ((Q, qb r), k2); ((Q, qc r), k2)]). assert (HW : forall r, length (f r) = 6) by reflexivity.
  pose proof (all_scal (flat_map f refs) s) as A. rewrite !map_blocks in A. rewrite (length_blocks _ _ f 6 refs HW) in A.
  replace (flat_map (fun r : phased (K := K) => [(mscal k1 P, pa r); (mscal k1 P, pb r); (mscal k1 P, pc r); (mscal k2 Q, qa r); (mscal k2 Q, qb r); (mscal k2 Q, qc r)]) (map (phased_scal k1 k2) refs)) with (flat_map (fun a => map scale_one (f a)) refs) by (clear; induction refs as [|r l IH]; [reflexivity|cbn [flat_map map]; rewrite IH; reflexivity]).
  change (flat_map (fun r : phased (K := K) => [(P, pa r); (P, pb r); (P, pc r); (Q, qa r); (Q, qb r); (Q, qc r)]) refs) with (flat_map (fun a => map fst (f a)) refs).
  assert (HE : forall e, In e (flat_map f refs) -> wf (fst (fst e)) /\ (0 <! snd e)%K) by (intros e He; apply in_flat_map in He; destruct He as (r & _ & [<-|[<-|[<-|[<-|[<-|[<-|[]]]]]]]); auto). specialize (A HE).
  destruct (assign_all rnd randint (flat_map (fun a => map fst (f a)) refs) s) as [[cols s']|e]; cbn [bind]; [|rewrite A; reflexivity]. destruct A as (cols' & E & N). rewrite E. cbn [bind nr nc mscal mk firstn skipn map app].
  assert (G : forall j, j < 6 -> forall i, i < length refs -> nth (6 * i + j) cols' [] = map (kmul (nth j [k1; k1; k1; k2; k2; k2] 0%K)) (nth (6 * i + j) cols [])).
  { intros j Hj i Hi. rewrite N by lia. rewrite (nth_blocks _ _ (fun a => map snd (f a)) 6 refs i j 0%K (Phased 0%K 0%K 0%K 0%K 0%K 0%K) (fun _ => eq_refl) Hi Hj). reflexivity. }
  rewrite (collect_scal k1 cols cols' _ 6 _ 0 (G 0 ltac:(lia))), (collect_scal k1 cols cols' _ 6 _ 1 (G 1 ltac:(lia))), (collect_scal k1 cols cols' _ 6 _ 2 (G 2 ltac:(lia))),
    (collect_scal k2 cols cols' _ 6 _ 3 (G 3 ltac:(lia))), (collect_scal k2 cols cols' _ 6 _ 4 (G 4 ltac:(lia))), (collect_scal k2 cols cols' _ 6 _ 5 (G 5 ltac:(lia))). reflexivity.
Qed.
(** ** the readers *)
Lemma mk_scal : forall k r c (f g : nat -> nat -> K), (forall i j, i < r -> j < c -> f i j = (k * g i j)%K) -> mk r c f = mscal k (mk r c g).
Proof.
  intros k r c f g H. apply (gshape_ext _ _ r c (shape_mk _ _ _)); [unfold mscal; cbn [nr nc mk]; apply shape_mk|]. intros i j Hi Hj. rewrite get_mscal by assumption. rewrite !get_mk by assumption. apply H; assumption.
Qed.
Lemma stack_scal : forall k (a b : mat K), wf a -> wf b -> vstack2 (mscal k a) (mscal k b) = mscal k (vstack2 a b).
Proof. intros k a b Wa Wb. unfold vstack2. cbn [nr nc mscal mk]. apply mk_scal. intros i j Hi Hj. destruct (i <? nr a); apply get_scal; assumption. Qed.
Lemma rows_scal : forall k (m : mat K) a b, wf m -> rows_slice (mscal k m) a b = mscal k (rows_slice m a b).
Proof. intros k m a b W. unfold rows_slice. cbv zeta. cbn [nr nc mscal mk]. apply mk_scal. intros i j Hi Hj. apply get_scal. exact W. Qed.
Lemma million_scal : forall k (m : mat K), wf m -> mmap (fun x => x / million)%K (mscal k m) = mscal k (mmap (fun x => x / million)%K m).
Proof.
  intros k m W. apply (gshape_ext _ _ (nr m) (nc m)); [apply shape_mmap; apply shape_mk|unfold mscal; cbn [nr nc mmap]; apply shape_mk|]. intros i j Hi Hj. rewrite get_mscal by assumption. unfold get. rewrite !gget_mmap with (d := 0%K); [|assumption..|apply wf_mk|assumption|assumption].
  change (gget 0%K (mscal k m) i j) with (get (mscal k m) i j). change (gget 0%K m i j) with (get m i j). rewrite get_mscal by assumption. rewrite !kdiv_def. ring.
Qed.
Lemma stack_wf : forall file (stop : Z -> Z) hs (m : mat K), wf m -> wf (fold_left (fun m i => vstack2 m (rows_slice file i (stop i))) hs m).
Proof. intros file stop. induction hs as [|h hs IH]; intros m W; [exact W|]. cbn [fold_left]. apply IH. apply wf_mk. Qed.
Lemma fold_scal : forall k file (stop : Z -> Z) hs (m : mat K), wf file -> wf m ->
  fold_left (fun m i => vstack2 m (rows_slice (mscal k file) i (stop i))) hs (mscal k m) = mscal k (fold_left (fun m i => vstack2 m (rows_slice file i (stop i))) hs m).
Proof.
  intros k file stop. induction hs as [|h hs IH]; intros m WF W; [reflexivity|]. cbn [fold_left]. rewrite rows_scal by exact WF. rewrite stack_scal by (first [exact W|apply wf_mk]). apply IH; [exact WF|apply wf_mk].
Qed.
Theorem profile_scal : forall k size file hs len, wf file -> read_profile size (mscal k file) hs len = mscal k (read_profile size file hs len).
Proof.
  intros k size file hs len W. unfold read_profile. cbv zeta. cbn [nc mscal mk]. rewrite <- million_scal by (apply stack_wf; apply wf_mk). f_equal. rewrite <- fold_scal by (first [exact W|apply wf_mk]). f_equal.
Qed.
Lemma profile_wf : forall size (file : mat K) hs len, wf (read_profile size file hs len).
Proof. intros. unfold read_profile. cbv zeta. apply wf_mmap. apply stack_wf. apply wf_mk. Qed.
Lemma pick_scal : forall k (file : mat K) L, wf file -> pick (mscal k file) L = mscal k (pick file L).
Proof. intros k file L W. unfold pick. cbn [nc mscal mk]. apply mk_scal. intros i j Hi Hj. apply get_scal. exact W. Qed.
Theorem csv_scal : forall k1 k2 (active reactive : mat K) hs fs, wf active -> wf reactive ->
  csv_profiles (mscal k1 active) (mscal k2 reactive) hs fs = ('(p, q) <- csv_profiles active reactive hs fs ;; Ok (mscal k1 p, mscal k2 q)).
Proof.
  intros k1 k2 active reactive hs fs WA WR. destruct hs as [|h hs']; [reflexivity|]. set (hs := h :: hs') in *. assert (N : hs <> []) by discriminate. clearbody hs.
  assert (D : (forall part, In part (combine hs fs) -> readable (nr active) part /\ readable (nr reactive) part) \/ exists part, In part (combine hs fs) /\ ~ (readable (nr active) part /\ readable (nr reactive) part)).
  { clear N. generalize (combine hs fs). induction l as [|part l IH]; [left; intros ? []|]. destruct (readable_dec (nr active) part) as [A|A]; [destruct (readable_dec (nr reactive) part) as [B|B]|].
    - destruct IH as [IH|(w & H1 & H2)]; [left; intros w [<-|H]; auto|right; exists w; split; [right; exact H1|exact H2]].
    - right. exists part. split; [left; reflexivity|tauto].
    - right. exists part. split; [left; reflexivity|tauto]. }
  destruct D as [G|(part & HI & B)]; [|unfold csv_profiles; rewrite (parts_bad active reactive hs fs None part HI B), (parts_bad (mscal k1 active) (mscal k2 reactive) hs fs None part HI B); reflexivity].
  destruct (Nat.le_gt_cases (length hs) (length fs)) as [L|L]; [|unfold csv_profiles; rewrite (parts_short active reactive hs fs None L G), (parts_short (mscal k1 active) (mscal k2 reactive) hs fs None L G); reflexivity].
  rewrite (profiles_ok active reactive hs fs N L G), (profiles_ok (mscal k1 active) (mscal k2 reactive) hs fs N L G). cbn [bind]. cbn [nr mscal mk]. rewrite !pick_scal by assumption. rewrite !million_scal by apply wf_mk. reflexivity.
Qed.
Lemma csv_wf : forall (active reactive : mat K) hs fs p q, csv_profiles active reactive hs fs = Ok (p, q) -> wf p /\ wf q.
Proof.
  intros active reactive hs fs p q E. unfold csv_profiles in E. destruct (csv_parts active reactive hs fs None) as [[[a b]|]|e] eqn:EP; try discriminate E. cbn [bind] in E.
  assert (W : forall hs fs acc r, match acc with None => True | Some (a, b) => wf a /\ wf b end -> csv_parts active reactive hs fs acc = Ok r -> match r with None => True | Some (a, b) => wf a /\ wf b end).
  { clear. induction hs as [|h hs IH]; intros fs acc r H E; [cbn in E; assert (EA : acc = r) by congruence; subst r; exact H|]. destruct fs as [|f fs]; [discriminate E|]. cbn [csv_parts] in E.
    destruct (read_csv active h f) as [pl|] eqn:E1; [|discriminate E]. destruct (read_csv reactive h f) as [ql|] eqn:E2; [|discriminate E]. cbn [bind] in E. apply IH in E; [exact E|].
    assert (RW : forall file m, read_csv file h f = Ok m -> wf m) by (intros file m Q; unfold read_csv in Q; destruct (f <? 0)%Z; [discriminate Q|]; destruct (nr file <=? Z.to_nat h); [discriminate Q|]; cbv zeta in Q; assert (OKI : forall x y : mat K, Ok x = Ok y -> x = y) by congruence; apply OKI in Q; subst m; apply wf_mk).
    destruct acc as [[a b]|]; split; first [apply wf_mk|exact (RW _ _ E1)|exact (RW _ _ E2)]. }
  pose proof (W hs fs None _ I EP) as [Wa Wb]. assert (OKI : forall x y : mat K * mat K, Ok x = Ok y -> x = y) by congruence. apply OKI in E. apply pair_equal_spec in E. destruct E as [<- <-]. split; apply wf_mmap; assumption.
Qed.
(** ** random loads *)
Context (gauss : St -> K * St).
Lemma normal_scal : forall k sd n refs s, (0 <! k)%K -> normal_load gauss sd n (map (kmul k) refs) s = ('(m, s') <- normal_load gauss sd n refs s ;; Ok (mscal k m, s')).
Proof.
  intros k sd n refs s Hk. unfold normal_load. rewrite map_length.
  replace (existsb (fun r => kltb (r * sd)%K 0%K) (map (kmul k) refs)) with (existsb (fun r => kltb (r * sd)%K 0%K) refs).
  - destruct (existsb (fun r => kltb (r * sd)%K 0%K) refs); [reflexivity|]. destruct (normals gauss (n * length refs) s) as [g s']. cbn [bind]. do 2 f_equal. apply mk_scal. intros t i Ht Hi. rewrite vget_scal. ring.
  - induction refs as [|r l IH]; [reflexivity|]. cbn [map existsb]. rewrite <- IH. f_equal. unfold kltb. f_equal. rewrite <- (kleb_scal k Hk 0%K (r * sd)%K). f_equal; ring.
Qed.
End Scale.
