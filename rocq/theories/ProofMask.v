(** Lemmas about boolean masks, used for ModelRun.v *)
From Coq Require Import Bool Arith List ZArith Lia.
From Verif Require Import BasePy BaseFld BaseOrd BaseSum BaseMat BaseNumpy ModelFit ModelLS ModelRun.
Import ListNotations.

Fixpoint rank (mask : list bool) (a : nat) : nat :=
  match mask, a with
  | b :: m, S a' => (if b then 1 else 0) + rank m a'
  | _, _ => 0
  end.
Fixpoint trues (mask : list bool) : nat := match mask with [] => 0 | b :: m => (if b then 1 else 0) + trues m end.

Lemma selected_cons : forall b m, selected (b :: m) = (if b then [0] else []) ++ map S (selected m).
Proof.
  intros b m. unfold selected. cbn [length]. unfold range. cbn [seq]. rewrite <- seq_shift.
  assert (E : filter (fun k => nth k (b :: m) false) (map S (seq 0 (length m))) = map S (filter (fun k => nth k m false) (seq 0 (length m)))).
  { generalize (seq 0 (length m)). induction l as [|x l IH]; [reflexivity|]. simpl in *. destruct (nth x m false); simpl; rewrite IH; reflexivity. }
  change (filter (fun k => nth k (b :: m) false) (0 :: map S (seq 0 (length m)))) with
    (if b then 0 :: filter (fun k => nth k (b :: m) false) (map S (seq 0 (length m))) else filter (fun k => nth k (b :: m) false) (map S (seq 0 (length m)))).
  rewrite E. destruct b; reflexivity.
Qed.
Lemma length_selected : forall m, length (selected m) = trues m.
Proof. induction m as [|b m IH]; [reflexivity|]. rewrite selected_cons, app_length, map_length, IH. destruct b; reflexivity. Qed.
Lemma in_selected : forall m a, In a (selected m) <-> nth a m false = true.
Proof.
  intros m a. unfold selected. rewrite filter_In, in_range. split; [tauto|]. intro H. split; auto.
  destruct (Nat.lt_ge_cases a (length m)); auto. rewrite nth_overflow in H by lia. discriminate.
Qed.
Lemma rank_nth : forall m r, r < trues m -> rank m (nth r (selected m) 0) = r /\ nth (nth r (selected m) 0) m false = true.
Proof.
  induction m as [|b m IH]; cbn [trues]; [lia|]. intros r H. rewrite selected_cons. destruct b.
  - destruct r as [|r]; [split; reflexivity|]. cbn [app nth]. rewrite (nth_indep _ 0 1) by (rewrite map_length, length_selected; lia).
    rewrite map_nth. destruct (IH r ltac:(lia)) as [A B]. cbn [rank nth]. rewrite A. split; [reflexivity|]. exact B.
  - cbn [app]. rewrite (nth_indep _ 0 1) by (rewrite map_length, length_selected; lia).
    rewrite map_nth. destruct (IH r ltac:(lia)) as [A B]. cbn [rank nth]. rewrite A. split; [reflexivity|]. exact B.
Qed.
Lemma rank_lt : forall m a, nth a m false = true -> rank m a < trues m.
Proof.
  induction m as [|b m IH]; intros a H; [destruct a; discriminate|]. destruct a as [|a]; cbn [nth] in H.
  - subst. cbn [rank trues]. lia.
  - cbn [rank trues]. apply IH in H. destruct b; lia.
Qed.
Lemma nth_rank : forall m a, nth a m false = true -> nth (rank m a) (selected m) 0 = a.
Proof.
  induction m as [|b m IH]; intros a H; [destruct a; discriminate|]. rewrite selected_cons. destruct a as [|a]; cbn [nth] in H.
  - subst. reflexivity.
  - cbn [rank]. pose proof (rank_lt m a H). apply IH in H. destruct b; cbn [app nth Nat.add].
    + rewrite (nth_indep _ 0 1) by (rewrite map_length, length_selected; lia). rewrite map_nth. congruence.
    + rewrite (nth_indep _ 0 1) by (rewrite map_length, length_selected; lia). rewrite map_nth. congruence.
Qed.

Section Fill.
Context {T : Type}.
Lemma fill_row_spec : forall (mask : list bool) (old v : list T), length old = length mask -> trues mask <= length v ->
  snd (fill_row mask old v) = skipn (trues mask) v /\ length (fst (fill_row mask old v)) = length old /\
  forall a d, nth a (fst (fill_row mask old v)) d = if nth a mask false then nth (rank mask a) v d else nth a old d.
Proof.
  induction mask as [|b m IH]; intros old v L C.
  - destruct old; [|discriminate]. cbn. repeat split; auto. intros a d. destruct a; reflexivity.
  - destruct old as [|x old]; [discriminate|]. cbn [length trues] in *. destruct b.
    + destruct v as [|y v]; cbn [length] in C; [lia|]. destruct (IH old v ltac:(lia) ltac:(lia)) as (A & B & D).
      cbn [fill_row]. destruct (fill_row m old v) as [new rest]. cbn [fst snd length] in *. repeat split; auto.
      intros a d. destruct a as [|a]; [reflexivity|]. cbn [nth rank Nat.add]. apply D.
    + destruct (IH old v ltac:(lia) ltac:(lia)) as (A & B & D).
      cbn [fill_row]. destruct (fill_row m old v) as [new rest]. cbn [fst snd length] in *. repeat split; auto.
      intros a d. destruct a as [|a]; [reflexivity|]. cbn [nth rank Nat.add]. apply D.
Qed.
Lemma nth_skipn' : forall n (v : list T) k d, nth k (skipn n v) d = nth (n + k) v d.
Proof.
  induction n as [|n IH]; intros v k d; [reflexivity|]. destruct v as [|x v]; [destruct k; reflexivity|]. cbn [skipn Nat.add nth]. apply IH.
Qed.
Lemma fill_rows_spec : forall (all mask : list bool) (old : list (list T)) (v : list T), length old = length mask ->
  (forall row, In row old -> length row = length all) -> trues mask * trues all <= length v ->
  length (fill_rows all mask old v) = length old /\
  (forall row, In row (fill_rows all mask old v) -> length row = length all) /\
  forall a b d, nth b (nth a (fill_rows all mask old v) []) d =
    if nth a mask false && nth b all false then nth (rank mask a * trues all + rank all b) v d else nth b (nth a old []) d.
Proof.
  induction mask as [|b m IH]; intros old v L W C.
  - destruct old; [|discriminate]. cbn. split; [reflexivity|]. split; [tauto|]. intros a c d. destruct a; reflexivity.
  - destruct old as [|row old]; [discriminate|]. cbn [length trues] in *. destruct b.
    + assert (Lr : length row = length all) by (apply W; left; auto).
      destruct (fill_row_spec all row v Lr ltac:(nia)) as (A & B & D). cbn [fill_rows].
      destruct (fill_row all row v) as [new rest]. cbn [fst snd] in *. subst rest.
      destruct (IH old (skipn (trues all) v) ltac:(lia) ltac:(intros; apply W; right; auto) ltac:(rewrite skipn_length; nia)) as (P & Q & R).
      split; [cbn [length]; lia|]. split; [intros r [<-|H]; [lia|auto]|].
      intros a c d. destruct a as [|a]; cbn [nth rank].
      * rewrite D. cbn [andb]. destruct (nth c all false); auto.
      * rewrite R. destruct (nth a m false && nth c all false); auto. cbn [Nat.add].
        replace (S (rank m a) * trues all + rank all c) with (trues all + (rank m a * trues all + rank all c)) by lia.
        apply nth_skipn'.
    + destruct (IH old v ltac:(lia) ltac:(intros; apply W; right; auto) ltac:(nia)) as (P & Q & R). cbn [fill_rows].
      split; [cbn [length]; lia|]. split; [intros r [<-|H]; [apply W; left; auto|auto]|].
      intros a c d. destruct a as [|a]; cbn [nth rank]; [reflexivity|]. rewrite R. reflexivity.
Qed.
Lemma length_concat_w : forall (l : list (list T)) w, (forall r, In r l -> length r = w) -> length (concat l) = length l * w.
Proof.
  induction l as [|r l IH]; intros w H; [reflexivity|]. cbn [concat length]. rewrite app_length.
  rewrite (IH w) by (intros r' I; apply H; right; auto). rewrite (H r) by (left; auto). lia.
Qed.
Lemma nth_concat_w : forall (l : list (list T)) w i j d, (forall r, In r l -> length r = w) -> j < w ->
  nth (i * w + j) (concat l) d = nth j (nth i l []) d.
Proof.
  induction l as [|r l IH]; intros w i j d H Hj.
  - cbn [concat]. destruct i; cbn [nth]; destruct j; cbn; try reflexivity; destruct (_ + _); reflexivity.
  - cbn [concat]. assert (L : length r = w) by (apply H; left; auto). destruct i as [|i]; cbn [nth].
    + rewrite app_nth1 by lia. reflexivity.
    + rewrite app_nth2 by nia. replace (S i * w + j - length r) with (i * w + j) by nia. apply IH; auto. intros; apply H; right; auto.
Qed.

Lemma wf_rows : forall (m : mat T), wf m -> forall r, In r (dat m) -> length r = nc m.
Proof. intros m [_ H] r I. rewrite Forall_forall in H. auto. Qed.

(** assignment of a square block *)
Lemma mask_assign_ok : forall (m b : mat T) mask (d : T), shape m (length mask) (length mask) -> shape b (trues mask) (trues mask) ->
  exists m', mask_assign m mask (flatten b) = Ok m' /\ shape m' (length mask) (length mask) /\
  forall i j, gget d m' i j = if nth i mask false && nth j mask false then gget d b (rank mask i) (rank mask j) else gget d m i j.
Proof.
  intros m b mask d (Wm & Rm & Cm) (Wb & Rb & Cb).
  assert (Lb : length (flatten b) = trues mask * trues mask).
  { unfold flatten. rewrite (length_concat_w _ (nc b)) by (apply wf_rows; auto). destruct Wb as [-> _]. congruence. }
  unfold mask_assign. rewrite Rm, Cm, Nat.eqb_refl, length_selected, Lb, Nat.eqb_refl. cbn [andb negb].
  destruct (fill_rows_spec mask mask (dat m) (flatten b)) as (P & Q & R).
  { destruct Wm as [-> _]. auto. } { intros r I. rewrite <- Cm. apply wf_rows; auto. } { lia. }
  eexists. split; [reflexivity|]. split.
  - split; [|split; reflexivity]. split; cbn [nr nc dat].
    + rewrite P. destruct Wm as [-> _]. auto.
    + first [ exact Q | apply Forall_forall; exact Q ].
  - intros i j. unfold gget at 1. cbn [dat]. rewrite R. destruct (nth i mask false) eqn:Ei; auto. destruct (nth j mask false) eqn:Ej; auto. cbn [andb].
    unfold flatten, gget. rewrite nth_concat_w; auto; [intros r I; rewrite <- Cb; apply wf_rows; auto|]. apply rank_lt. auto.
Qed.
Lemma mask_assign_size : forall (m : mat T) mask v m', mask_assign m mask v = Ok m' ->
  nr m = length mask /\ nc m = length mask /\ (length v = trues mask * trues mask \/ length v = 1).
Proof.
  intros m mask v m'. unfold mask_assign. rewrite length_selected.
  destruct (negb _) eqn:E1; [discriminate|]. apply negb_false_iff, andb_prop in E1. destruct E1 as [A B].
  apply Nat.eqb_eq in A. apply Nat.eqb_eq in B. repeat split; auto.
  destruct (length v =? trues mask * trues mask) eqn:E; [apply Nat.eqb_eq in E; auto|]. destruct v as [|x [|y v]]; try discriminate. auto.
Qed.
End Fill.
