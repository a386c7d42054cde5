(** Networks whose lines have resistance: which nodes can be eliminated. *)
From Coq Require Import Bool Arith List Lia Ring Field.
From Verif Require Import BasePy BaseFld BaseOrd BaseSum BaseMat BaseLin ModelNet SpecKron SpecNet SpecPassive ProofNet ProofNetBuild ProofNetY ProofReduce ProofLoads ProofLS.
Import ListNotations.
Local Open Scope K_scope.

Section Passive.
Context {K : Type} {O : Ops K} {F : Fld K} {O2 : OrdOps K} {OF : OrdFld K}.
Notation net := (@net K).
Notation CK := (cplx K).
Add Field KPfld : (@k_field K O F).
Add Field CPfld : (@k_field CK _ _).

Definition norm2 (z : CK) : K := re z * re z + im z * im z.
Lemma norm2_nonneg : forall z, 0 <=! norm2 z.
Proof. intro z. apply kle_0_add; apply kle_sqr. Qed.
Lemma norm2_zero : forall z, norm2 z = 0 -> z = 0.
Proof.
  intros [a b] H. apply kle_add_zero in H; [|apply kle_sqr|apply kle_sqr]. destruct H as [H1 H2]. apply sqr_zero in H1, H2. apply cplx_eq; assumption.
Qed.
Lemma norm2_conj : forall z : CK, conj z * z = Cx (norm2 z) 0.
Proof. intros [a b]. apply cplx_eq; unfold norm2; cbn; ring. Qed.

(** ** quadratic forms *)
Definition form (m : nat) (f : nat -> nat -> CK) (u : nat -> CK) : CK := sumn m (fun a => sumn m (fun b => conj (u a) * f a b * u b)).
Lemma form_ext : forall m f g u, (forall a b, (a < m)%nat -> (b < m)%nat -> f a b = g a b) -> form m f u = form m g u.
Proof. intros m f g u H. apply sumn_ext. intros a Ha. apply sumn_ext. intros b Hb. rewrite H by assumption. reflexivity. Qed.
Lemma form_add : forall m f g u, form m (fun a b => f a b + g a b) u = form m f u + form m g u.
Proof.
  intros m f g u. unfold form. rewrite <- sumn_add. apply sumn_ext. intros a Ha. rewrite <- sumn_add. apply sumn_ext. intros b Hb. ring.
Qed.
Lemma form_zero : forall m u, form m (fun _ _ => 0) u = 0.
Proof. intros m u. apply sumn_zero. intros a Ha. apply sumn_zero. intros b Hb. ring. Qed.
Lemma form_list : forall T m (l : list T) (f : T -> nat -> nat -> CK) u, form m (fun a b => lsum (map (fun x => f x a b) l)) u = lsum (map (fun x => form m (f x) u) l).
Proof.
  intros T m l f u. induction l as [|x l IH]; [apply form_zero|]. cbn [map lsum fold_right]. change (fold_right kadd 0) with (@lsum CK _). rewrite form_add. f_equal. exact IH.
Qed.
Lemma form_point : forall m p q (y : CK) u, (p < m)%nat -> (q < m)%nat -> form m (fun a b => if ((p =? a) && (q =? b))%nat then y else 0) u = conj (u p) * y * u q.
Proof.
  intros m p q y u Hp Hq. unfold form. rewrite (sumn_single m p); [|assumption|].
  - rewrite (sumn_single m q); [rewrite !Nat.eqb_refl; reflexivity|assumption|]. intros b Hb N. rewrite (proj2 (Nat.eqb_neq q b)) by auto. rewrite andb_false_r. cbv iota. ring.
  - intros a Ha N. apply sumn_zero. intros b Hb. rewrite (proj2 (Nat.eqb_neq p a)) by auto. cbn [andb]. cbv iota. ring.
Qed.
Lemma re_lsum : forall l : list CK, re (lsum l) = lsum (map re l).
Proof. induction l as [|x l IH]; [reflexivity|]. cbn in *. rewrite <- IH. reflexivity. Qed.

(** ** the energy of a network *)
Variable n : net.
Notation m := (length (buses n)).
Hypothesis CO : consistent n.
Lemma place : forall i, In i (ids n) -> exists p, nth_error (ids n) p = Some i /\ (p < m)%nat /\ forall a, at_position n i a = (p =? a)%nat.
Proof.
  intros i H. apply In_nth_error in H. destruct H as (p & H). exists p. split; [assumption|].
  assert (L : (p < length (ids n))%nat) by (apply nth_error_Some; congruence). unfold ids in L. rewrite map_length in L. split; [assumption|].
  intro a. unfold at_position. rewrite (proj2 (position_spec n i p (proj1 CO)) H). reflexivity.
Qed.
Lemma line_form : forall l p q u, In l (lines n) -> nth_error (ids n) p = Some (n_from l) -> nth_error (ids n) q = Some (n_to l) ->
  form m (line_entry n l) u = line_admittance n l * (conj (u p - u q) * (u p - u q)).
Proof.
  intros l p q u Hl Hp Hq. destruct CO as (ND & _ & _ & HL & _). destruct (HL l Hl) as [I1 I2].
  destruct (place _ I1) as (p' & P1 & P2 & P3). destruct (place _ I2) as (q' & Q1 & Q2 & Q3).
  assert (UN : forall a b i, nth_error (ids n) a = Some i -> nth_error (ids n) b = Some i -> a = b).
  { intros a b i A B. apply (NoDup_nth_error (ids n)); [assumption|apply nth_error_Some; congruence|congruence]. }
  rewrite (UN _ _ _ P1 Hp) in *. rewrite (UN _ _ _ Q1 Hq) in *.
  set (y := line_admittance n l).
  rewrite (form_ext m _ (fun a b => (if ((p =? a) && (p =? b))%nat then y else 0) + (if ((q =? a) && (q =? b))%nat then y else 0) +
     (if ((p =? a) && (q =? b))%nat then - y else 0) + (if ((q =? a) && (p =? b))%nat then - y else 0))).
  - rewrite !form_add, !form_point by assumption. change (conj (u p - u q)) with (conj (csub (u p) (u q))). rewrite conj_sub. change (csub (conj (u p)) (conj (u q))) with (conj (u p) - conj (u q)). ring.
  - intros a b Ha Hb. unfold line_entry. cbv zeta. fold y. rewrite !P3, !Q3.
    destruct (p =? a)%nat, (p =? b)%nat, (q =? a)%nat, (q =? b)%nat; cbn [andb]; ring.
Qed.
Lemma load_form : forall i (s : CK) p u, nth_error (ids n) p = Some i -> form m (fun a b => if (a =? b)%nat then (if at_position n i a then s else 0) else 0) u = s * (conj (u p) * u p).
Proof.
  intros i s p u Hp. assert (I1 : In i (ids n)) by (eapply nth_error_In; eauto). destruct (place _ I1) as (p' & P1 & P2 & P3).
  assert (p' = p) as -> by (apply (NoDup_nth_error (ids n)); [apply CO|apply nth_error_Some; congruence|congruence]).
  rewrite (form_ext m _ (fun a b => if ((p =? a) && (p =? b))%nat then s else 0)).
  - rewrite form_point by assumption. ring.
  - intros a b Ha Hb. rewrite P3. destruct (Nat.eqb_spec a b) as [->|N]; [destruct (p =? b)%nat; reflexivity|].
    destruct (Nat.eqb_spec p a) as [->|N1]; [|reflexivity]. rewrite (proj2 (Nat.eqb_neq a b) N). reflexivity.
Qed.
Definition at_pos (i : nat) : nat := match position n i with Some p => p | None => 0%nat end.
Lemma at_pos_ok : forall i, In i (ids n) -> nth_error (ids n) (at_pos i) = Some i.
Proof. intros i H. destruct (place i H) as (p & P1 & _). unfold at_pos. rewrite (proj2 (position_spec n i p (proj1 CO)) P1). assumption. Qed.
Lemma energy : forall u, form m (get (y_matrix n)) u =
  lsum (map (fun l => line_admittance n l * Cx (norm2 (u (at_pos (n_from l)) - u (at_pos (n_to l)))) 0) (lines n)) +
  lsum (map (fun l => load_admittance n l * Cx (norm2 (u (at_pos (l_bus l)))) 0) (loads n)).
Proof.
  intro u. rewrite (form_ext m _ (fun a b => lsum (map (fun l => line_entry n l a b) (lines n)) +
    lsum (map (fun l => if (a =? b)%nat then (if at_position n (l_bus l) a then load_admittance n l else 0) else 0) (loads n)))).
  - rewrite form_add, !form_list. f_equal; f_equal; apply map_ext_in; intros l Hl.
    + destruct CO as (_ & _ & _ & HL & _). destruct (HL l Hl) as [I1 I2]. rewrite (line_form l (at_pos (n_from l)) (at_pos (n_to l)) u Hl) by (apply at_pos_ok; assumption).
      rewrite norm2_conj. reflexivity.
    + destruct CO as (_ & _ & _ & _ & _ & HL & _). destruct (HL l Hl) as [_ I1].
      rewrite (load_form (l_bus l) (load_admittance n l) (at_pos (l_bus l)) u) by (apply at_pos_ok; assumption). rewrite norm2_conj. reflexivity.
  - intros a b Ha Hb. unfold y_matrix. rewrite get_mk by assumption. f_equal. destruct (a =? b)%nat; [reflexivity|].
    induction (loads n) as [|l r IH]; [reflexivity|]. cbn [map lsum fold_right]. change (fold_right kadd 0) with (@lsum CK _). rewrite <- IH. ring.
Qed.

(** voltages at the positions [E], zero elsewhere *)
Definition extend (E : list nat) (u : list CK) (a : nat) : CK := sumn (length E) (fun k => if (nth k E 0 =? a)%nat then vget u k else 0).
Lemma extend_in : forall E u k, NoDup E -> (k < length E)%nat -> extend E u (nth k E 0%nat) = vget u k.
Proof.
  intros E u k ND Hk. unfold extend. rewrite (sumn_single _ k); [rewrite Nat.eqb_refl; reflexivity|assumption|].
  intros i Hi N. rewrite (proj2 (Nat.eqb_neq _ _)); [reflexivity|]. intro X. apply N. apply (NoDup_nth E 0%nat); assumption.
Qed.
Lemma extend_out : forall E u a, ~ In a E -> extend E u a = 0.
Proof. intros E u a H. apply sumn_zero. intros i Hi. rewrite (proj2 (Nat.eqb_neq _ _)); [reflexivity|]. intro X. apply H. rewrite <- X. apply nth_In. assumption. Qed.
(** sums against an extended vector *)
Lemma extend_sum : forall E u (g : nat -> CK), (forall k, In k E -> (k < m)%nat) -> sumn m (fun b => g b * extend E u b) = sumn (length E) (fun k => g (nth k E 0%nat) * vget u k).
Proof.
  intros E u g HE. unfold extend.
  transitivity (sumn m (fun b => sumn (length E) (fun k => g b * (if (nth k E 0 =? b)%nat then vget u k else 0)))).
  - apply sumn_ext. intros b Hb. symmetry. apply sumn_scal_l.
  - rewrite sumn_swap. apply sumn_ext. intros k Hk. rewrite (sumn_single m (nth k E 0%nat)); [rewrite Nat.eqb_refl; reflexivity|apply HE, nth_In; assumption|].
    intros i Hi N. rewrite (proj2 (Nat.eqb_neq _ _)) by auto. cbv iota. ring.
Qed.
(** ** islands *)
Lemma line_row : forall l p q a (w : nat -> CK), In l (lines n) -> nth_error (ids n) p = Some (n_from l) -> nth_error (ids n) q = Some (n_to l) ->
  sumn m (fun b => line_entry n l a b * w b) = line_admittance n l * ((if (p =? a)%nat then 1 else 0) - (if (q =? a)%nat then 1 else 0)) * (w p - w q).
Proof.
  intros l p q a w Hl Hp Hq. destruct CO as (ND & _ & _ & HL & _). destruct (HL l Hl) as [I1 I2].
  destruct (place _ I1) as (p' & P1 & P2 & P3). destruct (place _ I2) as (q' & Q1 & Q2 & Q3).
  assert (UN : forall x y i, nth_error (ids n) x = Some i -> nth_error (ids n) y = Some i -> x = y).
  { intros x y i A B. apply (NoDup_nth_error (ids n)); [assumption|apply nth_error_Some; congruence|congruence]. }
  rewrite (UN _ _ _ P1 Hp) in *. rewrite (UN _ _ _ Q1 Hq) in *. set (y := line_admittance n l).
  transitivity (sumn m (fun b => (if (p =? b)%nat then y * ((if (p =? a)%nat then 1 else 0) - (if (q =? a)%nat then 1 else 0)) * w b else 0) +
    (if (q =? b)%nat then - (y * ((if (p =? a)%nat then 1 else 0) - (if (q =? a)%nat then 1 else 0)) * w b) else 0))).
  - apply sumn_ext. intros b Hb. unfold line_entry. cbv zeta. fold y. rewrite !P3, !Q3. destruct (p =? a)%nat, (p =? b)%nat, (q =? a)%nat, (q =? b)%nat; cbn [andb]; ring.
  - rewrite sumn_add, (sumn_single m p), (sumn_single m q); try assumption.
    + rewrite !Nat.eqb_refl. ring.
    + intros b Hb N. rewrite (proj2 (Nat.eqb_neq q b)) by auto. reflexivity.
    + intros b Hb N. rewrite (proj2 (Nat.eqb_neq p b)) by auto. reflexivity.
Qed.
(** voltages which are equal along lines cause no currents *)
Lemma flat_currents : forall (w : nat -> CK) a, (forall x y, joined n x y -> w x = w y) ->
  (forall l k, In l (loads n) -> nth_error (ids n) k = Some (l_bus l) -> w k = 0 \/ l_z l = 0) -> (a < m)%nat -> sumn m (fun b => get (y_matrix n) a b * w b) = 0.
Proof.
  intros w a FL NZ La.
  transitivity (sumn m (fun b => lsum (map (fun l => line_entry n l a b * w b) (lines n)))).
  - apply sumn_ext. intros b Hb. unfold y_matrix. rewrite get_mk by assumption.
    assert (X : (if (a =? b)%nat then lsum (map (fun l => if at_position n (l_bus l) a then load_admittance n l else 0) (loads n)) else 0) * w b = (0 : CK)).
    { destruct (Nat.eqb_spec a b) as [<-|_]; [|ring]. assert (G : forall ll, (forall l, In l ll -> In l (loads n)) -> lsum (map (fun l => if at_position n (l_bus l) a then load_admittance n l else 0) ll) * w a = (0 : CK)).
      { induction ll as [|l ll IH]; intro H; [cbn [map lsum fold_right]; ring|]. cbn [map lsum fold_right]. change (fold_right kadd 0) with (@lsum CK _).
        transitivity ((if at_position n (l_bus l) a then load_admittance n l else 0) * w a + lsum (map (fun l => if at_position n (l_bus l) a then load_admittance n l else 0) ll) * w a); [ring|].
        rewrite IH by (intros; apply H; cbn; auto).
        assert (Il : In l (loads n)) by (apply H; cbn; auto). destruct CO as (_ & _ & _ & _ & _ & HL & _). destruct (HL l Il) as [_ Ib]. destruct (place _ Ib) as (p & P1 & P2 & P3). rewrite P3.
        destruct (Nat.eqb_spec p a) as [->|N]; [|ring]. destruct (NZ l a Il P1) as [Z|Z]; [rewrite Z; ring|]. unfold load_admittance. rewrite Z, !kdiv_def.
        replace (rscal (0 * kinv hundred * kinv (sn n)) (Cx (l_p l) (- l_q l))) with (0 : CK) by (apply cplx_eq; cbn; ring). ring. }
      apply G. auto. }
    match type of X with ?c * _ = _ => transitivity (lsum (map (fun l => line_entry n l a b) (lines n)) * w b + c * w b); [ring|] end. rewrite X. clear X.
    induction (lines n) as [|l ll IH]; cbn [map lsum fold_right]; [ring|]. change (fold_right kadd 0) with (@lsum CK _). rewrite <- IH. ring.
  - assert (G : forall ll, (forall l, In l ll -> In l (lines n)) -> sumn m (fun b => lsum (map (fun l => line_entry n l a b * w b) ll)) = 0); [|apply G; auto].
    induction ll as [|l ll IH]; intro H; [apply sumn_zero; reflexivity|]. cbn [map lsum fold_right]. change (fold_right kadd 0) with (@lsum CK _). rewrite sumn_add, IH by (intros; apply H; cbn; auto).
    assert (Il : In l (lines n)) by (apply H; cbn; auto). destruct CO as (_ & _ & _ & HL & _). destruct (HL l Il) as [I1 I2].
    rewrite (line_row l (at_pos (n_from l)) (at_pos (n_to l)) a w Il) by (apply at_pos_ok; assumption).
    rewrite (FL (at_pos (n_from l)) (at_pos (n_to l))); [ring|]. exists l. split; [exact Il|]. left. split; apply at_pos_ok; assumption.
Qed.
(** the positions that lead out *)
Definition joinedb (a b : nat) : bool := existsb (fun l =>
  match nth_error (ids n) a, nth_error (ids n) b with
  | Some i, Some j => ((i =? n_from l) && (j =? n_to l)) || ((i =? n_to l) && (j =? n_from l)) | _, _ => false end)%nat (lines n).
Lemma joinedb_ok : forall a b, joinedb a b = true <-> joined n a b.
Proof.
  intros a b. unfold joinedb, joined. rewrite existsb_exists.
  split; intros (l & Hl & H); exists l; (split; [exact Hl|]); destruct (nth_error (ids n) a) as [i|], (nth_error (ids n) b) as [j|];
    repeat rewrite orb_true_iff, !andb_true_iff, !Nat.eqb_eq in *; try discriminate; destruct H as [[H1 H2]|[H1 H2]]; try discriminate;
    [left|right|injection H1 as ->; injection H2 as ->; auto|injection H1 as ->; injection H2 as ->; auto]; subst; auto.
Qed.
Lemma joined_sym : forall a b, joined n a b -> joined n b a.
Proof. intros a b (l & Hl & [[Ha Hb]|[Ha Hb]]); exists l; auto. Qed.
Lemma joined_lt : forall a b, joined n a b -> (a < m)%nat /\ (b < m)%nat.
Proof.
  intros a b (l & _ & [[Ha Hb]|[Ha Hb]]); (split; rewrite <- (map_length b_id (buses n)); apply nth_error_Some; unfold ids in *; congruence).
Qed.
Lemma grow : forall E f S, (m - length S <= f)%nat -> NoDup S -> (forall k, In k S -> (k < m)%nat /\ leads_out m (joined n) E k) ->
  exists S', incl S S' /\ (forall k, In k S' -> leads_out m (joined n) E k) /\ (forall a b, joined n a b -> In b S' -> In a S').
Proof.
  intros E. induction f as [|f IH]; intros S Hf ND HS.
  - exists S. split; [intros x Hx; exact Hx|]. split; [intros k Hk; apply HS, Hk|]. intros a b J _. apply joined_lt in J.
    apply (NoDup_length_incl ND (l' := seq 0 m)); [rewrite seq_length; lia|intros x Hx; apply in_seq; destruct (HS x Hx); lia|apply in_seq; lia].
  - destruct (existsb (fun a => negb (existsb (Nat.eqb a) S) && existsb (joinedb a) S) (seq 0 m)) eqn:X.
    + apply existsb_exists in X. destruct X as (a & Ha & X). apply andb_true_iff in X. destruct X as [X1 X2]. apply existsb_exists in X2. destruct X2 as (b & Hb & J). apply joinedb_ok in J.
      assert (Na : ~ In a S). { intro Ia. apply negb_true_iff in X1. assert (existsb (Nat.eqb a) S = true) by (apply existsb_exists; exists a; rewrite Nat.eqb_refl; auto). congruence. }
      apply in_seq in Ha. destruct (IH (a :: S)) as (S' & I1 & I2).
      * cbn [length]. lia.
      * constructor; assumption.
      * intros k [<-|Hk]; [|apply HS; exact Hk]. split; [lia|]. apply (one_link _ _ _ a b J). apply HS, Hb.
      * exists S'. split; [intros x Hx; apply I1; right; exact Hx|exact I2].
    + exists S. split; [intros x Hx; exact Hx|]. split; [intros k Hk; apply HS, Hk|]. intros a b J Hb. destruct (in_dec Nat.eq_dec a S) as [Y|N]; [exact Y|exfalso].
      assert (Y : existsb (fun a => negb (existsb (Nat.eqb a) S) && existsb (joinedb a) S) (seq 0 m) = true); [|congruence].
      apply existsb_exists. exists a. split; [apply in_seq; apply joined_lt in J; lia|]. apply andb_true_iff. split.
      * apply negb_true_iff. destruct (existsb (Nat.eqb a) S) eqn:Q; [|reflexivity]. apply existsb_exists in Q. destruct Q as (x & Hx & Q). apply Nat.eqb_eq in Q. subst x. contradiction.
      * apply existsb_exists. exists b. split; [exact Hb|]. apply joinedb_ok. exact J.
Qed.
Lemma outside : forall E, exists S, forall k, In k S <-> leads_out m (joined n) E k.
Proof.
  intro E. destruct (grow E m (filter (fun k => negb (existsb (Nat.eqb k) E)) (seq 0 m))) as (S & I1 & I2 & I3); [lia|apply NoDup_filter, seq_NoDup| |].
  - intros k Hk. apply filter_In in Hk. destruct Hk as [H1 H2]. apply in_seq in H1. split; [lia|]. apply already_out; [lia|]. intro Ik. apply negb_true_iff in H2.
    assert (existsb (Nat.eqb k) E = true) by (apply existsb_exists; exists k; rewrite Nat.eqb_refl; auto). congruence.
  - exists S. intro k. split; [apply I2|]. intro H. induction H as [k Hk N|a b J H IH]; [|apply (I3 a b J IH)]. apply I1, filter_In. split; [apply in_seq; lia|].
    apply negb_true_iff. destruct (existsb (Nat.eqb k) E) eqn:Q; [|reflexivity]. apply existsb_exists in Q. destruct Q as (x & Hx & Q). apply Nat.eqb_eq in Q. subst x. contradiction.
Qed.
Theorem leads_out_dec : forall E k, leads_out m (joined n) E k \/ ~ leads_out m (joined n) E k.
Proof. intros E k. destruct (outside E) as (S & HS). destruct (in_dec Nat.eq_dec k S) as [Y|N]; [left; apply HS; exact Y|right; intro H; apply N, HS, H]. Qed.
(** an island cannot be eliminated *)
Theorem p_island : forall Y E k, make_y_bus n = Ok Y -> NoDup E -> (forall j, In j E -> (j < m)%nat) -> In k E -> ~ leads_out m (joined n) E k ->
  (forall l j, In l (loads n) -> nth_error (ids n) j = Some (l_bus l) -> In j E -> ~ leads_out m (joined n) E j -> l_z l = 0) -> ~ invertible (length E) (block_of Y E E).
Proof.
  intros Y E k HY ND HE Ik NL NZ (B & SB & _ & BM). unfold make_y_bus in HY. destruct (grids n) as [|g0 gs]; [discriminate|]. injection HY as <-.
  assert (SM : shape (block_of (y_matrix n) E E) (length E) (length E)) by apply shape_mk.
  pose proof (left_inverse_inj _ _ _ _ SM SB BM) as IJ. destruct (outside E) as (S & HS).
  set (u := map (fun e => if existsb (Nat.eqb e) S then 0 else (1 : CK)) E). assert (Lu : length u = length E) by apply map_length.
  assert (IN : forall e, existsb (Nat.eqb e) S = true <-> leads_out m (joined n) E e).
  { intro e. rewrite existsb_exists, <- HS. split; [intros (x & Hx & Q); apply Nat.eqb_eq in Q; subst x; exact Hx|intro H; exists e; rewrite Nat.eqb_refl; auto]. }
  assert (W : forall b, (b < m)%nat -> extend E u b = if existsb (Nat.eqb b) S then 0 else 1).
  { intros b Hb. destruct (in_dec Nat.eq_dec b E) as [Y|N].
    - apply In_nth with (d := 0%nat) in Y. destruct Y as (i & Hi & <-). rewrite extend_in by assumption. unfold vget, u. rewrite (nth_indep _ 0 ((fun e => if existsb (Nat.eqb e) S then 0 else (1 : CK)) 0%nat)) by (rewrite map_length; exact Hi).
      exact (map_nth (fun e => if existsb (Nat.eqb e) S then 0 else (1 : CK)) E 0%nat i).
    - rewrite extend_out by assumption. rewrite (proj2 (IN b)); [reflexivity|]. apply already_out; assumption. }
  assert (Z : u = vzeros (length E)).
  { apply (IJ u); [exact Lu|]. cbn [nr block_of mk]. apply (nth_ext _ _ 0 0). { rewrite length_mvmul, length_vzeros. reflexivity. }
    intros i Hi. rewrite length_mvmul in Hi. cbn [nr block_of mk] in Hi. fold (vget (mvmul (block_of (y_matrix n) E E) u) i). fold (vget (vzeros (length E) : list CK) i). rewrite vget_vzeros, vget_mvmul by assumption.
    cbn [nc block_of mk]. set (a := nth i E 0%nat). assert (La : (a < m)%nat) by (apply HE, nth_In, Hi).
    transitivity (sumn m (fun b => get (y_matrix n) a b * extend E u b)).
    { rewrite extend_sum by exact HE. apply sumn_ext. intros j Hj. unfold block_of. rewrite get_mk by assumption. reflexivity. }
    apply flat_currents; [| |exact La].
    - intros x y J. destruct (joined_lt x y J) as [Lx Ly]. rewrite !W by assumption.
      destruct (existsb (Nat.eqb x) S) eqn:Qx, (existsb (Nat.eqb y) S) eqn:Qy; try reflexivity; exfalso.
      + apply IN in Qx. apply joined_sym in J. pose proof (proj2 (IN y) (one_link _ _ _ y x J Qx)). congruence.
      + apply IN in Qy. pose proof (proj2 (IN x) (one_link _ _ _ x y J Qy)). congruence.
    - intros l j Hl Hj. assert (Lj : (j < m)%nat) by (rewrite <- (map_length b_id (buses n)); apply nth_error_Some; unfold ids in Hj; congruence).
      rewrite W by exact Lj. destruct (existsb (Nat.eqb j) S) eqn:Q; [left; reflexivity|right].
      assert (NJ : ~ leads_out m (joined n) E j) by (intro H; apply IN in H; congruence).
      apply (NZ l j Hl Hj); [|exact NJ]. destruct (in_dec Nat.eq_dec j E) as [Y|N]; [exact Y|]. exfalso. apply NJ, already_out; assumption. }
  apply In_nth with (d := 0%nat) in Ik. destruct Ik as (i & Hi & Ei). pose proof (extend_in E u i ND Hi) as X. rewrite Ei, Z, vget_vzeros, <- Z in X.
  rewrite W in X by (rewrite <- Ei; apply HE, nth_In, Hi). destruct (existsb (Nat.eqb k) S) eqn:Q; [apply IN in Q; contradiction|]. apply (f_equal re) in X. cbn in X. revert X. apply k1_neq0.
Qed.

Hypothesis RE : resistive n.
Lemma kmul_pos : forall x y : K, 0 <! x -> 0 <! y -> 0 <! x * y.
Proof.
  intros x y H1 H2. apply klt_spec2. split; [apply kle_mul; apply klt_le; assumption|]. intro E. symmetry in E. apply kmul_integral in E.
  apply klt_neq in H1, H2. tauto.
Qed.
Lemma sqr_pos : forall x : K, x <> 0 -> 0 <! x * x.
Proof. intros x H. apply klt_spec2. split; [apply kle_sqr|]. intro E. apply H, sqr_zero. auto. Qed.
Lemma kdiv_pos : forall x y : K, 0 <! x -> 0 <! y -> 0 <! x / y.
Proof.
  intros x y H1 H2. apply klt_spec2. split; [apply kle_div; [apply klt_le|]; assumption|]. intro E. apply (klt_neq x H1).
  replace x with (x / y * y) by (field; apply klt_neq; assumption). rewrite <- E. ring.
Qed.
Lemma line_pos : forall l, In l (lines n) -> 0 <! re (line_admittance n l).
Proof.
  intros l Hl. destruct RE as (S & KV & LI & _). unfold line_admittance. destruct CO as (_ & _ & _ & HL & _). destruct (HL l Hl) as [I1 _].
  destruct (find _ _) as [b|] eqn:E.
  - apply find_some in E. destruct E as [Eb _]. cbn [rscal re]. apply kmul_pos; [apply kdiv_pos; [apply sqr_pos, KV; assumption|assumption]|].
    assert (P := LI l Hl). set (r := n_r l * n_len l) in *. set (x := n_x l * n_len l).
    assert (D : 0 <! r * r + x * x). { replace (r * r + x * x) with (x * x + r * r) by ring. apply klt_add; [apply kle_sqr|apply sqr_pos, klt_neq; assumption]. }
    replace (re (kinv (Cx r x : CK))) with (r / (r * r + x * x)); [apply kdiv_pos; assumption|]. reflexivity.
  - exfalso. unfold ids in I1. apply in_map_iff in I1. destruct I1 as (b & E1 & E2). pose proof (find_none _ _ E b E2) as X. cbv beta in X. rewrite E1, Nat.eqb_refl in X. discriminate.
Qed.
Lemma load_nonneg : forall l, In l (loads n) -> 0 <=! re (load_admittance n l).
Proof.
  intros l Hl. destruct RE as (S & _ & _ & LO). destruct (LO l Hl) as [L1 L2]. unfold load_admittance. cbn [rscal re]. apply kle_mul; [|assumption].
  apply kle_div; [|assumption]. apply kle_div; [assumption|]. unfold hundred. apply ProofLoads.knat_pos. lia.
Qed.

Lemma ck_comm : forall x y : CK, x * y = y * x.
Proof. intros x y. ring. Qed.
Lemma re_add : forall x y : CK, re (x + y) = re x + re y.
Proof. intros [a b] [c d]. reflexivity. Qed.
Lemma re_real : forall (z : CK) x, re (z * Cx x 0) = re z * x.
Proof. intros [a b] x. cbn. ring. Qed.
Lemma lsum_nonneg_zero : forall T (f : T -> K) l, (forall x, In x l -> 0 <=! f x) -> 0 <=! lsum (map f l) /\ (lsum (map f l) = 0 -> forall x, In x l -> f x = 0).
Proof.
  induction l as [|a l IH]; intro H; [split; [apply kle_refl|intros _ x []]|]. cbn [map lsum fold_right]. change (fold_right kadd 0) with (@lsum K _).
  destruct IH as [I1 I2]; [intros; apply H; cbn; auto|]. split; [apply kle_0_add; [apply H; cbn; auto|exact I1]|].
  intro Z. apply kle_add_zero in Z; [|apply H; cbn; auto|exact I1]. destruct Z as [Z1 Z2]. intros x [<-|Hx]; auto.
Qed.
(** no energy, no difference *)
Lemma no_energy : forall u, form m (get (y_matrix n)) u = 0 -> forall a b, joined n a b -> u a = u b.
Proof.
  intros u H. assert (R : re (form m (get (y_matrix n)) u) = 0) by (rewrite H; reflexivity). rewrite energy in R. rewrite re_add in R.
  rewrite !re_lsum, !map_map in R.
  assert (A1 : forall l, In l (lines n) -> 0 <=! re (line_admittance n l * Cx (norm2 (u (at_pos (n_from l)) - u (at_pos (n_to l)))) 0)).
  { intros l Hl. rewrite re_real. apply kle_mul; [apply klt_le, line_pos; exact Hl|apply norm2_nonneg]. }
  assert (A2 : forall l, In l (loads n) -> 0 <=! re (load_admittance n l * Cx (norm2 (u (at_pos (l_bus l)))) 0)).
  { intros l Hl. rewrite re_real. apply kle_mul; [apply load_nonneg; exact Hl|apply norm2_nonneg]. }
  destruct (lsum_nonneg_zero _ _ _ A1) as [P1 Z1]. destruct (lsum_nonneg_zero _ _ _ A2) as [P2 _].
  apply kle_add_zero in R; [|exact P1|exact P2]. specialize (Z1 (proj1 R)).
  assert (EQ : forall l p q, In l (lines n) -> nth_error (ids n) p = Some (n_from l) -> nth_error (ids n) q = Some (n_to l) -> u p = u q).
  { intros l p q Hl Hp Hq. specialize (Z1 l Hl). rewrite re_real in Z1. apply kmul_integral in Z1. destruct Z1 as [Z1|Z1]; [exfalso; apply (klt_neq _ (line_pos l Hl)); exact Z1|].
    apply norm2_zero in Z1. unfold at_pos in Z1. rewrite (proj2 (position_spec n _ p (proj1 CO)) Hp), (proj2 (position_spec n _ q (proj1 CO)) Hq) in Z1.
    replace (u p) with (u p - u q + u q) by ring. rewrite Z1. ring. }
  intros a b (l & Hl & [[Ha Hb]|[Ha Hb]]); [apply (EQ l a b)|symmetry; apply (EQ l b a)]; assumption.
Qed.
Lemma leads_lt : forall E k, leads_out m (joined n) E k -> (k < m)%nat.
Proof. intros E k H. destruct H as [k L N|a b J _]; [exact L|]. exact (proj1 (joined_lt a b J)). Qed.

Lemma conj_extend_sum : forall E u (g : nat -> CK), (forall k, In k E -> (k < m)%nat) -> sumn m (fun a => conj (extend E u a) * g a) = sumn (length E) (fun k => conj (vget u k) * g (nth k E 0%nat)).
Proof.
  intros E u g HE. transitivity (sumn m (fun a => g a * extend E (map conj u) a)).
  - apply sumn_ext. intros a Ha. rewrite ck_comm. f_equal. unfold extend. rewrite ProofLS.conj_sumn. apply sumn_ext. intros k Hk.
    destruct (nth k E 0 =? a)%nat; [|apply conj_0]. unfold vget. rewrite <- (map_nth conj u 0 k), conj_0. reflexivity.
  - rewrite extend_sum by assumption. apply sumn_ext. intros k Hk. rewrite ck_comm. f_equal. unfold vget.
    rewrite <- (map_nth conj u 0 k), conj_0. reflexivity.
Qed.
Theorem block_inj : forall E, NoDup E -> (forall k, In k E -> leads_out m (joined n) E k) -> inj (block_of (y_matrix n) E E).
Proof.
  intros E ND LO u Lu Hu. cbn [nr nc block_of mk] in Lu, Hu |- *.
  assert (HE : forall k, In k E -> (k < m)%nat) by (intros k Hk; apply (leads_lt E), LO, Hk).
  assert (Z : form m (get (y_matrix n)) (extend E u) = 0).
  { unfold form. transitivity (sumn m (fun a => conj (extend E u a) * sumn (length E) (fun k => get (y_matrix n) a (nth k E 0%nat) * vget u k))).
    - apply sumn_ext. intros a Ha. rewrite <- (extend_sum E u (fun b => get (y_matrix n) a b) HE), <- sumn_scal_l. apply sumn_ext. intros b Hb. ring.
    - rewrite (conj_extend_sum E u (fun a => sumn (length E) (fun k => get (y_matrix n) a (nth k E 0%nat) * vget u k)) HE). apply sumn_zero. intros i Hi.
      assert (Q : vget (mvmul (block_of (y_matrix n) E E) u) i = 0) by (rewrite Hu; apply vget_vzeros).
      rewrite vget_mvmul in Q by assumption. cbn [nc block_of mk] in Q.
      replace (sumn (length E) (fun k => get (y_matrix n) (nth i E 0%nat) (nth k E 0%nat) * vget u k)) with (0 : CK); [ring|]. rewrite <- Q. apply sumn_ext. intros k Hk.
      unfold block_of. rewrite get_mk by assumption. reflexivity. }
  pose proof (no_energy _ Z) as EQ.
  assert (ZE : forall k, leads_out m (joined n) E k -> extend E u k = 0).
  { intros k H. induction H as [k Hk N|a b J H IH]; [apply extend_out; assumption|]. rewrite (EQ a b J). exact IH. }
  apply (nth_ext _ _ 0 0); [rewrite length_vzeros; assumption|]. intros k Hk. rewrite Lu in Hk. fold (vget u k). fold (vget (vzeros (length E) : list CK) k). rewrite vget_vzeros.
  rewrite <- (extend_in E u k ND Hk). apply ZE, LO, nth_In. assumption.
Qed.
Theorem p_block : forall Y E, make_y_bus n = Ok Y -> NoDup E -> (forall k, In k E -> leads_out m (joined n) E k) -> invertible (length E) (block_of Y E E).
Proof.
  intros Y E HY ND LO. unfold make_y_bus in HY. destruct (grids n) as [|g0 gs]; [discriminate|]. injection HY as <-.
  assert (SB : shape (block_of (y_matrix n) E E) (length E) (length E)) by apply shape_mk.
  destruct (inj_kinverse _ _ SB (block_inj E ND LO)) as (B & EB). exists B. destruct (kinverse_sound _ _ _ SB EB) as (S1 & S2 & S3). auto.
Qed.
(** no current anywhere: voltages are equal along lines *)
Theorem p_equal : forall Y v, make_y_bus n = Ok Y -> length v = m -> mvmul Y v = vzeros m -> forall a b, joined n a b -> vget v a = vget v b.
Proof.
  intros Y v HY Lv Hv. unfold make_y_bus in HY. destruct (grids n) as [|g0 gs]; [discriminate|]. injection HY as <-. apply (no_energy (vget v)). apply sumn_zero. intros a Ha.
  transitivity (conj (vget v a) * vget (mvmul (y_matrix n) v) a); [|rewrite Hv, vget_vzeros; ring].
  rewrite vget_mvmul by assumption. cbn [nc y_matrix mk]. rewrite <- sumn_scal_l. apply sumn_ext. intros b Hb. ring.
Qed.
End Passive.

Section Exactly.
Context {K : Type} {O : Ops K} {F : Fld K} {O2 : OrdOps K} {OF : OrdFld K}.
Theorem p_exactly : forall (n : net (K := K)) Y E, consistent n -> make_y_bus n = Ok Y -> resistive n -> unloaded n -> NoDup E -> (forall k, In k E -> (k < length (buses n))%nat) ->
  (invertible (length E) (block_of Y E E) <-> forall k, In k E -> leads_out (length (buses n)) (joined n) E k).
Proof.
  intros n Y E C HY RE UL ND HE. split; [|apply p_block; assumption].
  intros IV k Hk. destruct (leads_out_dec n E k) as [L|N]; [exact L|]. exfalso. apply (p_island n C Y E k HY ND HE Hk N); [|exact IV]. intros l j Hl _ _ _. apply UL, Hl.
Qed.
End Exactly.
