(** A rounding function on the rationals, for concrete cases. *)
From Coq Require Import String Bool Arith List Lia ZArith QArith Qcanon.
From Verif Require Import BasePy BaseFld BaseOrd BaseSum BaseMat BaseLin BaseEx SpecLoads.
Import ListNotations.
Close Scope Qc_scope. Close Scope Q_scope. Close Scope string_scope. Open Scope list_scope. Open Scope nat_scope.

(** rounding of fractions, to the even integer when two are as near *)
Definition round_half_even (n d : Z) : Z :=
  let z := ((2 * n + d) / (2 * d))%Z in
  if (((2 * n + d) mod (2 * d) =? 0) && negb (Z.even z))%Z then (z - 1)%Z else z.
Definition roundq (x : Qc) : Z := round_half_even (Qnum (this x)) (Zpos (Qden (this x))).
Lemma round_half_even_near : forall n d, (0 < d)%Z -> let z := round_half_even n d in
  (Z.abs (2 * (n - z * d)) <= d)%Z /\ ((Z.abs (2 * (n - z * d)) = d)%Z -> Z.even z = true).
Proof.
  intros n d Hd z. unfold z, round_half_even. clear z. set (z := ((2 * n + d) / (2 * d))%Z).
  pose proof (Z.div_mod (2 * n + d) (2 * d) ltac:(lia)) as E. fold z in E.
  pose proof (Z.mod_pos_bound (2 * n + d) (2 * d) ltac:(lia)) as B.
  set (r := ((2 * n + d) mod (2 * d))%Z) in *. clearbody z r.
  assert (E1 : (2 * (n - z * d) = r - d)%Z) by lia.
  assert (E2 : (2 * (n - (z - 1) * d) = r + d)%Z) by lia.
  destruct (Z.eqb_spec r 0); destruct (Z.even z) eqn:Ev; cbn [andb negb]; rewrite ?E1, ?E2.
  - split; [lia|auto].
  - split; [lia|]. intros _. rewrite Z.even_sub, Ev. reflexivity.
  - split; [lia|auto].
  - split; [lia|]. intro H. exfalso. lia.
Qed.
Lemma ofZ_zq : forall z, ofZ z = zq z.
Proof.
  intro z. unfold ofZ. destruct (Z.ltb_spec z 0).
  - rewrite knat_Qc. unfold zq. simpl. apply Qc_is_canon. unfold Qcopp. cbn [this Q2Qc]. rewrite !Qred_correct.
    rewrite Z2Nat.id by lia. unfold Qopp, inject_Z, Qeq. simpl. lia.
  - rewrite knat_Qc, Z2Nat.id by lia. reflexivity.
Qed.
Lemma twice_abs : forall (x : Qc) z, Qeq (this (kmul (knat 2) (kabs (ksub x (zq z))))) (Z.abs (2 * (Qnum (this x) - z * Zpos (Qden (this x)))) # Qden (this x)).
Proof.
  intros x z. assert (D : Qeq (this (ksub x (zq z))) ((Qnum (this x) - z * Zpos (Qden (this x))) # Qden (this x))).
  { cbn [ksub Qc_ops]. unfold Qcminus, Qcplus, Qcopp, zq. cbn [this Q2Qc]. rewrite !Qred_correct. destruct x as [[n d] H]. unfold Qeq, Qplus, Qopp, inject_Z. simpl. lia. }
  set (y := ksub x (zq z)) in *. clearbody y.
  set (m := (Qnum (this x) - z * Zpos (Qden (this x)))%Z) in *. clearbody m. set (d := Qden (this x)) in *. clearbody d.
  assert (S : forall w, Qeq (this (kmul (knat 2) w)) (2 * this w)).
  { intro w. rewrite knat_Qc. cbn [kmul Qc_ops]. unfold Qcmult. cbn [this Q2Qc]. rewrite !Qred_correct. reflexivity. }
  rewrite S. unfold kabs. destruct (kleb k0 y) eqn:E.
  - apply Qc_leb_le in E. change (@k0 Qc _) with (Q2Qc 0) in E. unfold Qcle in E. change (this (Q2Qc 0)) with 0%Q in E. rewrite D in *. unfold Qle, Qeq, Qmult in *. cbn [Qnum Qden] in *. rewrite Z.abs_eq; nia.
  - assert (L : (y <= Q2Qc 0)%Qc). { apply Qc_leb_le. destruct (kle_total y k0) as [|C]; auto. unfold kle in C. rewrite C in E. discriminate E. }
    unfold Qcle in L. change (this (Q2Qc 0)) with 0%Q in L. cbn [kopp Qc_ops]. unfold Qcopp. cbn [this Q2Qc]. rewrite Qred_correct. rewrite D in *. unfold Qle, Qeq, Qmult, Qopp in *. cbn [Qnum Qden] in *. rewrite Z.abs_neq; nia.
Qed.
Lemma roundq_rounds : rounds roundq.
Proof.
  intro x. destruct (round_half_even_near (Qnum (this x)) (Zpos (Qden (this x))) eq_refl) as [A B].
  unfold nearest. rewrite ofZ_zq. fold (roundq x) in *. pose proof (twice_abs x (roundq x)) as T. split.
  - apply Qc_leb_le. unfold Qcle. rewrite T. change (this (@k1 Qc _)) with 1%Q. unfold Qle. cbn [Qnum Qden]. lia.
  - intro E. apply B. rewrite E in T. change (this (@k1 Qc _)) with 1%Q in T. unfold Qeq in T. cbn [Qnum Qden] in T. lia.
Qed.
