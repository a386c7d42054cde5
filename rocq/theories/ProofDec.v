(** Exact decimal numbers. *)
From Coq Require Import Bool Arith List ZArith Lia Field.
From Verif Require Import BasePy BaseFld BaseOrd ModelScript ModelTemplates.
Local Open Scope K_scope.

Section Dec.
Context {K : Type} {O : Ops K} {F : Fld K}.
Add Field Kfld : (@k_field K O F).

Lemma of_pos_succ : forall p, of_pos (Pos.succ p) = (of_pos p + 1 : K).
Proof. induction p as [p IH|p IH|]; cbn [Pos.succ of_pos]; rewrite ?IH; ring. Qed.
Lemma of_pos_add : forall p q, of_pos (p + q) = (of_pos p + of_pos q : K).
Proof. intros p. induction q as [|q IH] using Pos.peano_ind; [rewrite Pos.add_1_r; apply of_pos_succ|]. rewrite Pos.add_succ_r, !of_pos_succ, IH. ring. Qed.
Lemma of_pos_mul : forall p q, of_pos (p * q) = (of_pos p * of_pos q : K).
Proof. intros p. induction q as [|q IH] using Pos.peano_ind; [rewrite Pos.mul_1_r; cbn [of_pos]; ring|]. rewrite Pos.mul_succ_r, of_pos_add, of_pos_succ, IH. ring. Qed.
Lemma of_pos_knat : forall p, of_pos p = (knat (Pos.to_nat p) : K).
Proof. induction p as [|p IH] using Pos.peano_ind; [change (Pos.to_nat 1) with 1%nat; cbn [of_pos knat]; ring|]. rewrite of_pos_succ, Pos2Nat.inj_succ, IH. reflexivity. Qed.
Lemma of_pos_neq0 : forall p, of_pos p <> (0 : K).
Proof. intros p. rewrite of_pos_knat. apply knat_neq0. lia. Qed.
Lemma dec_eq : forall a b c d, (a * d = c * b)%positive -> dec a b = (dec c d : K).
Proof.
  intros a b c d H. unfold dec. assert (E : (of_pos a * of_pos d = of_pos c * of_pos b :> K)) by (rewrite <- !of_pos_mul, H; reflexivity).
  pose proof (of_pos_neq0 b) as B. pose proof (of_pos_neq0 d) as D.
  transitivity (of_pos a * of_pos d / (of_pos b * of_pos d)); [field; auto|]. rewrite E. field. auto.
Qed.
Lemma dec_add : forall a b c d, (dec a b + dec c d : K) = dec (a * d + c * b) (b * d).
Proof. intros. unfold dec. rewrite of_pos_add, !of_pos_mul. field. split; apply of_pos_neq0. Qed.
Lemma dec_mul : forall a b c d, (dec a b * dec c d : K) = dec (a * c) (b * d).
Proof. intros. unfold dec. rewrite !of_pos_mul. field. split; apply of_pos_neq0. Qed.
Lemma dec_div : forall a b c d, (dec a b / dec c d : K) = dec (a * d) (b * c).
Proof. intros. unfold dec. rewrite !of_pos_mul. field. repeat split; apply of_pos_neq0. Qed.
Lemma dec_neq0 : forall a b, dec a b <> (0 : K).
Proof.
  intros a b H. apply (of_pos_neq0 a). unfold dec in H. transitivity (of_pos a / of_pos b * of_pos b); [field; apply of_pos_neq0|]. rewrite H. ring.
Qed.
Lemma add_0_l' : forall x : K, 0 + x = x. Proof. intro. ring. Qed.
Lemma add_0_r' : forall x : K, x + 0 = x. Proof. intro. ring. Qed.
End Dec.

Section DecOrd.
Context {K : Type} {O : Ops K} {F : Fld K} {O2 : OrdOps K} {OF : OrdFld K}.
Add Field Kfld2 : (@k_field K O F).
Lemma of_pos_pos : forall p, 0 <! (of_pos p : K).
Proof. induction p as [|p IH] using Pos.peano_ind; [apply klt_01|]. rewrite of_pos_succ. apply klt_add; [apply klt_le; exact IH|apply klt_01]. Qed.
Lemma dec_pos : forall a b, 0 <! (dec a b : K).
Proof. intros a b. apply klt_spec2. split; [apply kle_div; [apply klt_le|]; apply of_pos_pos|]. intro E. exact (dec_neq0 a b (eq_sym E)). Qed.
Lemma dec_nonneg : forall a b, 0 <=! (dec a b : K).
Proof. intros. apply klt_le, dec_pos. Qed.
End DecOrd.
(** equations between decimal numbers *)
Ltac decs := cbn [fst snd]; rewrite ?add_0_l', ?add_0_r'; rewrite ?dec_add, ?dec_mul, ?dec_div; first [reflexivity | apply dec_eq; vm_compute; reflexivity | repeat (rewrite ?dec_add, ?dec_mul, ?dec_div); apply dec_eq; vm_compute; reflexivity].
