(** Rounding to the double precision numbers of Python, from the Flocq library: the nearest
    number of the format with 53 significant bits, ties to even.  Overflow is not modelled. *)
From Coq Require Import ZArith Reals Lia Lra.
From Flocq Require Import Core Relative.
Local Open Scope R_scope.

Definition fl64 (x : R) : R := round radix2 (FLT_exp (-1074) 53) ZnearestE x.

Lemma fl64_int : forall z, (Z.abs z <= 2 ^ 53)%Z -> fl64 (IZR z) = IZR z.
Proof.
  intros z H. unfold fl64. apply round_generic; [apply valid_rnd_N|].
  destruct (Z.eq_dec (Z.abs z) (2 ^ 53)) as [E|E].
  - assert (D : (z = 2 ^ 53 \/ z = - 2 ^ 53)%Z) by lia.
    destruct D as [D|D]; subst z.
    + apply generic_format_FLT. exists (Float radix2 (2 ^ 52) 1); [unfold F2R; simpl; lra|simpl; lia|simpl; lia].
    + apply generic_format_FLT. exists (Float radix2 (- 2 ^ 52) 1); [unfold F2R; simpl; lra|simpl; lia|simpl; lia].
  - apply generic_format_FLT. exists (Float radix2 z 0); [unfold F2R; simpl; lra|simpl in *; lia|simpl; lia].
Qed.

(** The rounded value of a number between 2^(e-1) and 2^e, given the nearest mantissa. *)
Lemma fl64_value : forall x e m, bpow radix2 (e - 1) <= x < bpow radix2 e -> (-1021 <= e)%Z ->
  Rabs (x * bpow radix2 (53 - e) - IZR m) < / 2 -> fl64 x = IZR m * bpow radix2 (e - 53).
Proof.
  intros x e m [H1 H2] He H. unfold fl64, round.
  assert (Hx : 0 < x) by (eapply Rlt_le_trans; [apply bpow_gt_0|exact H1]).
  assert (M : mag radix2 x = e :> Z) by (apply mag_unique; rewrite Rabs_pos_eq by lra; auto).
  assert (C : cexp radix2 (FLT_exp (-1074) 53) x = (e - 53)%Z) by (unfold cexp; rewrite M; unfold FLT_exp; lia).
  unfold scaled_mantissa. rewrite C. replace (- (e - 53))%Z with (53 - e)%Z by lia.
  rewrite (Znearest_imp _ _ m H). reflexivity.
Qed.

Lemma fl64_error : forall x, bpow radix2 (-1022) <= x -> Rabs (fl64 x - x) <= bpow radix2 (-53) * x.
Proof.
  intros x H. assert (Hx : 0 < x) by (eapply Rlt_le_trans; [apply bpow_gt_0|exact H]).
  pose proof (relative_error_N_FLT radix2 (-1074) 53 eq_refl (fun z => negb (Z.even z)) x) as E.
  rewrite (Rabs_pos_eq x) in E by lra.
  eapply Rle_trans; [apply E; exact H|]. apply Req_le.
  change (-53)%Z with (-1 + (-53 + 1))%Z. rewrite bpow_plus. simpl. lra.
Qed.
Lemma fl64_0 : fl64 0 = 0.
Proof. apply (fl64_int 0). simpl. lia. Qed.
