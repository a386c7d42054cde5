(** The number of profile lines read per week, computed in double precision. *)
From Coq Require Import Arith ZArith Reals Lia Lra.
From Flocq Require Import Core.
From Verif Require Import BasePy BaseFld BaseFloat ModelNet ModelLoads.
Local Open Scope R_scope.

Lemma lines_exact : forall days weeks c, (0 < weeks)%nat -> (days = c * weeks)%nat -> (Z.of_nat c * 1440 <= 2 ^ 53)%Z ->
  lines_per_week days weeks = Ok (Z.of_nat c * 1440)%Z.
Proof.
  intros days weeks c Hw -> Hc. unfold lines_per_week. destruct (Nat.eqb_spec weeks 0) as [E|_]; [lia|]. f_equal.
  assert (W : INR weeks <> 0) by (apply not_0_INR; lia).
  replace (INR (c * weeks) / INR weeks) with (IZR (Z.of_nat c)) by (rewrite mult_INR, <- INR_IZR_INZ; field; auto).
  rewrite fl64_int by lia.
  replace (IZR (Z.of_nat c) * 24) with (IZR (Z.of_nat c * 24)) by (rewrite mult_IZR; reflexivity).
  rewrite fl64_int by lia.
  replace (IZR (Z.of_nat c * 24) * 60) with (IZR (Z.of_nat c * 1440)) by (rewrite !mult_IZR; ring).
  rewrite fl64_int by lia. apply Ztrunc_IZR.
Qed.

Lemma lines_none : forall days, lines_per_week days 0 = Err ZeroDivisionError.
Proof. reflexivity. Qed.

Lemma lines_near : forall days weeks, (0 < weeks)%nat -> (Z.of_nat weeks <= 2 ^ 50)%Z -> (Z.of_nat days * 1440 <= 2 ^ 50)%Z ->
  exists len, lines_per_week days weeks = Ok (Z.of_nat len) /\
    (len * weeks <= days * 1440 <= (len + 1) * weeks)%nat.
Proof.
  intros days weeks Hw Hw2 Hd. unfold lines_per_week. destruct (Nat.eqb_spec weeks 0) as [E|_]; [lia|].
  set (w := INR weeks). set (d := INR days).
  assert (W : 1 <= w) by (unfold w; apply (le_INR 1); lia).
  assert (W2 : w <= bpow radix2 50).
  { unfold w. rewrite INR_IZR_INZ. change (bpow radix2 50) with (IZR (2 ^ 50)). apply IZR_le; auto. }
  assert (N : d * 1440 <= bpow radix2 50).
  { unfold d. rewrite INR_IZR_INZ, <- mult_IZR. change (bpow radix2 50) with (IZR (2 ^ 50)). apply IZR_le; auto. }
  destruct (Nat.eq_dec days 0) as [Z0|Z0].
  { exists 0%nat. split; [|lia]. f_equal. unfold d. rewrite Z0. simpl.
    replace (0 / w) with 0 by (unfold Rdiv; ring). rewrite fl64_0. rewrite Rmult_0_l, fl64_0, Rmult_0_l, fl64_0. apply (Ztrunc_IZR 0). }
  assert (D : 1 <= d) by (unfold d; apply (le_INR 1); lia).
  set (u := bpow radix2 (-53)).
  assert (U : 0 < u < / 8).
  { unfold u. split; [apply bpow_gt_0|]. change (/ 8) with (bpow radix2 (-3)). apply bpow_lt; lia. }
  set (x := d / w).
  assert (X : bpow radix2 (-50) <= x).
  { unfold x. apply Rle_trans with (/ w).
    - change (bpow radix2 (-50)) with (bpow radix2 (- (50))). rewrite bpow_opp. apply Rinv_le; lra.
    - unfold Rdiv. rewrite <- (Rmult_1_l (/ w)) at 1. apply Rmult_le_compat_r; [left; apply Rinv_0_lt_compat; lra|lra]. }
  assert (S : forall y, bpow radix2 (-51) <= y -> y * (1 - u) <= fl64 y <= y * (1 + u)).
  { intros y Hy. assert (bpow radix2 (-1022) <= y) as H by (eapply Rle_trans; [|exact Hy]; apply bpow_le; lia).
    apply fl64_error in H. fold u in H. apply Rabs_le_inv in H. lra. }
  assert (T : bpow radix2 (-50) = 2 * bpow radix2 (-51)).
  { change (-50)%Z with (1 + -51)%Z. rewrite bpow_plus. simpl. lra. }
  assert (B0 : 0 < bpow radix2 (-51)) by apply bpow_gt_0.
  assert (S1 : x * (1 - u) <= fl64 x <= x * (1 + u)) by (apply S; lra).
  set (y1 := fl64 x) in *.
  assert (S2 : y1 * 24 * (1 - u) <= fl64 (y1 * 24) <= y1 * 24 * (1 + u)) by (apply S; nra).
  set (y2 := fl64 (y1 * 24)) in *.
  assert (P1 : bpow radix2 (-51) <= y1) by nra.
  assert (P2 : bpow radix2 (-51) <= y2) by nra.
  assert (S3 : y2 * 60 * (1 - u) <= fl64 (y2 * 60) <= y2 * 60 * (1 + u)) by (apply S; nra).
  set (y3 := fl64 (y2 * 60)) in *.
  assert (X0 : 0 < x) by lra.
  assert (L1 : x * ((1 - u) * (1 - u) * (1 - u)) * 1440 <= y3).
  { apply Rle_trans with (y2 * 60 * (1 - u)); [|lra]. apply Rle_trans with (y1 * 24 * (1 - u) * 60 * (1 - u)); [nra|].
    assert (y1 * 24 * (1 - u) <= y2) by lra. nra. }
  assert (L2 : y3 <= x * ((1 + u) * (1 + u) * (1 + u)) * 1440).
  { apply Rle_trans with (y2 * 60 * (1 + u)); [lra|]. apply Rle_trans with (y1 * 24 * (1 + u) * 60 * (1 + u)); [|nra].
    assert (y2 <= y1 * 24 * (1 + u)) by lra. nra. }
  assert (C1 : 1 - 4 * u <= (1 - u) * (1 - u) * (1 - u)) by nra.
  assert (C2 : (1 + u) * (1 + u) * (1 + u) <= 1 + 4 * u) by nra.
  assert (XW : x * w = d) by (unfold x; field; lra).
  assert (Q : 4 * u * (d * 1440) < 1).
  { apply Rle_lt_trans with (4 * u * bpow radix2 50); [apply Rmult_le_compat_l; lra|].
    unfold u. rewrite Rmult_assoc, <- bpow_plus. simpl. lra. }
  assert (M1 : d * 1440 - 1 < y3 * w).
  { apply Rlt_le_trans with (x * (1 - 4 * u) * 1440 * w).
    - replace (x * (1 - 4 * u) * 1440 * w) with (x * w * 1440 * (1 - 4 * u)) by ring. rewrite XW. nra.
    - apply Rmult_le_compat_r; [lra|]. eapply Rle_trans; [|exact L1]. nra. }
  assert (M2 : y3 * w < d * 1440 + 1).
  { apply Rle_lt_trans with (x * (1 + 4 * u) * 1440 * w).
    - apply Rmult_le_compat_r; [lra|]. eapply Rle_trans; [exact L2|]. nra.
    - replace (x * (1 + 4 * u) * 1440 * w) with (x * w * 1440 * (1 + 4 * u)) by ring. rewrite XW. nra. }
  assert (Y0 : 0 <= y3) by nra.
  pose proof (Zfloor_lb y3) as F1. pose proof (Zfloor_ub y3) as F2.
  exists (Z.to_nat (Ztrunc y3)). rewrite (Ztrunc_floor y3 Y0) in *.
  assert (Z1 : (0 <= Zfloor y3)%Z) by (apply (Zfloor_le 0) in Y0; rewrite (Zfloor_IZR 0) in Y0; exact Y0).
  rewrite Z2Nat.id by exact Z1. split; [reflexivity|].
  set (l := Zfloor y3) in *.
  assert (E1 : (l * Z.of_nat weeks < Z.of_nat days * 1440 + 1)%Z).
  { apply lt_IZR. rewrite plus_IZR, !mult_IZR, <- !INR_IZR_INZ. fold w d. nra. }
  assert (E2 : (Z.of_nat days * 1440 - 1 < (l + 1) * Z.of_nat weeks)%Z).
  { apply lt_IZR. rewrite minus_IZR, !mult_IZR, plus_IZR, <- !INR_IZR_INZ. fold w d. nra. }
  split; apply Nat2Z.inj_le; rewrite ?Nat2Z.inj_mul, ?Nat2Z.inj_add, Z2Nat.id by exact Z1; simpl; lia.
Qed.

(** 23 days over 5 weeks: 6624 lines per week, one too few is read. *)
Lemma lines_23_5 : lines_per_week 23 5 = Ok 6623%Z.
Proof.
  unfold lines_per_week. change (5 =? 0)%nat with false. cbv iota. f_equal.
  replace (INR 23 / INR 5) with (23 / 5) by (simpl; field).
  assert (B1 : bpow radix2 (3 - 53) = / 1125899906842624) by reflexivity.
  assert (B2 : bpow radix2 (7 - 53) = / 70368744177664) by reflexivity.
  assert (B3 : bpow radix2 (13 - 53) = / 1099511627776) by reflexivity.
  rewrite (fl64_value (23 / 5) 3 5179139571476070); [rewrite B1|simpl; lra|lia|].
  2: { simpl bpow. apply Rabs_def1; simpl; lra. }
  rewrite (fl64_value (5179139571476070 * / 1125899906842624 * 24) 7 7768709357214105); [rewrite B2|simpl; lra|lia|].
  2: { simpl bpow. apply Rabs_def1; simpl; lra. }
  rewrite (fl64_value (7768709357214105 * / 70368744177664 * 60) 13 7283165022388223); [rewrite B3|simpl; lra|lia|].
  2: { simpl bpow. apply Rabs_def1; simpl; lra. }
  rewrite Ztrunc_floor by lra. apply Zfloor_imp. simpl. lra.
Qed.
