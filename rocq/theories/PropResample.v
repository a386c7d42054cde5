(** C39 and C40 on concrete signals. *)
From Coq Require Import Arith List QArith Qcanon.
From Verif Require Import BasePy BaseFld BaseSum BaseMat BaseOrd BaseEx ModelResample SpecResample ProofResample.
Import ListNotations.
Close Scope Qc_scope. Close Scope Q_scope. Open Scope nat_scope.

(** a signal with two columns, sampled at 0, 2, 3; six new times averaged in pairs *)
Definition c39_m : mat (cplx Qc) := czrows [[(1, 0); (0, 1)]; [(3, 4); (0, -1)]; [(5, 0); (2, 1)]]%Z.
Definition c39_old : list Qc := map zq [0; 2; 3]%Z.
Definition c39_new : list Qc := [zq 0; zq 1; zq 2; zq 3; qq 1 2; zq 0; zq 1].
Lemma c39_increasing : increasing c39_old.
Proof.
  intros i j Hij Hj. change (length c39_old) with 3 in Hj.
  destruct j as [|[|[|j]]]; [|destruct i as [|i]|destruct i as [|[|i]]|]; try (exfalso; abstract Lia.lia); vm_compute; reflexivity.
Qed.
Lemma c39_within : within c39_old c39_new.
Proof. intros v H. cbn [c39_new In] in H. repeat destruct H as [<- | H]; try contradiction; split; vm_compute; reflexivity. Qed.
Example C39_ex : noiseless (K := Qc) (St := unit) (D := Qc) None None None /\ increasing c39_old /\ 2 <= length c39_old /\ nr c39_m = length c39_old /\
  within c39_old c39_new /\
  filter_and_resample_measurement (D := Qc) c39_m (Some c39_old) (Some c39_new) 2 None None None tt =
    Ok (mk 3 2 (fun t i => match t, i with
      | 0, 0 => Cx (qq 3 2) (zq 1) | 0, _ => Cx (zq 0) (qq 1 2)
      | 1, 0 => Cx (zq 4) (zq 2) | 1, _ => Cx (zq 1) (zq 0)
      | _, 0 => Cx (qq 5 4) (qq 1 2) | _, _ => Cx (zq 0) (qq 3 4) end), tt).
Proof.
  split; [left; reflexivity|]. split; [apply c39_increasing|]. split; [repeat constructor|]. split; [reflexivity|]. split; [apply c39_within|].
  rewrite (resample_eq c39_m c39_old c39_new 2 None None None tt); [|left; reflexivity|apply c39_increasing|repeat constructor|reflexivity|apply c39_within|repeat constructor].
  f_equal. f_equal. apply meqb_eq. vm_compute. reflexivity.
Qed.
Theorem C40_default_times_refuted : exists (M : mat (cplx Qc)) f, shape M 3 2 /\ 0 < f /\
  filter_and_resample_measurement (St := unit) (D := Qc) M None None f None None None tt = Err TypeError.
Proof. exists c39_m, 1. split; [apply shapeb_shape; vm_compute; reflexivity|]. split; [repeat constructor|]. reflexivity. Qed.
(** documented default of the old times, with a valid signal and new times inside its range *)
Theorem C40_default_old_times_refuted : exists (M : mat (cplx Qc)) new f, shape M 3 2 /\ 0 < f /\
  within (map knat (range 3)) new /\
  filter_and_resample_measurement (St := unit) (D := Qc) M None (Some new) f None None None tt = Err ValueError.
Proof.
  exists c39_m, [zq 0; zq 1], 1. split; [apply shapeb_shape; vm_compute; reflexivity|]. split; [repeat constructor|]. split.
  - intros v H. cbn [In] in H. repeat destruct H as [<- | H]; try contradiction; split; vm_compute; reflexivity.
  - apply p_default_old; repeat constructor. vm_compute. discriminate.
Qed.
Print Assumptions C40_default_times_refuted.
Print Assumptions C40_default_old_times_refuted.
(** a noise function that adds its deviations and counts its calls: column 0 gets 1 + 5i, column 1 gets 2 + 5i *)
Definition c39_shift : @noise_fun Qc nat Qc := fun v a b s => Ok (map (fun z => cadd z (Cx a b)) v, S s).
Example C39_noise_ex : given 2 (StdIter [zq 1; zq 2]) (fun i => match i with 0 => zq 1 | _ => zq 2 end) /\ given 2 (StdScalar (zq 5)) (fun _ => zq 5) /\
  (forall v a b s v' s', c39_shift v a b s = Ok (v', s') -> length v' = length v) /\
  exists out, filter_and_resample_measurement c39_m (Some c39_old) (Some c39_new) 2 (Some (StdIter [zq 1; zq 2])) (Some (StdScalar (zq 5))) (Some c39_shift) 0 = Ok (out, 2) /\
  get out 0 0 = Cx (qq 5 2) (zq 6) /\ get out 0 1 = Cx (zq 2) (qq 11 2).
Proof.
  split; [intros [|[|i]] Hi; try reflexivity; exfalso; Lia.lia|]. split; [intros i _; reflexivity|].
  split; [unfold c39_shift; intros v a b s v' s' H; injection H as <- _; apply map_length|].
  eexists. split; [unfold filter_and_resample_measurement; vm_compute; reflexivity|]. split; apply keqb_eq; vm_compute; reflexivity.
Qed.
