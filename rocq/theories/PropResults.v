(** C104: the voltages and currents saved by the simulation program. *)
From Coq Require Import String.
From Coq Require Import Bool Arith List Lia ZArith QArith Qcanon.
From Verif Require Import BasePy BaseFld BaseOrd BaseSum BaseMat BaseLin BaseNumpy BaseEx BaseRound ModelNet ModelReduce ModelResample ModelLoads ModelMeasure ModelRun ModelScript
  SpecNet SpecLoads SpecMeasure SpecScript SpecScriptData SpecResults ProofScript ProofScriptData PropScript PropScriptData.
Import ListNotations.
Close Scope Qc_scope. Close Scope Q_scope. Close Scope string_scope. Open Scope list_scope. Open Scope nat_scope.

Section Results.
Context {K : Type} {O : Ops K} {F : Fld K} {O2 : OrdOps K} {OF : OrdFld K}.
Notation CK := (cplx K).
Context (pinv : mat CK -> mat CK) (rnd : K -> Z) (root : K -> K) (polar : K -> K -> CK).
Context {St : Type} (randint : nat -> nat -> St -> list nat * St) (gauss : St -> K * St) (noise : @noise_fun K St K) (seeded : St).
Context (flow1 : net (K := K) -> mat K -> mat K -> res (mat K * mat K)).
Context (flow3 : net (K := K) -> mat K -> mat K -> list (mat K) -> res ((mat K * mat K) * (mat K * mat K) * (mat K * mat K))).
Context (y_bus3 : net (K := K) -> res (mat CK)).
Context (reduce3 : net (K := K) -> mat CK -> mat CK -> list nat -> bool -> res (list nat * mat CK)).
Context (seq_measurement seq_admittance : mat CK -> res (mat CK)).
Notation run := (simulate pinv rnd root polar randint gauss noise seeded flow1 flow3 y_bus3 reduce3 seq_measurement seq_admittance).
Notation ok := (run_ok pinv rnd root polar randint gauss noise seeded flow1 flow3 y_bus3 reduce3 seq_measurement seq_admittance).

Lemma voltages_polar : forall m a V, voltages polar m a = Ok V -> polar_form polar m a V.
Proof.
  intros m a V H. unfold voltages in H. destruct (Nat.eqb_spec (nr m) (nr a)) as [E1|]; [|discriminate]. destruct (Nat.eqb_spec (nc m) (nc a)) as [E2|]; [|discriminate].
  injection H as <-. split; [apply shape_mk|]. split; [auto|]. split; [auto|]. intros t k Ht Hk. rewrite get_mk by assumption. reflexivity.
Qed.
Lemma currents_injected : forall V Y I, currents V Y = Ok I -> injected V Y I.
Proof.
  intros V Y I H. unfold currents in H. destruct (Nat.eqb_spec (nc V) (nr Y)) as [E|]; [|discriminate]. injection H as <-. split; [exact E|]. split; [apply shape_mk|].
  intros t k Ht Hk. unfold mmul. rewrite get_mk by assumption. rewrite E. reflexivity.
Qed.
(** one phase: the voltages are those of the power flow for the saved loads, the currents those of the admittance matrix *)
Theorem C104_one_phase : forall conf o ts template s s' V I Y, three_phased o = false -> recomputes o -> run conf o ts template s = (s', Ok tt) -> f_results s' = Some (V, I, Y) ->
  exists ns ls n lf m a, template = Some (ns, ls) /\ NetData (Some ns) (Some ls) None = Ok n /\ f_loads s' = Some lf /\ flow1 n (lf_p lf) (lf_q lf) = Ok (m, a) /\
    polar_form polar m a V /\ make_y_bus n = Ok Y /\ injected V Y I.
Proof.
  intros conf o ts template s s' V I Y H3 HR H ER. destruct (recomputes_redo _ HR) as [Rs Rd]. apply ok in H.
  destruct H as (n & ns & lp & lf & r & m & P & f & todel & y & out & (EN & _ & _ & R & _) & ->). cbn [f_results f_loads] in *. injection ER as ->.
  unfold network in EN. rewrite H3 in EN. unfold make_net in EN. destruct template as [[ns' ls]|]; [|discriminate]. apply bind_ok in EN. destruct EN as (n' & EN & E0). injection E0 as -> ->.
  rewrite Rs, H3 in R. unfold new_results in R. apply bind_ok in R. destruct R as (Y' & EY & R). apply bind_ok in R. destruct R as ([V' I'] & RV & R). injection R as -> -> ->.
  apply bind_ok in RV. destruct RV as ([mm aa] & EF & RV). unfold get_current_and_voltage in RV. apply bind_ok in RV. destruct RV as (V0 & EV & RV).
  rewrite EY in RV. cbn [bind] in RV. apply bind_ok in RV. destruct RV as (I0 & EI & RV). injection RV as -> ->.
  exists ns, ls, n, lf, mm, aa. split; [reflexivity|]. split; [exact EN|]. split; [reflexivity|]. split; [exact EF|]. split; [apply voltages_polar; exact EV|]. split; [exact EY|].
  apply currents_injected. exact EI.
Qed.
Lemma interleave_polar : forall m a va vb vc V, voltages polar (m 0) (a 0) = Ok va -> voltages polar (m 1) (a 1) = Ok vb -> voltages polar (m 2) (a 2) = Ok vc -> interleave va vb vc = Ok V ->
  polar_form3 polar m a V.
Proof.
  intros m a va vb vc V Ha Hb Hc H. apply voltages_polar in Ha, Hb, Hc. destruct Ha as ((_ & RA & CA) & A1 & A2 & A3), Hb as ((_ & RB & CB) & B1 & B2 & B3), Hc as ((_ & RC & CC) & C1 & C2 & C3).
  unfold interleave in H. destruct (Nat.eqb_spec (nr va) (nr vb)) as [E1|]; [|discriminate]. destruct (Nat.eqb_spec (nc va) (nc vb)) as [E2|]; [|discriminate].
  destruct (Nat.eqb_spec (nr va) (nr vc)) as [E3|]; [|discriminate]. destruct (Nat.eqb_spec (nc va) (nc vc)) as [E4|]; [|discriminate]. cbn [andb] in H. injection H as <-.
  split; [replace (3 * nc (m 0)) with (nc va * 3) by lia; rewrite <- RA; apply shape_mk|].
  assert (P : forall t k ph, t < nr va -> k < nc va -> ph < 3 ->
    get (mk (nr va) (nc va * 3) (fun t j => match j mod 3 with 0 => get va t (j / 3) | 1 => get vb t (j / 3) | _ => get vc t (j / 3) end)) t (3 * k + ph) =
    match ph with 0 => get va t k | 1 => get vb t k | _ => get vc t k end).
  { intros t k ph Ht Hk Hp. rewrite get_mk by lia. replace (3 * k + ph) with (ph + k * 3) by lia. rewrite Nat.mod_add, Nat.div_add by lia.
    rewrite (Nat.mod_small ph 3) by lia. rewrite (Nat.div_small ph 3) by lia. reflexivity. }
  intros ph Hp. destruct ph as [|[|[|ph]]]; [| | |lia]; (split; [lia|]; split; [lia|]; split; [lia|]; split; [lia|]); intros t k Ht Hk; rewrite P by lia; [apply A3|apply B3|apply C3]; lia.
Qed.
(** three phases: column 3 k + p holds phase p of bus k *)
Theorem C104_three_phases : forall conf o ts template s s' V I Y, three_phased o = true -> recomputes o -> run conf o ts template s = (s', Ok tt) -> f_results s' = Some (V, I, Y) ->
  exists ns ls n lf asym m a, template = Some (ns, ls) /\ NetData3P ts (Some ns) (Some ls) None = Ok n /\ f_loads s' = Some lf /\ lf_a lf = Some asym /\
    flow3 n (lf_p lf) (lf_q lf) asym = Ok ((m 0, a 0), (m 1, a 1), (m 2, a 2)) /\ polar_form3 polar m a V /\ y_bus3 n = Ok Y /\ injected V Y I.
Proof.
  intros conf o ts template s s' V I Y H3 HR H ER. destruct (recomputes_redo _ HR) as [Rs Rd]. apply ok in H.
  destruct H as (n & ns & lp & lf & r & m & P & f & todel & y & out & (EN & _ & L & R & _) & ->). cbn [f_results f_loads] in *. injection ER as ->.
  unfold network in EN. rewrite H3 in EN. unfold make_net3 in EN. destruct template as [[ns' ls]|]; [|discriminate]. apply bind_ok in EN. destruct EN as (n' & EN & E0). injection E0 as -> ->.
  assert (LA : exists asym, lf_a lf = Some asym).
  { rewrite H3 in L. destruct lp as [q|].
    - unfold new_loads in L. apply bind_ok in L. destruct L as ([[[[p1 p2] p3] p4] p5] & _ & L). injection L as <-. eexists. reflexivity.
    - destruct L as [_ L]. destruct (lf_a lf) as [x|]; [eauto|]. destruct (L eq_refl eq_refl). }
  destruct LA as [asym LA]. rewrite Rs, H3 in R. unfold new_results in R. rewrite LA in R. apply bind_ok in R. destruct R as (Y' & EY & R). apply bind_ok in R. destruct R as ([V' I'] & RV & R). injection R as -> -> ->.
  apply bind_ok in RV. destruct RV as ([[[ma aa] [mb ab]] [mc ac]] & EF & RV). unfold get_current_and_voltage3 in RV. cbn [fst snd] in RV.
  apply bind_ok in RV. destruct RV as (va & EA & RV). apply bind_ok in RV. destruct RV as (vb & EB & RV). apply bind_ok in RV. destruct RV as (vc & EC & RV).
  apply bind_ok in RV. destruct RV as (V0 & EV & RV). rewrite EY in RV. cbn [bind] in RV. apply bind_ok in RV. destruct RV as (I0 & EI & RV). injection RV as -> ->.
  exists ns, ls, n, lf, asym, (fun k => match k with 0 => ma | 1 => mb | _ => mc end), (fun k => match k with 0 => aa | 1 => ab | _ => ac end).
  split; [reflexivity|]. split; [exact EN|]. split; [reflexivity|]. split; [exact LA|]. split; [exact EF|]. split; [eapply interleave_polar; eassumption|]. split; [exact EY|].
  apply currents_injected. exact EI.
Qed.
End Results.
Print Assumptions C104_one_phase.
Print Assumptions C104_three_phases.

Lemma l_size : match f_results l_end with Some (V, _, _) => (nr V, nc V) | None => (0, 0) end = (4, 3).
Proof. vm_compute. reflexivity. Qed.
Example C104_one_phase_ex : exists V I Y, grun 2 (g_conf []) (g_opt true) [] (Some (l_ns, l_ls)) l_start = (l_end, Ok tt) /\ f_results l_end = Some (V, I, Y) /\ injected V Y I /\ nr V = 4 /\ nc V = 3.
Proof.
  destruct (f_results l_end) as [[[V I] Y]|] eqn:E; [|vm_compute in E; discriminate E]. exists V, I, Y. split; [exact l_ran|]. split; [reflexivity|].
  destruct (C104_one_phase _ _ _ _ _ _ _ _ _ _ _ _ _ _ (g_conf []) (g_opt true) [] (Some (l_ns, l_ls)) l_start l_end V I Y eq_refl (g_recomputes true) l_ran E) as (_ & _ & _ & _ & _ & _ & _ & _ & _ & _ & _ & _ & J).
  split; [exact J|]. pose proof l_size as Z. rewrite E in Z. injection Z as -> ->. split; reflexivity.
Qed.
Example C104_three_phases_ex : exists s V I Y m a, xrun (x_conf 4) (x_opt3 false true true) [] (Some (x_ns3, [])) x_files3 = (s, Ok tt) /\ f_results s = Some (V, I, Y) /\
  polar_form3 (fun m a => Cx m a) m a V /\ injected V Y I /\ nr V = 3 /\ nc V = 6.
Proof.
  assert (T : (fun r : data_files Qc * res unit => match r with (s, Ok tt) => match f_results s with Some (V, _, _) => (nr V =? 3) && (nc V =? 6) | None => false end | _ => false end)
    (xrun (x_conf 4) (x_opt3 false true true) [] (Some (x_ns3, [])) x_files3) = true) by (vm_compute; reflexivity).
  destruct (xrun (x_conf 4) (x_opt3 false true true) [] (Some (x_ns3, [])) x_files3) as [s [[]|]] eqn:RUN; [|discriminate T]. cbv beta iota in T.
  destruct (f_results s) as [[[V I] Y]|] eqn:E; [|discriminate T]. apply andb_prop in T. destruct T as [T1 T2]. apply Nat.eqb_eq in T1, T2.
  destruct (C104_three_phases _ _ _ _ _ _ _ _ _ _ _ _ _ _ (x_conf 4) (x_opt3 false true true) [] _ _ s V I Y eq_refl ltac:(left; split; reflexivity) RUN E) as (ns & ls & n & lf & asym & m & a & _ & _ & _ & _ & _ & P & _ & J).
  exists s, V, I, Y, m, a. auto 10.
Qed.
