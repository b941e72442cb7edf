(** C84: the simulated belt. *)
From Coq Require Import List Reals Arith Bool ZArith Lia Lra Psatz String.
From Flocq Require Import Core.Raux.
From Verif.Model Require Import Base Num Joint Hardware Xml Transmission Belt.
From Verif.Spec Require Import TransmissionSpec BeltSpec BeltSimSpec.
From Verif.Proofs Require Import TransmissionProofs Geo.
From Verif.Props Require Import BeltProps.
Import ListNotations.
Local Open Scope R_scope.

Lemma not_rigid_false t : ~ rigid t -> belt_rigid t = false /\ bt_compl t <> 0 /\ bt_tau t <> 0.
Proof.
  intros HR. split; [destruct (belt_rigid t) eqn:Q; auto; apply rigid_true in Q; contradiction|]. unfold rigid in HR. tauto.
Qed.
Lemma tau_max tau h : (if nltb h tau then tau else h : R) = Rmax tau h.
Proof.
  change (nltb h tau) with (Rlt_bool h tau). destruct (Rlt_bool_spec h tau); [rewrite Rmax_left; lra|rewrite Rmax_right; lra].
Qed.

(** one call computing the force on the joint *)
Lemma force_call dbg t a j m t1 m1 : belt_propagateEffortBackwards dbg t [a] [j] m = Ok (t1, m1) -> ~ rigid t -> 0 < bt_tau t ->
  let h := half_step (bt_bts t) (a_sample_timestamp (m_act m a)) in 0 <= h ->
  (exists x' v' a', spring_step (spring_of t) h (a_effort (m_act m a) * bt_red t) (bt_bjpos t + 2 * h * bt_bjvel t) (bt_bjvel t)
     (bt_bmpos t) (bt_bmvel t) (bt_bmacc t) x' v' a' (commanded_effort (m_js m1 j))) /\
  bt_red t1 = bt_red t /\ bt_compl t1 = bt_compl t /\ bt_tau t1 = bt_tau t /\ bt_bts t1 = a_sample_timestamp (m_act m a) /\
  bt_bhalf t1 = h /\ bt_bforce t1 = a_effort (m_act m a) * bt_red t /\
  bt_bmpos t1 = bt_bmpos t /\ bt_bmvel t1 = bt_bmvel t /\ bt_bmacc t1 = bt_bmacc t.
Proof.
  intros E HR Ht h Hh. destruct (not_rigid_false t HR) as (HB & Hc & _).
  unfold belt_propagateEffortBackwards in E. rewrite bsizes in E. cbn [bind vget nth_error] in E. rewrite HB in E.
  assert (HH : nmul nhalf (ntosec (a_sample_timestamp (m_act m a) - bt_bts t)) = h).
  { unfold nhalf. rewrite tosec_R. unfold h, half_step. simpl. lra. }
  rewrite HH, tau_max in E. injection E as <- <-.
  cbn [bt_red bt_compl bt_tau bt_bts bt_bhalf bt_bforce bt_bmpos bt_bmvel bt_bmacc set_bt_bforce set_bt_bhalf set_bt_bts].
  split; [|repeat split].
  cbn [js_upd m_js]. unfold upd. rewrite Nat.eqb_refl. cbn [commanded_effort set_commanded_effort].
  unfold spring_step, time_constant, spring_of. cbn [sp_tau sp_compl].
  set (tau := Rmax (bt_tau t) h). assert (0 < tau) by (eapply Rlt_le_trans; [exact Ht|apply Rmax_l]).
  clearbody tau h. set (c := bt_compl t) in *. clearbody c.
  assert (D : tau * tau + 2 * tau * h + h * h <> 0) by nra.
  set (F := a_effort (m_act m a) * bt_red t).
  set (acc := (F - (2 * tau * (bt_bmvel t + h * (bt_bmacc t + 0) - bt_bjvel t) +
    (bt_bmpos t + h * (bt_bmvel t + (bt_bmvel t + h * (bt_bmacc t + 0))) - (bt_bjpos t + h * (bt_bjvel t + bt_bjvel t)))) / c) * c / (tau * tau + 2 * tau * h + h * h)).
  exists (bt_bmpos t + h * (bt_bmvel t + (bt_bmvel t + h * (bt_bmacc t + acc)))), (bt_bmvel t + h * (bt_bmacc t + acc)), acc.
  split; [reflexivity|]. split; [reflexivity|]. unfold ntwo. cbn - [IZR]. fold F. fold acc.
  assert (AE : acc * (tau * tau + 2 * tau * h + h * h) = c * F - (2 * tau * (bt_bmvel t + h * (bt_bmacc t + 0) - bt_bjvel t) +
    (bt_bmpos t + h * (bt_bmvel t + (bt_bmvel t + h * (bt_bmacc t + 0))) - (bt_bjpos t + h * (bt_bjvel t + bt_bjvel t))))).
  { unfold acc. field. auto. }
  clearbody acc F. split; [|field; auto].
  apply Rmult_eq_reg_l with c; [|exact Hc]. field_simplify; [|exact Hc|exact Hc]. ring_simplify in AE. lra.
Qed.

Lemma simcal_ok dbg c pj pa (m : mem R) c' m' : simcal_mem dbg c pj pa m = Ok (c', m') ->
  exists a', m' = act_upd pa (fun _ => a') m /\ same_but_calibration (m_act m pa) a'.
Proof.
  unfold simcal_mem, simulateJointCalibration. intros E.
  destruct (if cs_got_info c then Ok c else GetJointCalibrationInfo dbg c (m_js m pj)) as [c1| | |]; cbn [bind] in E; try discriminate.
  injection E as _ <-. eexists. split; [reflexivity|]. set (a := m_act m pa).
  assert (K : forall r, same_but_calibration a (set_a_calibration_reading r a)).
  { intros r. exists r, (a_rising_valid a), (a_falling_valid a), (a_last_rising a), (a_last_falling a). destruct a; reflexivity. }
  assert (K1 : forall r v l, same_but_calibration a (set_a_last_rising l (set_a_rising_valid v (set_a_calibration_reading r a)))).
  { intros r v l. exists r, v, (a_falling_valid a), l, (a_last_falling a). destruct a; reflexivity. }
  assert (K2 : forall r v l, same_but_calibration a (set_a_last_falling l (set_a_falling_valid v (set_a_calibration_reading r a)))).
  { intros r v l. exists r, (a_rising_valid a), v, (a_last_rising a), l. destruct a; reflexivity. }
  repeat match goal with |- context [if ?b then _ else _] => destruct b end; auto.
Qed.

(** one call computing the motor *)
Lemma motor_call dbg e t a j m t2 m2 : belt_propagatePositionBackwards dbg e t [j] [a] m = Ok (t2, m2) -> ~ rigid t -> 0 < bt_tau t ->
  0 <= bt_bhalf t -> bt_red t <> 0 ->
  let X := position (m_js m j) - reference_position (m_js m j) in let V := velocity (m_js m j) in
  (exists sf, spring_step (spring_of t) (bt_bhalf t) (bt_bforce t) X V
     (bt_bmpos t) (bt_bmvel t) (bt_bmacc t) (bt_bmpos t2) (bt_bmvel t2) (bt_bmacc t2) sf) /\
  bt_red t2 = bt_red t /\ bt_compl t2 = bt_compl t /\ bt_tau t2 = bt_tau t /\ bt_bts t2 = bt_bts t /\
  bt_bjpos t2 = X /\ bt_bjvel t2 = V /\
  a_position (m_act m2 a) = bt_bmpos t2 * bt_red t /\ a_velocity (m_act m2 a) = bt_bmvel t2 * bt_red t /\
  a_last_measured_effort (m_act m2 a) = bt_bforce t / bt_red t.
Proof.
  intros E HR Ht Hh Hr X V. destruct (not_rigid_false t HR) as (HB & Hc & _).
  unfold belt_propagatePositionBackwards in E. rewrite bsizes in E. cbn [bind vget nth_error] in E. rewrite HB in E.
  rewrite tau_max in E.
  match type of E with context [sim_clock e ?x ?y] => destruct (sim_clock e x y) as [[ini start] stamp] end.
  match type of E with context [simcal_mem dbg ?k j a ?mm] => set (M := mm) in E; set (cal := k) in E end.
  destruct (simcal_mem dbg cal j a M) as [[k' m3]| | |] eqn:SC; cbn [bind] in E; try discriminate. injection E as <- <-.
  apply simcal_ok in SC. destruct SC as (a' & -> & K).
  apply sbc_fields in K. destruct K as (K1 & K2 & K3 & _).
  unfold M in K1, K2, K3. cbn [act_upd js_upd m_act m_js] in *. unfold upd in *. rewrite !Nat.eqb_refl in *. rewrite K1, K2, K3. clear K1 K2 K3 M.
  split; [|repeat split].
  unfold spring_step, time_constant, spring_of. cbn - [IZR Rmax].
  set (h := bt_bhalf t) in *. set (tau := Rmax (bt_tau t) h). assert (0 < tau) by (eapply Rlt_le_trans; [exact Ht|apply Rmax_l]).
  clearbody tau h. set (c := bt_compl t) in *. clearbody c. fold X. fold V. clearbody X V.
  assert (D : tau * tau + 2 * tau * h + h * h <> 0) by nra.
  eexists. split; [reflexivity|]. split; [reflexivity|]. split; [|reflexivity]. unfold ntwo. cbn - [IZR]. field. auto.
Qed.

Section Simulation.
Variables (dbg : bool) (a j : nat) (t t1 t2 : nat -> belt R) (env : nat -> Transmission.env) (m mf m' mp : nat -> mem R).
Hypothesis SIM : simulation dbg a j t t1 t2 env m mf m' mp.
Hypothesis HR : ~ rigid (t 0%nat).
Hypothesis Ht : 0 < bt_tau (t 0%nat).
Hypothesis Hr : bt_red (t 0%nat) <> 0.
Hypothesis H0 : (bt_bts (t 0%nat) <= a_sample_timestamp (m_act (m 0%nat) a))%Z.
Let o := cycle_seen a j m mf m' mp.
Hypothesis HS : forall n, (se_stamp (o n) <= se_stamp (o (S n)))%Z.
Let k := spring_of (t 0%nat).

Lemma half_nonneg s s' : (s <= s')%Z -> 0 <= half_step s s'.
Proof. intros L. unfold half_step. assert (0 <= IZR (s' - s)) by (apply IZR_le; lia). lra. Qed.

Lemma sim_params n : spring_of (t n) = k /\ (bt_bts (t n) <= se_stamp (o n))%Z.
Proof.
  induction n as [|n (IH & IB)]; [split; [reflexivity|exact H0]|].
  destruct SIM as (S1 & S2 & S3). specialize (S1 n). specialize (S2 n). specialize (S3 n).
  injection IH as R1 C1 T1.
  assert (NR : ~ rigid (t n)) by (unfold rigid in *; rewrite C1, T1; exact HR).
  destruct (force_call _ _ _ _ _ _ _ S1 NR ltac:(rewrite T1; exact Ht) (half_nonneg _ _ IB)) as (_ & A1 & A2 & A3 & A4 & A5 & A6 & _).
  assert (NR1 : ~ rigid (t1 n)) by (unfold rigid in *; rewrite A2, A3; exact NR).
  destruct (motor_call _ _ _ _ _ _ _ _ S2 NR1 ltac:(rewrite A3, T1; exact Ht) ltac:(rewrite A5; apply (half_nonneg _ _ IB)) ltac:(rewrite A1, R1; exact Hr)) as (_ & B1 & B2 & B3 & B4 & _).
  destruct S3 as (D1 & D2 & D3 & D4 & _). split.
  - unfold k, spring_of. f_equal; congruence.
  - rewrite D4, B4, A4. exact (HS n).
Qed.

(** what the state is after cycle n, and what is seen *)
Lemma sim_after n : se_mpos (o n) = bt_bmpos (t (S n)) * sp_red k /\ se_mvel (o n) = bt_bmvel (t (S n)) * sp_red k /\
  bt_bts (t (S n)) = se_stamp (o n) /\ bt_bjpos (t (S n)) = se_jpos (o n) /\ bt_bjvel (t (S n)) = se_jvel (o n) /\ se_meffort (o n) = se_command (o n) /\
  let h := half_step (bt_bts (t n)) (se_stamp (o n)) in
  (exists x' v' a', spring_step k h (se_command (o n) * sp_red k) (bt_bjpos (t n) + 2 * h * bt_bjvel (t n)) (bt_bjvel (t n))
     (bt_bmpos (t n)) (bt_bmvel (t n)) (bt_bmacc (t n)) x' v' a' (se_force (o n))) /\
  (exists sf, spring_step k h (se_command (o n) * sp_red k) (se_jpos (o n)) (se_jvel (o n))
     (bt_bmpos (t n)) (bt_bmvel (t n)) (bt_bmacc (t n)) (bt_bmpos (t (S n))) (bt_bmvel (t (S n))) (bt_bmacc (t (S n))) sf).
Proof.
  destruct (sim_params n) as (PK & IB). destruct SIM as (S1 & S2 & S3). specialize (S1 n). specialize (S2 n). specialize (S3 n).
  injection PK as R1 C1 T1.
  assert (NR : ~ rigid (t n)) by (unfold rigid in *; rewrite C1, T1; exact HR).
  destruct (force_call _ _ _ _ _ _ _ S1 NR ltac:(rewrite T1; exact Ht) (half_nonneg _ _ IB)) as (F1 & A1 & A2 & A3 & A4 & A5 & A6 & A7 & A8 & A9).
  assert (NR1 : ~ rigid (t1 n)) by (unfold rigid in *; rewrite A2, A3; exact NR).
  destruct (motor_call _ _ _ _ _ _ _ _ S2 NR1 ltac:(rewrite A3, T1; exact Ht) ltac:(rewrite A5; apply (half_nonneg _ _ IB)) ltac:(rewrite A1, R1; exact Hr)) as ((sf & F2) & B1 & B2 & B3 & B4 & B5 & B6 & B7 & B8 & B9).
  destruct S3 as (D1 & D2 & D3 & D4 & D5 & D6 & D7 & D8 & D9 & D10 & D11).
  assert (K1 : spring_of (t1 n) = k) by (unfold k, spring_of; f_equal; congruence).
  assert (K0 : spring_of (t n) = k) by (unfold k, spring_of; f_equal; congruence).
  assert (RK : bt_red (t n) = sp_red k) by (unfold k; exact R1).
  assert (RN : sp_red k <> 0) by exact Hr. clearbody k.
  unfold o, cycle_seen in *. cbn [se_mpos se_mvel se_jpos se_jvel se_meffort se_command se_stamp se_force] in *.
  rewrite B7, B8, B9, A6, A1, RK, D4, B4, A4, D7, D8, D10, D11, B5, B6.
  split; [reflexivity|]. split; [reflexivity|]. split; [reflexivity|]. split; [reflexivity|]. split; [reflexivity|].
  split; [field; exact RN|]. rewrite K0, RK in F1. split; [exact F1|]. exists sf.
  rewrite K1, A5, A6, A7, A8, A9, RK in F2. rewrite D9. exact F2.
Qed.

(** Every simulation, however the joint moves and whatever is commanded: consecutive motor positions and velocities (in joint
    units, with some acceleration) are one trapezoidal step of the motor mass on its critically damped spring, the other end of
    which is at the joint; the step has the length between the actuator's time stamps.  The force on the joint is the one the
    spring would carry if the joint had continued at its last velocity; the measured effort is the commanded one. *)
Theorem C84_simulated_belt_is_spring : exists acc : nat -> R, forall n,
  let h := half_step (se_stamp (o n)) (se_stamp (o (S n))) in
  let force := se_command (o (S n)) * sp_red k in
  let x i := se_mpos (o i) / sp_red k in let v i := se_mvel (o i) / sp_red k in
  (exists sf, spring_step k h force (se_jpos (o (S n))) (se_jvel (o (S n))) (x n) (v n) (acc n) (x (S n)) (v (S n)) (acc (S n)) sf) /\
  (exists x' v' a', spring_step k h force (se_jpos (o n) + 2 * h * se_jvel (o n)) (se_jvel (o n)) (x n) (v n) (acc n) x' v' a' (se_force (o (S n)))) /\
  se_meffort (o (S n)) = se_command (o (S n)).
Proof.
  exists (fun n => bt_bmacc (t (S n))). intros n h force x v.
  destruct (sim_after n) as (P1 & V1 & T1 & X1 & W1 & _ & _). destruct (sim_after (S n)) as (P2 & V2 & T2 & X2 & W2 & E2 & F & M).
  assert (RN : sp_red k <> 0) by exact Hr.
  assert (HX : x n = bt_bmpos (t (S n))) by (unfold x; rewrite P1; field; exact RN).
  assert (HV : v n = bt_bmvel (t (S n))) by (unfold v; rewrite V1; field; exact RN).
  assert (HX2 : x (S n) = bt_bmpos (t (S (S n)))) by (unfold x; rewrite P2; field; exact RN).
  assert (HV2 : v (S n) = bt_bmvel (t (S (S n)))) by (unfold v; rewrite V2; field; exact RN).
  rewrite T1 in F, M. fold h in F, M. fold force in F, M. rewrite HX, HV, HX2, HV2. rewrite X1, W1 in F. auto.
Qed.

(** With the joint held still by the simulator and a constant motor command at a constant rate, from any state: the motor
    settles where the spring balances the command, and the joint feels the whole force. *)
Theorem C84_simulated_belt_settles : forall X u s0 delta, (0 < delta)%Z ->
  (forall n, se_jpos (o n) = X /\ se_jvel (o n) = 0 /\ se_command (o n) = u /\ se_stamp (o n) = (s0 + Z.of_nat n * delta)%Z) ->
  geometric (fun n => se_mpos (o n)) ((X + sp_compl k * (u * sp_red k)) * sp_red k) /\
  geometric (fun n => se_mvel (o n)) 0 /\ geometric (fun n => se_force (o n)) (u * sp_red k).
Proof.
  intros X u s0 delta HD HO. destruct C84_simulated_belt_is_spring as [acc SP].
  assert (Hc : sp_compl k <> 0) by (unfold rigid in HR; unfold k; cbn; tauto).
  assert (RN : sp_red k <> 0) by exact Hr.
  set (h := IZR delta / 1000000000 / 2). assert (Hh : 0 < h).
  { unfold h. assert (0 < IZR delta) by (apply IZR_lt; exact HD). lra. }
  set (tau := time_constant k h). assert (HT : 0 < tau) by (eapply Rlt_le_trans; [exact Ht|apply Rmax_l]).
  assert (HTh : h <= tau) by apply Rmax_r.
  set (c := sp_compl k) in *. set (r := sp_red k) in *. set (F := u * r).
  set (x := fun n => se_mpos (o n) / r). set (v := fun n => se_mvel (o n) / r).
  assert (ST : forall n, v (S n) = v n + h * (acc n + acc (S n)) /\ x (S n) = x n + h * (v n + v (S n)) /\
     tau * tau * acc (S n) = c * F - 2 * tau * v (S n) - (x (S n) - X) /\
     se_force (o (S n)) = (2 * tau * v (S n) + (x (S n) - X)) / c).
  { intros n. destruct (SP n) as ((sf & S1) & (x' & v' & a' & S2) & _). destruct (HO n) as (O1 & O2 & O3 & O4). destruct (HO (S n)) as (P1 & P2 & P3 & P4).
    rewrite O1, O2, O4, P3, P4 in S2. rewrite P1, P2, P3, O4, P4 in S1.
    assert (HH : half_step (s0 + Z.of_nat n * delta) (s0 + Z.of_nat (S n) * delta) = h).
    { unfold half_step, h. do 2 f_equal. f_equal. lia. }
    rewrite HH in S1, S2. unfold spring_step in S1, S2. fold tau in S1, S2. fold c in S1, S2. fold r in S1, S2. fold F in S1, S2.
    change (se_mpos (o n) / r) with (x n) in S1, S2. change (se_mvel (o n) / r) with (v n) in S1, S2.
    change (se_mpos (o (S n)) / r) with (x (S n)) in S1. change (se_mvel (o (S n)) / r) with (v (S n)) in S1.
    destruct S1 as (Q1 & Q2 & Q3 & Q4). destruct S2 as (Q5 & Q6 & Q7 & Q8).
    set (f' := se_force (o (S n))) in *. clearbody f'.
    assert (E1 : tau * tau * acc (S n) = c * F - 2 * tau * v (S n) - (x (S n) - X)).
    { apply Rmult_eq_reg_l with (/ c); [|apply Rinv_neq_0_compat; exact Hc].
      transitivity (tau * tau / c * acc (S n)); [field; exact Hc|]. rewrite Q3, Q4. field. exact Hc. }
    assert (E2 : tau * tau * a' = c * F - 2 * tau * v' - (x' - X)).
    { apply Rmult_eq_reg_l with (/ c); [|apply Rinv_neq_0_compat; exact Hc].
      transitivity (tau * tau / c * a'); [field; exact Hc|]. rewrite Q7, Q8. field. exact Hc. }
    assert (AA : a' = acc (S n)).
    { assert (D : (tau * tau + 2 * tau * h + h * h) * a' = (tau * tau + 2 * tau * h + h * h) * acc (S n)).
      { subst v' x'. rewrite Q2, Q1 in E1. lra. }
      apply Rmult_eq_reg_l in D; [exact D|nra]. }
    split; [exact Q1|]. split; [exact Q2|]. split; [exact E1|]. rewrite Q8, Q6, Q5, AA, <- Q1, <- Q2. f_equal. ring. }
  destruct (trapezoid (fun n => x n - (X + c * F)) v acc (/ tau) h) as [A B].
  - apply Rinv_0_lt_compat. exact HT.
  - exact Hh.
  - apply Rmult_le_reg_l with tau; [exact HT|]. rewrite <- Rmult_assoc, Rinv_r by lra. lra.
  - intros n. destruct (ST n) as (E & _). rewrite E at 1. ring.
  - intros n. destruct (ST n) as (_ & E & _). simpl. rewrite E at 1. ring.
  - intros n. destruct (ST n) as (_ & _ & E & _). apply Rmult_eq_reg_l with (tau * tau); [|nra]. rewrite E. field. lra.
  - split; [|split].
    + pose proof (geo_scal _ _ r (geo_add _ _ _ _ A (geo_const (X + c * F)))) as Y. apply (geo_eq _ _ ((X + c * F) * r)) in Y; [|ring].
      eapply geo_ext; [|exact Y]. intros n. cbv beta. unfold x. field. exact RN.
    + pose proof (geo_scal _ _ r B) as Y. apply (geo_eq _ _ 0) in Y; [|ring].
      eapply geo_ext; [|exact Y]. intros n. cbv beta. unfold v. field. exact RN.
    + apply geo_shift.
      pose proof (geo_add _ _ _ _ (geo_add _ _ _ _ (geo_scal _ _ (2 * tau / c) (geo_next _ _ B)) (geo_scal _ _ (/ c) (geo_next _ _ A))) (geo_const F)) as Y.
      apply (geo_eq _ _ F) in Y; [|ring]. eapply geo_ext; [|exact Y].
      intros n. cbv beta. destruct (ST n) as (_ & _ & _ & E). rewrite E. field. exact Hc.
Qed.

(** ... and the position estimator of the same transmission, fed with the simulated motor, recovers where the joint is held. *)
Theorem C84_estimate_recovers_joint : forall X u ref s0 delta s1 delta' (ts ret : nat -> belt R) (ms out : nat -> mem R), (0 < delta)%Z -> (0 < delta')%Z ->
  (forall n, se_jpos (o n) = X /\ se_jvel (o n) = 0 /\ se_command (o n) = u /\ se_stamp (o n) = (s0 + Z.of_nat n * delta)%Z) ->
  updates_of dbg a j ref (fun n => se_mpos (o n)) (fun n => se_meffort (o n)) s1 delta' ts ret ms out ->
  spring_of (ts 0%nat) = k -> sane (ts 0%nat) -> 0 < bt_lcombo (ts 0%nat) ->
  geometric (fun n => position (m_js (out n) j)) (X + ref) /\ geometric (fun n => velocity (m_js (out n) j)) 0.
Proof.
  intros X u ref s0 delta s1 delta' ts ret ms out HD HD' HO UP SK SN HL.
  destruct (C84_simulated_belt_settles X u s0 delta HD HO) as (A & _ & _).
  assert (B : geometric (fun n => se_meffort (o n)) u).
  { eapply geo_ext; [|apply (geo_const u)]. intros n. destruct (sim_after n) as (_ & _ & _ & _ & _ & E & _). rewrite E. symmetry. apply HO. }
  destruct (C47_follows_settling_motor dbg a j _ u ref _ _ s1 delta' ts ret ms out UP A B HD' SN) as [C D]. split; [|exact D].
  eapply geo_eq; [|exact C]. f_equal. unfold static_joint. destruct (Req_EM_T (bt_lcombo (ts 0%nat)) 0); [lra|].
  injection SK as R1 C1 T1. rewrite R1, C1. assert (RN : sp_red k <> 0) by exact Hr. unfold k in *. cbn [sp_red sp_compl spring_of] in *. field. exact RN.
Qed.
End Simulation.

(** "The backward transmission is a entirely separate entity ... Both contain state information, that is NOT shared"
    (pr2_belt_transmission.cpp:424-427): the estimator's calls leave the simulation's state alone and vice versa. *)
Theorem C84_states_not_shared :
  (forall dbg t as_ js m t' m', belt_propagatePosition dbg t as_ js m = Ok (t', m') -> same_simulation t t') /\
  (forall dbg t js as_ m t' m', belt_propagateEffort dbg t js as_ m = Ok (t', m') -> same_simulation t t') /\
  (forall dbg t as_ js m t' m', belt_propagateEffortBackwards dbg t as_ js m = Ok (t', m') -> same_filter t t') /\
  (forall dbg e t js as_ m t' m', belt_propagatePositionBackwards dbg e t js as_ m = Ok (t', m') -> same_filter t t').
Proof.
  split; [|split; [|split]].
  - intros dbg t as_ js m t' m' E. unfold belt_propagatePosition in E.
    destruct (belt_sizes dbg as_ js) as [[]| | |]; cbn [bind] in E; try discriminate.
    destruct (vget as_ 0) as [a0| | |]; cbn [bind] in E; try discriminate. destruct (vget js 0) as [j0| | |]; cbn [bind] in E; try discriminate.
    destruct (belt_jnt1 _ _ _ _ _ _) as [[x1 x2] x3]. destruct (belt_defl _ _ _ _ _ _ _) as [[y1 y2] y3]. destruct (belt_combine _ _ _ _ _ _ _) as [z1 z2].
    injection E as <- <-. repeat split.
  - intros dbg t js as_ m t' m' E. unfold belt_propagateEffort in E.
    destruct (belt_sizes dbg as_ js) as [[]| | |]; cbn [bind] in E; try discriminate.
    destruct (vget as_ 0) as [a0| | |]; cbn [bind] in E; try discriminate. destruct (vget js 0) as [j0| | |]; cbn [bind] in E; try discriminate.
    injection E as <- <-. repeat split.
  - intros dbg t as_ js m t' m' E. unfold belt_propagateEffortBackwards in E.
    destruct (belt_sizes dbg as_ js) as [[]| | |]; cbn [bind] in E; try discriminate.
    destruct (vget as_ 0) as [a0| | |]; cbn [bind] in E; try discriminate. destruct (vget js 0) as [j0| | |]; cbn [bind] in E; try discriminate.
    injection E as <- <-. repeat split.
  - intros dbg e t js as_ m t' m' E. unfold belt_propagatePositionBackwards in E.
    destruct (belt_sizes dbg as_ js) as [[]| | |]; cbn [bind] in E; try discriminate.
    destruct (vget as_ 0) as [a0| | |]; cbn [bind] in E; try discriminate. destruct (vget js 0) as [j0| | |]; cbn [bind] in E; try discriminate.
    match type of E with context [let '(_, _) := ?x in _] => destruct x as [[x1 x2] x3] end.
    match type of E with context [sim_clock e ?x ?y] => destruct (sim_clock e x y) as [[ini start] stamp] end.
    match type of E with context [simcal_mem dbg ?k j0 a0 ?mm] => destruct (simcal_mem dbg k j0 a0 mm) as [[k' m3]| | |] end; cbn [bind] in E; try discriminate.
    injection E as <- <-. repeat split.
Qed.

Lemma same_filter_trans {T} (x y z : belt T) : same_filter x y -> same_filter y z -> same_filter x z.
Proof. unfold same_filter. intuition congruence. Qed.
Lemma same_simulation_trans {T} (x y z : belt T) : same_simulation x y -> same_simulation y z -> same_simulation x z.
Proof. unfold same_simulation. intuition congruence. Qed.

(** ** A simulation with a held joint and a constant command, with the estimator running along, from any transmission *)
Lemma simulation_exists dbg a j (t0 : belt R) A J s0 delta s1 delta' e : js_joint J <> None -> exists t t1 t2 m mf m' mp ts ret ms out,
  t 0%nat = t0 /\ simulation dbg a j t t1 t2 (fun _ => e) m mf m' mp /\
  (forall n, se_jpos (cycle_seen a j m mf m' mp n) = position J - reference_position J /\ se_jvel (cycle_seen a j m mf m' mp n) = velocity J /\
     se_command (cycle_seen a j m mf m' mp n) = a_effort A /\ se_stamp (cycle_seen a j m mf m' mp n) = (s0 + Z.of_nat n * delta)%Z) /\
  updates_of dbg a j (reference_position J) (fun n => se_mpos (cycle_seen a j m mf m' mp n)) (fun n => se_meffort (cycle_seen a j m mf m' mp n)) s1 delta' ts ret ms out /\
  same_filter t0 (ts 0%nat) /\ spring_of (ts 0%nat) = spring_of t0.
Proof.
  intros HJ.
  pose (mm := fun n : nat => mkMem (fun _ => set_a_sample_timestamp (s0 + Z.of_nat n * delta)%Z A) (fun _ => J)).
  pose (fc := fun (n : nat) (t : belt R) => match belt_propagateEffortBackwards dbg t [a] [j] (mm n) with Ok x => x | _ => (t, mm n) end).
  pose (mc := fun (n : nat) (t : belt R) => match belt_propagatePositionBackwards dbg e t [j] [a] (mm n) with Ok x => x | _ => (t, mm n) end).
  pose (em := fun (n : nat) (m : mem R) => mkMem (fun _ => set_a_sample_timestamp (s1 + Z.of_nat n * delta')%Z (m_act m a)) (fun _ => J)).
  pose (ec := fun (n : nat) (t : belt R) (m : mem R) => match belt_propagatePosition dbg t [a] [j] (em n m) with Ok x => x | _ => (t, m) end).
  assert (FC : forall n t, belt_propagateEffortBackwards dbg t [a] [j] (mm n) = Ok (fc n t)).
  { intros n t. unfold fc. unfold belt_propagateEffortBackwards. rewrite bsizes. reflexivity. }
  assert (MC : forall n t, belt_propagatePositionBackwards dbg e t [j] [a] (mm n) = Ok (mc n t)).
  { intros n t. unfold mc. unfold belt_propagatePositionBackwards. rewrite bsizes. cbn [bind vget nth_error].
    match goal with |- context [let '(_, _) := ?x in _] => destruct x as [[x1 x2] x3] end.
    match goal with |- context [sim_clock e ?x ?y] => destruct (sim_clock e x y) as [[ini start] stamp] end.
    match goal with |- context [simcal_mem dbg ?k j a ?M] => destruct (simcal_total dbg k j a M HJ) as (c' & a' & -> & _) end. reflexivity. }
  assert (EC : forall n t m, belt_propagatePosition dbg t [a] [j] (em n m) = Ok (ec n t m)).
  { intros n t m. unfold ec. destruct (position_step dbg t a j (em n m)) as (t' & m' & E & _). rewrite E. reflexivity. }
  clearbody fc mc ec.
  pose (t := fix t n := match n with O => t0 | S i => fst (ec i (fst (mc i (fst (fc i (t i))))) (snd (mc i (fst (fc i (t i)))))) end).
  destruct C84_states_not_shared as (K1 & _ & K3 & K4).
  assert (F1 : forall n t, same_filter t (fst (fc n t))). { intros n t'. specialize (FC n t'). destruct (fc n t'). eapply K3; eauto. }
  assert (F2 : forall n t, same_filter t (fst (mc n t))). { intros n t'. specialize (MC n t'). destruct (mc n t'). eapply K4; eauto. }
  exists t, (fun n => fst (fc n (t n))), (fun n => fst (mc n (fst (fc n (t n))))), mm, (fun n => snd (fc n (t n))), mm, (fun n => snd (mc n (fst (fc n (t n))))).
  exists (fun n => fst (mc n (fst (fc n (t n))))), (fun n => t (S n)), (fun n => em n (snd (mc n (fst (fc n (t n)))))), (fun n => snd (ec n (fst (mc n (fst (fc n (t n))))) (snd (mc n (fst (fc n (t n))))))).
  split; [reflexivity|]. split; [|split; [|split; [|split]]].
  - split; [|split].
    + intros n. rewrite FC. destruct (fc n (t n)); reflexivity.
    + intros n. rewrite MC. destruct (mc n _); reflexivity.
    + intros n. change (t (S n)) with (fst (ec n (fst (mc n (fst (fc n (t n))))) (snd (mc n (fst (fc n (t n))))))).
      pose proof (EC n (fst (mc n (fst (fc n (t n))))) (snd (mc n (fst (fc n (t n)))))) as Y. destruct (ec n _ _). eapply K1; exact Y.
  - intros n. repeat split.
  - split; [|split].
    + intros n. rewrite EC. change (t (S n)) with (fst (ec n (fst (mc n (fst (fc n (t n))))) (snd (mc n (fst (fc n (t n))))))). destruct (ec n _ _); reflexivity.
    + intros n. eapply same_filter_trans; [apply F1|apply F2].
    + intros n. repeat split.
  - eapply same_filter_trans; [apply F1|apply F2].
  - destruct (same_filter_trans _ _ _ (F1 0%nat t0) (F2 0%nat _)) as (_ & A1 & A2 & A3 & _). unfold spring_of. cbn [t]. f_equal; assumption.
Qed.

(** the transmission described in C47_ex (stiffness 4, motor mass 1, reduction 2), the joint held at 3, motor effort 8: in its
    simulation every hypothesis holds; the motor goes to (3 + 8*2/4) * 2 = 14 and the estimate to 3 *)
Example C84_ex : exists t0 h t t1 t2 env m mf m' mp ts ret ms out,
  belt_initXml ex_bp ex_brv ex_belt_doc (fun _ => new_actuator 0) blank_belt = Ok (Some t0, h) /\ t 0%nat = t0 /\
  simulation true 0 0 t t1 t2 env m mf m' mp /\ ~ rigid t0 /\ 0 < bt_tau t0 /\ bt_red t0 <> 0 /\
  (forall n, (se_stamp (cycle_seen 0 0 m mf m' mp n) <= se_stamp (cycle_seen 0 0 m mf m' mp (S n)))%Z) /\
  updates_of true 0 0 0 (fun n => se_mpos (cycle_seen 0 0 m mf m' mp n)) (fun n => se_meffort (cycle_seen 0 0 m mf m' mp n)) 0 1000000 ts ret ms out /\
  geometric (fun n => se_mpos (cycle_seen 0 0 m mf m' mp n)) 14 /\ geometric (fun n => position (m_js (out n) 0)) 3.
Proof.
  destruct C47_ex as (t0 & h & EI & SN & _ & CO & _). pose proof EI as E. injection E as E _.
  assert (C : forall x y : R, (if Rlt_bool 0 4 then x else y) = x) by (intros; rewrite Rlt_bool_true; [reflexivity|lra]).
  assert (RD : bt_red t0 = 2) by (subst t0; reflexivity).
  assert (LC : bt_lcombo t0 = 1) by (subst t0; reflexivity).
  assert (TA : 0 < bt_tau t0). { subst t0. cbn. rewrite C. apply sqrt_lt_R0. lra. }
  assert (NR : ~ rigid t0) by (unfold rigid; lra).
  destruct (simulation_exists true 0 0 t0 (set_a_effort 8 (new_actuator 0)) (set_js_joint (Some (mkUjoint "j" JREVOLUTE None None None)) (set_position 3 (set_reference_position 0 (new_jointstate 0))))
    0 1000000 0 1000000 (mkEnv true 0) ltac:(discriminate)) as (t & t1 & t2 & m & mf & m' & mp & ts & ret & ms & out & T0 & SIM & SEEN & UP & SF & SP).
  cbn [position reference_position velocity a_effort set_a_effort set_js_joint set_position set_reference_position new_jointstate] in SEEN, UP.
  exists t0, h, t, t1, t2, (fun _ => mkEnv true 0), m, mf, m', mp, ts, ret, ms, out.
  assert (MONO : forall n, (se_stamp (cycle_seen 0 0 m mf m' mp n) <= se_stamp (cycle_seen 0 0 m mf m' mp (S n)))%Z).
  { intros n. destruct (SEEN n) as (_ & _ & _ & ->). destruct (SEEN (S n)) as (_ & _ & _ & ->). lia. }
  assert (B0 : bt_bts (t 0%nat) = 0%Z) by (rewrite T0; subst t0; reflexivity).
  assert (S0 : a_sample_timestamp (m_act (m 0%nat) 0) = 0%Z) by (destruct (SEEN 0%nat) as (_ & _ & _ & Y); exact Y).
  assert (SEEN' : forall n, se_jpos (cycle_seen 0 0 m mf m' mp n) = 3 /\ se_jvel (cycle_seen 0 0 m mf m' mp n) = 0 /\
     se_command (cycle_seen 0 0 m mf m' mp n) = 8 /\ se_stamp (cycle_seen 0 0 m mf m' mp n) = (0 + Z.of_nat n * 1000000)%Z).
  { intros n. destruct (SEEN n) as (-> & -> & -> & ->). repeat split. lra. }
  split; [exact EI|]. split; [exact T0|]. split; [exact SIM|]. split; [exact NR|]. split; [exact TA|]. split; [lra|]. split; [exact MONO|].
  split; [exact UP|].
  rewrite <- T0 in NR, TA, RD, CO, SP. 
  split.
  - destruct (C84_simulated_belt_settles true 0 0 t t1 t2 _ m mf m' mp SIM NR TA ltac:(lra) ltac:(lia) MONO 3 8 0 1000000 ltac:(lia) SEEN') as (Y & _).
    eapply geo_eq; [|exact Y]. cbn [spring_of sp_red sp_compl]. rewrite RD, CO. field.
  - destruct SF as (_ & A1 & A2 & A3 & A4 & A5 & _).
    destruct (C84_estimate_recovers_joint true 0 0 t t1 t2 _ m mf m' mp SIM NR TA ltac:(lra) ltac:(lia) MONO 3 8 0 0 1000000 0 1000000 ts ret ms out ltac:(lia) ltac:(lia) SEEN' UP SP) as (Y & _).
    + unfold sane in *. rewrite A3, A4, A5. exact SN.
    + rewrite A5, LC. lra.
    + eapply geo_eq; [|exact Y]. lra.
Qed.
