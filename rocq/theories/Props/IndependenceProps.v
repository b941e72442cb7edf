(** C72: the transmissions of a robot do not interfere.  C73: whole-robot round trips. *)
From Coq Require Import List String Arith Bool ZArith Lia Reals Lra.
From Verif.Model Require Import Base Num Joint Hardware Xml Transmission Simple Wrist Belt Gripper Robot Builtin.
From Verif.Spec Require Import LocalSpec RobotSpec.
From Verif.Proofs Require Import Locality OverLocal RobotProofs SystemProofs.
From Verif.Props Require Import RobotProps.
Import ListNotations.

Section C72.
Context {T : Type} {N : Num T} {G : Trig T}.
Variables (dbg : bool) (P : parsers T).
Notation K := (builtin dbg P).
Variables (g : T) (r : robot (transmission T) T) (hw : hwif) (m0 m1 : mem T) (s : rstate).
Hypothesis HW : rb_hw r = Some hw.
Hypothesis NS : new_robotstate K dbg g r m0 = Ok (s, m1).

Lemma outs_apart : apart (rs_out s).
Proof.
  destruct (C40_wiring K dbg g r hw m0 s m1 HW NS) as (_ & _ & _ & _ & _ & _ & _ & A & _).
  intros i j l l' p X Y I J. apply In_nth_error in I, J. destruct I as [a I], J as [b J]. destruct (A i a j b p) as [X' _]; [exists l; auto|exists l'; auto|exact X'].
Qed.
Lemma outs_all q : rs_size s <= q -> forall o, In o (rs_out s) -> ~ In q o.
Proof.
  intros LE o I J. destruct (C40_wiring K dbg g r hw m0 s m1 HW NS) as (_ & _ & _ & _ & B & C & _ & A & _).
  apply In_nth_error in I, J. destruct I as [a I], J as [b J]. assert (PA : pointer_at (rs_out s) a b q) by (exists o; auto).
  destruct (C a b q PA) as (n & D). destruct (B a b n D) as (p & (o' & X & Y) & L & _). rewrite I in X. injection X as <-. rewrite J in Y. injection Y as <-. lia.
Qed.
Lemma outs_in i o q : nth_error (rs_out s) i = Some o -> In q o -> q < rs_size s.
Proof. intros X I. destruct (le_lt_dec (rs_size s) q) as [LE|]; auto. destruct (outs_all q LE o (nth_error_In _ _ X) I). Qed.
Lemma exclusive_alone i : exclusive (rs_in s) i -> alone (rs_in s) i.
Proof. intros E j l l' p X Y I J. apply In_nth_error in I, J. destruct I as [a I], J as [b J]. eapply (E j a b p); eauto. Qed.

(** *** Reading the actuators *)
(** The call changes no actuator, no joint's description and no command; and what it leaves in the joints of a transmission
    is exactly what that transmission alone computes from the state before the call, followed by the statistics update. *)
Theorem C72_position_one_by_one : forall ts m ts' m', propagateActuatorPositionToJointPosition K s ts m = Ok (ts', m') ->
  (forall p, m_act m' p = m_act m p) /\ (forall q, rs_size s <= q -> m_js m' q = m_js m q) /\
  (forall q, js_joint (m_js m' q) = js_joint (m_js m q) /\ commanded_effort (m_js m' q) = commanded_effort (m_js m q)) /\
  (forall i t as_ js, nth_error ts i = Some t -> nth_error (rs_in s) i = Some as_ -> nth_error (rs_out s) i = Some js ->
     exists t1 mt, tr_position K t as_ js m = Ok (t1, mt) /\ nth_error ts' i = Some t1 /\
       forall q, In q js -> takes_sample (m_js mt q) (m_js m' q)).
Proof.
  intros ts m ts' m' E. unfold propagateActuatorPositionToJointPosition in E.
  destruct (over_transmissions _ ts (rs_in s) (rs_out s) m) as [[ts1 ma]| | |] eqn:O; cbn [bind] in E; try discriminate.
  destruct (over_joints update_statistics (seq 0 (rs_size s)) ma) as [mb| | |] eqn:U; cbn [bind] in E; try discriminate. injection E as <- <-.
  destruct (over_joints_local _ same_input equiv_input (fun t i o => position_local dbg P t i o) _ _ _ _ _ _ outs_apart O) as (A & B & C & D).
  destruct (over_joints_spec _ _ _ _ (seq_NoDup _ _) U) as (A2 & B2 & C2).
  assert (OUT : forall q, rs_size s <= q -> m_js mb q = m_js ma q) by (intros q LE; apply C2; intros I; apply in_seq in I; lia).
  split; [intros p; rewrite A2; apply A|]. split; [intros q LE; rewrite (OUT q LE); apply C; apply outs_all; exact LE|]. split.
  { intros q. destruct (B q) as (J1 & J2 & _). rewrite <- J1, <- J2. destruct (le_lt_dec (rs_size s) q) as [LE|LT]; [rewrite (OUT q LE); auto|].
    assert (X := B2 q ltac:(apply in_seq; lia)). unfold update_statistics in X. destruct (stats_update _ _) as [st| | |]; cbn [bind] in X; try discriminate.
    injection X as <-. auto. }
  intros i t as_ js X Y Z. destruct (D i t as_ js X Y Z) as (t1 & mt & F & N1 & Q). exists t1, mt. split; [exact F|]. split; [exact N1|].
  intros q I. rewrite <- (Q q I). assert (L := outs_in _ _ _ Z I). specialize (B2 q ltac:(apply in_seq; lia)). unfold update_statistics in B2.
  destruct (stats_update _ _) as [st| | |] eqn:SU; cbn [bind] in B2; try discriminate. injection B2 as <-. exists st. split; [exact SU|reflexivity].
Qed.

(** Two robots that agree on one transmission, its actuators and its joints read the same there, whatever the other
    transmissions, actuators and joints are. *)
Theorem C72_position_independent : forall ts ts2 m m2 ts' ts2' m' m2' i t as_ js,
  propagateActuatorPositionToJointPosition K s ts m = Ok (ts', m') -> propagateActuatorPositionToJointPosition K s ts2 m2 = Ok (ts2', m2') ->
  nth_error ts i = Some t -> nth_error ts2 i = Some t -> nth_error (rs_in s) i = Some as_ -> nth_error (rs_out s) i = Some js ->
  agree as_ js m m2 -> nth_error ts' i = nth_error ts2' i /\ forall q, In q js -> m_js m' q = m_js m2' q.
Proof.
  intros ts ts2 m m2 ts' ts2' m' m2' i t as_ js E E2 X X2 Y Z AG.
  destruct (C72_position_one_by_one _ _ _ _ E) as (_ & _ & _ & D). destruct (D _ _ _ _ X Y Z) as (t1 & ma & F & N1 & Q).
  destruct (C72_position_one_by_one _ _ _ _ E2) as (_ & _ & _ & D2). destruct (D2 _ _ _ _ X2 Y Z) as (t2 & mb & F2 & N2 & Q2).
  destruct (position_local dbg P t as_ js m) as [L _]. destruct (L _ _ F) as [_ L2]. destruct (L2 m2 AG) as (mc & F3 & [_ AG2]).
  rewrite F2 in F3. injection F3 as -> ->. split; [congruence|]. intros q I. specialize (Q q I). specialize (Q2 q I). rewrite (AG2 q I) in Q2. destruct Q as (u & U1 & ->), Q2 as (v & V1 & ->). congruence.
Qed.

(** *** Commanding the actuators *)
Theorem C72_effort_one_by_one : forall ts m ts' m', propagateJointEffortToActuatorEffort K s ts m = Ok (ts', m') ->
  (forall q, m_js m' q = m_js m q) /\ (forall p, all_but_command (m_act m' p) (m_act m p)) /\
  (forall p, (forall i k, ~ pointer_at (rs_in s) i k p) -> m_act m' p = m_act m p) /\
  (forall i t as_ js, nth_error ts i = Some t -> nth_error (rs_in s) i = Some as_ -> nth_error (rs_out s) i = Some js ->
     exclusive (rs_in s) i ->
     exists t1 mt, tr_effort K t js as_ m = Ok (t1, mt) /\ nth_error ts' i = Some t1 /\ forall p, In p as_ -> m_act m' p = m_act mt p).
Proof.
  intros ts m ts' m' E. unfold propagateJointEffortToActuatorEffort in E.
  destruct (over_actuators_local _ all_but_command equiv_cmd (fun t i o => effort_local dbg P t i o) _ _ _ _ _ _ E) as (A & B & C & D).
  split; [exact A|]. split; [exact B|]. split.
  - intros p NP. apply C. intros k i _ X I. apply In_nth_error in I. destruct I as [j I]. apply (NP k j). exists i. auto.
  - intros i t as_ js X Y Z EX. exact (D i t as_ js X Y Z (exclusive_alone i EX)).
Qed.
Theorem C72_effort_independent : forall ts ts2 m m2 ts' ts2' m' m2' i t as_ js,
  propagateJointEffortToActuatorEffort K s ts m = Ok (ts', m') -> propagateJointEffortToActuatorEffort K s ts2 m2 = Ok (ts2', m2') ->
  nth_error ts i = Some t -> nth_error ts2 i = Some t -> nth_error (rs_in s) i = Some as_ -> nth_error (rs_out s) i = Some js ->
  exclusive (rs_in s) i -> agree as_ js m m2 -> nth_error ts' i = nth_error ts2' i /\ forall p, In p as_ -> m_act m' p = m_act m2' p.
Proof.
  intros ts ts2 m m2 ts' ts2' m' m2' i t as_ js E E2 X X2 Y Z EX AG.
  destruct (C72_effort_one_by_one _ _ _ _ E) as (_ & _ & _ & D). destruct (D _ _ _ _ X Y Z EX) as (t1 & ma & F & N1 & Q).
  destruct (C72_effort_one_by_one _ _ _ _ E2) as (_ & _ & _ & D2). destruct (D2 _ _ _ _ X2 Y Z EX) as (t2 & mb & F2 & N2 & Q2).
  destruct (effort_local dbg P t as_ js m) as [L _]. destruct (L _ _ F) as [_ L2]. destruct (L2 m2 AG) as (mc & F3 & [AG2 _]).
  rewrite F2 in F3. injection F3 as -> ->. split; [congruence|]. intros p I. rewrite (Q p I), (Q2 p I). symmetry. apply AG2. exact I.
Qed.

(** *** The simulator's two calls *)
Theorem C72_simulated_position_one_by_one : forall e ts m ts' m', propagateJointPositionToActuatorPosition K e s ts m = Ok (ts', m') ->
  (forall q, m_js m' q = m_js m q) /\ (forall p, same_command (m_act m' p) (m_act m p)) /\
  (forall p, (forall i k, ~ pointer_at (rs_in s) i k p) -> m_act m' p = m_act m p) /\
  (forall i t as_ js, nth_error ts i = Some t -> nth_error (rs_in s) i = Some as_ -> nth_error (rs_out s) i = Some js ->
     exclusive (rs_in s) i ->
     exists t1 mt, tr_positionBackwards K e t js as_ m = Ok (t1, mt) /\ nth_error ts' i = Some t1 /\ forall p, In p as_ -> m_act m' p = m_act mt p).
Proof.
  intros e ts m ts' m' E. unfold propagateJointPositionToActuatorPosition in E.
  destruct (over_actuators_local _ same_command equiv_command (fun t i o => positionBack_local dbg P e t i o) _ _ _ _ _ _ E) as (A & B & C & D).
  split; [exact A|]. split; [exact B|]. split.
  - intros p NP. apply C. intros k i _ X I. apply In_nth_error in I. destruct I as [j I]. apply (NP k j). exists i. auto.
  - intros i t as_ js X Y Z EX. exact (D i t as_ js X Y Z (exclusive_alone i EX)).
Qed.
Theorem C72_simulated_effort_one_by_one : forall ts m ts' m', propagateActuatorEffortToJointEffort K s ts m = Ok (ts', m') ->
  (forall p, m_act m' p = m_act m p) /\ (forall q, rs_size s <= q -> m_js m' q = m_js m q) /\
  (forall q, all_but_effort (m_js m' q) (m_js m q)) /\
  (forall i t as_ js, nth_error ts i = Some t -> nth_error (rs_in s) i = Some as_ -> nth_error (rs_out s) i = Some js ->
     exists t1 mt, tr_effortBackwards K t as_ js m = Ok (t1, mt) /\ nth_error ts' i = Some t1 /\ forall q, In q js -> m_js m' q = m_js mt q).
Proof.
  intros ts m ts' m' E. unfold propagateActuatorEffortToJointEffort in E.
  destruct (over_joints_local _ all_but_effort equiv_effort (fun t i o => effortBack_local dbg P t i o) _ _ _ _ _ _ outs_apart E) as (A & B & C & D).
  split; [exact A|]. split; [intros q LE; apply C; apply outs_all; exact LE|]. split; [exact B|exact D].
Qed.

(** A transmission whose actuator names no other transmission uses has its actuators for itself, if the hardware interface
    does not register one actuator under two names. *)
Theorem C72_distinct_names_exclusive : forall i,
  (forall n n' a, getActuator hw n = Some a -> getActuator hw n' = Some a -> n = n') ->
  (forall j k k' n, declares_actuator K r i k n -> declares_actuator K r j k' n -> j = i) -> exclusive (rs_in s) i.
Proof.
  intros i INJ D j k k' a X Y. destruct (C40_wiring K dbg g r hw m0 s m1 HW NS) as (_ & _ & W1 & W2 & _).
  destruct (W2 i k a X) as (n & DN). destruct (W2 j k' a Y) as (n' & DN'). destruct (W1 _ _ _ DN) as (b & (ps & B1 & B2) & GB). destruct (W1 _ _ _ DN') as (b' & (ps' & B1' & B2') & GB').
  destruct X as (qs & X1 & X2). rewrite B1 in X1. injection X1 as ->. rewrite B2 in X2. injection X2 as ->.
  destruct Y as (qs' & Y1 & Y2). rewrite B1' in Y1. injection Y1 as ->. rewrite B2' in Y2. injection Y2 as ->.
  assert (n = n') by (eapply INJ; eauto). subst n'. eapply D; eauto.
Qed.
End C72.

(** ** Examples *)
Local Open Scope string_scope.
Local Open Scope list_scope.
(** the two transmissions of the robot of C41_ex have their actuators for themselves *)
Theorem C72_ex_exclusive : forall i, exclusive [[0]; [1]] i.
Proof.
  intros i j k k' a (ps & X & Y) (ps' & X' & Y').
  destruct i as [|[|i]]; cbn in X; [injection X as <-|injection X as <-|destruct i; discriminate];
  (destruct j as [|[|j]]; cbn in X'; [injection X' as <-|injection X' as <-|destruct j; discriminate]); auto; exfalso;
  apply nth_error_In in Y, Y'; cbn in Y, Y'; lia.
Qed.
Definition ex_run (m : mem R) : mem R :=
  match propagateActuatorPositionToJointPosition (builtin true ex_P) (mkRstate 2 [[0]; [1]] [[0]; [1]] [("j1", 1); ("j0", 0)]) (rb_transmissions ex_robot) m with
  | Ok (_, m') => m' | _ => m end.
Theorem C72_ex_position : exists m1, new_robotstate (builtin true ex_P) true 0%R ex_robot ex_mem0 = Ok (mkRstate 2 [[0]; [1]] [[0]; [1]] [("j1", 1); ("j0", 0)], m1) /\
  position (m_js (ex_run (act_upd 1 (set_a_position 4%R) (act_upd 0 (set_a_position 6%R) m1))) 0) = (6 / 2 + 0)%R /\
  position (m_js (ex_run (act_upd 1 (set_a_position 9%R) (act_upd 0 (set_a_position 6%R) m1))) 0) = (6 / 2 + 0)%R /\
  position (m_js (ex_run (act_upd 1 (set_a_position 9%R) (act_upd 0 (set_a_position 6%R) m1))) 1) = (9 / 2 + 0)%R.
Proof. eexists. split; [reflexivity|]. repeat split. Qed.
(** Exclusiveness is needed for the commands: two transmissions naming the same actuator are both accepted, and the last one
    silently decides what the motor does. *)
Definition ex_shared : robot (transmission R) R :=
  mkRobot (Some ex_hw) (fun n => if existsb (String.eqb n) ["j0"; "j1"; "j2"] then Some (ex_uj n) else None) [ex_st "j0" "m0"; ex_st "j1" "m0"].
Definition ex_shared_state : rstate := mkRstate 2 [[0]; [0]] [[0]; [1]] [("j1", 1); ("j0", 0)].
Theorem C72_shared_actuator :
  (exists h', robot_initXml (builtin true ex_P) ex_L ex_urdf (Elem "robot" [] None [ex_simple_el "j0" "m0" []; ex_simple_el "j1" "m0" []]) ex_h0 (new_robot (Some ex_hw)) = Ok (true, ex_shared, h')) /\
  (exists m', new_robotstate (builtin true ex_P) true 0%R ex_shared ex_mem0 = Ok (ex_shared_state, m')) /\
  forall m, exists ts' m', propagateJointEffortToActuatorEffort (builtin true ex_P) ex_shared_state (rb_transmissions ex_shared) m = Ok (ts', m') /\
    a_effort (m_act m' 0) = (commanded_effort (m_js m 1) / 2)%R.
Proof. split; [eexists; reflexivity|]. split; [eexists; reflexivity|]. intros m. eexists _, _. split; reflexivity. Qed.
