(** C73: for a whole robot, joints to actuators to joints (and back) is the identity on every invertible transmission. *)
From Coq Require Import List String Arith Bool ZArith Lia Reals Lra.
From Flocq Require Raux.
From Verif.Model Require Import Base Num Joint Hardware Xml Transmission Simple Wrist Belt Gripper Robot Builtin.
From Verif.Spec Require Import TransmissionSpec LocalSpec RobotSpec RoundTripSpec.
From Verif.Proofs Require Import TransmissionProofs Locality OverLocal RobotProofs SystemProofs CycleTotal.
From Verif.Props Require Import SimpleProps WristProps RobotProps IndependenceProps.
Import ListNotations.

(** ** Two calls in a row, seen by one transmission *)
Section Lift.
Context {T : Type} {N : Num T} {G : Trig T}.
Variables (dbg : bool) (P : parsers T).
Notation K := (builtin dbg P).
Variables (g : T) (r : robot (transmission T) T) (hw : hwif) (m0 m1 : mem T) (s : rstate).
Hypothesis HW : rb_hw r = Some hw.
Hypothesis NS : new_robotstate K dbg g r m0 = Ok (s, m1).

Lemma lift_back_forward e ts m ta ma tb mb i t as_ js :
  propagateJointPositionToActuatorPosition K e s ts m = Ok (ta, ma) -> propagateActuatorPositionToJointPosition K s ta ma = Ok (tb, mb) ->
  nth_error ts i = Some t -> nth_error (rs_in s) i = Some as_ -> nth_error (rs_out s) i = Some js -> exclusive (rs_in s) i ->
  exists t1 mt t2 mt2, tr_positionBackwards K e t js as_ m = Ok (t1, mt) /\ tr_position K t1 as_ js mt = Ok (t2, mt2) /\
    forall q, In q js -> takes_sample (m_js mt2 q) (m_js mb q).
Proof.
  intros E1 E2 X Y Z EX.
  destruct (C72_simulated_position_one_by_one dbg P s e _ _ _ _ E1) as (J1 & _ & _ & D). destruct (D i t as_ js X Y Z EX) as (t1 & mt & F1 & N1 & A1).
  destruct (C72_position_one_by_one dbg P g r hw m0 m1 s HW NS _ _ _ _ E2) as (_ & _ & _ & D2). destruct (D2 i t1 as_ js N1 Y Z) as (t2 & mu & F2 & N2 & A2).
  destruct (position_local dbg P t1 as_ js ma) as [L _]. destruct (L _ _ F2) as [_ L2].
  destruct (L2 mt) as (mv & F3 & [_ AG]).
  { split; [intros p I; symmetry; apply A1; exact I|]. intros q _. rewrite J1.
    destruct (positionBack_local dbg P e t as_ js m) as [LB _]. destruct (LB _ _ F1) as [(LB1 & _) _]. apply LB1. }
  exists t1, mt, t2, mv. split; [exact F1|]. split; [exact F3|]. intros q I. rewrite (AG q I). apply A2. exact I.
Qed.

Lemma lift_forward_back e ts m ta ma tb mb i t as_ js :
  propagateActuatorPositionToJointPosition K s ts m = Ok (ta, ma) -> propagateJointPositionToActuatorPosition K e s ta ma = Ok (tb, mb) ->
  nth_error ts i = Some t -> nth_error (rs_in s) i = Some as_ -> nth_error (rs_out s) i = Some js -> exclusive (rs_in s) i ->
  exists t1 mt mu t2 mt2, tr_position K t as_ js m = Ok (t1, mt) /\ (forall p, m_act mu p = m_act mt p) /\
    (forall q, In q js -> takes_sample (m_js mt q) (m_js mu q)) /\ (forall q, ~ In q js -> m_js mu q = m_js mt q) /\
    tr_positionBackwards K e t1 js as_ mu = Ok (t2, mt2) /\ forall p, In p as_ -> m_act mb p = m_act mt2 p.
Proof.
  intros E1 E2 X Y Z EX.
  destruct (C72_position_one_by_one dbg P g r hw m0 m1 s HW NS _ _ _ _ E1) as (A0 & _ & _ & D). destruct (D i t as_ js X Y Z) as (t1 & mt & F1 & N1 & A1).
  destruct (C72_simulated_position_one_by_one dbg P s e _ _ _ _ E2) as (_ & _ & _ & D2). destruct (D2 i t1 as_ js N1 Y Z EX) as (t2 & mv & F2 & N2 & A2).
  set (mu := mkMem (m_act mt) (fun q => if existsb (Nat.eqb q) js then m_js ma q else m_js mt q)).
  assert (IN : forall q, In q js -> existsb (Nat.eqb q) js = true) by (intros q I; apply existsb_exists; exists q; split; [exact I|apply Nat.eqb_refl]).
  destruct (positionBack_local dbg P e t1 as_ js ma) as [L _]. destruct (L _ _ F2) as [_ L2].
  destruct (L2 mu) as (mw & F3 & [AG _]).
  { split.
    - intros p I. cbn [mu m_act]. rewrite A0. destruct (position_local dbg P t as_ js m) as [LB _]. destruct (LB _ _ F1) as [(LB1 & _) _]. apply LB1.
    - intros q I. cbn [mu m_js]. rewrite (IN q I). reflexivity. }
  exists t1, mt, mu, t2, mw. split; [exact F1|]. split; [reflexivity|]. split; [intros q I; cbn [mu m_js]; rewrite (IN q I); apply A1; exact I|]. split.
  - intros q I. cbn [mu m_js]. destruct (existsb (Nat.eqb q) js) eqn:EB; auto. apply existsb_exists in EB. destruct EB as (x & IX & EQ). apply Nat.eqb_eq in EQ. subst. contradiction.
  - split; [exact F3|]. intros p I. rewrite (AG p I). apply A2. exact I.
Qed.

Lemma lift_effort ts m ta ma tb mb i t as_ js :
  propagateJointEffortToActuatorEffort K s ts m = Ok (ta, ma) -> propagateActuatorEffortToJointEffort K s ta ma = Ok (tb, mb) ->
  nth_error ts i = Some t -> nth_error (rs_in s) i = Some as_ -> nth_error (rs_out s) i = Some js -> exclusive (rs_in s) i ->
  exists t1 mt t2 mt2, tr_effort K t js as_ m = Ok (t1, mt) /\ tr_effortBackwards K t1 as_ js mt = Ok (t2, mt2) /\
    forall q, In q js -> m_js mb q = m_js mt2 q.
Proof.
  intros E1 E2 X Y Z EX.
  destruct (C72_effort_one_by_one dbg P s _ _ _ _ E1) as (J1 & _ & _ & D). destruct (D i t as_ js X Y Z EX) as (t1 & mt & F1 & N1 & A1).
  destruct (C72_simulated_effort_one_by_one dbg P g r hw m0 m1 s HW NS _ _ _ _ E2) as (_ & _ & _ & D2). destruct (D2 i t1 as_ js N1 Y Z) as (t2 & mu & F2 & N2 & A2).
  destruct (effortBack_local dbg P t1 as_ js ma) as [L _]. destruct (L _ _ F2) as [_ L2].
  destruct (L2 mt) as (mv & F3 & [_ AG]).
  { split; [intros p I; symmetry; apply A1; exact I|]. intros q _. rewrite J1.
    destruct (effort_local dbg P t as_ js m) as [LB _]. destruct (LB _ _ F1) as [(LB1 & _) _]. apply LB1. }
  exists t1, mt, t2, mv. split; [exact F1|]. split; [exact F3|]. intros q I. rewrite (AG q I). apply A2. exact I.
Qed.
End Lift.

(** ** Whole robots, over the real numbers *)
Section C73.
Variables (dbg : bool) (P : parsers R) (L : loader (transmission R)).
Hypothesis HL : forall c t, ld_create L c = Some t -> is_new t.
Notation K := (builtin dbg P).
(** a robot that was loaded from a description, and then ran for any time under any calls *)
Variables (urdf : xml -> option (string -> option (ujoint R))) (root : xml) (h h' : nat -> actuator R) (hw : hwif) (r : robot (transmission R) R)
  (g : R) (m0 m1 : mem R) (s : rstate) (ops : list (robot_op R)) (ts : list (transmission R)) (m : mem R).
Hypothesis LOADED : robot_initXml K L urdf root h (new_robot (Some hw)) = Ok (true, r, h').
Hypothesis SIM : forall e, In e (ChildElements root "transmission") -> simulatable P L e.
Hypothesis NS : new_robotstate K dbg g r m0 = Ok (s, m1).
Hypothesis FAIR : Forall fair_op ops.
Hypothesis RUN : run_ops K s ops (rb_transmissions r) m1 = Ok (ts, m).

Lemma invertible_same t t' : same_parameters t t' -> invertible t -> invertible t'.
Proof.
  destruct t as [x|x|x|x], t' as [y|y|y|y]; cbn; try contradiction; intros S I; auto.
  - destruct S as (_ & _ & _ & <- & _). exact I.
  - destruct S as (_ & _ & _ & <- & <- & _). exact I.
Qed.
Lemma driven_same t t' k : same_parameters t t' -> driven t k -> driven t' k.
Proof. destruct t, t'; cbn; try contradiction; auto. Qed.
Lemma direct_same t t' : same_parameters t t' -> direct t -> direct t'.
Proof. destruct t, t'; cbn; try contradiction; auto. intros S I; intuition congruence. Qed.

Lemma running_facts : rb_hw r = Some hw /\ all_fit true dbg P ts (rs_in s) (rs_out s) /\ Forall2 same_parameters (rb_transmissions r) ts /\
  forall i js q, nth_error (rs_out s) i = Some js -> In q js -> js_joint (m_js m q) <> None.
Proof.
  destruct (loaded_fit dbg P L HL true _ _ _ _ _ _ _ _ _ _ LOADED (fun e I => proj1 (SIM e I)) (fun _ => SIM) NS) as (FIT & JN & HW & OUT).
  destruct (run_ops_fine dbg P true s ops _ m1 FIT OUT JN FAIR) as (ts1 & m2 & R1 & FIT1 & PA & SJ).
  { clear. induction ops; constructor; auto. }
  rewrite RUN in R1. injection R1 as <- <-. split; [exact HW|]. split; [exact FIT1|]. split; [exact PA|].
  intros i js q X I. rewrite SJ. apply JN. apply in_seq. specialize (OUT js q (nth_error_In _ _ X) I). lia.
Qed.

Lemma shape i t0 : nth_error (rb_transmissions r) i = Some t0 -> exists t as_ js,
  nth_error ts i = Some t /\ nth_error (rs_in s) i = Some as_ /\ nth_error (rs_out s) i = Some js /\ same_parameters t0 t /\
  ready true t /\ fits dbg P t as_ js /\ NoDup js.
Proof.
  intros X. destruct running_facts as (HW & (RD & FI & FO) & PA & _).
  destruct (C40_wiring K dbg g r hw m0 s m1 HW NS) as (_ & _ & _ & _ & _ & _ & _ & U & _).
  assert (exists t, nth_error ts i = Some t /\ same_parameters t0 t) as (t & NT & SP).
  { clear - PA X. revert i X. induction PA as [|x y a b Q PA IH]; intros [|i] X; try discriminate; cbn in *; [injection X as ->; eauto|eauto]. }
  assert (exists as_, nth_error (rs_in s) i = Some as_ /\ List.length as_ = List.length (tr_actuators K t)) as (as_ & NA & LA).
  { clear - FI NT. revert i NT. induction FI as [|x y a b Q FI IH]; intros [|i] X; try discriminate; cbn in *; [injection X as ->; eauto|eauto]. }
  assert (exists js, nth_error (rs_out s) i = Some js /\ List.length js = List.length (tr_joints K t)) as (js & NJ & LJ).
  { clear - FO NT. revert i NT. induction FO as [|x y a b Q FO IH]; intros [|i] X; try discriminate; cbn in *; [injection X as ->; eauto|eauto]. }
  exists t, as_, js. repeat (split; [assumption|]). split; [apply (proj1 (Forall_forall _ _) RD); eapply nth_error_In; eauto|]. split; [split; assumption|].
  apply NoDup_nth_error. intros a b LT EQ. destruct (nth_error js a) as [q|] eqn:NQ; [|apply nth_error_None in NQ; lia].
  destruct (U i a i b q) as [_ E]; [exists js; auto|exists js; auto|exact E].
Qed.

(** what [shape] means for the two invertible classes *)
Lemma shape_cases t as_ js : ready true t -> fits dbg P t as_ js -> NoDup js -> NoDup as_ -> invertible t ->
  (exists x a q, t = TSimple x /\ as_ = [a] /\ simple_vectors x a js q /\ nth_error js 0 = Some q /\ st_red x <> 0%R /\ (direct t -> js = [q])) \/
  (exists x p0 p1 q0 q1 ar0 ar1 jr0 jr1, t = TWrist x /\ as_ = [p0; p1] /\ js = [q0; q1] /\ wrist_ok x p0 p1 q0 q1 ar0 ar1 jr0 jr1).
Proof.
  intros RD [FA FJ] NJ NA INV. destruct t as [x|x|x|x]; cbn [invertible] in INV; try contradiction; cbn [ready builtin tr_actuators tr_joints] in RD, FA, FJ.
  - left. destruct RD as [R1 R2]. rewrite R1 in FA. rewrite R2 in FJ. destruct (len1 _ FA) as [a ->].
    destruct (st_use_sim x) eqn:U.
    + destruct (len2 _ FJ) as (q & k & ->). exists x, a, q. repeat (split; [reflexivity|]). split; [right; exists k; split; [exact U|split; [reflexivity|]]|].
      * apply NoDup_cons_iff in NJ. destruct NJ as [NI _]. cbn in NI. intros ->. apply NI. auto.
      * split; [reflexivity|]. split; [exact INV|]. cbn. congruence.
    + destruct (len1 _ FJ) as [q ->]. exists x, a, q. repeat (split; [reflexivity|]). split; [left; auto|]. split; [reflexivity|]. split; [exact INV|reflexivity].
  - right. destruct RD as (R1 & R2 & R3 & R4). rewrite R1 in FA. rewrite R2 in FJ.
    destruct (len2 _ FA) as (p0 & p1 & ->), (len2 _ FJ) as (q0 & q1 & ->), (len2 _ R3) as (a0 & a1 & EA), (len2 _ R4) as (j0 & j1 & EJ).
    exists x, p0, p1, q0, q1, a0, a1, j0, j1. repeat (split; [reflexivity|]). rewrite EA, EJ in INV. split; auto.
    + apply NoDup_cons_iff in NA. destruct NA as [NI _]. cbn in NI. intros ->. apply NI. auto.
    + apply NoDup_cons_iff in NJ. destruct NJ as [NI _]. cbn in NI. intros ->. apply NI. auto.
    + repeat split; apply INV; cbn; auto.
Qed.

Lemma update_statistics_same (x y : jointstate R) : takes_sample x y ->
  position y = position x /\ velocity y = velocity x /\ measured_effort y = measured_effort x /\ js_joint y = js_joint x /\
  commanded_effort y = commanded_effort x /\ calibrated y = calibrated x /\ reference_position y = reference_position x.
Proof. intros (st & _ & ->). repeat split. Qed.

(** Joints to actuators and back: every joint driven by an invertible transmission reads what it was, and keeps its
    description, command and calibration. *)
Theorem C73_joint_roundtrip : forall e tb mb i t k q,
  run_ops K s [OpPositionBack e; OpPosition] ts m = Ok (tb, mb) ->
  nth_error (rb_transmissions r) i = Some t -> invertible t -> own (rs_in s) i -> driven t k -> pointer_at (rs_out s) i k q ->
  same_motion_j (m_js mb q) (m_js m q) /\ js_joint (m_js mb q) = js_joint (m_js m q) /\ commanded_effort (m_js mb q) = commanded_effort (m_js m q) /\
  calibrated (m_js mb q) = calibrated (m_js m q) /\ reference_position (m_js mb q) = reference_position (m_js m q).
Proof.
  intros e tb mb i t0 k q E X INV [EX ND] DR PT. destruct (shape i t0 X) as (t & as_ & js & NT & NA & NJ & SP & RD & FT & NDJ).
  destruct running_facts as (HW & _ & _ & JN). specialize (fun q => JN i js q NJ).
  cbn [run_ops] in E. destruct (propagateJointPositionToActuatorPosition K e s ts m) as [[ta ma]| | |] eqn:E1; cbn [bind] in E; try discriminate.
  destruct (propagateActuatorPositionToJointPosition K s ta ma) as [[tb' mb']| | |] eqn:E2; cbn [bind] in E; try discriminate. injection E as -> ->.
  destruct (lift_back_forward dbg P g r hw m0 m1 s HW NS e _ _ _ _ _ _ i t as_ js E1 E2 NT NA NJ EX) as (t1 & mt & t2 & mt2 & F1 & F2 & Q).
  destruct PT as (js' & PJ & PK). rewrite NJ in PJ. injection PJ as <-. assert (IQ : In q js) by (eapply nth_error_In; eauto).
  specialize (Q q IQ). apply update_statistics_same in Q. destruct Q as (Q1 & Q2 & Q3 & Q4 & Q5 & Q6 & Q7).
  assert (GOAL : same_motion_j (m_js mt2 q) (m_js m q) /\ same_config_j (m_js mt2 q) (m_js m q)).
  { destruct (shape_cases t as_ js RD FT NDJ (ND _ NA) (invertible_same _ _ SP INV)) as
      [(x & a & q0 & -> & -> & V & N0 & NZ & _)|(x & p0 & p1 & q0 & q1 & ar0 & ar1 & jr0 & jr1 & -> & -> & -> & W)].
    - apply (driven_same _ _ _ SP) in DR. cbn in DR. subst k. rewrite N0 in PK. injection PK as <-.
      destruct (C42_joint_roundtrip dbg e x a js q0 m V NZ (JN q0 IQ)) as (x' & mx & my & B1 & B2 & B3 & B4).
      cbn [builtin tr_positionBackwards] in F1. rewrite B1 in F1. cbn [wrap bind] in F1. injection F1 as <- <-.
      cbn [builtin tr_position] in F2. rewrite B2 in F2. cbn [keep bind] in F2. injection F2 as <- <-. auto.
    - destruct (C43_joint_roundtrip dbg e x p0 p1 q0 q1 ar0 ar1 jr0 jr1 m W (JN q0 ltac:(left; reflexivity)) (JN q1 ltac:(right; left; reflexivity))) as (x' & mx & my & B1 & B2 & B3 & B4 & B5 & B6).
      cbn [builtin tr_positionBackwards] in F1. rewrite B1 in F1. cbn [wrap bind] in F1. injection F1 as <- <-.
      cbn [builtin tr_position] in F2. rewrite B2 in F2. cbn [keep bind] in F2. injection F2 as <- <-.
      destruct IQ as [<-|[<-|[]]]; auto. }
  destruct GOAL as [(M1 & M2 & M3) (C1 & _ & C2 & C3 & C4)]. unfold same_motion_j. rewrite Q1, Q2, Q3, Q4, Q5, Q6, Q7. auto 10.
Qed.

(** Actuators to joints and back: every actuator of an invertible transmission reads what it was. *)
Theorem C73_actuator_roundtrip : forall e tb mb i t k a,
  run_ops K s [OpPosition; OpPositionBack e] ts m = Ok (tb, mb) ->
  nth_error (rb_transmissions r) i = Some t -> invertible t -> own (rs_in s) i -> pointer_at (rs_in s) i k a ->
  same_motion_a (m_act mb a) (m_act m a) /\ same_command (m_act mb a) (m_act m a).
Proof.
  intros e tb mb i t0 k a E X INV [EX ND] PT. destruct (shape i t0 X) as (t & as_ & js & NT & NA & NJ & SP & RD & FT & NDJ).
  destruct running_facts as (HW & _ & _ & JN). specialize (fun q => JN i js q NJ).
  cbn [run_ops] in E. destruct (propagateActuatorPositionToJointPosition K s ts m) as [[ta ma]| | |] eqn:E1; cbn [bind] in E; try discriminate.
  destruct (propagateJointPositionToActuatorPosition K e s ta ma) as [[tb' mb']| | |] eqn:E2; cbn [bind] in E; try discriminate. injection E as -> ->.
  split.
  2: { destruct (C72_simulated_position_one_by_one dbg P s e _ _ _ _ E2) as (_ & SC & _). destruct (C72_position_one_by_one dbg P g r hw m0 m1 s HW NS _ _ _ _ E1) as (A0 & _). rewrite <- A0. apply SC. }
  destruct (lift_forward_back dbg P g r hw m0 m1 s HW NS e _ _ _ _ _ _ i t as_ js E1 E2 NT NA NJ EX) as (t1 & mt & mu & t2 & mt2 & F1 & MA & MU & MO & F2 & Q).
  destruct PT as (as' & PJ & PK). rewrite NA in PJ. injection PJ as <-. assert (IA : In a as_) by (eapply nth_error_In; eauto).
  rewrite (Q a IA).
  assert (US : forall q, In q js -> position (m_js mu q) = position (m_js mt q) /\ velocity (m_js mu q) = velocity (m_js mt q) /\ measured_effort (m_js mu q) = measured_effort (m_js mt q) /\
     js_joint (m_js mu q) = js_joint (m_js mt q) /\ reference_position (m_js mu q) = reference_position (m_js mt q)).
  { intros q I. destruct (update_statistics_same _ _ (MU q I)) as (Q1 & Q2 & Q3 & Q4 & _ & _ & Q7). auto. }
  destruct (shape_cases t as_ js RD FT NDJ (ND _ NA) (invertible_same _ _ SP INV)) as
      [(x & a0 & q0 & -> & -> & V & N0 & NZ & _)|(x & p0 & p1 & q0 & q1 & ar0 & ar1 & jr0 & jr1 & -> & -> & -> & W)].
  - assert (I0 : In q0 js) by (eapply nth_error_In; eauto). destruct IA as [<-|[]].
    destruct (simple_forward dbg x a0 js q0 m V) as (mx & B1 & B2 & P1 & P2 & P3 & C1 & _ & _ & _ & C5).
    cbn [builtin tr_position] in F1. rewrite B1 in F1. cbn [keep bind] in F1. injection F1 as <- <-. destruct (US q0 I0) as (U1 & U2 & U3 & U4 & U5).
    destruct (simple_backward dbg e x a0 js q0 mu V) as (x' & my & D1 & _ & S1 & S2 & S3 & _); [rewrite U4, <- C1; apply JN; exact I0|].
    cbn [builtin tr_positionBackwards] in F2. rewrite D1 in F2. cbn [wrap bind] in F2. injection F2 as <- <-.
    unfold same_motion_a. rewrite S1, S2, S3, U1, U2, U3, U5, P1, P2, P3, <- C5. repeat split; field; exact NZ.
  - destruct (wrist_forward dbg x p0 p1 q0 q1 ar0 ar1 jr0 jr1 m W) as (mx & B1 & B2 & (P1 & P2 & P3 & P4 & P5 & P6) & (C1 & _ & _ & _ & C2) & (C3 & _ & _ & _ & C4)).
    cbn [builtin tr_position] in F1. rewrite B1 in F1. cbn [keep bind] in F1. injection F1 as <- <-.
    destruct (US q0 ltac:(left; reflexivity)) as (U1 & U2 & U3 & U4 & U5). destruct (US q1 ltac:(right; left; reflexivity)) as (V1 & V2 & V3 & V4 & V5).
    destruct (wrist_backward dbg e x p0 p1 q0 q1 ar0 ar1 jr0 jr1 mu W) as (x' & my & D1 & _ & (S1 & S2 & S3 & S4 & S5 & S6) & _);
      [rewrite U4, <- C1; apply JN; left; reflexivity|rewrite V4, <- C3; apply JN; right; left; reflexivity|].
    cbn [builtin tr_positionBackwards] in F2. rewrite D1 in F2. cbn [wrap bind] in F2. injection F2 as <- <-.
    destruct W as [_ _ _ _ (N0 & N1 & N2 & N3)]. cbv zeta in *. unfold same_motion_a.
    destruct IA as [<-|[<-|[]]]; [rewrite S1, S2, S3|rewrite S4, S5, S6]; rewrite U1, U2, U3, U5, V1, V2, V3, V5, P1, P2, P3, P4, P5, P6, <- C2, <- C4; repeat split; field; auto.
Qed.

(** Commanded efforts to actuators and back: every joint of an invertible transmission gets its command back. *)
Theorem C73_command_roundtrip : forall tb mb i t k q,
  run_ops K s [OpEffort; OpEffortBack] ts m = Ok (tb, mb) ->
  nth_error (rb_transmissions r) i = Some t -> invertible t -> direct t -> own (rs_in s) i -> pointer_at (rs_out s) i k q ->
  m_js mb q = m_js m q.
Proof.
  intros tb mb i t0 k q E X INV DI [EX ND] PT. destruct (shape i t0 X) as (t & as_ & js & NT & NA & NJ & SP & RD & FT & NDJ).
  destruct running_facts as (HW & _ & _ & JN).
  cbn [run_ops] in E. destruct (propagateJointEffortToActuatorEffort K s ts m) as [[ta ma]| | |] eqn:E1; cbn [bind] in E; try discriminate.
  destruct (propagateActuatorEffortToJointEffort K s ta ma) as [[tb' mb']| | |] eqn:E2; cbn [bind] in E; try discriminate. injection E as -> ->.
  destruct (C72_effort_one_by_one dbg P s _ _ _ _ E1) as (J1 & _). destruct (C72_simulated_effort_one_by_one dbg P g r hw m0 m1 s HW NS _ _ _ _ E2) as (_ & _ & J2 & _).
  assert (AB : commanded_effort (m_js mb q) = commanded_effort (m_js m q) -> m_js mb q = m_js m q).
  { intros CE. specialize (J2 q). rewrite J1 in J2. specialize (J2 (commanded_effort (m_js m q))).
    assert (SELF : forall j : jointstate R, set_commanded_effort (commanded_effort j) j = j) by (intros []; reflexivity).
    rewrite SELF in J2. rewrite <- J2, <- CE. symmetry. apply SELF. }
  apply AB. clear AB.
  destruct (lift_effort dbg P g r hw m0 m1 s HW NS _ _ _ _ _ _ i t as_ js E1 E2 NT NA NJ EX) as (t1 & mt & t2 & mt2 & F1 & F2 & Q).
  destruct PT as (js' & PJ & PK). rewrite NJ in PJ. injection PJ as <-. assert (IQ : In q js) by (eapply nth_error_In; eauto).
  rewrite (Q q IQ).
  destruct (shape_cases t as_ js RD FT NDJ (ND _ NA) (invertible_same _ _ SP INV)) as
      [(x & a & q0 & -> & -> & V & N0 & NZ & DJ)|(x & p0 & p1 & q0 & q1 & ar0 & ar1 & jr0 & jr1 & -> & -> & -> & W)].
  - assert (D := direct_same _ _ SP DI). rewrite (DJ D) in *. cbn [direct] in D.
    destruct (C42_effort_roundtrip dbg x a q0 m D NZ) as (mx & my & B1 & B2 & _ & _ & _ & B3).
    cbn [builtin tr_effort] in F1. rewrite B1 in F1. cbn [keep bind] in F1. injection F1 as <- <-.
    cbn [builtin tr_effortBackwards] in F2. rewrite B2 in F2. cbn [keep bind] in F2. injection F2 as <- <-. destruct IQ as [<-|[]]. exact B3.
  - destruct (C43_effort_roundtrip dbg x p0 p1 q0 q1 ar0 ar1 jr0 jr1 m W) as (mx & my & B1 & B2 & _ & _ & _ & _ & _ & B3 & B4).
    cbn [builtin tr_effort] in F1. rewrite B1 in F1. cbn [keep bind] in F1. injection F1 as <- <-.
    cbn [builtin tr_effortBackwards] in F2. rewrite B2 in F2. cbn [keep bind] in F2. injection F2 as <- <-. destruct IQ as [<-|[<-|[]]]; auto.
Qed.
End C73.

(** ** Example: a robot with a simple transmission (and a simulated joint), a wrist and a gripper *)
Local Open Scope string_scope.
Local Open Scope list_scope.
Definition ex_pkg (ty : string) (name : string) (children : list xml) : xml :=
  Elem "transmission" [("type", "pr2_mechanism_model/" ++ ty); ("name", name)]%string None children.
Definition ex_one (tag name : string) : xml := Elem tag [("name", name); ("mechanicalReduction", "2")] None [].
Definition ex_full : xml := Elem "robot" [] None
  [ex_simple_el "j0" "m0" [ex_sim "j4"];
   ex_pkg "WristTransmission" "wrist" [ex_one "rightActuator" "m1"; ex_one "leftActuator" "m2"; ex_one "flexJoint" "j1"; ex_one "rollJoint" "j2"];
   ex_pkg "PR2GripperTransmission" "gripper"
     [Elem "actuator" [("name", "m3")] None [];
      Elem "gap_joint" [("name", "j3"); ("mechanical_reduction", "2"); ("screw_reduction", "2"); ("gear_ratio", "2"); ("theta0", "2"); ("phi0", "2");
                        ("t0", "2"); ("L0", "2"); ("h", "2"); ("a", "2"); ("b", "2"); ("r", "2")] None [];
      Elem "passive_joint" [("name", "j5")] None [];
      Elem "simulated_actuated_joint" [("name", "j6"); ("simulated_reduction", "2"); ("passive_actuated_joint", "j7")] None []]].
Definition ex_names : list string := ["j0"; "j1"; "j2"; "j3"; "j4"; "j5"; "j6"; "j7"].
Definition ex_full_urdf (_ : xml) : option (string -> option (ujoint R)) := Some (fun n => if existsb (String.eqb n) ex_names then Some (ex_uj n) else None).
Definition ex_full_hw : hwif := fold_left (fun h p => fst (addActuator (fst p) (snd p) h)) [("m0", 0); ("m1", 1); ("m2", 2); ("m3", 3)] new_hwif.
Definition ex_full_robot : robot (transmission R) R :=
  mkRobot (Some ex_full_hw) (fun n => if existsb (String.eqb n) ex_names then Some (ex_uj n) else None)
    [TSimple (mkSimple "j0_trans" ["m0"] ["j0"; "j4"] 2%R 2%R true false 0 ex_cal0);
     TWrist (mkWrist "wrist" ["m1"; "m2"] ["j1"; "j2"] [2%R; 2%R] [2%R; 2%R] 0%R 0%R false 0 ex_cal0 ex_cal0);
     TGripper (mkGripper "gripper" ["m3"] ["j3"; "j5"; "j6"; "j7"] "j3" 2%R 2%R false true ["j5"] 2%R 2%R 2%R 2%R 2%R 2%R 2%R 2%R 2%R 2%R false 0 ex_cal0)].
Theorem C73_ex_loaded : exists h', robot_initXml (builtin true ex_P) ex_L ex_full_urdf ex_full ex_h0 (new_robot (Some ex_full_hw)) = Ok (true, ex_full_robot, h').
Proof. eexists. reflexivity. Qed.
Definition ex_full_state : rstate := mkRstate 8 [[0]; [1; 2]; [3]] [[0; 1]; [2; 3]; [4; 5; 6; 7]]
  [("j7", 7); ("j6", 6); ("j5", 5); ("j3", 4); ("j2", 3); ("j1", 2); ("j4", 1); ("j0", 0)].
Theorem C73_ex_state : exists m', new_robotstate (builtin true ex_P) true 0%R ex_full_robot ex_mem0 = Ok (ex_full_state, m').
Proof. eexists. reflexivity. Qed.
Theorem C66_ex_simulatable : forall e, In e (ChildElements ex_full "transmission") -> simulatable ex_P ex_L e.
Proof.
  intros e I. cbn in I.
  assert (TY : forall ty c, declared_type e ty -> class_of ex_L ty c -> c = ty).
  { intros ty c D C.
    assert (AVT : ld_available ex_L ty = true).
    { clear C. destruct I as [<-|[<-|[<-|[]]]]; inversion D as [ty' A|x ty' A B]; cbn in A; try discriminate; subst ty'; injection A as <-; reflexivity. }
    destruct C as [AV|pre c0 post AV E1 E2 E3|AV X]; [reflexivity|congruence|congruence]. }
  split.
  - intros ty c t D C CR. rewrite (TY ty c D C) in CR. clear TY C.
    destruct I as [<-|[<-|[<-|[]]]]; inversion D as [ty' A|x ty' A B]; subst; cbn in A; try discriminate; injection A as <-; vm_compute in CR; injection CR as <-; vm_compute; auto.
  - intros ty c t j D C CR IJ. rewrite (TY ty c D C) in CR. clear TY C.
    destruct I as [<-|[<-|[<-|[]]]]; inversion D as [ty' A|x ty' A B]; subst; cbn in A; try discriminate; injection A as <-; try (vm_compute in CR; discriminate).
    cbn in IJ. destruct IJ as [<-|[]]. split; [discriminate|]. intros r x _ [= <-]. cbn. apply Raux.Rlt_bool_true. lra.
Qed.
Theorem C73_ex_own : forall i, own (rs_in ex_full_state) i.
Proof.
  intros i. split.
  - intros j k k' a (ps & X & Y) (ps' & X' & Y'). cbn [rs_in ex_full_state] in X, X'.
    destruct i as [|[|[|i]]]; cbn in X; [injection X as <-|injection X as <-|injection X as <-|destruct i; discriminate];
    (destruct j as [|[|[|j]]]; cbn in X'; [injection X' as <-|injection X' as <-|injection X' as <-|destruct j; discriminate]); auto; exfalso;
    apply nth_error_In in Y, Y'; cbn in Y, Y'; lia.
  - intros ps X. cbn [rs_in ex_full_state] in X.
    destruct i as [|[|[|i]]]; cbn in X; [injection X as <-|injection X as <-|injection X as <-|destruct i; discriminate]; repeat constructor; cbn; lia.
Qed.
Theorem C73_ex_invertible : forall i t, nth_error (rb_transmissions ex_full_robot) i = Some t -> i < 2 -> invertible t.
Proof.
  intros [|[|i]] t; cbn; [intros [= <-] _; cbn; lra|intros [= <-] _; cbn|lia]. intros r [<-|[<-|[<-|[<-|[]]]]]; lra.
Qed.
(** After any calls and writes at all, the round trips of this robot succeed: the flex joint (pointer 2) reads what it was. *)
Theorem C73_ex : forall e ops m1, new_robotstate (builtin true ex_P) true 0%R ex_full_robot ex_mem0 = Ok (ex_full_state, m1) -> Forall fair_op ops ->
  exists ts m tb mb, run_ops (builtin true ex_P) ex_full_state ops (rb_transmissions ex_full_robot) m1 = Ok (ts, m) /\
    run_ops (builtin true ex_P) ex_full_state [OpPositionBack e; OpPosition] ts m = Ok (tb, mb) /\ same_motion_j (m_js mb 2) (m_js m 2).
Proof.
  intros e ops m1 NS FO. destruct C73_ex_loaded as [h' LD].
  assert (FO2 : Forall fair_op (ops ++ [OpPositionBack e; OpPosition])) by (apply Forall_app; split; [exact FO|repeat constructor]).
  destruct (C66_simulation_never_crashes true ex_P ex_L C41_ex_loader _ _ _ _ _ _ _ _ _ _ _ LD C66_ex_simulatable NS FO) as (ts & m & R1 & _).
  destruct (C66_simulation_never_crashes true ex_P ex_L C41_ex_loader _ _ _ _ _ _ _ _ _ _ _ LD C66_ex_simulatable NS FO2) as (tb & mb & R2 & _).
  assert (R3 : run_ops (builtin true ex_P) ex_full_state [OpPositionBack e; OpPosition] ts m = Ok (tb, mb)).
  { clear - R1 R2. revert R1 R2. generalize (rb_transmissions ex_full_robot) m1.
    induction ops as [|o ops IH]; intros ts0 m0 R1 R2; [cbn [run_ops] in R1; injection R1 as -> ->; exact R2|].
    cbn [app] in R2. destruct o; cbn [run_ops] in R1, R2; try (eapply IH; eauto; fail);
    match type of R1 with bind ?x _ = _ => destruct x as [y| | |]; cbn [bind] in R1, R2; try discriminate end; try (destruct y as [t2 m2]); eapply IH; eauto. }
  exists ts, m, tb, mb. split; [exact R1|]. split; [exact R3|].
  apply (C73_joint_roundtrip true ex_P ex_L C41_ex_loader _ _ _ _ _ _ _ _ _ _ _ _ _ LD C66_ex_simulatable NS FO R1 e tb mb 1 _ 0 2 R3 eq_refl);
    [apply (C73_ex_invertible 1); auto|apply C73_ex_own|exact I|exists [2; 3]; split; reflexivity].
Qed.
