(** C97: whole robots conserve mechanical power, between what is read and what is commanded. *)
From Coq Require Import List String Arith Bool ZArith Lia Reals Lra.
From Verif.Model Require Import Base Num Joint Hardware Xml Transmission Simple Wrist Belt Gripper Robot Builtin.
From Verif.Spec Require Import TransmissionSpec LocalSpec RobotSpec RoundTripSpec PowerSpec.
From Verif.Proofs Require Import TransmissionProofs Locality OverLocal RobotProofs SystemProofs CycleTotal.
From Verif.Props Require Import SimpleProps WristProps RobotProps IndependenceProps RoundTripProps.
Import ListNotations.
Local Open Scope R_scope.

(** ** One transmission *)
Lemma abc_velocity (x y : actuator R) : all_but_command x y -> a_velocity x = a_velocity y.
Proof. intros H. specialize (H true 0). apply (f_equal (@a_velocity R)) in H. exact H. Qed.
Lemma abe_velocity (x y : jointstate R) : all_but_effort x y -> velocity x = velocity y.
Proof. intros H. specialize (H 0). apply (f_equal (@velocity R)) in H. exact H. Qed.
Lemma position_power dbg (P : parsers R) t as_ js m t1 m1 : ready true t -> fits dbg P t as_ js -> NoDup js -> NoDup as_ -> invertible t ->
  tr_position (builtin dbg P) t as_ js m = Ok (t1, m1) ->
  total (fun q => power_j (m_js m1 q)) (driven_joints t js) = total (fun p => power_a (m_act m p)) as_.
Proof.
  intros RD FT NDJ ND INV F1.
  destruct (shape_cases dbg P t as_ js RD FT NDJ ND INV) as
      [(x & a & q0 & -> & -> & V & N0 & NZ & _)|(x & p0 & p1 & q0 & q1 & ar0 & ar1 & jr0 & jr1 & -> & -> & -> & W)].
  - destruct (simple_forward dbg x a js q0 m V) as (mx & B1 & _ & _ & P2 & P3 & _).
    cbn [builtin tr_position] in F1. rewrite B1 in F1. cbn [keep bind] in F1. injection F1 as <- <-.
    destruct js as [|q js]; [discriminate|]. injection N0 as ->. cbn [driven_joints firstn total fold_right].
    unfold power_j, power_a. rewrite P2, P3. field. exact NZ.
  - destruct (wrist_forward dbg x p0 p1 q0 q1 ar0 ar1 jr0 jr1 m W) as (mx & B1 & _ & (_ & P2 & P3 & _ & P5 & P6) & _).
    cbn [builtin tr_position] in F1. rewrite B1 in F1. cbn [keep bind] in F1. injection F1 as <- <-.
    destruct W as [_ _ _ _ (N0 & N1 & N2 & N3)]. cbv zeta in *. cbn [driven_joints total fold_right].
    unfold power_j, power_a. rewrite P2, P3, P5, P6. field. auto.
Qed.
Lemma effort_power dbg (P : parsers R) t t' as_ js m0 m1 t1 m t2 m2 : ready true t -> fits dbg P t as_ js -> NoDup js -> NoDup as_ -> invertible t ->
  same_parameters t t' -> ready true t' -> fits dbg P t' as_ js ->
  tr_position (builtin dbg P) t as_ js m0 = Ok (t1, m1) ->
  (forall q, In q js -> velocity (m_js m q) = velocity (m_js m1 q)) -> (forall p, a_velocity (m_act m p) = a_velocity (m_act m0 p)) ->
  tr_effort (builtin dbg P) t' js as_ m = Ok (t2, m2) -> (forall p, all_but_command (m_act m2 p) (m_act m p)) ->
  total (fun p => cpower_a (m_act m2 p)) as_ = total (fun q => cpower_j (m_js m q)) (driven_joints t js).
Proof.
  intros RD FT NDJ ND INV SP RD' FT' F1 VJ VA F2 AB.
  assert (VB : forall p, a_velocity (m_act m2 p) = a_velocity (m_act m0 p)).
  { intros p. rewrite <- VA. apply abc_velocity, AB. }
  destruct (shape_cases dbg P t as_ js RD FT NDJ ND INV) as
      [(x & a & q0 & -> & -> & V & N0 & NZ & _)|(x & p0 & p1 & q0 & q1 & ar0 & ar1 & jr0 & jr1 & -> & -> & -> & W)].
  - destruct (simple_forward dbg x a js q0 m0 V) as (mx & B1 & _ & _ & P2 & _).
    cbn [builtin tr_position] in F1. rewrite B1 in F1. cbn [keep bind] in F1. injection F1 as <- <-.
    destruct (shape_cases dbg P t' _ js RD' FT' NDJ ND (invertible_same _ _ SP INV)) as
      [(x' & a' & q' & -> & EA & V' & N0' & NZ' & _)|(x' & p0' & p1' & q0' & q1' & ar0' & ar1' & jr0' & jr1' & -> & _)]; [|contradiction].
    injection EA as <-. rewrite N0 in N0'. injection N0' as <-.
    destruct (sizes_ok dbg x' a js q0 V') as (S1 & S2 & S3).
    cbn [builtin tr_effort] in F2. unfold simple_propagateEffort in F2. rewrite S1, S2 in F2. cbn [keep bind vget nth_error] in F2. injection F2 as <- <-.
    destruct js as [|q js]; [discriminate|]. injection N0 as ->. cbn [driven_joints firstn total fold_right].
    unfold cpower_j, cpower_a. rewrite (VJ q0 S3), VB, P2. cbn [act_upd m_act m_js]. unfold upd. rewrite !Nat.eqb_refl. cbn.
    destruct SP as (_ & _ & _ & ER & _). rewrite <- ER. field. exact NZ.
  - destruct (wrist_forward dbg x p0 p1 q0 q1 ar0 ar1 jr0 jr1 m0 W) as (mx & B1 & _ & (_ & P2 & _ & _ & P5 & _) & _).
    cbn [builtin tr_position] in F1. rewrite B1 in F1. cbn [keep bind] in F1. injection F1 as <- <-.
    destruct t' as [x'|x'|x'|x']; cbn [same_parameters] in SP; try contradiction.
    assert (W' : wrist_ok x' p0 p1 q0 q1 ar0 ar1 jr0 jr1).
    { destruct W as [W1 W2 W3 W4 W5]. destruct SP as (_ & _ & _ & E1 & E2 & _). split; auto; congruence. }
    cbn [builtin tr_effort] in F2. unfold wrist_propagateEffort in F2. rewrite wsizes, (wo_ar _ _ _ _ _ _ _ _ _ W'), (wo_jr _ _ _ _ _ _ _ _ _ W') in F2.
    cbn [keep bind vget nth_error] in F2. injection F2 as <- <-.
    destruct W as [_ _ NP NQ (N0 & N1 & N2 & N3)]. cbv zeta in *. cbn [driven_joints total fold_right].
    unfold cpower_j, cpower_a. rewrite !VB, (VJ q0), (VJ q1), P2, P5 by (cbn; auto). mems. cbn. field. auto.
Qed.

(** ** Calls that keep the speeds *)
Lemma speeds_kept dbg (P : parsers R) g r hw m0 m1 s : rb_hw r = Some hw -> new_robotstate (builtin dbg P) dbg g r m0 = Ok (s, m1) ->
  forall ops ts m ts' m', Forall keeps_speeds ops ->
  run_ops (builtin dbg P) s ops ts m = Ok (ts', m') ->
  (forall q, velocity (m_js m' q) = velocity (m_js m q)) /\ (forall p, a_velocity (m_act m' p) = a_velocity (m_act m p)).
Proof.
  intros HW NS ops ts m ts' m' F. revert ts m.
  induction F as [|o ops KO F IH]; intros ts m E; cbn [run_ops] in E; [injection E as <- <-; auto|].
  assert (OJ : forall f mx, over_joints f (seq 0 (rs_size s)) m = Ok mx -> (forall j j', f j = Ok j' -> velocity j' = velocity j) ->
     (forall q, velocity (m_js mx q) = velocity (m_js m q)) /\ (forall p, a_velocity (m_act mx p) = a_velocity (m_act m p))).
  { intros f mx OE HF. destruct (over_joints_spec _ _ _ _ (seq_NoDup _ _) OE) as (A & B & C). split; [|intros p; rewrite A; reflexivity].
    intros q. destruct (in_dec Nat.eq_dec q (seq 0 (rs_size s))) as [I|N]; [exact (HF _ _ (B q I))|rewrite (C q N); reflexivity]. }
  destruct o; cbn [keeps_speeds] in KO; try contradiction.
  - destruct (zeroCommands s m) as [mx| | |] eqn:Z; cbn [bind] in E; try discriminate. destruct (IH _ _ E) as [I1 I2].
    destruct (OJ _ _ Z) as [O1 O2]; [intros j j' [= <-]; reflexivity|].
    split; intros k; [rewrite I1; apply O1|rewrite I2; apply O2].
  - destruct (enforceSafety s m) as [mx| | |] eqn:Z; cbn [bind] in E; try discriminate. destruct (IH _ _ E) as [I1 I2].
    destruct (OJ _ _ Z) as [O1 O2].
    { intros j j' EN. unfold enforceLimits in EN. destruct (getLimits j) as [[lo hi]| | |]; cbn [bind] in EN; try discriminate. injection EN as <-. reflexivity. }
    split; intros k; [rewrite I1; apply O1|rewrite I2; apply O2].
  - destruct (propagateJointEffortToActuatorEffort (builtin dbg P) s ts m) as [[tx mx]| | |] eqn:Z; cbn [bind] in E; try discriminate. destruct (IH _ _ E) as [I1 I2].
    destruct (C72_effort_one_by_one dbg P s _ _ _ _ Z) as (J & A & _).
    split; intros k; [rewrite I1, J; reflexivity|rewrite I2]. apply abc_velocity, A.
  - destruct (IH _ _ E) as [I1 I2]. destruct (KO m) as [O1 O2]. split; intros k; [rewrite I1; apply O1|rewrite I2; apply O2].
  - destruct (propagateActuatorEffortToJointEffort (builtin dbg P) s ts m) as [[tx mx]| | |] eqn:Z; cbn [bind] in E; try discriminate. destruct (IH _ _ E) as [I1 I2].
    destruct (C72_simulated_effort_one_by_one dbg P g r hw m0 m1 s HW NS _ _ _ _ Z) as (A & _ & J & _).
    split; intros k; [rewrite I1|rewrite I2, A; reflexivity]. apply abe_velocity, J.
Qed.

Lemma total_cons {A} (f : A -> R) x xs : total f (x :: xs) = f x + total f xs.
Proof. reflexivity. Qed.
Lemma total_ext {A} (f f' : A -> R) xs : (forall x, In x xs -> f x = f' x) -> total f xs = total f' xs.
Proof.
  intros H. induction xs as [|x xs IH]; [reflexivity|]. rewrite !total_cons, (H x (or_introl eq_refl)), IH; [reflexivity|].
  intros y I. apply H. right. exact I.
Qed.
Lemma total_app {A} (f : A -> R) xs ys : total f (xs ++ ys) = total f xs + total f ys.
Proof. induction xs as [|x xs IH]; [change (total f ys = 0 + total f ys); lra|]. cbn [app]. rewrite !total_cons, IH. lra. Qed.
Lemma driven_in t js q : In q (driven_joints t js) -> In q js.
Proof. destruct t; cbn; auto. destruct js as [|j js]; cbn; auto. intros [<-|[]]. auto. Qed.
Lemma driven_joints_same t t' js : same_parameters t t' -> driven_joints t js = driven_joints t' js.
Proof. destruct t, t'; cbn; try contradiction; auto. Qed.
Lemma run_ops_compose {Tr T} {N : Num T} (K : tclass Tr T) s : forall o1 o2 ts m ts1 m1, run_ops K s o1 ts m = Ok (ts1, m1) ->
  run_ops K s (o1 ++ o2) ts m = run_ops K s o2 ts1 m1.
Proof.
  induction o1 as [|o o1 IH]; intros o2 ts m ts1 m1 E; [cbn [run_ops] in E; injection E as -> ->; reflexivity|].
  cbn [app]. destruct o; cbn [run_ops] in E |- *; try (apply IH; exact E);
  match type of E with bind ?x _ = _ => destruct x as [y| | |]; cbn [bind] in E |- *; try discriminate end; try (destruct y as [t2 m2]); apply IH; exact E.
Qed.
Lemma whole_sum (f f' : nat -> R) : forall (ts : list (transmission R)) (ins outs : list (list nat)), List.length ts = List.length ins -> List.length ins = List.length outs ->
  (forall i t as_ js, nth_error ts i = Some t -> nth_error ins i = Some as_ -> nth_error outs i = Some js -> total f (driven_joints t js) = total f' as_) ->
  total f (all_driven ts outs) = total f' (List.concat ins).
Proof.
  induction ts as [|t ts IH]; intros [|a ins] [|j outs] L1 L2 H; try discriminate; [reflexivity|].
  unfold all_driven. cbn [combine map List.concat fst snd]. rewrite !total_app. f_equal; [exact (H 0%nat t a j eq_refl eq_refl eq_refl)|].
  apply IH; auto. intros i. exact (H (S i)).
Qed.

(** ** Whole robots *)
Section C97.
Variables (dbg : bool) (P : parsers R) (L : loader (transmission R)).
Hypothesis HL : forall c t, ld_create L c = Some t -> is_new t.
Notation K := (builtin dbg P).
(** a robot that was loaded from a description, ran for any time under any calls, then read its actuators *)
Variables (urdf : xml -> option (string -> option (ujoint R))) (root : xml) (h h' : nat -> actuator R) (hw : hwif) (r : robot (transmission R) R)
  (g : R) (m0 m1 : mem R) (s : rstate) (ops : list (robot_op R)) (ts : list (transmission R)) (m : mem R) (ta : list (transmission R)) (ma : mem R).
Hypothesis LOADED : robot_initXml K L urdf root h (new_robot (Some hw)) = Ok (true, r, h').
Hypothesis SIM : forall e, In e (ChildElements root "transmission") -> simulatable P L e.
Hypothesis NS : new_robotstate K dbg g r m0 = Ok (s, m1).
Hypothesis FAIR : Forall fair_op ops.
Hypothesis RUN : run_ops K s ops (rb_transmissions r) m1 = Ok (ts, m).
Hypothesis READ : run_ops K s [OpPosition] ts m = Ok (ta, ma).

Lemma read_call : propagateActuatorPositionToJointPosition K s ts m = Ok (ta, ma).
Proof.
  cbn [run_ops] in READ. destruct (propagateActuatorPositionToJointPosition K s ts m) as [[ta' ma']| | |]; cbn [bind] in READ; try discriminate.
  exact READ.
Qed.

(** The power the joints of a transmission are measured to deliver is the power its actuators are measured to deliver. *)
Theorem C97_measured_power : forall i t as_ js, nth_error (rb_transmissions r) i = Some t -> invertible t ->
  nth_error (rs_in s) i = Some as_ -> NoDup as_ -> nth_error (rs_out s) i = Some js ->
  total (fun q => power_j (m_js ma q)) (driven_joints t js) = total (fun p => power_a (m_act ma p)) as_.
Proof.
  intros i t0 as_ js X INV NA ND NJ.
  destruct (shape dbg P L HL _ _ _ _ _ _ _ _ _ _ _ _ _ LOADED SIM NS FAIR RUN i t0 X) as (t & as' & js' & NT & NA' & NJ' & SP & RD & FT & NDJ).
  rewrite NA in NA'. injection NA' as <-. rewrite NJ in NJ'. injection NJ' as <-.
  destruct (running_facts dbg P L HL _ _ _ _ _ _ _ _ _ _ _ _ _ LOADED SIM NS FAIR RUN) as (HW & _ & _ & _).
  destruct (C72_position_one_by_one dbg P g r hw m0 m1 s HW NS _ _ _ _ read_call) as (A0 & _ & _ & D).
  destruct (D i t as_ js NT NA NJ) as (t1 & mt & F1 & _ & Q).
  rewrite (driven_joints_same _ _ js SP), (total_ext (fun p => power_a (m_act ma p)) (fun p => power_a (m_act m p))) by (intros p _; rewrite A0; reflexivity).
  rewrite <- (position_power dbg P t as_ js m t1 mt RD FT NDJ ND (invertible_same _ _ SP INV) F1).
  apply total_ext. intros q I. destruct (update_statistics_same _ _ (Q q (driven_in _ _ _ I))) as (_ & Q2 & Q3 & _).
  unfold power_j. rewrite Q2, Q3. reflexivity.
Qed.

(** ... and whatever the controllers then command: after any calls and writes that leave the speeds alone (limit
    enforcement, zeroing, other commands), what is sent to the actuators is the power the joints' commands ask for. *)
Theorem C97_commanded_power : forall mid tb mb i t as_ js, Forall fair_op mid -> Forall keeps_speeds mid ->
  run_ops K s (mid ++ [OpEffort]) ta ma = Ok (tb, mb) ->
  nth_error (rb_transmissions r) i = Some t -> invertible t -> own (rs_in s) i ->
  nth_error (rs_in s) i = Some as_ -> nth_error (rs_out s) i = Some js ->
  total (fun p => cpower_a (m_act mb p)) as_ = total (fun q => cpower_j (m_js mb q)) (driven_joints t js).
Proof.
  intros mid tb mb i t0 as_ js FM KM E X INV [EX ND] NA NJ.
  destruct (shape dbg P L HL _ _ _ _ _ _ _ _ _ _ _ _ _ LOADED SIM NS FAIR RUN i t0 X) as (t & as' & js' & NT & NA' & NJ' & SP & RD & FT & NDJ).
  rewrite NA in NA'. injection NA' as <-. rewrite NJ in NJ'. injection NJ' as <-.
  destruct (running_facts dbg P L HL _ _ _ _ _ _ _ _ _ _ _ _ _ LOADED SIM NS FAIR RUN) as (HW & _ & _ & _).
  assert (exists tc mc, run_ops K s mid ta ma = Ok (tc, mc)) as (tc & mc & RM).
  { assert (FA : Forall fair_op (ops ++ [OpPosition] ++ mid)) by (apply Forall_app; split; [exact FAIR|constructor; [exact Logic.I|exact FM]]).
    destruct (C66_simulation_never_crashes dbg P L HL _ _ _ _ _ _ _ _ _ _ _ LOADED SIM NS FA) as (tc & mc & RM & _).
    rewrite (run_ops_compose _ _ _ _ _ _ _ _ RUN), (run_ops_compose _ _ _ _ _ _ _ _ READ) in RM. eauto. }
  rewrite (run_ops_compose _ _ _ _ _ _ _ _ RM) in E.
  assert (RALL : run_ops K s (ops ++ [OpPosition] ++ mid) (rb_transmissions r) m1 = Ok (tc, mc)).
  { rewrite (run_ops_compose _ _ _ _ _ _ _ _ RUN), (run_ops_compose _ _ _ _ _ _ _ _ READ). exact RM. }
  assert (FALL : Forall fair_op (ops ++ [OpPosition] ++ mid)).
  { apply Forall_app. split; [exact FAIR|]. constructor; [exact Logic.I|exact FM]. }
  destruct (shape dbg P L HL _ _ _ _ _ _ _ _ _ _ _ _ _ LOADED SIM NS FALL RALL i t0 X) as (t' & as' & js' & NT' & NA' & NJ' & SP' & RD' & FT' & _).
  rewrite NA in NA'. injection NA' as <-. rewrite NJ in NJ'. injection NJ' as <-.
  destruct (C72_position_one_by_one dbg P g r hw m0 m1 s HW NS _ _ _ _ read_call) as (A0 & _ & _ & D).
  destruct (D i t as_ js NT NA NJ) as (t1 & mt & F1 & _ & Q).
  destruct (speeds_kept dbg P g r hw m0 m1 s HW NS _ _ _ _ _ KM RM) as [VJ VA].
  cbn [run_ops] in E. destruct (propagateJointEffortToActuatorEffort K s tc mc) as [[tb' mb']| | |] eqn:EF; cbn [bind] in E; try discriminate. injection E as -> ->.
  destruct (C72_effort_one_by_one dbg P s _ _ _ _ EF) as (J2 & _ & _ & D2). destruct (D2 i t' as_ js NT' NA NJ EX) as (t2 & m2 & F2 & _ & Q2).
  assert (SPT : same_parameters t t').
  { clear - SP SP'. destruct t0, t, t'; cbn in *; try contradiction; intuition congruence. }
  rewrite (driven_joints_same _ _ js SP).
  rewrite (total_ext (fun p => cpower_a (m_act mb p)) (fun p => cpower_a (m_act m2 p))) by (intros p I; rewrite (Q2 p I); reflexivity).
  rewrite (total_ext (fun q => cpower_j (m_js mb q)) (fun q => cpower_j (m_js mc q))) by (intros q _; rewrite J2; reflexivity).
  apply (effort_power dbg P t t' as_ js m mt t1 mc t2 m2 RD FT NDJ (ND _ NA) (invertible_same _ _ SP INV) SPT RD' FT' F1).
  - intros q I. rewrite VJ. destruct (update_statistics_same _ _ (Q q I)) as (_ & Q3 & _). exact Q3.
  - intros p. rewrite VA, A0. reflexivity.
  - exact F2.
  - intros p. destruct (effort_local dbg P t' as_ js mc) as [LL _]. destruct (LL _ _ F2) as [(_ & _ & AB) _]. apply AB.
Qed.

(** A robot with nothing but such transmissions conserves power as a whole. *)
Theorem C97_whole_robot_power : forall mid tb mb, Forall fair_op mid -> Forall keeps_speeds mid ->
  run_ops K s (mid ++ [OpEffort]) ta ma = Ok (tb, mb) ->
  (forall i t, nth_error (rb_transmissions r) i = Some t -> invertible t /\ own (rs_in s) i) ->
  total (fun q => power_j (m_js ma q)) (all_driven (rb_transmissions r) (rs_out s)) = total (fun p => power_a (m_act ma p)) (List.concat (rs_in s)) /\
  total (fun p => cpower_a (m_act mb p)) (List.concat (rs_in s)) = total (fun q => cpower_j (m_js mb q)) (all_driven (rb_transmissions r) (rs_out s)).
Proof.
  intros mid tb mb FM KM E ALL.
  destruct (running_facts dbg P L HL _ _ _ _ _ _ _ _ _ _ _ _ _ LOADED SIM NS FAIR RUN) as (_ & (_ & FI & FO) & PA & _).
  assert (LP : List.length (rb_transmissions r) = List.length ts) by (clear - PA; induction PA; cbn; congruence).
  assert (L1 : List.length ts = List.length (rs_in s)) by (clear - FI; induction FI; cbn; congruence).
  assert (L2 : List.length ts = List.length (rs_out s)) by (clear - FO; induction FO; cbn; congruence).
  split; [|symmetry]; (apply whole_sum; [congruence|congruence|]); intros i t as_ js X NA NJ; destruct (ALL i t X) as [INV OWN].
  - apply (C97_measured_power i t as_ js X INV NA (proj2 OWN _ NA) NJ).
  - symmetry. apply (C97_commanded_power mid tb mb i t as_ js FM KM E X INV OWN NA NJ).
Qed.
End C97.

(** ** Example: a simple transmission (with a simulated joint) and a wrist *)
Local Open Scope string_scope.
Local Open Scope list_scope.
Definition ex_power : xml := match ex_full with Elem n at_ tx (e1 :: e2 :: _) => Elem n at_ tx [e1; e2] | x => x end.
Definition ex_power_robot : robot (transmission R) R :=
  mkRobot (rb_hw ex_full_robot) (rb_joint ex_full_robot) (firstn 2 (rb_transmissions ex_full_robot)).
Definition ex_power_state : rstate := (mkRstate 4 [[0]; [1; 2]] [[0; 1]; [2; 3]] [("j2", 3); ("j1", 2); ("j4", 1); ("j0", 0)])%nat.
Theorem C97_ex_loaded : exists h', robot_initXml (builtin true ex_P) ex_L ex_full_urdf ex_power ex_h0 (new_robot (Some ex_full_hw)) = Ok (true, ex_power_robot, h').
Proof. eexists. reflexivity. Qed.
Theorem C97_ex_state : exists m', new_robotstate (builtin true ex_P) true 0%R ex_power_robot ex_mem0 = Ok (ex_power_state, m').
Proof. eexists. reflexivity. Qed.
Theorem C97_ex_simulatable : forall e, In e (ChildElements ex_power "transmission") -> simulatable ex_P ex_L e.
Proof. intros e [<-|[<-|[]]]; apply C66_ex_simulatable; cbn; auto. Qed.
Theorem C97_ex_all : forall i t, nth_error (rb_transmissions ex_power_robot) i = Some t -> invertible t /\ own (rs_in ex_power_state) i.
Proof.
  intros i t X. split.
  - assert (i < 2)%nat by (apply nth_error_Some in X || (destruct i as [|[|i]]; [lia|lia|destruct i; discriminate X])); auto.
    apply (C73_ex_invertible i); [|assumption]. destruct i as [|[|i]]; [exact X|exact X|lia].
  - split.
    + intros j k k' a (ps & Y & Z) (ps' & Y' & Z'). cbn [rs_in ex_power_state] in Y, Y'.
      destruct i as [|[|i]]; cbn in Y; [injection Y as <-|injection Y as <-|destruct i; discriminate];
      (destruct j as [|[|j]]; cbn in Y'; [injection Y' as <-|injection Y' as <-|destruct j; discriminate]); auto; exfalso;
      apply nth_error_In in Z, Z'; cbn in Z, Z'; lia.
    + intros ps Y. cbn [rs_in ex_power_state] in Y.
      destruct i as [|[|i]]; cbn in Y; [injection Y as <-|injection Y as <-|destruct i; discriminate]; repeat constructor; cbn; lia.
Qed.
(** A controller that commands one unit more on the flex joint (pointer 2), after zeroing and before enforcement: after any
    calls at all, this cycle conserves the robot's power, read and commanded. *)
Definition ex_power_cmd : robot_op R := OpWrite (fun m => js_upd 2%nat (fun j => set_commanded_effort (commanded_effort j + 1)%R j) m).
Theorem C97_ex : forall ops m1, new_robotstate (builtin true ex_P) true 0%R ex_power_robot ex_mem0 = Ok (ex_power_state, m1) -> Forall fair_op ops ->
  exists ts m ta ma tb mb, run_ops (builtin true ex_P) ex_power_state ops (rb_transmissions ex_power_robot) m1 = Ok (ts, m) /\
    run_ops (builtin true ex_P) ex_power_state [OpPosition] ts m = Ok (ta, ma) /\
    run_ops (builtin true ex_P) ex_power_state [OpZero; ex_power_cmd; OpEnforce; OpEffort] ta ma = Ok (tb, mb) /\
    (power_j (m_js ma 0%nat) + (power_j (m_js ma 2%nat) + (power_j (m_js ma 3%nat) + 0)) = power_a (m_act ma 0%nat) + (power_a (m_act ma 1%nat) + (power_a (m_act ma 2%nat) + 0)) /\
     cpower_a (m_act mb 0%nat) + (cpower_a (m_act mb 1%nat) + (cpower_a (m_act mb 2%nat) + 0)) = cpower_j (m_js mb 0%nat) + (cpower_j (m_js mb 2%nat) + (cpower_j (m_js mb 3%nat) + 0)))%R.
Proof.
  intros ops m1 NS FO. destruct C97_ex_loaded as [h' LD].
  set (mid := [OpZero; ex_power_cmd; OpEnforce]).
  assert (CW : forall m q, js_joint (m_js (js_upd 2%nat (fun j => set_commanded_effort (commanded_effort j + 1)%R j) m) q) = js_joint (m_js m q) /\
     velocity (m_js (js_upd 2%nat (fun j => set_commanded_effort (commanded_effort j + 1)%R j) m) q) = velocity (m_js m q)).
  { intros m q. cbn [js_upd m_js]. unfold upd. destruct (Nat.eqb_spec q 2) as [->|_]; split; reflexivity. }
  assert (FM : Forall fair_op mid) by (repeat constructor; intros m q; apply CW).
  assert (KM : Forall keeps_speeds mid) by (repeat constructor; apply CW).
  assert (F1 : Forall fair_op (ops ++ [OpPosition])) by (apply Forall_app; split; [exact FO|repeat constructor]).
  assert (F2 : Forall fair_op ((ops ++ [OpPosition]) ++ (mid ++ [OpEffort]))) by (repeat (apply Forall_app; split); auto; repeat constructor).
  destruct (C66_simulation_never_crashes true ex_P ex_L C41_ex_loader _ _ _ _ _ _ _ _ _ _ _ LD C97_ex_simulatable NS FO) as (ts & m & R1 & _).
  destruct (C66_simulation_never_crashes true ex_P ex_L C41_ex_loader _ _ _ _ _ _ _ _ _ _ _ LD C97_ex_simulatable NS F1) as (ta & ma & R2 & _).
  destruct (C66_simulation_never_crashes true ex_P ex_L C41_ex_loader _ _ _ _ _ _ _ _ _ _ _ LD C97_ex_simulatable NS F2) as (tb & mb & R3 & _).
  rewrite (run_ops_compose _ _ _ _ _ _ _ _ R2) in R3. rewrite (run_ops_compose _ _ _ _ _ _ _ _ R1) in R2.
  exists ts, m, ta, ma, tb, mb. split; [exact R1|]. split; [exact R2|]. split; [exact R3|].
  exact (C97_whole_robot_power true ex_P ex_L C41_ex_loader _ _ _ _ _ _ _ _ _ _ _ _ _ _ _ LD C97_ex_simulatable NS FO R1 R2 mid tb mb FM KM R3 C97_ex_all).
Qed.
