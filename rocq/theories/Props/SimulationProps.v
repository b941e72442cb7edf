(** C79: simulated time stamps.  C80: simulated calibration of a whole robot. *)
From Coq Require Import List String Arith Bool ZArith Sorted Lia Reals Lra.
From Verif.Model Require Import Base Num Joint Hardware Xml Transmission Simple Wrist Belt Gripper Robot Builtin.
From Verif.Spec Require Import LocalSpec RobotSpec SimulationSpec CalibrationSpec.
From Verif.Proofs Require Import TransmissionProofs CycleTotal Locality OverLocal RobotProofs SystemProofs.
From Verif.Props Require Import RobotProps IndependenceProps DescriptionProps RoundTripProps CalibrationProps.
Import ListNotations.

Section Clock.
Context {T : Type} {N : Num T} {G : Trig T}.
Variables (dbg : bool) (P : parsers T).
Notation K := (builtin dbg P).

(** what one backward position call does to the clock and to the stamps *)
Definition ticked (e : env) (t t' : transmission T) : Prop :=
  (clock_flag t', clock_start t') = (if clock_flag t then (true, clock_start t) else if e_started e then (true, e_now e) else (false, clock_start t)).
Definition stamp (e : env) (t : transmission T) : Z := if clock_flag t then (e_now e - clock_start t)%Z else 0%Z.

Lemma sim_clock_spec e ini start : sim_clock e ini start = 
  ((if ini then (true, start) else if e_started e then (true, e_now e) else (false, start)), if ini then (e_now e - start)%Z else 0%Z).
Proof. unfold sim_clock. destruct ini, (e_started e); reflexivity. Qed.

Lemma simcal_keeps c pj pa (m : mem T) c' m' : simcal_mem dbg c pj pa m = Ok (c', m') ->
  exists a', m' = act_upd pa (fun _ => a') m /\ simulateJointCalibration dbg c (m_js m pj) (m_act m pa) = Ok (c', a').
Proof.
  unfold simcal_mem. destruct (simulateJointCalibration dbg c (m_js m pj) (m_act m pa)) as [[c1 a1]| | |]; cbn [bind]; try discriminate.
  intros [= <- <-]. eauto.
Qed.
Lemma simulate_stamps c j a c' a' : simulateJointCalibration dbg c j a = Ok (c', a') ->
  a_sample_timestamp a' = a_sample_timestamp a /\ a_timestamp a' = a_timestamp a /\ a_position a' = a_position a.
Proof.
  unfold simulateJointCalibration. destruct (if cs_got_info c then Ok c else GetJointCalibrationInfo dbg c j) as [c1| | |]; cbn [bind]; try discriminate.
  intros [= <- <-]. repeat match goal with |- context [if ?b then _ else _] => destruct b end; auto.
Qed.

Definition stamped (z : Z) (a : actuator T) : Prop := a_sample_timestamp a = z /\ a_timestamp a = ntosec z.

Lemma stamped_set z a : stamped z (set_stamp z a).
Proof. split; reflexivity. Qed.

Lemma act_upd_same p f (m : mem T) : m_act (act_upd p f m) p = f (m_act m p).
Proof. unfold act_upd, upd. cbn. now rewrite Nat.eqb_refl. Qed.
Lemma act_upd_other p q f (m : mem T) : q <> p -> m_act (act_upd p f m) q = m_act m q.
Proof. intros D. unfold act_upd, upd. cbn. destruct (Nat.eqb_spec q p); congruence. Qed.
Lemma act_upd_js p f (m : mem T) q : m_js (act_upd p f m) q = m_js m q.
Proof. reflexivity. Qed.

(** what it does to the calibration fields of the actuator that sees a joint's switch *)
Definition switched (t t' : transmission T) (as_ js : list nat) (m m' : mem T) : Prop :=
  forall k n p q, switch_of t k n -> nth_error as_ n = Some p -> nth_error js k = Some q -> NoDup as_ ->
    exists a0, simulateJointCalibration dbg (calibrator t k) (m_js m q) a0 = Ok (calibrator t' k, m_act m' p) /\
      same_edges (m_act m p) a0 /\ a_calibration_reading a0 = a_calibration_reading (m_act m p).

Lemma back_detail e t as_ js m t' m' : ready true t -> fits dbg P t as_ js -> tr_positionBackwards K e t js as_ m = Ok (t', m') ->
  ticked e t t' /\ (forall p, In p as_ -> stamped (stamp e t) (m_act m' p)) /\ switched t t' as_ js m m'.
Proof.
  unfold fits. destruct t as [t|t|t|t]; cbn [ready tr_positionBackwards tr_actuators tr_joints builtin].
  - intros [A _] [I _] E. rewrite A in I. destruct (len1 _ I) as [a ->].
    unfold wrap, simple_propagatePositionBackwards in E. cbn [vget nth_error bind] in E. rewrite sim_clock_spec in E.
    destruct (simple_sizes dbg t [a] js) as [?| | |]; cbn [bind] in E; try discriminate.
    destruct (vget js 0) as [j| | |] eqn:VJ; cbn [bind] in E; try discriminate.
    match type of E with context [let '(_, _) := ?x in _] => destruct x as [ini start] eqn:CL end.
    match type of E with context [simcal_mem dbg ?c ?j ?a ?m] => destruct (simcal_mem dbg c j a m) as [[c' m2]| | |] eqn:SC end; cbn [bind] in E; try discriminate.
    injection E as <- <-. apply simcal_keeps in SC. destruct SC as (a' & -> & SC). assert (SS := SC). apply simulate_stamps in SS. destruct SS as (S1 & S2 & _).
    split; [exact (eq_sym CL)|]. split.
    + intros p [<-|[]]. rewrite act_upd_same. unfold stamped. rewrite S1, S2, act_upd_same. split; reflexivity.
    + intros k n p q [-> ->] X Y _. injection X as <-. unfold vget in VJ. rewrite Y in VJ. injection VJ as <-. rewrite act_upd_same.
      eexists. split; [exact SC|]. rewrite !act_upd_same. repeat split; reflexivity.
  - intros (A & B & C & D) [I O] E. rewrite A in I. rewrite B in O. destruct (len2 _ I) as (a & b & ->). destruct (len2 _ O) as (j & k & ->).
    unfold wrap, wrist_propagatePositionBackwards in E. cbn [vget nth_error bind] in E.
    destruct (wrist_sizes dbg [a; b] [j; k]) as [?| | |]; cbn [bind] in E; try discriminate.
    destruct (len2 _ C) as (r0 & r1 & E1). destruct (len2 _ D) as (s0 & s1 & E2). rewrite E1, E2 in E. cbn [vget nth_error bind] in E.
    rewrite sim_clock_spec in E.
    match type of E with context [let '(_, _) := ?x in _] => destruct x as [ini start] eqn:CL end.
    match type of E with context [simcal_mem dbg ?c j b ?mm] => destruct (simcal_mem dbg c j b mm) as [[c' m2]| | |] eqn:SC end; cbn [bind] in E; try discriminate.
    match type of E with context [simcal_mem dbg ?c k a ?mm] => destruct (simcal_mem dbg c k a mm) as [[c2 m3]| | |] eqn:SC2 end; cbn [bind] in E; try discriminate.
    injection E as <- <-. apply simcal_keeps in SC. destruct SC as (a' & -> & SC). apply simcal_keeps in SC2. destruct SC2 as (a2 & -> & SC2).
    assert (SS := SC). apply simulate_stamps in SS. destruct SS as (S1 & S2 & _).
    assert (SS := SC2). apply simulate_stamps in SS. destruct SS as (V1 & V2 & _).
    split; [exact (eq_sym CL)|].
    assert (SB : forall mm, stamped (if wt_ts_init t then (e_now e - wt_start t)%Z else 0%Z) (m_act (act_upd b (set_stamp (if wt_ts_init t then (e_now e - wt_start t)%Z else 0%Z)) mm) b)) by (intros mm; rewrite act_upd_same; apply stamped_set).
    assert (SA : stamped (if wt_ts_init t then (e_now e - wt_start t)%Z else 0%Z) a') by (unfold stamped; rewrite S1, S2; apply SB).
    split.
    + intros p [<-|[<-|[]]].
      * rewrite act_upd_same. unfold stamp, clock_flag, clock_start, stamped. rewrite V1, V2. destruct (Nat.eq_dec a b) as [->|NE].
        { rewrite act_upd_same. exact SA. }
        rewrite act_upd_other by exact NE. rewrite act_upd_other by exact NE. rewrite act_upd_same. apply stamped_set.
      * destruct (Nat.eq_dec b a) as [->|NE].
        { rewrite act_upd_same. unfold stamp, clock_flag, clock_start, stamped. rewrite V1, V2. rewrite act_upd_same. exact SA. }
        rewrite act_upd_other by exact NE. rewrite act_upd_same. exact SA.
    + intros k0 n p q SW X Y ND. assert (NE : a <> b) by (inversion ND as [|? ? N1 N2]; subst; intros ->; apply N1; left; reflexivity).
      assert (NE' : b <> a) by congruence.
      destruct SW as [[-> ->]|[-> ->]]; cbn in X, Y; injection X as <-; injection Y as <-.
      * rewrite act_upd_other by exact NE'. rewrite act_upd_same. eexists. split; [exact SC|].
        repeat first [rewrite act_upd_same | rewrite (act_upd_other a b) by exact NE']. repeat split; reflexivity.
      * rewrite act_upd_same. eexists. split; [exact SC2|]. repeat first [rewrite act_upd_same | rewrite (act_upd_other b a) by exact NE]. repeat split; reflexivity.
  - intros [A _] [I _] E. rewrite A in I. destruct (len1 _ I) as [a ->].
    unfold wrap, belt_propagatePositionBackwards in E. cbn [vget nth_error bind] in E.
    destruct (belt_sizes dbg [a] js) as [?| | |]; cbn [bind] in E; try discriminate.
    destruct (vget js 0) as [j| | |] eqn:VJ; cbn [bind] in E; try discriminate.
    match type of E with context [if belt_rigid t then ?x else ?y] => destruct (if belt_rigid t then x else y) as [[? ?] ?] end.
    rewrite sim_clock_spec in E.
    match type of E with context [let '(_, _) := ?x in _] => destruct x as [ini start] eqn:CL end.
    match type of E with context [simcal_mem dbg ?c ?j ?a ?m] => destruct (simcal_mem dbg c j a m) as [[c' m2]| | |] eqn:SC end; cbn [bind] in E; try discriminate.
    injection E as <- <-. apply simcal_keeps in SC. destruct SC as (a' & -> & SC). assert (SS := SC). apply simulate_stamps in SS. destruct SS as (S1 & S2 & _).
    split; [exact (eq_sym CL)|]. split.
    + intros p [<-|[]]. rewrite act_upd_same. unfold stamped. rewrite S1, S2, act_upd_same. split; reflexivity.
    + intros k n p q [-> ->] X Y _. injection X as <-. unfold vget in VJ. rewrite Y in VJ. injection VJ as <-. rewrite act_upd_same.
      eexists. split; [exact SC|]. rewrite !act_upd_same. repeat split; reflexivity.
  - intros [A _] [I _] E. rewrite A in I. destruct (len1 _ I) as [a ->].
    unfold wrap, gripper_propagatePositionBackwards in E. cbn [vget nth_error bind] in E.
    destruct (cassert dbg _) as [?| | |]; cbn [bind] in E; try discriminate.
    destruct (cassert dbg _) as [?| | |]; cbn [bind] in E; try discriminate.
    destruct (vget js 0) as [j| | |] eqn:VJ; cbn [bind] in E; try discriminate.
    destruct (inverseGapStates t _) as [[[? ?] ?] ?].
    rewrite sim_clock_spec in E.
    match type of E with context [let '(_, _) := ?x in _] => destruct x as [ini start] eqn:CL end.
    match type of E with context [simcal_mem dbg ?c ?j ?a ?m] => destruct (simcal_mem dbg c j a m) as [[c' m2]| | |] eqn:SC end; cbn [bind] in E; try discriminate.
    injection E as <- <-. apply simcal_keeps in SC. destruct SC as (a' & -> & SC). assert (SS := SC). apply simulate_stamps in SS. destruct SS as (S1 & S2 & _).
    split; [exact (eq_sym CL)|]. split.
    + intros p [<-|[]]. rewrite act_upd_same. unfold stamped. rewrite S1, S2, act_upd_same. split; reflexivity.
    + intros k n p q [-> ->] X Y _. injection X as <-. unfold vget in VJ. rewrite Y in VJ. injection VJ as <-. rewrite act_upd_same.
      eexists. split; [exact SC|]. rewrite !act_upd_same. repeat split; reflexivity.
Qed.

(** the other calls leave clock and calibration simulators alone *)
Definition same_sim (t t' : transmission T) : Prop :=
  clock_flag t' = clock_flag t /\ clock_start t' = clock_start t /\ forall k, calibrator t' k = calibrator t k.
Lemma same_sim_refl t : same_sim t t.
Proof. repeat split. Qed.
Lemma keep_sim (t : transmission T) (x : res (mem T)) t' m' : keep t x = Ok (t', m') -> same_sim t t'.
Proof. unfold keep. intros E. destruct x as [m| | |]; cbn [bind] in E; try discriminate. injection E as <- <-. apply same_sim_refl. Qed.
Ltac open E := repeat first
  [ discriminate
  | match type of E with bind ?x _ = _ => destruct x as [?| | |]; cbn [bind] in E end
  | match type of E with context [let '(_, _) := ?x in _] => destruct x as [? ?] end ].
Lemma position_sim t i o m t' m' : tr_position K t i o m = Ok (t', m') -> same_sim t t'.
Proof.
  destruct t as [t|t|t|t]; cbn [tr_position builtin]; intros E; try (exact (keep_sim _ _ _ _ E)).
  unfold wrap in E. destruct (belt_propagatePosition dbg t i o m) as [[t1 m1]| | |] eqn:B; cbn [bind] in E; try discriminate. injection E as <- <-.
  unfold belt_propagatePosition in B. cbv zeta in B. open B. injection B as <- <-. repeat split.
Qed.
Lemma effort_sim t i o m t' m' : tr_effort K t o i m = Ok (t', m') -> same_sim t t'.
Proof.
  destruct t as [t|t|t|t]; cbn [tr_effort builtin]; intros E; try (exact (keep_sim _ _ _ _ E)).
  unfold wrap in E. destruct (belt_propagateEffort dbg t o i m) as [[t1 m1]| | |] eqn:B; cbn [bind] in E; try discriminate. injection E as <- <-.
  unfold belt_propagateEffort in B. cbv zeta in B. open B. injection B as <- <-. repeat split.
Qed.
Lemma effortBack_sim t i o m t' m' : tr_effortBackwards K t i o m = Ok (t', m') -> same_sim t t'.
Proof.
  destruct t as [t|t|t|t]; cbn [tr_effortBackwards builtin]; intros E; try (exact (keep_sim _ _ _ _ E)).
  unfold wrap in E. destruct (belt_propagateEffortBackwards dbg t i o m) as [[t1 m1]| | |] eqn:B; cbn [bind] in E; try discriminate. injection E as <- <-.
  unfold belt_propagateEffortBackwards in B. cbv zeta in B. open B. injection B as <- <-. repeat split.
Qed.

(** so does initialisation *)
Lemma init_sim R e h t0 t h' : is_new t0 -> tr_initXml K R e h t0 = Ok (Some t, h') -> same_sim t0 t.
Proof.
  destruct t0 as [t0|t0|t0|t0]; cbn [is_new tr_initXml builtin].
  - intros (g1 & g2 & b & c & ->) E. unfold wrapi in E.
    destruct (simple_initXml P R e h (new_simple g1 g2 b c)) as [[[t1|] h1]| | |] eqn:B; cbn [bind] in E; try discriminate. injection E as <- <-.
    destruct (C76_refuses P R e h g1 g2 b c) as [X _]. destruct (X _ _ B) as (jn & an & a & s & V).
    destruct (C76_accepts P R e h g1 g2 b c jn an a s V) as (t2 & h2 & B2 & _ & _ & Y1 & Y2 & Y3). rewrite B in B2. injection B2 as <- <-.
    repeat split; auto.
  - intros (b & c0 & c1 & ->) E. unfold wrapi in E.
    destruct (wrist_initXml P R e h (new_wrist b c0 c1)) as [[[t1|] h1]| | |] eqn:B; cbn [bind] in E; try discriminate. injection E as <- <-.
    assert (WA : forall f tag h t t' h', wrist_actuator P f e tag h t = (Some t', h') -> wt_ts_init t' = wt_ts_init t /\ wt_start t' = wt_start t /\ wt_cal0 t' = wt_cal0 t /\ wt_cal1 t' = wt_cal1 t).
    { intros f tag hh t t' hh'. unfold wrist_actuator. destruct (FirstChildElement e tag) as [x|]; [|discriminate]. destruct (Attribute x "name"); [|discriminate].
      destruct (f s); [|discriminate]. destruct (Attribute x "mechanicalReduction"); [|discriminate]. intros [= <- <-]. auto. }
    assert (WJ : forall f tag t t' j, wrist_joint P f e tag t = Ok (Some (t', j)) -> wt_ts_init t' = wt_ts_init t /\ wt_start t' = wt_start t /\ wt_cal0 t' = wt_cal0 t /\ wt_cal1 t' = wt_cal1 t).
    { intros f tag t t' j. unfold wrist_joint. destruct (deref _) as [x| | |]; cbn [bind]; try discriminate. destruct (Attribute x "name"); [|discriminate].
      destruct (f s); [|discriminate]. destruct (Attribute x "mechanicalReduction"); [|discriminate]. intros [= <- <-]. auto. }
    unfold wrist_initXml in B. cbv zeta in B.
    destruct (wrist_actuator P _ e "rightActuator" h _) as [[ta|] ha] eqn:E1; [|discriminate].
    destruct (wrist_actuator P _ e "leftActuator" ha ta) as [[tb|] hb] eqn:E2; [|discriminate].
    destruct (wrist_joint P _ e "flexJoint" tb) as [[[tc jc]|]| | |] eqn:E3; cbn [bind] in B; try discriminate.
    destruct (wrist_offset P (Attribute jc "offset")) as [o0|]; [|discriminate].
    destruct (wrist_joint P _ e "rollJoint" (set_wt_off0 o0 tc)) as [[[td jd]|]| | |] eqn:E4; cbn [bind] in B; try discriminate.
    destruct (wrist_offset P (Attribute jd "offset")) as [o1|]; [|discriminate]. injection B as <- <-.
    apply WA in E1, E2. apply WJ in E3, E4. cbn in E1, E4. 
    destruct E1 as (A1 & A2 & A3 & A4), E2 as (B1 & B2 & B3 & B4), E3 as (C1 & C2 & C3 & C4), E4 as (D1 & D2 & D3 & D4).
    unfold same_sim. cbn. split; [congruence|]. split; [congruence|]. intros [|k]; congruence.
  - intros [N1 N2] E. unfold wrapi in E.
    destruct (belt_initXml P R e h t0) as [[[t1|] h1]| | |] eqn:B; cbn [bind] in E; try discriminate. injection E as <- <-.
    unfold belt_initXml in B. cbv zeta in B.
    destruct (match FirstChildElement e "joint" with Some jel => Attribute jel "name" | None => None end) as [jn|]; [|discriminate].
    destruct (rv_joint R jn); [|discriminate].
    destruct (match FirstChildElement e "actuator" with Some ael => Attribute ael "name" | None => None end) as [an|]; [|discriminate].
    destruct (rv_actuator R an); [|discriminate].
    destruct (belt_params P e _) as [o| | |] eqn:BP; cbn [bind] in B; try discriminate. injection B as -> <-.
    unfold belt_params in BP. destruct (deref (FirstChildElement e "mechanicalReduction")) as [x| | |]; cbn [bind] in BP; try discriminate.
    destruct (deref (GetText x)) as [y| | |]; cbn [bind] in BP; try discriminate.
    destruct (FirstChildElement e "compensator") as [z|]; [|discriminate].
    repeat match type of BP with context [match Attribute z ?s with _ => _ end] => destruct (Attribute z s); [|discriminate] end.
    injection BP as <-. repeat split.
  - intros (g & b & c & ->) E. unfold wrapi in E.
    destruct (gripper_initXml P R e h (new_gripper g b c)) as [[[t1|] h1]| | |] eqn:B; cbn [bind] in E; try discriminate. injection E as <- <-.
    destruct (C78_refuses P R e h g b c) as (r & h2 & B2 & X & _). rewrite B in B2. injection B2 as <- <-.
    destruct X as (an & a & js & V1 & V2 & V3 & V4); [discriminate|].
    destruct (C78_accepts P R e h g b c an a js V1 V2 V3 V4) as (t2 & h3 & B3 & _ & _ & Y1 & Y2 & Y3). rewrite B in B3. injection B3 as <- <-.
    repeat split; auto.
Qed.

(** one call of a robot's loop, for one transmission *)
Lemma over_nth (f : transmission T -> list nat -> list nat -> mem T -> res (transmission T * mem T)) : forall ts ins outs m ts' m',
  over_transmissions f ts ins outs m = Ok (ts', m') -> forall i t, nth_error ts i = Some t ->
  exists as_ js ma t' mb, nth_error ins i = Some as_ /\ nth_error outs i = Some js /\ f t as_ js ma = Ok (t', mb) /\ nth_error ts' i = Some t'.
Proof.
  induction ts as [|t0 ts IH]; intros ins outs m ts' m' E i t X; [destruct i; discriminate|]. cbn [over_transmissions] in E.
  destruct ins as [|a ins]; [discriminate|]. destruct outs as [|o outs]; [discriminate|].
  destruct (f t0 a o m) as [[t1 m1]| | |] eqn:F; cbn [bind] in E; try discriminate.
  destruct (over_transmissions f ts ins outs m1) as [[r m2]| | |] eqn:O; cbn [bind] in E; try discriminate. injection E as <- <-.
  destruct i as [|i]; cbn in X |- *.
  - injection X as <-. exists a, o, m, t1, m1. auto.
  - destruct (IH _ _ _ _ _ O i t X) as (as_ & js & ma & t' & mb & Y). exists as_, js, ma, t', mb. exact Y.
Qed.

Definition plain (o : robot_op T) : Prop := match o with OpPositionBack _ => False | _ => True end.
Lemma run_cons s o ops ts m : run_ops K s (o :: ops) ts m = bind (run_ops K s [o] ts m) (fun '(ts, m) => run_ops K s ops ts m).
Proof.
  destruct o; cbn [run_ops]; try reflexivity; match goal with |- bind ?x _ = _ => destruct x as [y| | |]; cbn [bind]; try reflexivity end; destruct y; reflexivity.
Qed.
Lemma plain_step s o ts m ts' m' : plain o -> run_ops K s [o] ts m = Ok (ts', m') -> forall i t, nth_error ts i = Some t ->
  exists t', nth_error ts' i = Some t' /\ same_sim t t'.
Proof.
  intros PL E i t X. destruct o; cbn [run_ops] in E; try contradiction.
  - unfold propagateActuatorPositionToJointPosition in E.
    destruct (over_transmissions (fun t i o => tr_position K t i o) ts (rs_in s) (rs_out s) m) as [[t1 ma]| | |] eqn:O; cbn [bind] in E; try discriminate.
    destruct (over_joints update_statistics _ ma) as [mb| | |]; cbn [bind] in E; try discriminate. injection E as <- <-.
    destruct (over_nth _ _ _ _ _ _ _ O i t X) as (as_ & js & mx & t' & my & _ & _ & F & Y). exists t'. split; auto. eapply position_sim; eauto.
  - destruct (zeroCommands s m); cbn [bind] in E; try discriminate. injection E as <- <-. exists t. split; auto. apply same_sim_refl.
  - destruct (enforceSafety s m); cbn [bind] in E; try discriminate. injection E as <- <-. exists t. split; auto. apply same_sim_refl.
  - unfold propagateJointEffortToActuatorEffort in E.
    destruct (over_transmissions (fun t i o => tr_effort K t o i) ts (rs_in s) (rs_out s) m) as [[t1 ma]| | |] eqn:O; cbn [bind] in E; try discriminate. injection E as <- <-.
    destruct (over_nth _ _ _ _ _ _ _ O i t X) as (as_ & js & mx & t' & my & _ & _ & F & Y). exists t'. split; auto. eapply effort_sim; eauto.
  - injection E as <- <-. exists t. split; auto. apply same_sim_refl.
  - unfold propagateActuatorEffortToJointEffort in E.
    destruct (over_transmissions (fun t i o => tr_effortBackwards K t i o) ts (rs_in s) (rs_out s) m) as [[t1 ma]| | |] eqn:O; cbn [bind] in E; try discriminate. injection E as <- <-.
    destruct (over_nth _ _ _ _ _ _ _ O i t X) as (as_ & js & mx & t' & my & _ & _ & F & Y). exists t'. split; auto. eapply effortBack_sim; eauto.
Qed.

(** the clock after a history *)
Definition tick (c : bool * Z) (e : env) : bool * Z := if fst c then c else if e_started e then (true, e_now e) else c.
Definition clock (t : transmission T) : bool * Z := (clock_flag t, clock_start t).
Lemma tick_ticked e t t' : ticked e t t' -> clock t' = tick (clock t) e.
Proof. unfold ticked, clock, tick. cbn. intros ->. destruct (clock_flag t); [reflexivity|]. destruct (e_started e); reflexivity. Qed.

Lemma run_clock s : forall ops ts m ts' m', all_fit true dbg P ts (rs_in s) (rs_out s) -> (forall o q, In o (rs_out s) -> In q o -> q < rs_size s) ->
  (forall p, In p (seq 0 (rs_size s)) -> js_joint (m_js m p) <> None) -> Forall fair_op ops -> run_ops K s ops ts m = Ok (ts', m') ->
  forall i t, nth_error ts i = Some t -> exists t', nth_error ts' i = Some t' /\ clock t' = fold_left tick (clock_readings ops) (clock t).
Proof.
  induction ops as [|o ops IH]; intros ts m ts' m' FIT OUT JN FO E i t X.
  { cbn in E. injection E as <- <-. exists t. auto. }
  rewrite run_cons in E. destruct (run_ops K s [o] ts m) as [[t1 ma]| | |] eqn:O; cbn [bind] in E; try discriminate.
  inversion FO as [|? ? FOo FO']; subst.
  destruct (run_ops_fine dbg P true s [o] ts m FIT OUT JN) as (t2 & m2 & R1 & FIT1 & _ & SJ); [repeat constructor; auto|repeat constructor; auto|].
  rewrite O in R1. injection R1 as <- <-.
  assert (JN1 : forall p, In p (seq 0 (rs_size s)) -> js_joint (m_js ma p) <> None) by (intros p IP; rewrite SJ; auto).
  assert (ST : exists u, nth_error t1 i = Some u /\ clock u = fold_left tick (clock_readings [o]) (clock t)).
  { destruct (match o as o0 return {plain o0} + {~ plain o0} with OpPositionBack _ => right (fun x => x) | _ => left I end) as [PL|NP].
    - destruct (plain_step _ _ _ _ _ _ PL O i t X) as (u & Y & S1 & S2 & _). exists u. split; auto. destruct o; try contradiction; cbn [clock_readings fold_left]; unfold clock; rewrite S1, S2; reflexivity.
    - destruct o; cbn [plain] in NP; try tauto. cbn [run_ops] in O.
      destruct (propagateJointPositionToActuatorPosition K e s ts m) as [[tx mx]| | |] eqn:OV; cbn [bind] in O; try discriminate. injection O as -> ->.
      unfold propagateJointPositionToActuatorPosition in OV.
      destruct (over_nth _ _ _ _ _ _ _ OV i t X) as (as_ & js & my & u & mz & IA & IO & F & Y). exists u. split; auto. cbn. apply tick_ticked.
      destruct FIT as (RD & FI & FJ).
      assert (FT : fits dbg P t as_ js).
      { split.
        - clear - FI X IA. revert i X IA. induction FI as [|x y a b Q FI IH]; intros [|i] X IA; try discriminate; cbn in *; [injection X as ->; injection IA as ->; exact Q|eauto].
        - clear - FJ X IO. revert i X IO. induction FJ as [|x y a b Q FI IH]; intros [|i] X IA; try discriminate; cbn in *; [injection X as ->; injection IA as ->; exact Q|eauto]. }
      apply (back_detail e t as_ js my u mz (proj1 (Forall_forall _ _) RD _ (nth_error_In _ _ X)) FT F). }
  destruct ST as (u & Y & C1). destruct (IH _ _ _ _ FIT1 OUT JN1 FO' E i u Y) as (t' & Z & C2). exists t'. split; auto.
  rewrite C2, C1. destruct o; reflexivity.
Qed.

Lemma tick_true es s0 : fold_left tick es (true, s0) = (true, s0).
Proof. induction es; auto. Qed.
Lemma clock_elapsed e s0 : forall es, elapsed es e (if fst (fold_left tick es (false, s0)) then (e_now e - snd (fold_left tick es (false, s0)))%Z else 0%Z).
Proof.
  induction es as [|x es IH]; [cbn; constructor; intros ? []|]. cbn [fold_left]. unfold tick at 2 4. cbn [fst]. destruct (e_started x) eqn:S.
  - rewrite tick_true. cbn [fst snd]. apply since with (pre := []) (post := es); auto. intros ? [].
  - inversion IH as [A B|pre e0 post A B C D].
    + constructor. intros y [<-|I]; auto.
    + apply since with (pre := x :: pre) (post := post); auto; [rewrite A; reflexivity|]. intros y [<-|I]; auto.
Qed.
End Clock.

Section C79.
Context {T : Type} {N : Num T} {G : Trig T}.
Variables (dbg : bool) (P : parsers T) (L : loader (transmission T)).
Hypothesis HL : forall c t, ld_create L c = Some t -> is_new t.
Notation K := (builtin dbg P).
(** a robot that was loaded from a description, and then ran for any time under any calls *)
Variables (urdf : xml -> option (string -> option (ujoint T))) (root : xml) (h h' : nat -> actuator T) (hw : hwif) (r : robot (transmission T) T)
  (g : T) (m0 m1 : mem T) (s : rstate) (ops : list (robot_op T)) (ts : list (transmission T)) (m : mem T).
Hypothesis LOADED : robot_initXml K L urdf root h (new_robot (Some hw)) = Ok (true, r, h').
Hypothesis SIM : forall e, In e (ChildElements root "transmission") -> simulatable P L e.
Hypothesis NS : new_robotstate K dbg g r m0 = Ok (s, m1).
Hypothesis FAIR : Forall fair_op ops.
Hypothesis RUN : run_ops K s ops (rb_transmissions r) m1 = Ok (ts, m).

Lemma created i t : nth_error (rb_transmissions r) i = Some t -> exists c t0, ld_create L c = Some t0 /\ same_sim t0 t.
Proof.
  intros X. destruct (C41_loaded_in_document_order dbg P L HL _ _ _ _ _ _ _ LOADED) as ([A _] & _ & Y). destruct (A eq_refl) as [_ U].
  destruct (urdf root) as [joints|] eqn:UR; [|congruence]. destruct (Y hw joints eq_refl eq_refl) as (_ & _ & picks & F & TS).
  apply nth_error_In in X. rewrite TS in X. cbn [new_robot rb_transmissions app] in X. clear - X F HL.
  induction F as [|e o els picks Fo F IH]; [destruct X|]. cbn [flat_map] in X. apply in_app_or in X. destruct X as [X|X]; [|exact (IH X)].
  destruct o as [t1|]; [|destruct X]. destruct X as [->|[]]. destruct Fo as (ty & c & t0 & hh & hh' & _ & _ & _ & CR & IN). exists c, t0. split; auto.
  eapply init_sim; eauto.
Qed.

Lemma running : rb_hw r = Some hw /\ (forall i t, nth_error ts i = Some t -> ready true t /\ forall as_ js, nth_error (rs_in s) i = Some as_ -> nth_error (rs_out s) i = Some js -> fits dbg P t as_ js) /\
  (forall i t, nth_error (rb_transmissions r) i = Some t -> exists t', nth_error ts i = Some t' /\ clock t' = fold_left tick (clock_readings ops) (clock t)) /\
  List.length ts = List.length (rs_in s) /\ List.length ts = List.length (rb_transmissions r).
Proof.
  destruct (loaded_fit dbg P L HL true _ _ _ _ _ _ _ _ _ _ LOADED (fun e I => proj1 (SIM e I)) (fun _ => SIM) NS) as (FIT & JN & HW & OUT).
  destruct (run_ops_fine dbg P true s ops _ m1 FIT OUT JN FAIR) as (ts1 & m2 & R1 & (RD & FI & FJ) & PA & SJ).
  { clear. induction ops; constructor; auto. }
  rewrite RUN in R1. injection R1 as <- <-. split; [exact HW|]. split.
  { intros i t X. split; [exact (proj1 (Forall_forall _ _) RD _ (nth_error_In _ _ X))|]. intros as_ js IA IO. split.
    - clear - FI X IA. revert i X IA. induction FI as [|x y a b Q FI IH]; intros [|i] X IA; try discriminate; cbn in *; [injection X as ->; injection IA as ->; exact Q|eauto].
    - clear - FJ X IO. revert i X IO. induction FJ as [|x y a b Q FI IH]; intros [|i] X IA; try discriminate; cbn in *; [injection X as ->; injection IA as ->; exact Q|eauto]. }
  split; [exact (run_clock dbg P s ops _ _ _ _ FIT OUT JN FAIR RUN)|]. split; [exact (Forall2_length _ _ _ FI)|symmetry; exact (Forall2_length _ _ _ PA)].
Qed.

Lemma stamps_now e tb mb i as_ p : propagateJointPositionToActuatorPosition K e s ts m = Ok (tb, mb) -> nth_error (rs_in s) i = Some as_ ->
  exclusive (rs_in s) i -> In p as_ -> exists c t0, ld_create L c = Some t0 /\
    let ck := fold_left tick (clock_readings ops) (clock t0) in stamped (if fst ck then (e_now e - snd ck)%Z else 0%Z) (m_act mb p).
Proof.
  intros E IA EX IP. destruct running as (HW & RDY & CK & LE & LE2).
  assert (exists t0, nth_error (rb_transmissions r) i = Some t0) as (t0 & X).
  { destruct (nth_error (rb_transmissions r) i) eqn:Q; eauto. apply nth_error_None in Q. assert (LT := nth_error_Some (rs_in s) i). rewrite IA in LT.
    assert (i < List.length (rs_in s)) by (apply LT; discriminate). lia. }
  destruct (CK i t0 X) as (t & Y & C). destruct (created i t0 X) as (c & t00 & CR & S1 & S2 & _). exists c, t00. split; [exact CR|].
  destruct (C72_simulated_position_one_by_one dbg P s e ts m tb mb E) as (_ & _ & _ & D).
  assert (exists js, nth_error (rs_out s) i = Some js) as (js & IO).
  { unfold propagateJointPositionToActuatorPosition in E. destruct (over_nth _ _ _ _ _ _ _ E i t Y) as (? & js & ? & ? & ? & _ & IO & _). eauto. }
  destruct (D i t as_ js Y IA IO EX) as (t1 & mt & F & _ & Q). rewrite (Q p IP).
  destruct (RDY i t Y) as [RD FT]. destruct (back_detail dbg P e t as_ js m t1 mt RD (FT _ _ IA IO) F) as (_ & ST & _).
  assert (CC : clock t00 = clock t0) by (unfold clock; congruence). cbv zeta. rewrite CC, <- C. exact (ST p IP).
Qed.

(** The stamp of a simulated actuator is the time since the first simulator call made with ROS running, if the transmission
    objects start with the flag cleared. *)
Theorem C79_simulated_time : forall e tb mb i as_ p, (forall c t, ld_create L c = Some t -> clock_flag t = false) ->
  propagateJointPositionToActuatorPosition K e s ts m = Ok (tb, mb) -> nth_error (rs_in s) i = Some as_ -> exclusive (rs_in s) i -> In p as_ ->
  elapsed (clock_readings ops) e (a_sample_timestamp (m_act mb p)) /\ a_timestamp (m_act mb p) = ntosec (a_sample_timestamp (m_act mb p)).
Proof.
  intros e tb mb i as_ p FL E IA EX IP. destruct (stamps_now e tb mb i as_ p E IA EX IP) as (c & t0 & CR & S1 & S2). rewrite S1, S2. split; [|reflexivity].
  unfold clock. rewrite (FL _ _ CR). apply clock_elapsed.
Qed.

(** No constructor and no initXml clears that flag: an object that happens to start with it set never measures from the
    start, but from the default start time. *)
Theorem C79_flag_never_cleared : forall e tb mb i as_ p z, (forall c t, ld_create L c = Some t -> clock_flag t = true /\ clock_start t = z) ->
  propagateJointPositionToActuatorPosition K e s ts m = Ok (tb, mb) -> nth_error (rs_in s) i = Some as_ -> exclusive (rs_in s) i -> In p as_ ->
  a_sample_timestamp (m_act mb p) = (e_now e - z)%Z.
Proof.
  intros e tb mb i as_ p z FL E IA EX IP. destruct (stamps_now e tb mb i as_ p E IA EX IP) as (c & t0 & CR & S1 & _). rewrite S1.
  unfold clock. destruct (FL _ _ CR) as [-> ->]. rewrite tick_true. reflexivity.
Qed.
End C79.

(** Stamps never decrease while the clock does not run backwards, and are never negative. *)
Theorem C79_monotone : forall es es' a b z z', forward (es ++ a :: es' ++ [b]) -> elapsed es a z -> elapsed (es ++ a :: es') b z' -> (0 <= z <= z')%Z.
Proof.
  intros es es' a b z z' FW E E'.
  assert (LEQ : forall x l y l', (forall w, In w (x :: l) -> True) -> StronglySorted (fun a b => (e_now a <= e_now b)%Z) (l' ++ x :: l) -> In y l -> (e_now x <= e_now y)%Z).
  { intros x l y l' _ SS I. induction l' as [|u l' IH]; cbn in SS; inversion SS as [|? ? S1 S2]; subst; auto. rewrite Forall_forall in S2. auto. }
  inversion E as [A B|pre e0 post A B C D]; inversion E' as [A' B'|pre' e0' post' A' B' C' D']; subst.
  - lia.
  - (* the first started call is [a] or later *)
    split; [lia|]. unfold forward in FW. replace (es ++ a :: es' ++ [b])%list with (pre' ++ e0' :: (post' ++ [b]))%list in FW.
    + assert (H := LEQ e0' (post' ++ [b])%list b pre' (fun _ _ => I) FW ltac:(apply in_or_app; right; left; reflexivity)). lia.
    + change (pre' ++ e0' :: post' ++ [b])%list with (pre' ++ (e0' :: post') ++ [b])%list. rewrite app_assoc, <- A', <- app_assoc. reflexivity.
  - exfalso. assert (e_started e0 = false) by (apply A'; apply in_or_app; left; apply in_or_app; right; left; reflexivity). congruence.
  - assert (pre' = pre /\ e0' = e0) as [-> ->].
    { clear - A' B C B' C'. rewrite <- app_assoc in A'. cbn in A'. revert pre' A' B'. induction pre as [|x pre IH]; intros [|y pre'] A' B'; cbn in A'; injection A' as -> A'.
      - auto.
      - rewrite (B' y (or_introl eq_refl)) in C. discriminate.
      - rewrite (B e0' (or_introl eq_refl)) in C'. discriminate.
      - destruct (IH (fun e I => B e (or_intror I)) pre' A' (fun e I => B' e (or_intror I))) as [-> ->]. auto. }
    unfold forward in FW. rewrite <- app_assoc in FW. cbn [app] in FW.
    assert (H1 := LEQ e0 _ a pre (fun _ _ => I) FW ltac:(apply in_or_app; right; left; reflexivity)).
    assert (FW2 : StronglySorted (fun a b : env => (e_now a <= e_now b)%Z) ((pre ++ e0 :: post) ++ a :: es' ++ [b])) by (rewrite <- app_assoc; exact FW).
    assert (H2 := LEQ a (es' ++ [b])%list b _ (fun _ _ => I) FW2 ltac:(apply in_or_app; right; left; reflexivity)). lia.
Qed.

(** ** C80 *)
Section C80.
Variables (dbg : bool) (P : parsers R) (L : loader (transmission R)).
Hypothesis HL : forall c t, ld_create L c = Some t -> is_new t.
Hypothesis FRESH : forall c t k, ld_create L c = Some t -> exists g1 g2 g3 g4 b1 b2, calibrator t k = new_calsim g1 g2 g3 g4 b1 b2.
Notation K := (builtin dbg P).
Variables (urdf : xml -> option (string -> option (ujoint R))) (root : xml) (h h' : nat -> actuator R) (hw : hwif) (r : robot (transmission R) R)
  (g : R) (m0 m1 : mem R) (s : rstate).
Hypothesis LOADED : robot_initXml K L urdf root h (new_robot (Some hw)) = Ok (true, r, h').
Hypothesis SIM : forall e, In e (ChildElements root "transmission") -> simulatable P L e.
Hypothesis NS : new_robotstate K dbg g r m0 = Ok (s, m1).
Variables (e : nat -> env) (ops : nat -> list (robot_op R)) (ts ts' : nat -> list (transmission R)) (before after : nat -> mem R).
Hypothesis RUN : simulation K s (rb_transmissions r) m1 e ops ts ts' before after.
Hypothesis FAIR : forall n, Forall fair_op (ops n).
(** joint number [k] of transmission [i] is joint pointer [q], described by [u]; its switch is on actuator [p] *)
Variables (i k n : nat) (t0 : transmission R) (as_ js : list nat) (p q : nat) (u : ujoint R).
Hypothesis HT : nth_error (rb_transmissions r) i = Some t0.
Hypothesis HSW : switch_of t0 k n.
Hypothesis HA : nth_error (rs_in s) i = Some as_.
Hypothesis HJ : nth_error (rs_out s) i = Some js.
Hypothesis HP : nth_error as_ n = Some p.
Hypothesis HQ : nth_error js k = Some q.
Hypothesis OWN : own (rs_in s) i.
Hypothesis HU : js_joint (m_js m1 q) = Some u.
Hypothesis LEAVE : forall n, Forall (leaves_switch p) (ops n).

Definition same_switch (a b : actuator R) : Prop := same_edges a b /\ a_calibration_reading b = a_calibration_reading a.
Lemma same_switch_refl a : same_switch a a.
Proof. repeat split. Qed.
Lemma same_switch_trans a b c : same_switch a b -> same_switch b c -> same_switch a c.
Proof. intros [(A1 & A2 & A3 & A4) A5] [(B1 & B2 & B3 & B4) B5]. repeat split; congruence. Qed.
Lemma command_switch (a b : actuator R) : all_but_command b a -> same_switch a b.
Proof.
  intros H. specialize (H true 0%R). assert (F : forall {A} (f : actuator R -> A), f (set_a_enable true (set_a_effort 0%R b)) = f (set_a_enable true (set_a_effort 0%R a))) by (intros; now rewrite H).
  split; [split; [|split; [|split]]|]; [exact (F _ a_rising_valid)|exact (F _ a_last_rising)|exact (F _ a_falling_valid)|exact (F _ a_last_falling)|exact (F _ a_calibration_reading)].
Qed.
Lemma step_switch o tx mx ty my : leaves_switch p o -> run_ops K s [o] tx mx = Ok (ty, my) -> same_switch (m_act mx p) (m_act my p).
Proof.
  intros LV E. destruct o; cbn [run_ops] in E; try contradiction.
  - destruct (propagateActuatorPositionToJointPosition K s tx mx) as [[t1 ma]| | |] eqn:O; cbn [bind] in E; try discriminate. injection E as <- <-.
    destruct (loaded_fit dbg P L HL true _ _ _ _ _ _ _ _ _ _ LOADED (fun e I => proj1 (SIM e I)) (fun _ => SIM) NS) as (_ & _ & HW & _).
    destruct (C72_position_one_by_one dbg P g r hw m0 m1 s HW NS _ _ _ _ O) as (A & _). rewrite A. apply same_switch_refl.
  - destruct (zeroCommands s mx) as [ma| | |] eqn:O; cbn [bind] in E; try discriminate. injection E as <- <-.
    unfold zeroCommands in O. apply over_joints_spec in O; [|apply seq_NoDup]. destruct O as [-> _]. apply same_switch_refl.
  - destruct (enforceSafety s mx) as [ma| | |] eqn:O; cbn [bind] in E; try discriminate. injection E as <- <-.
    unfold enforceSafety in O. apply over_joints_spec in O; [|apply seq_NoDup]. destruct O as [-> _]. apply same_switch_refl.
  - destruct (propagateJointEffortToActuatorEffort K s tx mx) as [[t1 ma]| | |] eqn:O; cbn [bind] in E; try discriminate. injection E as <- <-.
    destruct (C72_effort_one_by_one dbg P s _ _ _ _ O) as (_ & B & _). apply command_switch. apply B.
  - injection E as <- <-. apply LV.
  - destruct (propagateActuatorEffortToJointEffort K s tx mx) as [[t1 ma]| | |] eqn:O; cbn [bind] in E; try discriminate. injection E as <- <-.
    destruct (loaded_fit dbg P L HL true _ _ _ _ _ _ _ _ _ _ LOADED (fun e I => proj1 (SIM e I)) (fun _ => SIM) NS) as (_ & _ & HW & _).
    destruct (C72_simulated_effort_one_by_one dbg P g r hw m0 m1 s HW NS _ _ _ _ O) as (A & _). rewrite A. apply same_switch_refl.
Qed.

(** the facts that hold at every point *)
Definition at_point (tx : list (transmission R)) (mx : mem R) : Prop :=
  all_fit true dbg P tx (rs_in s) (rs_out s) /\ js_joint (m_js mx q) = Some u /\
  (forall x, In x (seq 0 (rs_size s)) -> js_joint (m_js mx x) <> None) /\ exists t, nth_error tx i = Some t /\ switch_of t k n.
Lemma outs_bounded : forall o x, In o (rs_out s) -> In x o -> x < rs_size s.
Proof. exact (proj2 (proj2 (proj2 (loaded_fit dbg P L HL true _ _ _ _ _ _ _ _ _ _ LOADED (fun e I => proj1 (SIM e I)) (fun _ => SIM) NS)))). Qed.
Lemma switch_same (t t2 : transmission R) : same_parameters t t2 -> switch_of t k n -> switch_of t2 k n.
Proof. destruct t, t2; cbn; auto; contradiction. Qed.
Lemma run_point os tx mx ty my : Forall fair_op os -> at_point tx mx -> run_ops K s os tx mx = Ok (ty, my) -> at_point ty my.
Proof.
  intros FO (FIT & JQ & JN & t & X & SW) E.
  destruct (run_ops_fine dbg P true s os tx mx FIT outs_bounded JN FO) as (t2 & m2 & R1 & FIT1 & PA & SJ).
  { clear. induction os; constructor; auto. }
  rewrite E in R1. injection R1 as <- <-. split; [exact FIT1|]. split; [rewrite SJ; exact JQ|]. split; [intros x I; rewrite SJ; auto|].
  assert (exists t2, nth_error ty i = Some t2 /\ same_parameters t t2) as (t2 & NT & SP).
  { clear - PA X. revert i X. induction PA as [|x y a b Q PA IH]; intros [|i] X; try discriminate; cbn in *; [injection X as ->; eauto|eauto]. }
  exists t2. split; [exact NT|]. eapply switch_same; eauto.
Qed.
Lemma run_plain : forall os tx mx ty my, Forall (leaves_switch p) os -> run_ops K s os tx mx = Ok (ty, my) ->
  same_switch (m_act mx p) (m_act my p) /\ forall t, nth_error tx i = Some t -> exists t2, nth_error ty i = Some t2 /\ calibrator t2 k = calibrator t k.
Proof.
  induction os as [|o os IH]; intros tx mx ty my LV E.
  { cbn in E. injection E as <- <-. split; [apply same_switch_refl|eauto]. }
  rewrite run_cons in E. destruct (run_ops K s [o] tx mx) as [[tz mz]| | |] eqn:O; cbn [bind] in E; try discriminate.
  inversion LV as [|? ? LVo LV']; subst. destruct (IH _ _ _ _ LV' E) as [S1 C1]. assert (S0 := step_switch _ _ _ _ _ LVo O).
  split; [eapply same_switch_trans; eauto|]. intros t X.
  destruct (plain_step dbg P s o tx mx tz mz ltac:(destruct o; cbn in *; auto) O i t X) as (t2 & Y & _ & _ & C2).
  destruct (C1 t2 Y) as (t3 & Z & C3). exists t3. split; auto. congruence.
Qed.

Lemma points : (forall j, at_point (ts j) (before j)) /\ (forall j, at_point (ts' j) (after j)).
Proof.
  destruct RUN as (R0 & R1 & R2).
  assert (BACK : forall j, at_point (ts j) (before j) -> at_point (ts' j) (after j)).
  { intros j A. apply (run_point [OpPositionBack (e j)] (ts j) (before j)); [repeat constructor|exact A|]. cbn [run_ops]. rewrite R1. reflexivity. }
  assert (B : forall j, at_point (ts j) (before j)).
  { induction j as [|j IH].
    - apply (run_point (ops 0%nat) (rb_transmissions r) m1); auto.
      destruct (loaded_fit dbg P L HL true _ _ _ _ _ _ _ _ _ _ LOADED (fun e I => proj1 (SIM e I)) (fun _ => SIM) NS) as (FIT & JN & _).
      split; [exact FIT|]. split; [exact HU|]. split; [exact JN|]. exists t0. auto.
    - apply (run_point (ops (S j)) (ts' j) (after j)); auto. }
  split; auto.
Qed.

Definition restored (a b : actuator R) : actuator R :=
  set_a_calibration_reading (a_calibration_reading a) (set_a_rising_valid (a_rising_valid a) (set_a_falling_valid (a_falling_valid a)
    (set_a_last_rising (a_last_rising a) (set_a_last_falling (a_last_falling a) b)))).
Lemma restored_eq (a a0 b : actuator R) : same_switch a a0 -> same_but_calibration a0 b -> restored a b = a0.
Proof. intros [(A1 & A2 & A3 & A4) A5] (? & ? & ? & ? & ? & ->). unfold restored. rewrite <- A1, <- A2, <- A3, <- A4, <- A5. destruct a0. reflexivity. Qed.

Definition sim_of (j : nat) : calsim R := calibrator (nth i (ts j) t0) k.
Lemma nth_of j t : nth_error (ts j) i = Some t -> sim_of j = calibrator t k.
Proof. intros X. unfold sim_of. now rewrite (nth_error_nth _ _ _ X). Qed.

Lemma one_call j : exists t1, nth_error (ts' j) i = Some t1 /\
  simulateJointCalibration dbg (sim_of j) (m_js (before j) q) (restored (m_act (before j) p) (m_act (after j) p)) = Ok (calibrator t1 k, m_act (after j) p).
Proof.
  destruct points as [PB _]. destruct (PB j) as ((RD & FI & FJ) & JQ & JN & t & X & SW). destruct RUN as (_ & R1 & _). specialize (R1 j).
  destruct (C72_simulated_position_one_by_one dbg P s _ _ _ _ _ R1) as (_ & _ & _ & D). destruct (D i t as_ js X HA HJ (proj1 OWN)) as (t1 & mt & F & Y & Q).
  assert (FT : fits dbg P t as_ js).
  { split.
    - clear - FI X HA. revert i X HA. induction FI as [|x y a b Q FI IH]; intros [|i] X IA; try discriminate; cbn in *; [injection X as ->; injection IA as ->; exact Q|eauto].
    - clear - FJ X HJ. revert i X HJ. induction FJ as [|x y a b Q FI IH]; intros [|i] X IA; try discriminate; cbn in *; [injection X as ->; injection IA as ->; exact Q|eauto]. }
  destruct (back_detail dbg P _ t as_ js _ t1 mt (proj1 (Forall_forall _ _) RD _ (nth_error_In _ _ X)) FT F) as (_ & _ & SWD).
  destruct (SWD k n p q SW HP HQ (proj2 OWN _ HA)) as (a0 & E & S1 & S2).
  exists t1. split; [exact Y|]. rewrite (nth_of j t X). rewrite (Q p (nth_error_In _ _ HP)).
  destruct (simulate_total dbg (calibrator t k) (m_js (before j) q) a0) as (c1 & a1 & E1 & SB); [congruence|]. rewrite E in E1. injection E1 as <- <-.
  rewrite (restored_eq _ a0 _ (conj S1 S2) SB). exact E.
Qed.

Lemma switch_history : cal_history dbg u sim_of (fun j => m_js (before j) q) (fun j => restored (m_act (before j) p) (m_act (after j) p)) (fun j => m_act (after j) p).
Proof.
  destruct points as [PB PA]. destruct RUN as (R0 & R1 & R2). split; [|split; [|split]].
  - destruct (created dbg P L HL _ _ _ _ _ _ LOADED i t0 HT) as (c & t00 & CR & _ & _ & C1).
    destruct (run_plain _ _ _ _ _ (LEAVE 0%nat) R0) as [_ C2]. destruct (C2 t0 HT) as (t2 & Y & C3). rewrite (nth_of 0 t2 Y), C3, C1. apply (FRESH _ _ k CR).
  - intros j. apply (PB j).
  - intros j. destruct (one_call j) as (t1 & Y & E). rewrite E. destruct (run_plain _ _ _ _ _ (LEAVE (S j)) (R2 j)) as [_ C2]. destruct (C2 t1 Y) as (t2 & Z & C3).
    now rewrite (nth_of (S j) t2 Z), C3.
  - intros j. destruct (run_plain _ _ _ _ _ (LEAVE (S j)) (R2 j)) as [(S & S') _]. exact (conj S S').
Qed.

(** The switch of a joint with travel limits reads high exactly above its rising reference (below its falling one if it has
    only that); without references the reading stays what it was. *)
Theorem C80_reading_limited : ~ continuous u -> forall j,
  (forall x, rising_of u = Some x -> (a_calibration_reading (m_act (after j) p) = true <-> (x < cpos (m_js (before j) q))%R)) /\
  (forall x, rising_of u = None -> falling_of u = Some x -> (a_calibration_reading (m_act (after j) p) = true <-> (cpos (m_js (before j) q) < x)%R)) /\
  (rising_of u = None -> falling_of u = None -> a_calibration_reading (m_act (after j) p) = a_calibration_reading (m_act (before 0%nat) p)).
Proof. intros NC j. exact (C52_reading_limited _ _ _ _ _ _ switch_history NC j). Qed.
(** The switch of a continuous joint reads high between a rising and the next falling reference, low between a falling and the
    next rising one. *)
Theorem C80_reading_continuous : forall x y, continuous u -> turn_references u x y -> forall j x' y', rising_at u x' -> falling_at u y' ->
  ((x' < cpos (m_js (before j) q) < y')%R -> (y' - x' < 2 * PI)%R -> a_calibration_reading (m_act (after j) p) = true) /\
  ((y' < cpos (m_js (before j) q) < x')%R -> (x' - y' < 2 * PI)%R -> a_calibration_reading (m_act (after j) p) = false).
Proof. intros x y C TR j x' y' RA FA. exact (C52_reading_continuous _ _ _ _ _ _ x y switch_history C TR j x' y' RA FA). Qed.
(** An edge is recorded exactly when the reading changes; it is the actuator position of the call before, and the joint has
    crossed the reference since. *)
Theorem C80_edges : (rising_of u <> None \/ falling_of u <> None) ->
  same_edges (m_act (before 0%nat) p) (m_act (after 0%nat) p) /\
  forall j,
  (a_calibration_reading (m_act (after (S j)) p) = a_calibration_reading (m_act (after j) p) -> same_edges (m_act (after j) p) (m_act (after (S j)) p)) /\
  (a_calibration_reading (m_act (after (S j)) p) <> a_calibration_reading (m_act (after j) p) ->
    (a_rising_valid (m_act (after (S j)) p) = true /\ a_last_rising (m_act (after (S j)) p) = a_position (m_act (after j) p) /\
     a_falling_valid (m_act (after (S j)) p) = a_falling_valid (m_act (after j) p) /\ a_last_falling (m_act (after (S j)) p) = a_last_falling (m_act (after j) p) /\
     exists x, rising_at u x /\ between (cpos (m_js (before j) q)) (cpos (m_js (before (S j)) q)) x)
    \/
    (a_falling_valid (m_act (after (S j)) p) = true /\ a_last_falling (m_act (after (S j)) p) = a_position (m_act (after j) p) /\
     a_rising_valid (m_act (after (S j)) p) = a_rising_valid (m_act (after j) p) /\ a_last_rising (m_act (after (S j)) p) = a_last_rising (m_act (after j) p) /\
     exists x, falling_at u x /\ between (cpos (m_js (before j) q)) (cpos (m_js (before (S j)) q)) x)).
Proof. exact (C52_edges _ _ _ _ _ _ switch_history). Qed.
Theorem C80_valid_is_forever : forall j l, (j <= l)%nat ->
  (a_rising_valid (m_act (after j) p) = true -> a_rising_valid (m_act (after l) p) = true) /\
  (a_falling_valid (m_act (after j) p) = true -> a_falling_valid (m_act (after l) p) = true).
Proof. exact (C53_valid_is_forever _ _ _ _ _ _ switch_history). Qed.
End C80.

Section Exists.
Variables (dbg : bool) (P : parsers R) (L : loader (transmission R)).
Hypothesis HL : forall c t, ld_create L c = Some t -> is_new t.
Notation K := (builtin dbg P).
(** Such simulations exist, for all calls and writes in between. *)
Theorem C80_simulation_exists : forall urdf root h h' hw r g m0 m1 s (e : nat -> env) (ops : nat -> list (robot_op R)),
  robot_initXml K L urdf root h (new_robot (Some hw)) = Ok (true, r, h') ->
  (forall x, In x (ChildElements root "transmission") -> simulatable P L x) ->
  new_robotstate K dbg g r m0 = Ok (s, m1) -> (forall n, Forall fair_op (ops n)) ->
  exists ts ts' before after, simulation K s (rb_transmissions r) m1 e ops ts ts' before after.
Proof.
  intros urdf root h h' hw r g m0 m1 s e ops LD SIM NS FO.
  set (or := fun (x : res (list (transmission R) * mem R)) => match x with Ok y => y | _ => ([], m1) end).
  set (call := fun n (x : list (transmission R) * mem R) => or (run_ops K s [OpPositionBack (e n)] (fst x) (snd x))).
  set (st := fix st n := match n with
    | 0 => or (run_ops K s (ops 0) (rb_transmissions r) m1)
    | S n => or (run_ops K s (ops (S n)) (fst (call n (st n))) (snd (call n (st n)))) end).
  set (all := fix all n := match n with 0 => ops 0 | S n => (all n ++ OpPositionBack (e n) :: ops (S n))%list end).
  assert (FA : forall n, Forall fair_op (all n)).
  { induction n as [|n IH]; cbn; [apply FO|]. apply Forall_app. split; [exact IH|]. constructor; [exact I|apply FO]. }
  assert (APP : forall a b ts m, run_ops K s (a ++ b) ts m = bind (run_ops K s a ts m) (fun '(ts, m) => run_ops K s b ts m)).
  { induction a as [|o a IH]; intros b ts m; [reflexivity|]. cbn [app]. rewrite run_cons, (run_cons dbg P s o a). destruct (run_ops K s [o] ts m) as [[t1 ma]| | |]; cbn [bind]; auto. }
  assert (OKS : forall n, run_ops K s (all n) (rb_transmissions r) m1 = Ok (st n) /\
                 run_ops K s [OpPositionBack (e n)] (fst (st n)) (snd (st n)) = Ok (call n (st n))).
  { induction n as [|n [IH IHc]].
    - destruct (C66_simulation_never_crashes dbg P L HL _ _ _ _ _ _ _ _ _ _ _ LD SIM NS (FA 0)) as (t & m & E & _).
      assert (A : st 0 = (t, m)) by (cbn; cbn in E; rewrite E; reflexivity). rewrite A. split; [exact E|].
      assert (F2 : Forall fair_op (all 0 ++ [OpPositionBack (e 0)])) by (apply Forall_app; split; [apply FA|repeat constructor]).
      destruct (C66_simulation_never_crashes dbg P L HL _ _ _ _ _ _ _ _ _ _ _ LD SIM NS F2) as (t' & m' & E' & _). rewrite APP, E in E'. cbn [bind] in E'.
      unfold call. cbn [fst snd]. rewrite E'. reflexivity.
    - assert (E : run_ops K s (all (S n)) (rb_transmissions r) m1 = run_ops K s (ops (S n)) (fst (call n (st n))) (snd (call n (st n)))).
      { cbn [all]. rewrite APP, IH. cbn [bind]. destruct (st n) as [tn mn]. rewrite run_cons. cbn [fst snd] in IHc |- *. rewrite IHc. cbn [bind]. destruct (call n (tn, mn)); reflexivity. }
      destruct (C66_simulation_never_crashes dbg P L HL _ _ _ _ _ _ _ _ _ _ _ LD SIM NS (FA (S n))) as (t & m & E2 & _).
      assert (A : st (S n) = (t, m)). { change (st (S n)) with (or (run_ops K s (ops (S n)) (fst (call n (st n))) (snd (call n (st n))))). rewrite <- E, E2. reflexivity. }
      rewrite A. split; [exact E2|].
      assert (F2 : Forall fair_op (all (S n) ++ [OpPositionBack (e (S n))])) by (apply Forall_app; split; [apply FA|repeat constructor]).
      destruct (C66_simulation_never_crashes dbg P L HL _ _ _ _ _ _ _ _ _ _ _ LD SIM NS F2) as (t' & m' & E' & _). rewrite APP, E2 in E'. cbn [bind] in E'.
      unfold call. cbn [fst snd]. rewrite E'. reflexivity. }
  assert (NX : forall n, run_ops K s (ops (S n)) (fst (call n (st n))) (snd (call n (st n))) = Ok (st (S n))).
  { intros n. destruct (OKS n) as [A B]. destruct (OKS (S n)) as [C _]. cbn [all] in C. rewrite APP, A in C. cbn [bind] in C. destruct (st n) as [tn mn] eqn:Q.
    rewrite run_cons in C. cbn [fst snd] in B. rewrite B in C. cbn [bind] in C. destruct (call n (tn, mn)). exact C. }
  exists (fun n => fst (st n)), (fun n => fst (call n (st n))), (fun n => snd (st n)), (fun n => snd (call n (st n))).
  split; [|split].
  - destruct (OKS 0) as [A _]. rewrite <- surjective_pairing. exact A.
  - intros n. destruct (OKS n) as [_ B]. cbn [run_ops] in B.
    destruct (propagateJointPositionToActuatorPosition K (e n) s (fst (st n)) (snd (st n))) as [[ta ma]| | |]; cbn [bind] in B; try discriminate. injection B as B. rewrite <- B. reflexivity.
  - intros n. rewrite <- surjective_pairing. apply NX.
Qed.
End Exists.

(** ** Examples: the robot of C73_ex (simple, wrist and gripper transmission) *)
Local Open Scope string_scope.
Local Open Scope list_scope.
Theorem C79_ex_flags : forall c t, ld_create ex_L c = Some t -> clock_flag t = false.
Proof.
  intros c t E. cbn in E. repeat match type of E with context [if ?b then _ else _] => destruct b end; try discriminate; injection E as <-; reflexivity.
Qed.
(** After any history with ROS running from the start at time 5, the wrist's right motor is stamped with the time since then. *)
Theorem C79_ex : forall ops m1 e, new_robotstate (builtin true ex_P) true 0%R ex_full_robot ex_mem0 = Ok (ex_full_state, m1) -> Forall fair_op ops ->
  exists tb mb, run_ops (builtin true ex_P) ex_full_state (OpPositionBack (mkEnv true 5) :: ops ++ [OpPositionBack e]) (rb_transmissions ex_full_robot) m1 = Ok (tb, mb) /\
    a_sample_timestamp (m_act mb 1) = (e_now e - 5)%Z.
Proof.
  intros ops m1 e NS FO. destruct C73_ex_loaded as [h' LD].
  assert (FO1 : Forall fair_op (OpPositionBack (mkEnv true 5) :: ops)) by (constructor; [exact I|exact FO]).
  assert (FO2 : Forall fair_op ((OpPositionBack (mkEnv true 5) :: ops) ++ [OpPositionBack e])) by (apply Forall_app; split; [exact FO1|repeat constructor]).
  destruct (C66_simulation_never_crashes true ex_P ex_L C41_ex_loader _ _ _ _ _ _ _ _ _ _ _ LD C66_ex_simulatable NS FO1) as (ts & m & R1 & _).
  destruct (C66_simulation_never_crashes true ex_P ex_L C41_ex_loader _ _ _ _ _ _ _ _ _ _ _ LD C66_ex_simulatable NS FO2) as (tb & mb & R2 & _).
  assert (R3 : propagateJointPositionToActuatorPosition (builtin true ex_P) e ex_full_state ts m = Ok (tb, mb)).
  { assert (R4 : run_ops (builtin true ex_P) ex_full_state [OpPositionBack e] ts m = Ok (tb, mb)).
    { clear - R1 R2. revert R1 R2. generalize (rb_transmissions ex_full_robot) m1. generalize (OpPositionBack (mkEnv true 5) :: ops : list (robot_op R)).
      clear. intros os. induction os as [|o os IH]; intros ts0 m0 R1 R2; [cbn [run_ops] in R1; injection R1 as -> ->; exact R2|].
      cbn [app] in R2. rewrite run_cons in R1, R2. destruct (run_ops _ ex_full_state [o] ts0 m0) as [[ta ma]| | |]; cbn [bind] in R1, R2; try discriminate. eapply IH; eauto. }
    cbn [run_ops] in R4. destruct (propagateJointPositionToActuatorPosition _ e ex_full_state ts m) as [[ta ma]| | |]; cbn [bind] in R4; congruence. }
  exists tb, mb. split; [exact R2|].
  destruct (C79_simulated_time true ex_P ex_L C41_ex_loader _ _ _ _ _ _ _ _ _ _ _ _ _ LD C66_ex_simulatable NS FO1 R1 e tb mb 1 [1; 2] 1 C79_ex_flags R3 eq_refl (proj1 (C73_ex_own 1)) (or_introl eq_refl)) as [E _].
  inversion E as [A B|pre e0 post A B C D].
  - specialize (A _ (or_introl eq_refl)). discriminate.
  - destruct pre as [|x pre]; [injection A as <- _; reflexivity|]. injection A as <- _. specialize (B _ (or_introl eq_refl)). discriminate.
Qed.

(** The same robot, the flex joint j1 (pointer 2) having a rising reference at 1: its switch is on the left motor (actuator 2).
    Once the joint is moved to 3, and for ever after, the switch reads high. *)
Definition exs_uj (n : string) : ujoint R := if String.eqb n "j1" then mkUjoint n JREVOLUTE None None (Some (mkCalib (Some 1%R) None)) else ex_uj n.
Definition exs_urdf (_ : xml) : option (string -> option (ujoint R)) := Some (fun n => if existsb (String.eqb n) ex_names then Some (exs_uj n) else None).
Definition exs_robot : robot (transmission R) R :=
  mkRobot (Some ex_full_hw) (fun n => if existsb (String.eqb n) ex_names then Some (exs_uj n) else None) (rb_transmissions ex_full_robot).
Theorem C80_ex_loaded : exists h', robot_initXml (builtin true ex_P) ex_L exs_urdf ex_full ex_h0 (new_robot (Some ex_full_hw)) = Ok (true, exs_robot, h').
Proof. eexists. reflexivity. Qed.
Theorem C80_ex_state : exists m', new_robotstate (builtin true ex_P) true 0%R exs_robot ex_mem0 = Ok (ex_full_state, m') /\ js_joint (m_js m' 2) = Some (exs_uj "j1").
Proof. eexists. split; reflexivity. Qed.
Theorem C80_ex_fresh : forall c t k, ld_create ex_L c = Some t -> exists g1 g2 g3 g4 b1 b2, calibrator t k = new_calsim g1 g2 g3 g4 b1 b2.
Proof.
  intros c t k E. cbn in E. repeat match type of E with context [if ?b then _ else _] => destruct b end; try discriminate; injection E as <-;
    exists 0%R, 0%R, 0%R, 0%R, false, false; try reflexivity; destruct k; reflexivity.
Qed.
Definition exs_ops (n : nat) : list (robot_op R) :=
  match n with 0 => [] | S _ => [OpPosition; OpWrite (js_upd 2 (fun j => set_reference_position 0%R (set_position 3%R j)))] end.
Theorem C80_ex : exists m1 ts ts' before after, new_robotstate (builtin true ex_P) true 0%R exs_robot ex_mem0 = Ok (ex_full_state, m1) /\
  simulation (builtin true ex_P) ex_full_state (rb_transmissions exs_robot) m1 (fun _ => mkEnv true 0) exs_ops ts ts' before after /\
  forall n, a_calibration_reading (m_act (after (S n)) 2) = true.
Proof.
  destruct C80_ex_loaded as [h' LD]. destruct C80_ex_state as (m1 & NS & HU).
  assert (FO : forall n, Forall fair_op (exs_ops n)).
  { intros [|n]; repeat constructor. intros m p. unfold js_upd, upd. cbn. destruct (Nat.eqb p 2); reflexivity. }
  assert (LV : forall n, Forall (leaves_switch 2) (exs_ops n)) by (intros [|n]; repeat constructor; intros m; repeat split).
  destruct (C80_simulation_exists true ex_P ex_L C41_ex_loader _ _ _ _ _ _ _ _ _ _ (fun _ => mkEnv true 0) exs_ops LD C66_ex_simulatable NS FO) as (ts & ts' & before & after & SI).
  exists m1, ts, ts', before, after. split; [exact NS|]. split; [exact SI|]. intros n.
  assert (NC : ~ continuous (exs_uj "j1")) by (unfold continuous; cbn; discriminate).
  destruct (C80_reading_limited true ex_P ex_L C41_ex_loader C80_ex_fresh _ _ _ _ _ _ _ _ _ _ LD C66_ex_simulatable NS _ _ _ _ _ _ SI FO
    1 0 1 _ [1; 2] [2; 3] 2 2 (exs_uj "j1") eq_refl (or_introl (conj eq_refl eq_refl)) eq_refl eq_refl eq_refl eq_refl (C73_ex_own 1) HU LV NC (S n)) as (RD & _).
  apply (RD 1%R eq_refl). destruct SI as (_ & _ & S2). specialize (S2 n). cbn [exs_ops run_ops] in S2.
  destruct (propagateActuatorPositionToJointPosition _ ex_full_state (ts' n) (after n)) as [[ta ma]| | |]; cbn [bind] in S2; try discriminate.
  injection S2 as _ S2. rewrite <- S2. unfold cpos. cbn. lra.
Qed.
