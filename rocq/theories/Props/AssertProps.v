(** C100: assertions only stop: a build without them computes what a build with them does. *)
From Coq Require Import List String Arith Bool ZArith Lia.
From Verif.Model Require Import Base Num Xml Joint Hardware Transmission Simple Wrist Belt Gripper Scheduler Controller Manager Robot Builtin Kinematics System.
From Verif.Spec Require Import SystemSpec.
From Verif.Proofs Require Import WorldSteps SystemProofs.
From Verif.Props Require Import SizeProps.
Import ListNotations.
Local Open Scope nat_scope.

(** ** Specification: the build with assertions either stops or does exactly what the build without does *)
Definition agrees {A} (with_assertions without : res A) : Prop := with_assertions = Abort \/ with_assertions = without.

Lemma agrees_refl {A} (r : res A) : agrees r r.
Proof. right. reflexivity. Qed.
Lemma agrees_bind {A B} (r r' : res A) (f f' : A -> res B) : agrees r r' -> (forall a, agrees (f a) (f' a)) -> agrees (bind r f) (bind r' f').
Proof. intros [-> | ->] F; [left; reflexivity|]. destruct r' as [a| | |]; cbn; [apply F | apply agrees_refl ..]. Qed.
Lemma agrees_cassert b : agrees (cassert true b) (cassert false b).
Proof. destruct b; [right|left]; reflexivity. Qed.

Ltac abind := match goal with |- agrees (bind ?r ?f) (bind ?r' ?f') => refine (agrees_bind r r' f f' _ _) end.

Ltac agree := repeat first
  [ apply agrees_refl
  | apply agrees_cassert
  | abind; [| intros ?]
  | match goal with
    | |- agrees (match ?x with _ => _ end) (match ?x with _ => _ end) => destruct x
    end ].

Section Calls.
Context {T} {N : Num T} {G : Trig T} (P : parsers T) (e : env).

Lemma info_agrees (c : calsim T) j : agrees (GetJointCalibrationInfo true c j) (GetJointCalibrationInfo false c j).
Proof. unfold GetJointCalibrationInfo. agree. Qed.
Lemma sim_agrees (c : calsim T) j a : agrees (simulateJointCalibration true c j a) (simulateJointCalibration false c j a).
Proof. unfold simulateJointCalibration. apply agrees_bind; [|intros; apply agrees_refl]. destruct (cs_got_info c); [apply agrees_refl | apply info_agrees]. Qed.
Lemma mem_agrees (c : calsim T) j a m : agrees (simcal_mem true c j a m) (simcal_mem false c j a m).
Proof. unfold simcal_mem. apply agrees_bind; [apply sim_agrees|intros; apply agrees_refl]. Qed.
Lemma ssizes_agrees (t : simple T) as_ js : agrees (simple_sizes true t as_ js) (simple_sizes false t as_ js).
Proof. unfold simple_sizes. agree. Qed.
Lemma wsizes_agrees as_ js : agrees (wrist_sizes true as_ js) (wrist_sizes false as_ js).
Proof. unfold wrist_sizes. agree. Qed.
Lemma bsizes_agrees as_ js : agrees (belt_sizes true as_ js) (belt_sizes false as_ js).
Proof. unfold belt_sizes. agree. Qed.

Ltac agree2 := repeat first
  [ apply agrees_refl
  | apply agrees_cassert
  | apply mem_agrees | apply ssizes_agrees | apply wsizes_agrees | apply bsizes_agrees
  | abind; [| intros ?]
  | match goal with
    | |- agrees (match ?x with _ => _ end) (match ?x with _ => _ end) => destruct x
    end ].

(** every call on every transmission *)
Theorem C100_transmission_calls : forall d t actuators joints m,
  agrees (call true P e d t actuators joints m) (call false P e d t actuators joints m).
Proof.
  intros d t as_ js m. destruct d, t as [t|t|t|t]; cbn [call tr_position tr_positionBackwards tr_effort tr_effortBackwards builtin]; unfold keep, wrap;
    (abind; [|intros; apply agrees_refl]).
  - unfold simple_propagatePosition. agree2.
  - unfold wrist_propagatePosition. agree2.
  - unfold belt_propagatePosition. agree2.
  - unfold gripper_propagatePosition. agree2.
  - unfold simple_propagatePositionBackwards. agree2.
  - unfold wrist_propagatePositionBackwards. agree2.
  - unfold belt_propagatePositionBackwards. agree2.
  - unfold gripper_propagatePositionBackwards. agree2.
  - unfold simple_propagateEffort. agree2.
  - unfold wrist_propagateEffort. agree2.
  - unfold belt_propagateEffort. agree2.
  - unfold gripper_propagateEffort. agree2.
  - unfold simple_propagateEffortBackwards. agree2.
  - unfold wrist_propagateEffortBackwards. agree2.
  - unfold belt_propagateEffortBackwards. agree2.
  - unfold gripper_propagateEffortBackwards. agree2.
Qed.

Lemma over_agrees {Tr} (f f' : Tr -> list nat -> list nat -> mem T -> res (Tr * mem T)) :
  (forall t i o m, agrees (f t i o m) (f' t i o m)) ->
  forall ts ins outs m, agrees (over_transmissions f ts ins outs m) (over_transmissions f' ts ins outs m).
Proof.
  intros F ts. induction ts as [|t ts IH]; intros ins outs m; cbn; [apply agrees_refl|].
  destruct ins as [|i ins]; [apply agrees_refl|]. destruct outs as [|o outs]; [apply agrees_refl|].
  apply agrees_bind; [apply F|]. intros [t' m']. apply agrees_bind; [apply IH|]. intros; apply agrees_refl.
Qed.

(** the four loops over a robot's transmissions *)
Theorem C100_robot_calls : forall s ts m,
  agrees (propagateActuatorPositionToJointPosition (builtin true P) s ts m) (propagateActuatorPositionToJointPosition (builtin false P) s ts m) /\
  agrees (propagateJointEffortToActuatorEffort (builtin true P) s ts m) (propagateJointEffortToActuatorEffort (builtin false P) s ts m) /\
  agrees (propagateJointPositionToActuatorPosition (builtin true P) e s ts m) (propagateJointPositionToActuatorPosition (builtin false P) e s ts m) /\
  agrees (propagateActuatorEffortToJointEffort (builtin true P) s ts m) (propagateActuatorEffortToJointEffort (builtin false P) s ts m).
Proof.
  intros s ts m. split; [|split; [|split]].
  - unfold propagateActuatorPositionToJointPosition. apply agrees_bind; [|intros; apply agrees_refl].
    apply over_agrees. intros t i o m'. exact (C100_transmission_calls Position t i o m').
  - apply over_agrees. intros t i o m'. exact (C100_transmission_calls Effort t i o m').
  - apply over_agrees. intros t i o m'. exact (C100_transmission_calls PositionBackwards t i o m').
  - apply over_agrees. intros t i o m'. exact (C100_transmission_calls EffortBackwards t i o m').
Qed.
End Calls.

Section Whole.
Context {T X : Type} {N : Num T} {G : Trig T} (P : parsers T).
Notation Kt := (builtin true P).
Notation Kf := (builtin false P).

Lemma wire_actuators_agrees (r : robot (transmission T) T) ns : agrees (wire_actuators true r ns) (wire_actuators false r ns).
Proof.
  induction ns as [|n ns IH]; [apply agrees_refl|]. cbn [wire_actuators].
  abind; [apply agrees_refl|]. intros a. abind; [apply agrees_cassert|]. intros _. abind; [apply agrees_refl|]. intros p.
  abind; [exact IH|]. intros; apply agrees_refl.
Qed.
Lemma wire_in_agrees (r : robot (transmission T) T) ts : agrees (wire_in Kt true r ts) (wire_in Kf false r ts).
Proof.
  induction ts as [|t ts IH]; [apply agrees_refl|]. cbn [wire_in].
  change (tr_actuators Kf t) with (tr_actuators Kt t).
  abind; [apply wire_actuators_agrees|]. intros p. abind; [exact IH|]. intros; apply agrees_refl.
Qed.

(** loading a description: ControllerManager::initXml, with the robot's transmissions and its RobotState *)
Theorem C100_load : forall L urdf config g hw m,
  agrees (cm_initXml Kt true L urdf config g hw m) (cm_initXml Kf false L urdf config g hw m).
Proof.
  intros. unfold cm_initXml.
  change (robot_initXml Kf L urdf config (m_act m) (new_robot (Some hw))) with (robot_initXml Kt L urdf config (m_act m) (new_robot (Some hw))).
  abind; [apply agrees_refl|]. intros [[b r] acts]. destruct b; cbn [negb]; [|apply agrees_refl].
  abind.
  - unfold new_robotstate. abind; [apply wire_in_agrees|]. intros ins. apply agrees_refl.
  - intros [s m']. apply agrees_refl.
Qed.

Lemma fill_js_agrees (m : mem T) ids : forall j msg, agrees (fill_joint_state true m ids j msg) (fill_joint_state false m ids j msg).
Proof.
  induction ids as [|i ids IH]; intros j msg; [apply agrees_refl|]. cbn [fill_joint_state].
  destruct (js_joint (m_js m i)) as [u|]; [|apply agrees_refl]. destruct (is_published (uj_type u)); [|apply IH].
  do 4 (abind; [apply agrees_cassert|]; intros _). do 4 (abind; [apply agrees_refl|]; intros ?). apply IH.
Qed.
Lemma fill_stats_agrees t ids : forall j (m : mem T) out, agrees (fill_joint_stats true t ids j m out) (fill_joint_stats false t ids j m out).
Proof.
  induction ids as [|i ids IH]; intros j m out; [apply agrees_refl|]. cbn [fill_joint_stats].
  destruct (js_joint (m_js m i)) as [u|]; [|apply agrees_refl]. destruct (is_published (uj_type u)); [|apply IH].
  abind; [apply agrees_cassert|]; intros _. abind; [apply agrees_refl|]. intros ?. apply IH.
Qed.

(** reading and writing the joints of a kinematic chain or tree *)
Theorem C100_chain_access : forall f js (m : mem T) v q qdot,
  agrees (get_checked true f m js v) (get_checked false f m js v) /\
  agrees (get_jntarrayvel true m js q qdot) (get_jntarrayvel false m js q qdot) /\
  agrees (setEfforts true js v m) (setEfforts false js v m) /\
  agrees (addEfforts true js v m) (addEfforts false js v m).
Proof.
  intros. split; [|split; [|split]]; unfold get_checked, get_jntarrayvel, setEfforts, addEfforts;
    repeat (abind; [apply agrees_cassert|]; intros _); apply agrees_refl.
Qed.

(** ** The whole control cycle *)
Variables (s : rstate) (tick : X -> Z * X) (cb : ptr -> callback -> X -> mem T -> X * mem T) (pm pj : Z).
Notation W := (sysw (transmission T) T X).
Notation Ht := (sys_hooks Kt true s tick cb pm pj).
Notation Hf := (sys_hooks Kf false s tick cb pm pj).

Definition stopped (w : W) : Prop := sy_plant w = Abort.

Lemma on_plant_agrees (f f' : plant (transmission T) T -> res (plant (transmission T) T * list (output T))) (w : W) :
  (forall p, agrees (f p) (f' p)) -> stopped (on_plant f w) \/ on_plant f w = on_plant f' w.
Proof.
  intros F. unfold on_plant, stopped. destruct (sy_plant w) as [p| | |]; [|right; reflexivity ..].
  destruct (F p) as [-> | ->]; [left; reflexivity | right; reflexivity].
Qed.

(** each piece of the cycle that depends on the build *)
Theorem C100_cycle_pieces : forall (w : W) t,
  (stopped (h_propagate Ht w) \/ h_propagate Ht w = h_propagate Hf w) /\
  (stopped (h_effort Ht w) \/ h_effort Ht w = h_effort Hf w) /\
  (stopped (h_pub_mech Ht t w) \/ h_pub_mech Ht t w = h_pub_mech Hf t w) /\
  (stopped (h_pub_js Ht t w) \/ h_pub_js Ht t w = h_pub_js Hf t w).
Proof.
  intros w t. set (e0 := Transmission.mkEnv true 0%Z). split; [|split; [|split]]; apply on_plant_agrees; intros p.
  - abind; [apply (C100_robot_calls P e0)|]. intros; apply agrees_refl.
  - abind; [apply (C100_robot_calls P e0)|]. intros; apply agrees_refl.
  - abind; [apply fill_stats_agrees|]. intros [m js]. apply agrees_refl.
  - abind; [apply fill_js_agrees|]. intros; apply agrees_refl.
Qed.

Lemma stopped_acts cbs w w' : acts Ht cbs w w' -> stopped w -> stopped w'.
Proof.
  intros A S. unfold stopped in *. rewrite <- S. eapply acts_crash; [exact A|]. intros p E. rewrite S in E. discriminate.
Qed.
Lemma stopped_ran cbs (m m' : mgr W) : ran Ht cbs m m' -> stopped (world m) -> stopped (world m').
Proof. intros [_ A]. apply stopped_acts with (1 := A). Qed.
Lemma stopped_now (m : mgr W) : stopped (world m) -> stopped (world (snd (now Ht m))).
Proof. apply stopped_ran with (1 := ran_now Ht m). Qed.
Lemma stopped_plant f (w : W) : stopped w -> stopped (on_plant f w).
Proof. intros S. unfold stopped, on_plant in *. rewrite S. exact S. Qed.

Lemma stopped_post (m : mgr W) : stopped (world m) -> stopped (world (rt_post Ht m)).
Proof.
  intros S. unfold rt_post, rt_send, rt_enforce.
  pose proof (stopped_now _ S) as S1. destruct (now Ht (log EvEnforce m)) as [t0 m0'] eqn:E0.
  destruct (now Ht m) as [t m1] eqn:E. cbn [snd] in S1.
  match goal with |- stopped (world (let '(_, m) := now Ht ?x in m)) => assert (S2 : stopped (world x)) end.
  { apply stopped_plant, stopped_plant. exact S1. }
  pose proof (stopped_now _ S2) as S3. destruct (now Ht _) as [t2 m2]. exact S3.
Qed.
Lemma stopped_mech l (m m' : mgr W) : publishMechanismStatistics Ht l m = Ok m' -> stopped (world m) -> stopped (world m').
Proof.
  intros E S. destruct (mech_attempt _ _ _ _ E) as ((t & w1 & Q & D) & _).
  assert (S1 : stopped w1). { assert (A : acts Ht [] (world m) w1). { apply acts_now. rewrite Q. apply acts_nil. } exact (stopped_acts _ _ _ A S). }
  destruct D as [(_ & -> & _)|(_ & _ & A)]; [exact S1|]. apply (stopped_acts _ _ _ A). apply stopped_plant. exact S1.
Qed.
Lemma stopped_js l (m m' : mgr W) : publishJointState Ht l m = Ok m' -> stopped (world m) -> stopped (world m').
Proof.
  intros E S. destruct (js_attempt _ _ _ _ E) as ((t & w1 & Q & D) & _).
  assert (S1 : stopped w1). { assert (A : acts Ht [] (world m) w1). { apply acts_now. rewrite Q. apply acts_nil. } exact (stopped_acts _ _ _ A S). }
  destruct D as [(_ & -> & _)|(_ & _ & A)]; [exact S1|]. apply (stopped_acts _ _ _ A). apply stopped_plant. exact S1.
Qed.
Lemma stopped_switch (m : mgr W) : stopped (world m) -> stopped (world (rt_switch Ht m)).
Proof. destruct (switch_ran Ht m) as (cbs & A & _). apply stopped_acts with (1 := A). Qed.

Lemma pre_agrees (m : mgr W) : stopped (world (rt_pre Ht m)) \/ rt_pre Ht m = rt_pre Hf m.
Proof.
  unfold rt_pre. change (now Hf m) with (now Ht m). destruct (now Ht m) as [t m1].
  destruct (C100_cycle_pieces (world m1) 0%Z) as [[S|E] _].
  - left. match goal with |- stopped (world (let '(_, m) := now Ht ?x in m)) => assert (S2 : stopped (world x)) end.
    { apply stopped_plant. exact S. }
    pose proof (stopped_now _ S2) as S3. destruct (now Ht _) as [t2 m2]. exact S3.
  - right. unfold on_world. cbn [log world set_world]. change (world (log EvPropagate m1)) with (world m1). rewrite E. reflexivity.
Qed.
Lemma post_agrees (m : mgr W) : stopped (world (rt_post Ht m)) \/ rt_post Ht m = rt_post Hf m.
Proof.
  unfold rt_post. change (rt_enforce Hf m) with (rt_enforce Ht m). set (m1 := rt_enforce Ht m). unfold rt_send.
  destruct (C100_cycle_pieces (world m1) 0%Z) as (_ & [S|E] & _).
  - left. match goal with |- stopped (world (let '(_, m) := now Ht ?x in m)) => assert (S2 : stopped (world x)) by exact S end.
    pose proof (stopped_now _ S2) as S3. destruct (now Ht _) as [t2 m2]. exact S3.
  - right. unfold on_world. change (world (log EvEffort m1)) with (world m1). rewrite E. reflexivity.
Qed.
Lemma mech_agrees l (m m' : mgr W) : publishMechanismStatistics Ht l m = Ok m' ->
  stopped (world m') \/ publishMechanismStatistics Hf l m = Ok m'.
Proof.
  unfold publishMechanismStatistics. change (now Hf m) with (now Ht m). destruct (now Ht m) as [t m1].
  change (mech_due Hf t m1) with (mech_due Ht t m1). destruct (mech_due Ht t m1); [|auto]. destruct l; [|auto].
  unfold rt_fill_mech. change (h_per_mech Hf) with (h_per_mech Ht).
  destruct (catch_up _ _ _ _) as [last| | |]; cbn [bind]; try (intros Q; discriminate Q).
  destruct (C100_cycle_pieces (world m1) t) as (_ & _ & [S|E] & _).
  - intros Q. left. set (m2 := on_world (h_pub_mech Ht t) (set_last_mech last m1)) in Q. assert (S2 : stopped (world m2)) by exact S. clearbody m2.
    destruct (rt_list m2) as [x| | |]; cbn [bind] in Q; try discriminate Q.
    destruct (fill_stats _ _ _ _ _) as [out| | |]; cbn [bind] in Q; try discriminate Q.
    assert (S3 : stopped (world (set_mstats out m2))) by exact S2. pose proof (stopped_now _ S3) as S4.
    destruct (now Ht _) as [t2 m3]. injection Q as <-. exact S4.
  - intros Q. right. rewrite <- Q. unfold on_world. change (world (set_last_mech last m1)) with (world m1). rewrite E. reflexivity.
Qed.
Lemma js_agrees l (m m' : mgr W) : publishJointState Ht l m = Ok m' ->
  stopped (world m') \/ publishJointState Hf l m = Ok m'.
Proof.
  unfold publishJointState. change (now Hf m) with (now Ht m). destruct (now Ht m) as [t m1].
  change (h_per_js Hf) with (h_per_js Ht). destruct (_ <? t)%Z; [|auto]. destruct l; [|auto].
  destruct (catch_up _ _ _ _) as [last| | |]; cbn [bind]; try (intros Q; discriminate Q).
  destruct (C100_cycle_pieces (world m1) t) as (_ & _ & _ & [S|E]).
  - intros Q. left. set (m2 := on_world (h_pub_js Ht t) (set_last_js last m1)) in Q. assert (S2 : stopped (world m2)) by exact S. clearbody m2.
    pose proof (stopped_now _ S2) as S4. destruct (now Ht _) as [t2 m3]. injection Q as <-. exact S4.
  - intros Q. right. rewrite <- Q. unfold on_world. change (world (set_last_js last m1)) with (world m1). rewrite E. reflexivity.
Qed.

(** A realtime cycle of the build with assertions that ends without a failed assertion is exactly the cycle of the build
    without them: the same controllers called, the same memory, the same messages, the same manager state. *)
Theorem C100_cycle : forall l1 l2 (m m' : mgr W), update Ht l1 l2 m = Ok m' ->
  sy_plant (world m') = Abort \/ update Hf l1 l2 m = Ok m'.
Proof.
  intros l1 l2 m m' U. unfold update in *.
  destruct (rt_restart Ht (rt_pre Ht (rt_use (cur m) m))) as [m2| | |] eqn:E2; cbn [bind] in U; try discriminate U.
  destruct (rt_update_all Ht m2) as [m3| | |] eqn:E3; cbn [bind] in U; try discriminate U.
  destruct (publishMechanismStatistics Ht l1 (rt_post Ht m3)) as [m4| | |] eqn:E4; cbn [bind] in U; try discriminate U.
  destruct (publishJointState Ht l2 m4) as [m5| | |] eqn:E5; cbn [bind] in U; try discriminate U.
  injection U as <-.
  destruct (ran_restart _ _ _ E2) as (c2 & R2). destruct (ran_update_all _ _ _ E3) as (c3 & R3).
  destruct (pre_agrees (rt_use (cur m) m)) as [S1|A1].
  { left. apply stopped_switch, (stopped_js _ _ _ E5), (stopped_mech _ _ _ E4), stopped_post, (stopped_ran _ _ _ R3), (stopped_ran _ _ _ R2), S1. }
  rewrite <- A1. change (rt_restart Hf) with (rt_restart Ht). rewrite E2. cbn [bind].
  change (rt_update_all Hf) with (rt_update_all Ht). rewrite E3. cbn [bind].
  destruct (post_agrees m3) as [S3|A3].
  { left. apply stopped_switch, (stopped_js _ _ _ E5), (stopped_mech _ _ _ E4), S3. }
  rewrite <- A3.
  destruct (mech_agrees _ _ _ E4) as [S4|A4].
  { left. apply stopped_switch, (stopped_js _ _ _ E5), S4. }
  rewrite A4. cbn [bind].
  destruct (js_agrees _ _ _ E5) as [S5|A5].
  { left. apply stopped_switch, S5. }
  rewrite A5. cbn [bind]. right. reflexivity.
Qed.
End Whole.

(** the list_controllers service *)
Section Listing.
Context {W : Type}.
Theorem C100_list : forall m : mgr W, agrees (listControllers true m) (listControllers false m).
Proof.
  intros m. assert (LL : forall ns sched i resp, agrees (list_loop true m ns sched i resp) (list_loop false m ns sched i resp)).
  { intros ns sched. induction sched as [|k sched IH]; intros i resp; [apply agrees_refl|]. cbn [list_loop].
    abind; [apply agrees_refl|]. intros n. destruct (getControllerByName m n) as [p|]; [|left; reflexivity].
    abind; [apply agrees_refl|]. intros r. apply IH. }
  unfold listControllers. abind; [apply agrees_cassert|]. intros _. apply LL.
Qed.
End Listing.

(** ** Non-vacuity: with the right sizes both builds do the same; with one joint too many the one stops, the other commands
    the motor *)
Section Ex.
Context {T} {N : Num T} {G : Trig T} (P : parsers T) (e : env) (m : mem T).
Theorem C100_ex : forall st : simple T, st_use_sim st = false ->
  (exists r, call true P e Effort (TSimple st) [0] [3] m = Ok r /\ call false P e Effort (TSimple st) [0] [3] m = Ok r) /\
  call true P e Effort (TSimple st) [0] [3; 4] m = Abort /\ (exists r, call false P e Effort (TSimple st) [0] [3; 4] m = Ok r).
Proof.
  intros st S. split; [|split].
  - eexists. split.
    + cbn. unfold keep, simple_propagateEffort, simple_sizes. rewrite S. reflexivity.
    + reflexivity.
  - apply C99_wrong_size_refused. intros [_ Q]. cbn in Q. rewrite S in Q. discriminate Q.
  - eexists. reflexivity.
Qed.
End Ex.
