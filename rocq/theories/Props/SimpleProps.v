(** C42: the simple transmission is invertible and conserves power. *)
From Coq Require Import List Reals Arith Bool ZArith Lia Lra String.
From Verif.Model Require Import Base Num Joint Hardware Xml Transmission Simple.
From Verif.Spec Require Import TransmissionSpec.
From Verif.Proofs Require Import TransmissionProofs.
Import ListNotations.
Local Open Scope R_scope.

(** The vectors RobotState hands to a simple transmission: one actuator, one joint, plus one if a simulated joint is
    configured; joint states are distinct objects. *)
Definition simple_vectors (t : simple R) (a : nat) (js : list nat) (q : nat) : Prop :=
  (st_use_sim t = false /\ js = [q]) \/ (exists k, st_use_sim t = true /\ js = [q; k] /\ k <> q).

Ltac eqbs := repeat match goal with
  | |- context [Nat.eqb ?p ?p] => rewrite (Nat.eqb_refl p)
  | H : ?p <> ?q |- context [Nat.eqb ?p ?q] => rewrite (proj2 (Nat.eqb_neq p q) H)
  | H : ?q <> ?p |- context [Nat.eqb ?p ?q] => rewrite (proj2 (Nat.eqb_neq p q) (fun e => H (eq_sym e)))
  end.

Lemma sizes_ok dbg (t : simple R) a js q : simple_vectors t a js q -> simple_sizes dbg t [a] js = Ok tt /\ vget js 0 = Ok q /\ In q js.
Proof.
  intros [[U ->]|[k [U [-> Hk]]]]; unfold simple_sizes; rewrite U; destruct dbg; simpl; auto.
Qed.

(** What the forward map writes. *)
Lemma simple_forward dbg t a js q m : simple_vectors t a js q -> exists m1,
  simple_propagatePosition dbg t [a] js m = Ok m1 /\ only_joints js m m1 /\
  position (m_js m1 q) = a_position (m_act m a) / st_red t + reference_position (m_js m q) /\
  velocity (m_js m1 q) = a_velocity (m_act m a) / st_red t /\
  measured_effort (m_js m1 q) = a_last_measured_effort (m_act m a) * st_red t /\
  same_config_j (m_js m q) (m_js m1 q).
Proof.
  intros V. destruct (sizes_ok dbg t a js q V) as [S1 [S2 S3]]. unfold simple_propagatePosition. rewrite S1, S2.
  destruct V as [[U ->]|[k [U [-> Hk]]]]; rewrite U; cbn [bind vget nth_error]; eexists; (split; [reflexivity|]).
  - split; [split; [reflexivity|]|].
    + intros p Hp. simpl in Hp. cbn [js_upd m_js]. unfold upd. destruct (Nat.eqb_spec p q); [subst; tauto|reflexivity].
    + cbn [js_upd m_js m_act]. unfold upd. eqbs. repeat split.
  - split; [split; [reflexivity|]|].
    + intros p Hp. simpl in Hp. cbn [js_upd m_js]. unfold upd.
      destruct (Nat.eqb_spec p q); [subst; tauto|]. destruct (Nat.eqb_spec p k); [subst; tauto|reflexivity].
    + cbn [js_upd m_js m_act]. unfold upd. eqbs. repeat split.
Qed.

Lemma simple_backward dbg e t a js q m : simple_vectors t a js q -> js_joint (m_js m q) <> None -> exists t' m1,
  simple_propagatePositionBackwards dbg e t js [a] m = Ok (t', m1) /\ only_actuators [a] m m1 /\
  a_position (m_act m1 a) = (position (m_js m q) - reference_position (m_js m q)) * st_red t /\
  a_velocity (m_act m1 a) = velocity (m_js m q) * st_red t /\
  a_last_measured_effort (m_act m1 a) = measured_effort (m_js m q) / st_red t /\
  st_red t' = st_red t /\ st_use_sim t' = st_use_sim t /\ st_sim_red t' = st_sim_red t.
Proof.
  intros V Hj. destruct (sizes_ok dbg t a js q V) as [S1 [S2 S3]]. unfold simple_propagatePositionBackwards.
  rewrite S1, S2. cbn [bind vget nth_error].
  destruct (sim_clock e (st_ts_init t) (st_start t)) as [[ini start] stamp].
  match goal with |- context [simcal_mem dbg ?c q a ?mm] =>
    destruct (simcal_total dbg c q a mm) as [c' [a' [E K]]]; [exact Hj|] end.
  rewrite E. cbn [bind]. eexists. eexists. split; [reflexivity|].
  apply sbc_fields in K. destruct K as [K1 [K2 [K3 _]]].
  cbn [act_upd m_act m_js] in *. unfold upd in *. rewrite !Nat.eqb_refl in *.
  split; [split; [reflexivity|]|].
  - intros p Hp. simpl in Hp. cbn [act_upd m_act]. unfold upd. destruct (Nat.eqb_spec p a); [subst; tauto|reflexivity].
  - cbn [act_upd m_act]. unfold upd. rewrite ?Nat.eqb_refl. rewrite K1, K2, K3. repeat split.
Qed.

(** Actuator -> joint -> actuator is the identity on position, velocity and effort. *)
Theorem C42_actuator_roundtrip : forall dbg e t a js q m,
  simple_vectors t a js q -> st_red t <> 0 -> js_joint (m_js m q) <> None ->
  exists m1 t' m2,
    simple_propagatePosition dbg t [a] js m = Ok m1 /\
    simple_propagatePositionBackwards dbg e t js [a] m1 = Ok (t', m2) /\
    same_motion_a (m_act m2 a) (m_act m a) /\
    only_joints js m m1 /\ only_actuators [a] m1 m2.
Proof.
  intros dbg e t a js q m V Hr Hj.
  destruct (simple_forward dbg t a js q m V) as [m1 [E1 [F1 [P1 [P2 [P3 C]]]]]].
  assert (Hj1 : js_joint (m_js m1 q) <> None) by (destruct C as [<- _]; auto).
  destruct (simple_backward dbg e t a js q m1 V Hj1) as [t' [m2 [E2 [F2 [Q1 [Q2 [Q3 _]]]]]]].
  exists m1, t', m2. repeat (split; [assumption|]). split; [|split; assumption].
  destruct C as [_ [_ [_ [_ C]]]].
  unfold same_motion_a. rewrite Q1, Q2, Q3, P1, P2, P3, C. repeat split; field; auto.
Qed.

(** Joint -> actuator -> joint likewise. *)
Theorem C42_joint_roundtrip : forall dbg e t a js q m,
  simple_vectors t a js q -> st_red t <> 0 -> js_joint (m_js m q) <> None ->
  exists t' m1 m2,
    simple_propagatePositionBackwards dbg e t js [a] m = Ok (t', m1) /\
    simple_propagatePosition dbg t' [a] js m1 = Ok m2 /\
    same_motion_j (m_js m2 q) (m_js m q) /\ same_config_j (m_js m2 q) (m_js m q).
Proof.
  intros dbg e t a js q m V Hr Hj.
  destruct (simple_backward dbg e t a js q m V Hj) as [t' [m1 [E2 [[F2 _] [Q1 [Q2 [Q3 [R1 [R2 R3]]]]]]]]].
  assert (V' : simple_vectors t' a js q) by (unfold simple_vectors in *; rewrite R2; auto).
  destruct (simple_forward dbg t' a js q m1 V') as [m2 [E1 [F1 [P1 [P2 [P3 C]]]]]].
  exists t', m1, m2. repeat (split; [assumption|]). rewrite F2 in *. split.
  - unfold same_motion_j. rewrite P1, P2, P3, Q1, Q2, Q3, R1. repeat split; field; auto.
  - destruct C as [C1 [C2 [C3 [C4 C5]]]]. repeat split; congruence.
Qed.

(** The commanded effort: joint -> actuator -> joint is the identity (no simulated joint) ... *)
Theorem C42_effort_roundtrip : forall dbg t a q m, st_use_sim t = false -> st_red t <> 0 ->
  exists m1 m2,
    simple_propagateEffort dbg t [q] [a] m = Ok m1 /\ simple_propagateEffortBackwards dbg t [a] [q] m1 = Ok m2 /\
    a_enable (m_act m1 a) = true /\ only_actuators [a] m m1 /\ only_command (m_act m a) (m_act m1 a) /\
    commanded_effort (m_js m2 q) = commanded_effort (m_js m q).
Proof.
  intros dbg t a q m U Hr. unfold simple_propagateEffort, simple_propagateEffortBackwards, simple_sizes. rewrite U.
  destruct dbg; cbn; eexists; eexists; (split; [reflexivity|]); (split; [reflexivity|]);
    cbn [act_upd js_upd m_act m_js]; unfold upd; rewrite !Nat.eqb_refl;
    (split; [reflexivity|]); (split; [split; [reflexivity|]; intros p Hp; simpl in Hp; cbn [act_upd m_act]; unfold upd; destruct (Nat.eqb_spec p a); [subst; tauto|reflexivity]|]);
    (split; [eexists; eexists; reflexivity|]); cbn; field; auto.
Qed.

(** ... and so is actuator -> joint -> actuator. *)
Theorem C42_actuator_effort_roundtrip : forall dbg t a q m, st_use_sim t = false -> st_red t <> 0 ->
  exists m1 m2,
    simple_propagateEffortBackwards dbg t [a] [q] m = Ok m1 /\ simple_propagateEffort dbg t [q] [a] m1 = Ok m2 /\
    a_effort (m_act m2 a) = a_effort (m_act m a).
Proof.
  intros dbg t a q m U Hr. unfold simple_propagateEffort, simple_propagateEffortBackwards, simple_sizes. rewrite U.
  destruct dbg; cbn; eexists; eexists; (split; [reflexivity|]); (split; [reflexivity|]);
    cbn [act_upd js_upd m_act m_js]; unfold upd; rewrite !Nat.eqb_refl; cbn; field; auto.
Qed.

(** Measured power is conserved, and so is commanded power. *)
Theorem C42_power : forall dbg t a js q m, simple_vectors t a js q -> st_red t <> 0 ->
  exists m1 m2,
    simple_propagatePosition dbg t [a] js m = Ok m1 /\ simple_propagateEffort dbg t js [a] m1 = Ok m2 /\
    power_j (m_js m1 q) = power_a (m_act m a) /\
    cpower_a (m_act m2 a) = cpower_j (m_js m1 q).
Proof.
  intros dbg t a js q m V Hr.
  destruct (simple_forward dbg t a js q m V) as [m1 [E1 [[F1 _] [P1 [P2 [P3 C]]]]]].
  destruct (sizes_ok dbg t a js q V) as [S1 [S2 S3]].
  exists m1. unfold simple_propagateEffort. rewrite S1, S2. cbn [bind vget nth_error]. eexists. split; [exact E1|]. split; [reflexivity|].
  cbn [act_upd m_act m_js]. unfold upd, power_j, power_a, cpower_j, cpower_a. rewrite !Nat.eqb_refl. cbn.
  rewrite P2, P3, F1. split; field; auto.
Qed.

(** With a simulated joint the back-propagated effort drives that joint, at equal power if it turns
    1/simulated_reduction times faster; the real joint's command is left alone. *)
Theorem C42_simulated_joint : forall dbg t a q k m, st_use_sim t = true -> st_red t <> 0 -> st_sim_red t <> 0 -> k <> q ->
  exists m1 m2, simple_propagateEffort dbg t [q; k] [a] m = Ok m1 /\ simple_propagateEffortBackwards dbg t [a] [q; k] m1 = Ok m2 /\
    commanded_effort (m_js m2 k) * st_sim_red t = commanded_effort (m_js m q) /\ m_js m2 q = m_js m q.
Proof.
  intros dbg t a q k m U Hr Hs Hk. unfold simple_propagateEffort, simple_propagateEffortBackwards, simple_sizes. rewrite U.
  destruct dbg; cbn; eexists; eexists; (split; [reflexivity|]); (split; [reflexivity|]);
    cbn [act_upd js_upd m_act m_js]; unfold upd; rewrite !Nat.eqb_refl; eqbs; cbn; split; try reflexivity; field; auto.
Qed.

(** Non-vacuity: a transmission read from a document, with a simulated joint. *)
Local Open Scope string_scope.
Definition ex_joint (n : string) : ujoint R := mkUjoint n JREVOLUTE None None None.
Definition ex_simple_doc : xml := Elem "transmission" [("name", "t")] None
  [Elem "joint" [("name", "j")] None []; Elem "actuator" [("name", "a")] None [Elem "mechanicalReduction" [] (Some "4") []];
   Elem "simulated_actuated_joint" [("name", "k"); ("simulated_reduction", "3")] None []].
Definition ex_parsers : parsers R := mkParsers (fun _ => 4) (fun _ => Some 3) (fun _ => Some 1).
Definition ex_rview : rview R := mkRview (fun n => Some (ex_joint n)) (fun _ => Some 7%nat).
Example C42_ex : exists t h, let c0 := new_calsim 0 0 0 0 false false in
  simple_initXml ex_parsers ex_rview ex_simple_doc (fun _ => new_actuator 0) (new_simple 0 0 false c0) = Ok (Some t, h) /\
  simple_vectors t 7 [0%nat; 1%nat] 0 /\ st_red t = 4 /\ st_sim_red t = 3 /\ st_joints t = ["j"; "k"] /\ st_actuators t = ["a"] /\
  a_enable (h 7%nat) = true.
Proof.
  eexists. eexists. cbv zeta. split; [reflexivity|]. split; [right; exists 1%nat; repeat split; auto|]. repeat split.
Qed.
