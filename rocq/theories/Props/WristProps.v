(** C43-C45: the wrist differential. *)
From Coq Require Import List Reals Arith Bool ZArith Lia Lra String.
From Verif.Model Require Import Base Num Joint Hardware Xml Transmission Wrist.
From Verif.Spec Require Import TransmissionSpec.
From Verif.Proofs Require Import TransmissionProofs.
Import ListNotations.
Local Open Scope R_scope.

(** Two actuators, two joints (distinct objects), non-zero reductions. *)
Record wrist_ok (t : wrist R) (p0 p1 q0 q1 : nat) (ar0 ar1 jr0 jr1 : R) : Prop := {
  wo_ar : wt_ar t = [ar0; ar1];
  wo_jr : wt_jr t = [jr0; jr1];
  wo_p : p0 <> p1;
  wo_q : q0 <> q1;
  wo_nz : ar0 <> 0 /\ ar1 <> 0 /\ jr0 <> 0 /\ jr1 <> 0 }.

Lemma wsizes dbg p0 p1 q0 q1 : wrist_sizes dbg [p0; p1] [q0; q1] = Ok tt.
Proof. destruct dbg; reflexivity. Qed.

Ltac mems := cbn [act_upd js_upd m_act m_js] in *; unfold upd in *; rewrite ?Nat.eqb_refl in *;
  repeat match goal with
  | H : ?p <> ?q, H' : context [Nat.eqb ?p ?q] |- _ => rewrite (proj2 (Nat.eqb_neq p q) H) in H'
  | H : ?q <> ?p, H' : context [Nat.eqb ?p ?q] |- _ => rewrite (proj2 (Nat.eqb_neq p q) (fun e => H (eq_sym e))) in H'
  | H : ?p <> ?q |- context [Nat.eqb ?p ?q] => rewrite (proj2 (Nat.eqb_neq p q) H)
  | H : ?q <> ?p |- context [Nat.eqb ?p ?q] => rewrite (proj2 (Nat.eqb_neq p q) (fun e => H (eq_sym e)))
  end.

Lemma wrist_forward dbg t p0 p1 q0 q1 ar0 ar1 jr0 jr1 m : wrist_ok t p0 p1 q0 q1 ar0 ar1 jr0 jr1 -> exists m1,
  wrist_propagatePosition dbg t [p0; p1] [q0; q1] m = Ok m1 /\ only_joints [q0; q1] m m1 /\
  (let a0 := m_act m p0 in let a1 := m_act m p1 in let j0 := m_js m1 q0 in let j1 := m_js m1 q1 in
   position j0 = (a_position a0 / ar0 - a_position a1 / ar1) / (2 * jr0) + reference_position (m_js m q0) + wt_off0 t /\
   velocity j0 = (a_velocity a0 / ar0 - a_velocity a1 / ar1) / (2 * jr0) /\
   measured_effort j0 = jr0 * (a_last_measured_effort a0 * ar0 - a_last_measured_effort a1 * ar1) /\
   position j1 = (- a_position a0 / ar0 - a_position a1 / ar1) / (2 * jr1) + reference_position (m_js m q1) + wt_off1 t /\
   velocity j1 = (- a_velocity a0 / ar0 - a_velocity a1 / ar1) / (2 * jr1) /\
   measured_effort j1 = jr1 * (- a_last_measured_effort a0 * ar0 - a_last_measured_effort a1 * ar1)) /\
  same_config_j (m_js m q0) (m_js m1 q0) /\ same_config_j (m_js m q1) (m_js m1 q1).
Proof.
  intros [A J P Q NZ]. unfold wrist_propagatePosition. rewrite wsizes, A, J. cbn [bind vget nth_error].
  eexists. split; [reflexivity|]. split; [|split; [|split]].
  - split; [reflexivity|]. intros q Hq. simpl in Hq. mems.
    destruct (Nat.eqb_spec q q0); [subst; tauto|]. destruct (Nat.eqb_spec q q1); [subst; tauto|reflexivity].
  - mems. cbv zeta. repeat split.
  - mems. repeat split.
  - mems. repeat split.
Qed.

Lemma wrist_backward dbg e t p0 p1 q0 q1 ar0 ar1 jr0 jr1 m : wrist_ok t p0 p1 q0 q1 ar0 ar1 jr0 jr1 ->
  js_joint (m_js m q0) <> None -> js_joint (m_js m q1) <> None -> exists t' m1,
  wrist_propagatePositionBackwards dbg e t [q0; q1] [p0; p1] m = Ok (t', m1) /\ only_actuators [p0; p1] m m1 /\
  (let a0 := m_act m1 p0 in let a1 := m_act m1 p1 in let j0 := m_js m q0 in let j1 := m_js m q1 in
   let d0 := position j0 - reference_position j0 - wt_off0 t in let d1 := position j1 - reference_position j1 - wt_off1 t in
   a_position a0 = (d0 * jr0 - d1 * jr1) * ar0 /\
   a_velocity a0 = (velocity j0 * jr0 - velocity j1 * jr1) * ar0 /\
   a_last_measured_effort a0 = (measured_effort j0 / jr0 - measured_effort j1 / jr1) / (2 * ar0) /\
   a_position a1 = (- d0 * jr0 - d1 * jr1) * ar1 /\
   a_velocity a1 = (- velocity j0 * jr0 - velocity j1 * jr1) * ar1 /\
   a_last_measured_effort a1 = (- measured_effort j0 / jr0 - measured_effort j1 / jr1) / (2 * ar1)) /\
  wt_ar t' = wt_ar t /\ wt_jr t' = wt_jr t /\ wt_off0 t' = wt_off0 t /\ wt_off1 t' = wt_off1 t.
Proof.
  intros [A J P Q NZ] H0 H1. unfold wrist_propagatePositionBackwards. rewrite wsizes, A, J. cbn [bind vget nth_error].
  destruct (sim_clock e (wt_ts_init t) (wt_start t)) as [[ini start] stamp].
  match goal with |- context [simcal_mem dbg ?c q0 p1 ?mm] =>
    destruct (simcal_total dbg c q0 p1 mm) as [c0 [a1' [E0 K1]]]; [exact H0|] end.
  rewrite E0. cbn [bind]. clear E0.
  match goal with |- context [simcal_mem dbg ?c q1 p0 ?mm] =>
    destruct (simcal_total dbg c q1 p0 mm) as [c1 [a0' [E1 K0]]]; [exact H1|] end.
  rewrite E1. cbn [bind]. clear E1. eexists. eexists. split; [reflexivity|].
  apply sbc_fields in K0, K1. destruct K0 as [K01 [K02 [K03 _]]], K1 as [K11 [K12 [K13 _]]].
  mems.
  split; [|split].
  - split; [reflexivity|]. intros p Hp. simpl in Hp. mems.
    destruct (Nat.eqb_spec p p0); [subst; tauto|]. destruct (Nat.eqb_spec p p1); [subst; tauto|reflexivity].
  - mems. cbv zeta. rewrite K01, K02, K03, K11, K12, K13. repeat split.
  - rewrite <- A, <- J. repeat split.
Qed.

(** C43: actuators -> joints -> actuators is the identity on positions, velocities and efforts ... *)
Theorem C43_actuator_roundtrip : forall dbg e t p0 p1 q0 q1 ar0 ar1 jr0 jr1 m,
  wrist_ok t p0 p1 q0 q1 ar0 ar1 jr0 jr1 -> js_joint (m_js m q0) <> None -> js_joint (m_js m q1) <> None ->
  exists m1 t' m2,
    wrist_propagatePosition dbg t [p0; p1] [q0; q1] m = Ok m1 /\
    wrist_propagatePositionBackwards dbg e t [q0; q1] [p0; p1] m1 = Ok (t', m2) /\
    same_motion_a (m_act m2 p0) (m_act m p0) /\ same_motion_a (m_act m2 p1) (m_act m p1) /\
    only_joints [q0; q1] m m1 /\ only_actuators [p0; p1] m1 m2.
Proof.
  intros dbg e t p0 p1 q0 q1 ar0 ar1 jr0 jr1 m W H0 H1.
  destruct (wrist_forward dbg t p0 p1 q0 q1 ar0 ar1 jr0 jr1 m W) as [m1 [E1 [F1 [[P0 [V0 [M0 [P1 [V1 M1]]]]] [C0 C1]]]]].
  destruct (wrist_backward dbg e t p0 p1 q0 q1 ar0 ar1 jr0 jr1 m1 W) as [t' [m2 [E2 [F2 [[A0 [B0 [D0 [A1 [B1 D1]]]]] _]]]]].
  { destruct C0 as [<- _]. auto. } { destruct C1 as [<- _]. auto. }
  exists m1, t', m2. repeat (split; [assumption|]).
  destruct W as [_ _ _ _ [N0 [N1 [N2 N3]]]].
  destruct C0 as [_ [_ [_ [_ R0]]]], C1 as [_ [_ [_ [_ R1]]]].
  split; [|split; [|split; assumption]]; unfold same_motion_a; rewrite ?A0, ?B0, ?D0, ?A1, ?B1, ?D1, ?P0, ?V0, ?M0, ?P1, ?V1, ?M1, <- ?R0, <- ?R1;
    repeat split; field; auto.
Qed.

(** ... and joints -> actuators -> joints too. *)
Theorem C43_joint_roundtrip : forall dbg e t p0 p1 q0 q1 ar0 ar1 jr0 jr1 m,
  wrist_ok t p0 p1 q0 q1 ar0 ar1 jr0 jr1 -> js_joint (m_js m q0) <> None -> js_joint (m_js m q1) <> None ->
  exists t' m1 m2,
    wrist_propagatePositionBackwards dbg e t [q0; q1] [p0; p1] m = Ok (t', m1) /\
    wrist_propagatePosition dbg t' [p0; p1] [q0; q1] m1 = Ok m2 /\
    same_motion_j (m_js m2 q0) (m_js m q0) /\ same_motion_j (m_js m2 q1) (m_js m q1) /\
    same_config_j (m_js m2 q0) (m_js m q0) /\ same_config_j (m_js m2 q1) (m_js m q1).
Proof.
  intros dbg e t p0 p1 q0 q1 ar0 ar1 jr0 jr1 m W H0 H1.
  destruct (wrist_backward dbg e t p0 p1 q0 q1 ar0 ar1 jr0 jr1 m W H0 H1) as [t' [m1 [E2 [[F2 _] [[A0 [B0 [D0 [A1 [B1 D1]]]]] [T1 [T2 [T3 T4]]]]]]]].
  assert (W' : wrist_ok t' p0 p1 q0 q1 ar0 ar1 jr0 jr1) by (destruct W; split; congruence).
  destruct (wrist_forward dbg t' p0 p1 q0 q1 ar0 ar1 jr0 jr1 m1 W') as [m2 [E1 [F1 [[P0 [V0 [M0 [P1 [V1 M1]]]]] [C0 C1]]]]].
  exists t', m1, m2. repeat (split; [assumption|]). rewrite F2 in *.
  destruct W as [_ _ _ _ [N0 [N1 [N2 N3]]]].
  destruct C0 as [X1 [X2 [X3 [X4 X5]]]], C1 as [Y1 [Y2 [Y3 [Y4 Y5]]]].
  split; [|split; [|split; repeat split; congruence]]; unfold same_motion_j;
    rewrite ?P0, ?V0, ?M0, ?P1, ?V1, ?M1, ?A0, ?B0, ?D0, ?A1, ?B1, ?D1, ?T3, ?T4; repeat split; field; auto.
Qed.

(** Commanded efforts: joints -> actuators -> joints is the identity. *)
Theorem C43_effort_roundtrip : forall dbg t p0 p1 q0 q1 ar0 ar1 jr0 jr1 m,
  wrist_ok t p0 p1 q0 q1 ar0 ar1 jr0 jr1 ->
  exists m1 m2,
    wrist_propagateEffort dbg t [q0; q1] [p0; p1] m = Ok m1 /\
    wrist_propagateEffortBackwards dbg t [p0; p1] [q0; q1] m1 = Ok m2 /\
    a_enable (m_act m1 p0) = true /\ a_enable (m_act m1 p1) = true /\
    only_command (m_act m p0) (m_act m1 p0) /\ only_command (m_act m p1) (m_act m1 p1) /\ only_actuators [p0; p1] m m1 /\
    commanded_effort (m_js m2 q0) = commanded_effort (m_js m q0) /\
    commanded_effort (m_js m2 q1) = commanded_effort (m_js m q1).
Proof.
  intros dbg t p0 p1 q0 q1 ar0 ar1 jr0 jr1 m [A J P Q [N0 [N1 [N2 N3]]]].
  unfold wrist_propagateEffort, wrist_propagateEffortBackwards. rewrite !wsizes, A, J. cbn [bind vget nth_error].
  eexists. eexists. split; [reflexivity|]. split; [reflexivity|].
  mems. split; [reflexivity|]. split; [reflexivity|].
  split; [eexists; eexists; reflexivity|]. split; [eexists; eexists; reflexivity|].
  split; [split; [reflexivity|]; intros p Hp; simpl in Hp; mems;
          destruct (Nat.eqb_spec p p0); [subst; tauto|]; destruct (Nat.eqb_spec p p1); [subst; tauto|reflexivity]|].
  cbn. split; field; auto.
Qed.

Theorem C43_actuator_effort_roundtrip : forall dbg t p0 p1 q0 q1 ar0 ar1 jr0 jr1 m,
  wrist_ok t p0 p1 q0 q1 ar0 ar1 jr0 jr1 ->
  exists m1 m2,
    wrist_propagateEffortBackwards dbg t [p0; p1] [q0; q1] m = Ok m1 /\
    wrist_propagateEffort dbg t [q0; q1] [p0; p1] m1 = Ok m2 /\
    a_effort (m_act m2 p0) = a_effort (m_act m p0) /\ a_effort (m_act m2 p1) = a_effort (m_act m p1).
Proof.
  intros dbg t p0 p1 q0 q1 ar0 ar1 jr0 jr1 m [A J P Q [N0 [N1 [N2 N3]]]].
  unfold wrist_propagateEffort, wrist_propagateEffortBackwards. rewrite !wsizes, A, J. cbn [bind vget nth_error].
  eexists. eexists. split; [reflexivity|]. split; [reflexivity|]. mems. cbn. split; field; auto.
Qed.

(** C44: the total measured power of the joints equals that of the actuators, and so does the commanded power. *)
Theorem C44_power : forall dbg t p0 p1 q0 q1 ar0 ar1 jr0 jr1 m,
  wrist_ok t p0 p1 q0 q1 ar0 ar1 jr0 jr1 ->
  exists m1 m2,
    wrist_propagatePosition dbg t [p0; p1] [q0; q1] m = Ok m1 /\ wrist_propagateEffort dbg t [q0; q1] [p0; p1] m1 = Ok m2 /\
    power_j (m_js m1 q0) + power_j (m_js m1 q1) = power_a (m_act m p0) + power_a (m_act m p1) /\
    cpower_a (m_act m2 p0) + cpower_a (m_act m2 p1) = cpower_j (m_js m1 q0) + cpower_j (m_js m1 q1).
Proof.
  intros dbg t p0 p1 q0 q1 ar0 ar1 jr0 jr1 m W.
  destruct (wrist_forward dbg t p0 p1 q0 q1 ar0 ar1 jr0 jr1 m W) as [m1 [E1 [[F1 _] [[P0 [V0 [M0 [P1 [V1 M1]]]]] _]]]].
  destruct W as [A J P Q [N0 [N1 [N2 N3]]]].
  exists m1. unfold wrist_propagateEffort. rewrite !wsizes, A, J. cbn [bind vget nth_error].
  eexists. split; [exact E1|]. split; [reflexivity|]. mems.
  unfold power_j, power_a, cpower_j, cpower_a. cbn. rewrite V0, V1, M0, M1, F1, F1. split; field; auto.
Qed.

(** ** C45: reading the description *)

(** The declarations of one wrist element. *)
Record wrist_decl := mkDecl {
  d_ra : string; d_rar : string; d_la : string; d_lar : string;
  d_fj : string; d_fjr : string; d_foff : option string;
  d_rj : string; d_rjr : string; d_roff : option string }.
Local Open Scope string_scope.
(** [elt] declares [d]: the first child element of each kind carries these attributes. *)
Definition declares (elt : xml) (d : wrist_decl) : Prop :=
  (exists e, FirstChildElement elt "rightActuator" = Some e /\ Attribute e "name" = Some (d_ra d) /\ Attribute e "mechanicalReduction" = Some (d_rar d)) /\
  (exists e, FirstChildElement elt "leftActuator" = Some e /\ Attribute e "name" = Some (d_la d) /\ Attribute e "mechanicalReduction" = Some (d_lar d)) /\
  (exists e, FirstChildElement elt "flexJoint" = Some e /\ Attribute e "name" = Some (d_fj d) /\ Attribute e "mechanicalReduction" = Some (d_fjr d) /\ Attribute e "offset" = d_foff d) /\
  (exists e, FirstChildElement elt "rollJoint" = Some e /\ Attribute e "name" = Some (d_rj d) /\ Attribute e "mechanicalReduction" = Some (d_rjr d) /\ Attribute e "offset" = d_roff d).

(** An absent offset is zero, a present one must parse. *)
Definition offset_value {T} {N : Num T} (P : parsers T) (s : option string) (x : T) : Prop :=
  match s with None => x = nzero | Some s => p_convert P s = Some x end.

(** What a correctly initialised transmission holds. *)
Definition holds {T} (P : parsers T) (d : wrist_decl) (o0 o1 : T) (t : wrist T) : Prop :=
  wt_actuators t = [d_ra d; d_la d] /\ wt_joints t = [d_fj d; d_rj d] /\
  wt_ar t = [p_atof P (d_rar d); p_atof P (d_lar d)] /\ wt_jr t = [p_atof P (d_fjr d); p_atof P (d_rjr d)] /\
  wt_off0 t = o0 /\ wt_off1 t = o1.

(** The two-argument variant (the one Robot::initXml uses) reads the declaration, enables exactly the two actuators,
    and fails on an offset that is not a number. *)
Theorem C45_initXml : forall {T} {N : Num T} (P : parsers T) (R : rview T) elt d h b c0 c1 a0 a1,
  declares elt d ->
  rv_actuator R (d_ra d) = Some a0 -> rv_actuator R (d_la d) = Some a1 ->
  rv_joint R (d_fj d) <> None -> rv_joint R (d_rj d) <> None ->
  exists r h', wrist_initXml P R elt h (new_wrist b c0 c1) = Ok (r, h') /\
    (forall p, h' p = if (p =? a0)%nat || (p =? a1)%nat then set_a_enable true (h p) else h p) /\
    (forall o0 o1, offset_value P (d_foff d) o0 -> offset_value P (d_roff d) o1 -> exists t, r = Some t /\ holds P d o0 o1 t) /\
    ((exists s, (d_foff d = Some s \/ d_roff d = Some s) /\ p_convert P s = None) -> r = None).
Proof.
  intros T N P R elt d h b c0 c1 a0 a1 [[e1 [X1 [X2 X3]]] [[e2 [Y1 [Y2 Y3]]] [[e3 [Z1 [Z2 [Z3 Z4]]]] [e4 [U1 [U2 [U3 U4]]]]]]] HA0 HA1 HJ0 HJ1.
  assert (Hh : forall p, upd a1 (set_a_enable true) (upd a0 (set_a_enable true) h) p = if (p =? a0)%nat || (p =? a1)%nat then set_a_enable true (h p) else h p).
  { intros p. unfold upd. destruct (p =? a1)%nat, (p =? a0)%nat; simpl; auto. }
  unfold wrist_initXml, wrist_actuator, wrist_joint. rewrite X1, X2, HA0, X3, Y1, Y2, HA1, Y3.
  cbn [set_wt_name set_wt_actuators set_wt_ar wt_name wt_actuators wt_joints wt_ar wt_jr wt_off0 wt_off1 wt_ts_init wt_start wt_cal0 wt_cal1 new_wrist].
  rewrite Z1. cbn [deref bind]. rewrite Z2, Z3.
  destruct (rv_joint R (d_fj d)) as [j0|]; [|congruence]. cbn [bind].
  rewrite Z4.
  assert (OV : forall s o, offset_value P s o <-> wrist_offset P s = Some o).
  { intros [s|] o; simpl; split; congruence. }
  destruct (wrist_offset P (d_foff d)) as [o|] eqn:C0.
  - rewrite U1. cbn [deref bind]. rewrite U2, U3. destruct (rv_joint R (d_rj d)) as [j1|]; [|congruence]. cbn [bind].
    rewrite U4. destruct (wrist_offset P (d_roff d)) as [o'|] eqn:C1; (eexists; eexists; split; [reflexivity|]; split; [exact Hh|]; split).
    + intros o0 o1 K0 K1. apply OV in K0, K1. rewrite C0 in K0. rewrite C1 in K1. injection K0 as <-. injection K1 as <-.
      eexists. split; [reflexivity|]. repeat split.
    + intros [s [[K|K] Hs]]; rewrite K in *; simpl in *; congruence.
    + intros o0 o1 _ K1. apply OV in K1. congruence.
    + auto.
  - eexists; eexists; split; [reflexivity|]; split; [exact Hh|]; split; [intros o0 o1 K0; apply OV in K0; congruence|auto].
Qed.

(** The one-argument variant reads the same names and reductions but gives the roll joint the FLEX joint's offset,
    whatever the roll joint declares. *)
Theorem C45_initXml1_roll_offset : forall {T} {N : Num T} (P : parsers T) elt d b c0 c1 o0,
  declares elt d -> offset_value P (d_foff d) o0 ->
  exists t, wrist_initXml1 P elt (new_wrist b c0 c1) = Ok (Some t) /\ holds P d o0 o0 t.
Proof.
  intros T N P elt d b c0 c1 o0 [[e1 [X1 [X2 X3]]] [[e2 [Y1 [Y2 Y3]]] [[e3 [Z1 [Z2 [Z3 Z4]]]] [e4 [U1 [U2 [U3 U4]]]]]]] HO.
  unfold wrist_initXml1, wrist_actuator, wrist_joint. rewrite X1, X2, X3, Y1, Y2, Y3.
  cbn [fst]. rewrite Z1. cbn [deref bind]. rewrite Z2, Z3. cbn [bind]. rewrite Z4.
  assert (E : wrist_offset P (d_foff d) = Some o0) by (destruct (d_foff d); simpl in *; congruence).
  rewrite E. rewrite U1. cbn [deref bind]. rewrite U2, U3. cbn [bind]. eexists. split; [reflexivity|]. repeat split.
Qed.

(** Hence the variants disagree exactly when the declared offsets differ. *)
Theorem C45_variants_agree : forall {T} {N : Num T} (P : parsers T) (R : rview T) elt d h b c0 c1 a0 a1 o0 o1,
  declares elt d ->
  rv_actuator R (d_ra d) = Some a0 -> rv_actuator R (d_la d) = Some a1 ->
  rv_joint R (d_fj d) <> None -> rv_joint R (d_rj d) <> None ->
  offset_value P (d_foff d) o0 -> offset_value P (d_roff d) o1 ->
  exists t t1 h', wrist_initXml P R elt h (new_wrist b c0 c1) = Ok (Some t, h') /\ wrist_initXml1 P elt (new_wrist b c0 c1) = Ok (Some t1) /\
    wt_joints t1 = wt_joints t /\ wt_actuators t1 = wt_actuators t /\ wt_ar t1 = wt_ar t /\ wt_jr t1 = wt_jr t /\ wt_off0 t1 = wt_off0 t /\
    (wt_off1 t1 = wt_off1 t <-> o0 = o1).
Proof.
  intros T N P R elt d h b c0 c1 a0 a1 o0 o1 D A0 A1 J0 J1 O0 O1.
  destruct (C45_initXml P R elt d h b c0 c1 a0 a1 D A0 A1 J0 J1) as [r [h' [E [_ [F _]]]]].
  destruct (F o0 o1 O0 O1) as [t [-> [H1 [H2 [H3 [H4 [H5 H6]]]]]]].
  destruct (C45_initXml1_roll_offset P elt d b c0 c1 o0 D O0) as [t1 [E1 [G1 [G2 [G3 [G4 [G5 G6]]]]]]].
  exists t, t1, h'. split; [exact E|]. split; [exact E1|]. repeat (split; [congruence|]).
  rewrite G6, H6. tauto.
Qed.

(** A missing flexJoint element is a NULL dereference, not an error return. *)
Theorem C45_missing_joint_element : forall {T} {N : Num T} (P : parsers T) (R : rview T) elt d h b c0 c1 a0 a1,
  FirstChildElement elt "flexJoint" = None ->
  (exists e, FirstChildElement elt "rightActuator" = Some e /\ Attribute e "name" = Some (d_ra d) /\ Attribute e "mechanicalReduction" = Some (d_rar d)) ->
  (exists e, FirstChildElement elt "leftActuator" = Some e /\ Attribute e "name" = Some (d_la d) /\ Attribute e "mechanicalReduction" = Some (d_lar d)) ->
  rv_actuator R (d_ra d) = Some a0 -> rv_actuator R (d_la d) = Some a1 ->
  wrist_initXml P R elt h (new_wrist b c0 c1) = UB.
Proof.
  intros T N P R elt d h b c0 c1 a0 a1 HN [e1 [X1 [X2 X3]]] [e2 [Y1 [Y2 Y3]]] HA0 HA1.
  unfold wrist_initXml, wrist_actuator, wrist_joint. rewrite X1, X2, HA0, X3, Y1, Y2, HA1, Y3, HN. reflexivity.
Qed.

(** Non-vacuity: a document with different offsets. *)
Definition ex_wrist_doc : xml := Elem "transmission" [("name", "w")] None
  [Elem "rightActuator" [("name", "r"); ("mechanicalReduction", "60")] None [];
   Elem "leftActuator" [("name", "l"); ("mechanicalReduction", "60")] None [];
   Elem "flexJoint" [("name", "f"); ("mechanicalReduction", "1"); ("offset", "x")] None [];
   Elem "rollJoint" [("name", "o"); ("mechanicalReduction", "1"); ("offset", "y")] None []].
Definition ex_decl : wrist_decl := mkDecl "r" "60" "l" "60" "f" "1" (Some "x") "o" "1" (Some "y").
Definition ex_wp : parsers R := mkParsers (fun s => if String.eqb s "60" then 60 else 1) (fun _ => None)
  (fun s => Some (if String.eqb s "x" then 5 else 7)).
Definition ex_wrv : rview R := mkRview (fun n => Some (mkUjoint n JREVOLUTE None None None)) (fun n => if String.eqb n "r" then Some 0%nat else Some 1%nat).
Example C45_ex : declares ex_wrist_doc ex_decl /\ exists t t1 h', let c := new_calsim 0 0 0 0 false false in
  wrist_initXml ex_wp ex_wrv ex_wrist_doc (fun _ => new_actuator 0) (new_wrist false c c) = Ok (Some t, h') /\
  wrist_initXml1 ex_wp ex_wrist_doc (new_wrist false c c) = Ok (Some t1) /\
  wt_off1 t = 7 /\ wt_off1 t1 = 5 /\ wrist_ok t 0 1 0 1 60 60 1 1.
Proof.
  split.
  - split; [eexists; split; [reflexivity|]; split; reflexivity|]. split; [eexists; split; [reflexivity|]; split; reflexivity|].
    split; (eexists; split; [reflexivity|]; split; [reflexivity|]; split; reflexivity).
  - eexists. eexists. eexists. cbv zeta. split; [reflexivity|]. split; [reflexivity|]. split; [reflexivity|]. split; [reflexivity|].
    split; try reflexivity; try discriminate. repeat split; lra.
Qed.
