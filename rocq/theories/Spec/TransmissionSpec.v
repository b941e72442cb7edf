(** Vocabulary for the transmission properties. *)
From Coq Require Import List Reals Arith Bool.
From Verif.Model Require Import Base Num Joint Hardware Transmission.
Import ListNotations.
Local Open Scope R_scope.

(** Motion of a joint / an actuator: position, velocity, measured effort. *)
Definition same_motion_a (a b : actuator R) : Prop :=
  a_position a = a_position b /\ a_velocity a = a_velocity b /\ a_last_measured_effort a = a_last_measured_effort b.
Definition same_motion_j (a b : jointstate R) : Prop :=
  position a = position b /\ velocity a = velocity b /\ measured_effort a = measured_effort b.

(** Everything a joint state holds apart from its motion (description, statistics, command, calibration). *)
Definition same_config_j {T} (a b : jointstate T) : Prop :=
  js_joint a = js_joint b /\ joint_statistics a = joint_statistics b /\ commanded_effort a = commanded_effort b /\
  calibrated a = calibrated b /\ reference_position a = reference_position b.

(** Mechanical power, measured and commanded. *)
Definition power_j (j : jointstate R) : R := measured_effort j * velocity j.
Definition power_a (a : actuator R) : R := a_last_measured_effort a * a_velocity a.
Definition cpower_j (j : jointstate R) : R := commanded_effort j * velocity j.
Definition cpower_a (a : actuator R) : R := a_effort a * a_velocity a.

(** A call leaves every object outside the given pointers alone. *)
Definition only_joints {T} (js : list nat) (m m' : mem T) : Prop :=
  (forall p, m_act m' p = m_act m p) /\ (forall q, ~ In q js -> m_js m' q = m_js m q).
Definition only_actuators {T} (as_ : list nat) (m m' : mem T) : Prop :=
  (forall q, m_js m' q = m_js m q) /\ (forall p, ~ In p as_ -> m_act m' p = m_act m p).
(** ... and of an actuator only the command. *)
Definition only_command {T} (a a' : actuator T) : Prop := exists en ef, a' = set_a_effort ef (set_a_enable en a).
