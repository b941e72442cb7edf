(** Vocabulary for the simulated belt: a motor mass joined to the joint by a critically damped spring. *)
From Coq Require Import List Reals ZArith.
From Verif.Model Require Import Base Num Joint Hardware Transmission Belt.
Import ListNotations.
Local Open Scope R_scope.

(** Two transmission objects agree on everything the simulation depends on (they may differ in the estimator, damping and
    calibration parts, which other calls change between simulation cycles). *)
Definition same_simulation {T} (t t' : belt T) : Prop :=
  bt_red t' = bt_red t /\ bt_compl t' = bt_compl t /\ bt_tau t' = bt_tau t /\
  bt_bts t' = bt_bts t /\ bt_bhalf t' = bt_bhalf t /\ bt_bforce t' = bt_bforce t /\
  bt_bmpos t' = bt_bmpos t /\ bt_bmvel t' = bt_bmvel t /\ bt_bmacc t' = bt_bmacc t /\
  bt_bjpos t' = bt_bjpos t /\ bt_bjvel t' = bt_bjvel t.

(** What is seen of the n-th simulation cycle: the actuator's command and time stamp when the force on the joint is computed,
    that force, the joint's position (relative to its reference) and velocity when the simulator is done, and the motor's
    position, velocity and measured effort computed from them. *)
Record seen := mkSeen { se_command : R; se_stamp : Z; se_force : R; se_jpos : R; se_jvel : R; se_mpos : R; se_mvel : R; se_meffort : R }.

(** A simulation as the simulator runs it: in cycle [n] the force on the joint is computed from memory [m n], the simulator
    moves the joint (and changes anything else, giving [m' n]), then the motor is computed; before the next cycle anything not
    part of the simulation state of this transmission may change. *)
Definition simulation (dbg : bool) (a j : nat) (t t1 t2 : nat -> belt R) (env : nat -> Transmission.env) (m mf m' mp : nat -> mem R) : Prop :=
  (forall n, belt_propagateEffortBackwards dbg (t n) [a] [j] (m n) = Ok (t1 n, mf n)) /\
  (forall n, belt_propagatePositionBackwards dbg (env n) (t1 n) [j] [a] (m' n) = Ok (t2 n, mp n)) /\
  (forall n, same_simulation (t2 n) (t (S n))).
Definition cycle_seen (a j : nat) (m mf m' mp : nat -> mem R) (n : nat) : seen :=
  mkSeen (a_effort (m_act (m n) a)) (a_sample_timestamp (m_act (m n) a)) (commanded_effort (m_js (mf n) j))
    (position (m_js (m' n) j) - reference_position (m_js (m' n) j)) (velocity (m_js (m' n) j))
    (a_position (m_act (mp n) a)) (a_velocity (m_act (mp n) a)) (a_last_measured_effort (m_act (mp n) a)).

(** The spring: reduction, compliance and time constant (motor mass times compliance is the square of the time constant). *)
Record spring := mkSpring { sp_red : R; sp_compl : R; sp_tau : R }.
Definition spring_of (t : belt R) : spring := mkSpring (bt_red t) (bt_compl t) (bt_tau t).
(** half the time between two time stamps, in seconds, and the time constant used: never below that *)
Definition half_step (s s' : Z) : R := IZR (s' - s) / 1000000000 / 2.
Definition time_constant (k : spring) (h : R) : R := Rmax (sp_tau k) h.

(** From the motor state (x, v, acc) one trapezoidal step of length 2h, the motor driven by [force], the belt's other end at
    [jx] moving at [jv]: the new state, and the force [sf] the belt then carries.  All in joint units.  Newton's law for the
    motor mass tau^2/c, and a spring 1/c with critical damping 2 tau/c. *)
Definition spring_step (k : spring) (h force jx jv x v acc x' v' acc' sf : R) : Prop :=
  let tau := time_constant k h in
  v' = v + h * (acc + acc') /\ x' = x + h * (v + v') /\
  tau * tau / sp_compl k * acc' = force - sf /\
  sf = (2 * tau * (v' - jv) + (x' - jx)) / sp_compl k.
