(** What a simulator sees on the actuators: time stamps and calibration flags. *)
From Coq Require Import List Arith Bool ZArith Sorted.
From Verif.Model Require Import Base Num Joint Hardware Transmission Simple Wrist Belt Gripper Robot Builtin.
From Verif.Spec Require Import RobotSpec CalibrationSpec.
Import ListNotations.

(** The clock readings of the simulator's position calls of a history. *)
Fixpoint clock_readings {T} (ops : list (robot_op T)) : list env :=
  match ops with
  | [] => []
  | OpPositionBack e :: ops => e :: clock_readings ops
  | _ :: ops => clock_readings ops
  end.

(** The time stamp due now, given the earlier calls: the time since the first call made with ROS running, zero before. *)
Inductive elapsed (earlier : list env) (now : env) : Z -> Prop :=
| not_yet : (forall e, In e earlier -> e_started e = false) -> elapsed earlier now 0%Z
| since pre e0 post : earlier = (pre ++ e0 :: post)%list -> (forall e, In e pre -> e_started e = false) -> e_started e0 = true ->
    elapsed earlier now (e_now now - e_now e0)%Z.

(** A clock that does not run backwards. *)
Definition forward (es : list env) : Prop := StronglySorted (fun a b => (e_now a <= e_now b)%Z) es.

(** The "time stamp initialised" flag and the start time of a transmission object, and its calibration simulator for joint
    number [k]. *)
Definition clock_flag {T} (t : transmission T) : bool :=
  match t with TSimple t => st_ts_init t | TWrist t => wt_ts_init t | TBelt t => bt_ts_init t | TGripper t => gr_ts_init t end.
Definition clock_start {T} (t : transmission T) : Z :=
  match t with TSimple t => st_start t | TWrist t => wt_start t | TBelt t => bt_start t | TGripper t => gr_start t end.
Definition calibrator {T} (t : transmission T) (k : nat) : calsim T :=
  match t with
  | TSimple t => st_cal t | TWrist t => match k with 0 => wt_cal0 t | _ => wt_cal1 t end
  | TBelt t => bt_cal t | TGripper t => gr_cal t end.

(** The calibration switch of joint number [k] is wired to actuator number [n]: the only one, except in a wrist, where the
    flex joint's switch is on the left motor and the roll joint's on the right one. *)
Definition switch_of {T} (t : transmission T) (k n : nat) : Prop :=
  match t with
  | TWrist _ => (k = 0 /\ n = 1) \/ (k = 1 /\ n = 0)
  | _ => k = 0 /\ n = 0
  end.

(** A simulation: calls of any kind, and again and again the simulator's position call; [before n] and [after n] is the
    memory around the latter. *)
Definition simulation {T} {N : Num T} (K : tclass (transmission T) T) (s : rstate) (ts0 : list (transmission T)) (m0 : mem T)
  (e : nat -> env) (ops : nat -> list (robot_op T)) (ts ts' : nat -> list (transmission T)) (before after : nat -> mem T) : Prop :=
  run_ops K s (ops 0) ts0 m0 = Ok (ts 0, before 0) /\
  (forall n, propagateJointPositionToActuatorPosition K (e n) s (ts n) (before n) = Ok (ts' n, after n)) /\
  (forall n, run_ops K s (ops (S n)) (ts' n) (after n) = Ok (ts (S n), before (S n))).

(** Whatever is done in between is not a position call, and nobody writes to the calibration fields of actuator [p]. *)
Definition leaves_switch {T} (p : nat) (o : robot_op T) : Prop :=
  match o with
  | OpPositionBack _ => False
  | OpWrite w => forall m, same_edges (m_act m p) (m_act (w m) p) /\ a_calibration_reading (m_act (w m) p) = a_calibration_reading (m_act m p)
  | _ => True
  end.
