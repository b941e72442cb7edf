(** The controller manager wired to the robot model: ControllerManager::initXml, the calls update() makes on state_, and
    the messages filled by publishJointState and publishMechanismStatistics
    (pr2_controller_manager/src/controller_manager.cpp). *)
From Coq Require Import List String Arith Bool ZArith Reals.
From Flocq Require Import Core.Raux Core.Generic_fmt Core.Round_NE.
From Verif.Model Require Import Base Num Xml Joint Hardware Transmission Controller Manager Robot.
Import ListNotations.

(** sensor_msgs::JointState without the header (the stamp is written after the fields, controller_manager.cpp:582) *)
Record jmsg (T : Type) := mkJmsg {
  jm_name : list string;
  jm_position : list T;
  jm_velocity : list T;
  jm_effort : list T }.
Arguments mkJmsg {T}.
Arguments jm_name {T} _.
Arguments jm_position {T} _.
Arguments jm_velocity {T} _.
Arguments jm_effort {T} _.

(** pr2_mechanism_msgs::JointStatistics *)
Record jstat (T : Type) := mkJstat {
  jo_timestamp : Z;
  jo_name : string;
  jo_position : T;
  jo_velocity : T;
  jo_measured_effort : T;
  jo_commanded_effort : T;
  jo_is_calibrated : bool;
  jo_violated_limits : bool;
  jo_odometer : T;
  jo_min_position : T;
  jo_max_position : T;
  jo_max_abs_velocity : T;
  jo_max_abs_effort : T }.
Arguments mkJstat {T}.
Arguments jo_timestamp {T} _.
Arguments jo_name {T} _.
Arguments jo_position {T} _.
Arguments jo_velocity {T} _.
Arguments jo_measured_effort {T} _.
Arguments jo_commanded_effort {T} _.
Arguments jo_is_calibrated {T} _.
Arguments jo_violated_limits {T} _.
Arguments jo_odometer {T} _.
Arguments jo_min_position {T} _.
Arguments jo_max_position {T} _.
Arguments jo_max_abs_velocity {T} _.
Arguments jo_max_abs_effort {T} _.

(** pr2_mechanism_msgs::ActuatorStatistics.  The timestamp is the second one assigned
    (controller_manager.cpp:636), with the conversion from double to ros::Time left out. *)
Record astat (T : Type) := mkAstat {
  ao_name : string;
  ao_encoder_count : Z;
  ao_encoder_offset : T;
  ao_position : T;
  ao_timestamp : T;
  ao_device_id : Z;
  ao_encoder_velocity : T;
  ao_velocity : T;
  ao_calibration_reading : bool;
  ao_rising_valid : bool;
  ao_falling_valid : bool;
  ao_last_rising : T;
  ao_last_falling : T;
  ao_is_enabled : bool;
  ao_halted : bool;
  ao_last_commanded_current : T;
  ao_last_executed_current : T;
  ao_last_measured_current : T;
  ao_last_commanded_effort : T;
  ao_last_executed_effort : T;
  ao_last_measured_effort : T;
  ao_motor_voltage : T;
  ao_num_encoder_errors : Z }.
Arguments mkAstat {T}.
Arguments ao_name {T} _.
Arguments ao_encoder_count {T} _.
Arguments ao_encoder_offset {T} _.
Arguments ao_position {T} _.
Arguments ao_timestamp {T} _.
Arguments ao_device_id {T} _.
Arguments ao_encoder_velocity {T} _.
Arguments ao_velocity {T} _.
Arguments ao_calibration_reading {T} _.
Arguments ao_rising_valid {T} _.
Arguments ao_falling_valid {T} _.
Arguments ao_last_rising {T} _.
Arguments ao_last_falling {T} _.
Arguments ao_is_enabled {T} _.
Arguments ao_halted {T} _.
Arguments ao_last_commanded_current {T} _.
Arguments ao_last_executed_current {T} _.
Arguments ao_last_measured_current {T} _.
Arguments ao_last_commanded_effort {T} _.
Arguments ao_last_executed_effort {T} _.
Arguments ao_last_measured_effort {T} _.
Arguments ao_motor_voltage {T} _.
Arguments ao_num_encoder_errors {T} _.

(** Everything the realtime loop works on besides the controllers: the transmissions (they have state), the heap of
    actuators and joint states, the actuator registry of the hardware interface and the two preallocated messages. *)
Record plant (Tr T : Type) := mkPlant {
  pl_ts : list Tr;
  pl_mem : mem T;
  pl_hw : cmap;            (** hw_->actuators_ *)
  pl_js : jmsg T;          (** pub_joint_state_.msg_ *)
  pl_jstats : list (jstat T);   (** pub_mech_stats_.msg_.joint_statistics *)
  pl_astats : list (astat T) }. (** pub_mech_stats_.msg_.actuator_statistics *)
Arguments mkPlant {Tr T}.
Arguments pl_ts {Tr T} _.
Arguments pl_mem {Tr T} _.
Arguments pl_hw {Tr T} _.
Arguments pl_js {Tr T} _.
Arguments pl_jstats {Tr T} _.
Arguments pl_astats {Tr T} _.

(** Ghost record of what leaves the realtime loop (not in the code). *)
Inductive output (T : Type) :=
| OutEffort (before : mem T) (after : mem T)  (** propagateJointEffortToActuatorEffort was called: memory around it *)
| OutJoints (t : Z) (msg : jmsg T)
| OutStats (t : Z) (js : list (jstat T)) (acts : list (astat T)).
Arguments OutEffort {T}.
Arguments OutJoints {T}.
Arguments OutStats {T}.

(** The world of a manager: the plant (or how it crashed), the private state of the controllers and the outside, and
    the ghost log. *)
Record sysw (Tr T X : Type) := mkSysw {
  sy_plant : res (plant Tr T);
  sy_user : X;
  sy_out : list (output T) }.
Arguments mkSysw {Tr T X}.
Arguments sy_plant {Tr T X} _.
Arguments sy_user {Tr T X} _.
Arguments sy_out {Tr T X} _.

Section System.
Context {Tr T X : Type} {N : Num T} (K : tclass Tr T).

Definition is_published (ty : jtype) : bool := jtype_eqb ty JREVOLUTE || jtype_eqb ty JCONTINUOUS || jtype_eqb ty JPRISMATIC.

(** controller_manager.cpp:563-581: the loop over joint_states_ in publishJointState, from index [i], writing at [j]. *)
Fixpoint fill_joint_state (dbg : bool) (m : mem T) (ids : list nat) (j : nat) (msg : jmsg T) : res (jmsg T) :=
  match ids with
  | [] => Ok msg
  | i :: ids' =>
    let js := m_js m i in
    match js_joint js with
    | None => UB
    | Some u =>
      if is_published (uj_type u) then
        do _ <- cassert dbg (j <? List.length (jm_name msg));
        do _ <- cassert dbg (j <? List.length (jm_position msg));
        do _ <- cassert dbg (j <? List.length (jm_velocity msg));
        do _ <- cassert dbg (j <? List.length (jm_effort msg));
        do n <- vset (jm_name msg) j (uj_name u);
        do p <- vset (jm_position msg) j (position js);
        do v <- vset (jm_velocity msg) j (velocity js);
        do e <- vset (jm_effort msg) j (measured_effort js);
        fill_joint_state dbg m ids' (S j) (mkJmsg n p v e)
      else fill_joint_state dbg m ids' j msg
    end
  end.

(** controller_manager.cpp:608-620: one element of joint_statistics *)
Definition joint_stat (t : Z) (u : ujoint T) (js : jointstate T) : jstat T :=
  let s := joint_statistics js in
  mkJstat t (uj_name u) (position js) (velocity js) (measured_effort js) (commanded_effort js) (calibrated js)
          (violated_limits s) (odometer s) (min_position s) (max_position s) (max_abs_velocity s) (max_abs_effort s).

(** controller_manager.cpp:599-624 *)
Fixpoint fill_joint_stats (dbg : bool) (t : Z) (ids : list nat) (j : nat) (m : mem T) (out : list (jstat T))
  : res (mem T * list (jstat T)) :=
  match ids with
  | [] => Ok (m, out)
  | i :: ids' =>
    let js := m_js m i in
    match js_joint js with
    | None => UB
    | Some u =>
      if is_published (uj_type u) then
        do _ <- cassert dbg (j <? List.length out);
        do out <- vset out j (joint_stat t u js);
        fill_joint_stats dbg t ids' (S j) (js_upd i (fun js => set_joint_statistics (stats_reset (joint_statistics js)) js) m) out
      else fill_joint_stats dbg t ids' j m out
    end
  end.

(** controller_manager.cpp:630-655: one element of actuator_statistics *)
Definition actuator_stat (name : string) (a : actuator T) : astat T :=
  mkAstat name (a_encoder_count a) (a_zero_offset a) (a_position a) (a_timestamp a) (a_device_id a) (a_encoder_velocity a)
          (a_velocity a) (a_calibration_reading a) (a_rising_valid a) (a_falling_valid a) (a_last_rising a) (a_last_falling a)
          (a_is_enabled a) (a_halted a) (a_last_commanded_current a) (a_last_executed_current a) (a_last_measured_current a)
          (a_last_commanded_effort a) (a_last_executed_effort a) (a_last_measured_effort a) (a_motor_voltage a)
          (a_num_encoder_errors a).

(** controller_manager.cpp:626-656: over the map in key order; the vector is indexed without a check *)
Fixpoint fill_actuator_stats (m : mem T) (hw : cmap) (i : nat) (out : list (astat T)) : res (list (astat T)) :=
  match hw with
  | [] => Ok out
  | (name, a) :: hw' =>
    do out <- vset out i (actuator_stat name (m_act m a));
    fill_actuator_stats m hw' (S i) out
  end.

Notation plant := (plant Tr T).
Notation sysw := (sysw Tr T X).
Definition set_pl_mem (m : mem T) (p : plant) : plant := mkPlant (pl_ts p) m (pl_hw p) (pl_js p) (pl_jstats p) (pl_astats p).
Definition set_pl_ts (ts : list Tr) (p : plant) : plant := mkPlant ts (pl_mem p) (pl_hw p) (pl_js p) (pl_jstats p) (pl_astats p).

(** run a piece of C++ on the plant; nothing runs after a crash *)
Definition on_plant (f : plant -> res (plant * list (output T))) (w : sysw) : sysw :=
  match sy_plant w with
  | Ok p => match f p with
            | Ok (p', o) => mkSysw (Ok p') (sy_user w) (sy_out w ++ o)
            | UB => mkSysw UB (sy_user w) (sy_out w)
            | Abort => mkSysw Abort (sy_user w) (sy_out w)
            | Hang => mkSysw Hang (sy_user w) (sy_out w)
            end
  | _ => w
  end.

Section Hooks.
(** [dbg]: assertions enabled; [s]: state_; [tick]: the clock, part of the outside world; [cb]: what the starting, update,
    stopping and init code of each controller does to its own state and, through the RobotState, to the heap. *)
Variable dbg : bool.
Variable s : rstate.
Variable tick : X -> Z * X.
Variable cb : ptr -> callback -> X -> mem T -> X * mem T.

(** controller_manager.cpp:133 *)
Definition sys_propagate : sysw -> sysw := on_plant (fun p =>
  do (ts, m) <- propagateActuatorPositionToJointPosition K s (pl_ts p) (pl_mem p); Ok (set_pl_ts ts (set_pl_mem m p), [])).
(** controller_manager.cpp:134 *)
Definition sys_zero : sysw -> sysw := on_plant (fun p => do m <- zeroCommands s (pl_mem p); Ok (set_pl_mem m p, [])).
(** controller_manager.cpp:139,147 *)
Definition sys_halted (w : sysw) : bool := match sy_plant w with Ok p => isHalted s (pl_mem p) | _ => false end.
(** controller_manager.cpp:163 *)
Definition sys_enforce : sysw -> sysw := on_plant (fun p => do m <- enforceSafety s (pl_mem p); Ok (set_pl_mem m p, [])).
(** controller_manager.cpp:164 *)
Definition sys_effort : sysw -> sysw := on_plant (fun p =>
  do (ts, m) <- propagateJointEffortToActuatorEffort K s (pl_ts p) (pl_mem p);
  Ok (set_pl_ts ts (set_pl_mem m p), [OutEffort (pl_mem p) m])).
(** a controller callback *)
Definition sys_cb (c : ptr) (k : callback) (w : sysw) : sysw :=
  match sy_plant w with
  | Ok p => let '(x, m) := cb c k (sy_user w) (pl_mem p) in mkSysw (Ok (set_pl_mem m p)) x (sy_out w)
  | _ => w
  end.
(** controller_manager.cpp:599-656 *)
Definition sys_pub_mech (t : Z) : sysw -> sysw := on_plant (fun p =>
  do (m, js) <- fill_joint_stats dbg t (seq 0 (rs_size s)) 0 (pl_mem p) (pl_jstats p);
  do acts <- fill_actuator_stats m (pl_hw p) 0 (pl_astats p);
  Ok (mkPlant (pl_ts p) m (pl_hw p) (pl_js p) js acts, [OutStats t js acts])).
(** controller_manager.cpp:563-581 *)
Definition sys_pub_js (t : Z) : sysw -> sysw := on_plant (fun p =>
  do msg <- fill_joint_state dbg (pl_mem p) (seq 0 (rs_size s)) 0 (pl_js p);
  Ok (mkPlant (pl_ts p) (pl_mem p) (pl_hw p) msg (pl_jstats p) (pl_astats p), [OutJoints t msg])).

Definition sys_hooks (period_mech period_js : Z) : hooks sysw :=
  mkHooks sysw
    (fun w => let '(t, x) := tick (sy_user w) in (t, mkSysw (sy_plant w) x (sy_out w)))
    sys_propagate sys_zero sys_halted sys_enforce sys_effort sys_cb sys_pub_mech sys_pub_js period_mech period_js.
End Hooks.

(** controller_manager.cpp:83-92: is every joint of a type that is published? *)
Fixpoint check_types (m : mem T) (ids : list nat) : res bool :=
  match ids with
  | [] => Ok true
  | i :: ids' =>
    match js_joint (m_js m i) with
    | None => UB
    | Some u => if is_published (uj_type u) then check_types m ids' else Ok false
    end
  end.

(** controller_manager.cpp:77: motors_previously_halted_ right after the RobotState was constructed, in the state [p0] the
    realtime loop starts with *)
Definition remembers_initial_halt (s : rstate) (p0 : plant) (m0 : mgr sysw) : Prop := prev_halted m0 = isHalted s (pl_mem p0).

(** the value-initialised elements [resize] appends *)
Definition jstat0 : jstat T := mkJstat 0%Z EmptyString nzero nzero nzero nzero false false nzero nzero nzero nzero nzero.
Definition astat0 : astat T :=
  mkAstat EmptyString 0%Z nzero nzero nzero 0%Z nzero nzero false false false nzero nzero false false nzero nzero nzero
          nzero nzero nzero nzero 0%Z.

(** controller_manager.cpp:70-119 initXml up to the pre-allocation (the rest is advertising services): the result, the
    robot state, and the plant the realtime loop starts with.  [m]: the heap before, [g]: uninitialised memory.  The
    messages are empty before (line 78: resize(0) of a new message). *)
Definition cm_initXml (dbg : bool) (L : loader Tr) (urdf : xml -> option (string -> option (ujoint T))) (config : xml)
  (g : T) (hw : hwif) (m : mem T) : res (option (rstate * plant)) :=
  do (b, r, acts) <- robot_initXml K L urdf config (m_act m) (new_robot (Some hw));
  if negb b then Ok None else
  do (s, m) <- new_robotstate K dbg g r (mkMem acts (m_js m));
  let astats := resize astat0 (List.length (actuators hw)) [] in
  do ok <- check_types m (seq 0 (rs_size s));
  if negb ok then Ok None else
  let n := rs_size s in
  Ok (Some (s, mkPlant (rb_transmissions r) m (actuators hw)
                 (mkJmsg (resize EmptyString n []) (resize nzero n []) (resize nzero n []) (resize nzero n []))
                 (resize jstat0 n []) astats)).
End System.

(** ros::Duration(double) for non-negative values, in exact arithmetic: floor to seconds, round the rest to nanoseconds,
    halves away from zero (ROS time library; binary64 rounding not modelled). *)
Definition ros_duration (x : R) : Z :=
  let sec := Zfloor x in (sec * 1000000000 + ZnearestA ((x - IZR sec) * 1000000000))%Z.
(** controller_manager.cpp:104-105 *)
Definition publish_period (rate : R) : Z := ros_duration (1 / Rmax (1 / 1000000) rate).
