(** Vocabulary for the manager wired to a robot. *)
From Coq Require Import List String Arith Bool ZArith.
From Verif.Model Require Import Base Num Joint Hardware Transmission Controller Manager Robot System.
Import ListNotations.

(** [acts H cbs w w']: performing exactly the callbacks [cbs], in that order, and reading the clock any number of times in
    between, turns world [w] into [w']. *)
Inductive acts {W} (H : hooks W) : list (ptr * callback) -> W -> W -> Prop :=
| acts_nil w : acts H [] w w
| acts_now cbs w w' : acts H cbs (snd (h_now H w)) w' -> acts H cbs w w'
| acts_cb p k cbs w w' : acts H cbs (h_cb H p k w) w' -> acts H ((p, k) :: cbs) w w'.

(** the callbacks among some events *)
Definition cb_events (cbs : list (ptr * callback)) : list event := map (fun c => EvCb (fst c) (snd c)) cbs.

(** the memories handed to propagateJointEffortToActuatorEffort, with what it made of them *)
Definition sent {T} (o : list (output T)) : list (mem T * mem T) :=
  flat_map (fun x => match x with OutEffort a b => [(a, b)] | _ => [] end) o.
(** the joint state messages and the time they were due *)
Definition joint_messages {T} (o : list (output T)) : list (Z * jmsg T) :=
  flat_map (fun x => match x with OutJoints t m => [(t, m)] | _ => [] end) o.
Definition stat_messages {T} (o : list (output T)) : list (Z * list (jstat T) * list (astat T)) :=
  flat_map (fun x => match x with OutStats t a b => [(t, a, b)] | _ => [] end) o.

(** The callback leaves the commanded effort of joint [k] as it finds it. *)
Definition leaves_command {T X} (cb : ptr -> callback -> X -> mem T -> X * mem T) (k : nat) (c : ptr * callback) : Prop :=
  forall x m, commanded_effort (m_js (snd (cb (fst c) (snd c) x m)) k) = commanded_effort (m_js m k).

(** The callback never re-targets a joint state to another joint description. *)
Definition keeps_joints {T X} (cb : ptr -> callback -> X -> mem T -> X * mem T) : Prop :=
  forall c k x m p, js_joint (m_js (snd (cb c k x m)) p) = js_joint (m_js m p).

(** [written cb cbs m m']: the callbacks [cbs], one after the other and each with whatever private state it has by then,
    turn the memory [m] into [m']. *)
Inductive written {T X} (cb : ptr -> callback -> X -> mem T -> X * mem T) : list (ptr * callback) -> mem T -> mem T -> Prop :=
| wr_nil m : written cb [] m m
| wr_cons c x cbs m m' : written cb cbs (snd (cb (fst c) (snd c) x m)) m' -> written cb (c :: cbs) m m'.

(** What happens outside the manager between two of its operations: the hardware and other threads write values into
    actuators and joint states (never re-targeting a joint state), and whatever private state. *)
Definition outside {Tr T X} (f : sysw Tr T X -> sysw Tr T X) : Prop :=
  forall w, sy_out (f w) = sy_out w /\
    match sy_plant w with
    | Ok p => exists m, sy_plant (f w) = Ok (set_pl_mem m p) /\ forall k, js_joint (m_js m k) = js_joint (m_js (pl_mem p) k)
    | crashed => sy_plant (f w) = crashed
    end.
Definition outside_op {Tr T X} (o : op) : Prop := match o with OpEnv f => @outside Tr T X f | _ => True end.

(** A manager that has just been initialised, with the plant [p0]. *)
Definition starts {Tr T X} (p0 : plant Tr T) (m0 : mgr (sysw Tr T X)) : Prop :=
  initial m0 /\ sy_plant (world m0) = Ok p0 /\ sy_out (world m0) = [].
(** All histories from [m0]: service calls, control cycles and outside events in any order. *)
Inductive history {Tr T X} (H : hooks (sysw Tr T X)) (m0 : mgr (sysw Tr T X)) : mgr (sysw Tr T X) -> Prop :=
| hist_init : history H m0 m0
| hist_step m o a m' : history H m0 m -> outside_op o -> step H m o (Ok (a, m')) -> history H m0 m'.

(** ** Messages *)

(** entry [k] of a joint state message reports this joint state *)
Definition reports_joint {T} (msg : jmsg T) (k : nat) (u : ujoint T) (js : jointstate T) : Prop :=
  nth_error (jm_name msg) k = Some (uj_name u) /\ nth_error (jm_position msg) k = Some (position js) /\
  nth_error (jm_velocity msg) k = Some (velocity js) /\ nth_error (jm_effort msg) k = Some (measured_effort js).
Definition reports_joint_statistics {T} (st : jstat T) (t : Z) (u : ujoint T) (js : jointstate T) : Prop :=
  jo_timestamp st = t /\ jo_name st = uj_name u /\ jo_position st = position js /\ jo_velocity st = velocity js /\
  jo_measured_effort st = measured_effort js /\ jo_commanded_effort st = commanded_effort js /\ jo_is_calibrated st = calibrated js /\
  jo_violated_limits st = violated_limits (joint_statistics js) /\ jo_odometer st = odometer (joint_statistics js) /\
  jo_min_position st = min_position (joint_statistics js) /\ jo_max_position st = max_position (joint_statistics js) /\
  jo_max_abs_velocity st = max_abs_velocity (joint_statistics js) /\ jo_max_abs_effort st = max_abs_effort (joint_statistics js).
Definition reports_actuator {T} (st : astat T) (name : string) (a : actuator T) : Prop :=
  ao_name st = name /\ ao_encoder_count st = a_encoder_count a /\ ao_encoder_offset st = a_zero_offset a /\ ao_position st = a_position a /\
  ao_timestamp st = a_timestamp a /\ ao_device_id st = a_device_id a /\ ao_encoder_velocity st = a_encoder_velocity a /\
  ao_velocity st = a_velocity a /\ ao_calibration_reading st = a_calibration_reading a /\ ao_rising_valid st = a_rising_valid a /\
  ao_falling_valid st = a_falling_valid a /\ ao_last_rising st = a_last_rising a /\ ao_last_falling st = a_last_falling a /\
  ao_is_enabled st = a_is_enabled a /\ ao_halted st = a_halted a /\ ao_last_commanded_current st = a_last_commanded_current a /\
  ao_last_executed_current st = a_last_executed_current a /\ ao_last_measured_current st = a_last_measured_current a /\
  ao_last_commanded_effort st = a_last_commanded_effort a /\ ao_last_executed_effort st = a_last_executed_effort a /\
  ao_last_measured_effort st = a_last_measured_effort a /\ ao_motor_voltage st = a_motor_voltage a /\
  ao_num_encoder_errors st = a_num_encoder_errors a.

(** A joint state message reporting exactly the first [n] joint states, in order *)
Definition snapshot_message {T} (n : nat) (m : mem T) (msg : jmsg T) : Prop :=
  List.length (jm_name msg) = n /\ List.length (jm_position msg) = n /\ List.length (jm_velocity msg) = n /\ List.length (jm_effort msg) = n /\
  forall k, k < n -> exists u, js_joint (m_js m k) = Some u /\ reports_joint msg k u (m_js m k).
(** A statistics message reporting exactly those joints and all registered actuators, in map order *)
Definition snapshot_statistics {T} (n : nat) (hw : cmap) (m : mem T) (t : Z) (js : list (jstat T)) (acts : list (astat T)) : Prop :=
  List.length js = n /\
  (forall k, k < n -> exists u st, js_joint (m_js m k) = Some u /\ nth_error js k = Some st /\ reports_joint_statistics st t u (m_js m k)) /\
  Forall2 (fun st na => reports_actuator st (fst na) (m_act m (snd na))) acts hw.

(** publication windows: (first + k*period, first + (k+1)*period] *)
Definition in_window (first period k t : Z) : Prop := (first + k * period < t <= first + (k + 1) * period)%Z.
Inductive increasing : Z -> list Z -> Prop :=
| inc_nil k : increasing k []
| inc_cons k k' ks : (k < k')%Z -> increasing k' ks -> increasing k (k' :: ks).
(** [increasing k ks]: [ks] is strictly increasing and starts above [k] *)
