(** pr2_mechanism_model: wrist_transmission.h, wrist_transmission.cpp. *)
From Coq Require Import List String Arith Bool ZArith.
From Verif.Model Require Import Base Num Joint Hardware Xml Transmission.
Import ListNotations.

(** wrist_transmission.h:68-105 class WristTransmission. *)
Record wrist (T : Type) := mkWrist {
  wt_name : string;  (** name_ *)
  wt_actuators : list string;  (** actuator_names_ *)
  wt_joints : list string;  (** joint_names_ *)
  wt_ar : list T;  (** actuator_reduction_ *)
  wt_jr : list T;  (** joint_reduction_ *)
  wt_off0 : T;  (** joint_offset_[0] *)
  wt_off1 : T;  (** joint_offset_[1] *)
  wt_ts_init : bool;  (** simulated_actuator_timestamp_initialized_; no constructor initialises it *)
  wt_start : Z;  (** simulated_actuator_start_time_ *)
  wt_cal0 : calsim T;  (** joint_calibration_simulator_[0] *)
  wt_cal1 : calsim T }.  (** joint_calibration_simulator_[1] *)
Arguments wt_name {T} _.
Arguments wt_actuators {T} _.
Arguments wt_joints {T} _.
Arguments wt_ar {T} _.
Arguments wt_jr {T} _.
Arguments wt_off0 {T} _.
Arguments wt_off1 {T} _.
Arguments wt_ts_init {T} _.
Arguments wt_start {T} _.
Arguments wt_cal0 {T} _.
Arguments wt_cal1 {T} _.
Arguments mkWrist {T}.
Definition set_wt_name {T} (x : string) (r : wrist T) : wrist T := mkWrist x (wt_actuators r) (wt_joints r) (wt_ar r) (wt_jr r) (wt_off0 r) (wt_off1 r) (wt_ts_init r) (wt_start r) (wt_cal0 r) (wt_cal1 r).
Definition set_wt_actuators {T} (x : list string) (r : wrist T) : wrist T := mkWrist (wt_name r) x (wt_joints r) (wt_ar r) (wt_jr r) (wt_off0 r) (wt_off1 r) (wt_ts_init r) (wt_start r) (wt_cal0 r) (wt_cal1 r).
Definition set_wt_joints {T} (x : list string) (r : wrist T) : wrist T := mkWrist (wt_name r) (wt_actuators r) x (wt_ar r) (wt_jr r) (wt_off0 r) (wt_off1 r) (wt_ts_init r) (wt_start r) (wt_cal0 r) (wt_cal1 r).
Definition set_wt_ar {T} (x : list T) (r : wrist T) : wrist T := mkWrist (wt_name r) (wt_actuators r) (wt_joints r) x (wt_jr r) (wt_off0 r) (wt_off1 r) (wt_ts_init r) (wt_start r) (wt_cal0 r) (wt_cal1 r).
Definition set_wt_jr {T} (x : list T) (r : wrist T) : wrist T := mkWrist (wt_name r) (wt_actuators r) (wt_joints r) (wt_ar r) x (wt_off0 r) (wt_off1 r) (wt_ts_init r) (wt_start r) (wt_cal0 r) (wt_cal1 r).
Definition set_wt_off0 {T} (x : T) (r : wrist T) : wrist T := mkWrist (wt_name r) (wt_actuators r) (wt_joints r) (wt_ar r) (wt_jr r) x (wt_off1 r) (wt_ts_init r) (wt_start r) (wt_cal0 r) (wt_cal1 r).
Definition set_wt_off1 {T} (x : T) (r : wrist T) : wrist T := mkWrist (wt_name r) (wt_actuators r) (wt_joints r) (wt_ar r) (wt_jr r) (wt_off0 r) x (wt_ts_init r) (wt_start r) (wt_cal0 r) (wt_cal1 r).
Definition set_wt_ts_init {T} (x : bool) (r : wrist T) : wrist T := mkWrist (wt_name r) (wt_actuators r) (wt_joints r) (wt_ar r) (wt_jr r) (wt_off0 r) (wt_off1 r) x (wt_start r) (wt_cal0 r) (wt_cal1 r).
Definition set_wt_start {T} (x : Z) (r : wrist T) : wrist T := mkWrist (wt_name r) (wt_actuators r) (wt_joints r) (wt_ar r) (wt_jr r) (wt_off0 r) (wt_off1 r) (wt_ts_init r) x (wt_cal0 r) (wt_cal1 r).
Definition set_wt_cal0 {T} (x : calsim T) (r : wrist T) : wrist T := mkWrist (wt_name r) (wt_actuators r) (wt_joints r) (wt_ar r) (wt_jr r) (wt_off0 r) (wt_off1 r) (wt_ts_init r) (wt_start r) x (wt_cal1 r).
Definition set_wt_cal1 {T} (x : calsim T) (r : wrist T) : wrist T := mkWrist (wt_name r) (wt_actuators r) (wt_joints r) (wt_ar r) (wt_jr r) (wt_off0 r) (wt_off1 r) (wt_ts_init r) (wt_start r) (wt_cal0 r) x.

Section Wrist.
Context {T : Type} {N : Num T} {G : Trig T}.
Variable dbg : bool.
Local Open Scope num_scope.
Local Open Scope string_scope.

(** wrist_transmission.cpp:61-65 constructor *)
Definition new_wrist (b : bool) (c0 c1 : calsim T) : wrist T := mkWrist "" [] [] [] [] nzero nzero b 0 c0 c1.

(** wrist_transmission.cpp:74-90 (rightActuator), 92-107 (leftActuator): None = return false *)
Definition wrist_actuator (P : parsers T) (find : string -> option nat) (elt : xml) (tag : string)
  (h : nat -> actuator T) (t : wrist T) : option (wrist T) * (nat -> actuator T) :=
  match FirstChildElement elt tag with
  | None => (None, h)
  | Some ael =>
    match Attribute ael "name" with
    | None => (None, h)
    | Some an =>
      match find an with
      | None => (None, h)
      | Some a =>
        let h := upd a (set_a_enable true) h in
        let t := set_wt_actuators (app (wt_actuators t) [an]) t in
        match Attribute ael "mechanicalReduction" with
        | None => (None, h)
        | Some r => (Some (set_wt_ar (app (wt_ar t) [p_atof P r]) t), h)
        end
      end
    end
  end.

(** wrist_transmission.cpp:110-135 (flexJoint), 155-180 (rollJoint): name and reduction; also yields the element.
    A missing element is a NULL dereference. *)
Definition wrist_joint (P : parsers T) (known : string -> bool) (elt : xml) (tag : string) (t : wrist T)
  : res (option (wrist T * xml)) :=
  do j <- deref (FirstChildElement elt tag);
  match Attribute j "name" with
  | None => Ok None
  | Some jn =>
    if known jn then
      let t := set_wt_joints (app (wt_joints t) [jn]) t in
      match Attribute j "mechanicalReduction" with
      | None => Ok None
      | Some r => Ok (Some (set_wt_jr (app (wt_jr t) [p_atof P r]) t, j))
      end
    else Ok None
  end.

(** wrist_transmission.cpp:136-153 and copies: an optional offset string; None = return false *)
Definition wrist_offset (P : parsers T) (s : option string) : option T :=
  match s with None => Some nzero | Some s => p_convert P s end.

(** wrist_transmission.cpp:68-202 initXml(elt, robot) on a freshly constructed transmission *)
Definition wrist_initXml (P : parsers T) (R : rview T) (elt : xml) (h : nat -> actuator T) (t : wrist T)
  : res (option (wrist T) * (nat -> actuator T)) :=
  let known n := match rv_joint R n with Some _ => true | None => false end in
  let t := set_wt_name (match Attribute elt "name" with Some n => n | None => "" end) t in
  match wrist_actuator P (rv_actuator R) elt "rightActuator" h t with
  | (None, h) => Ok (None, h)
  | (Some t, h) =>
    match wrist_actuator P (rv_actuator R) elt "leftActuator" h t with
    | (None, h) => Ok (None, h)
    | (Some t, h) =>
      do r <- wrist_joint P known elt "flexJoint" t;
      match r with
      | None => Ok (None, h)
      | Some (t, j) =>
        match wrist_offset P (Attribute j "offset") with
        | None => Ok (None, h)
        | Some o0 =>
          let t := set_wt_off0 o0 t in
          do r <- wrist_joint P known elt "rollJoint" t;
          match r with
          | None => Ok (None, h)
          | Some (t, j) =>
            match wrist_offset P (Attribute j "offset") with
            | None => Ok (None, h)
            | Some o1 => Ok (Some (set_wt_off1 o1 t), h)
            end
          end
        end
      end
    end
  end.

(** wrist_transmission.cpp:204-312 initXml(elt).  Line 293 tests the variable joint_offset which still holds the
    flex joint's attribute: the roll joint's own attribute is never read. *)
Definition wrist_initXml1 (P : parsers T) (elt : xml) (t : wrist T) : res (option (wrist T)) :=
  let h0 := fun _ : nat => @new_actuator T N nzero in (* line 211-217 do not look up the actuator *)
  let t := set_wt_name (match Attribute elt "name" with Some n => n | None => "" end) t in
  match fst (wrist_actuator P (fun _ => Some 0%nat) elt "rightActuator" h0 t) with
  | None => Ok None
  | Some t =>
    match fst (wrist_actuator P (fun _ => Some 0%nat) elt "leftActuator" h0 t) with
    | None => Ok None
    | Some t =>
      do r <- wrist_joint P (fun _ => true) elt "flexJoint" t;
      match r with
      | None => Ok None
      | Some (t, j) =>
        let joint_offset := Attribute j "offset" in
        match wrist_offset P joint_offset with
        | None => Ok None
        | Some o0 =>
          let t := set_wt_off0 o0 t in
          do r <- wrist_joint P (fun _ => true) elt "rollJoint" t;
          match r with
          | None => Ok None
          | Some (t, _) =>
            match wrist_offset P joint_offset with
            | None => Ok None
            | Some o1 => Ok (Some (set_wt_off1 o1 t))
            end
          end
        end
      end
    end
  end.

Definition wrist_sizes (as_ js : list nat) : res unit :=
  do _ <- cassert dbg (List.length as_ =? 2)%nat;
  cassert dbg (List.length js =? 2)%nat.

(** wrist_transmission.cpp:314-329 *)
Definition wrist_propagatePosition (t : wrist T) (as_ js : list nat) (m : mem T) : res (mem T) :=
  do _ <- wrist_sizes as_ js;
  do p0 <- vget as_ 0; do p1 <- vget as_ 1;
  do q0 <- vget js 0; do q1 <- vget js 1;
  do ar0 <- vget (wt_ar t) 0; do ar1 <- vget (wt_ar t) 1;
  do jr0 <- vget (wt_jr t) 0; do jr1 <- vget (wt_jr t) 1;
  let a0 := m_act m p0 in let a1 := m_act m p1 in
  let m := js_upd q0 (fun j => set_position ((a_position a0 / ar0 - a_position a1 / ar1) / (ntwo * jr0) + reference_position j + wt_off0 t) j) m in
  let m := js_upd q0 (set_velocity ((a_velocity a0 / ar0 - a_velocity a1 / ar1) / (ntwo * jr0))) m in
  let m := js_upd q0 (set_measured_effort (jr0 * (a_last_measured_effort a0 * ar0 - a_last_measured_effort a1 * ar1))) m in
  let m := js_upd q1 (fun j => set_position ((- a_position a0 / ar0 - a_position a1 / ar1) / (ntwo * jr1) + reference_position j + wt_off1 t) j) m in
  let m := js_upd q1 (set_velocity ((- a_velocity a0 / ar0 - a_velocity a1 / ar1) / (ntwo * jr1))) m in
  Ok (js_upd q1 (set_measured_effort (jr1 * (- a_last_measured_effort a0 * ar0 - a_last_measured_effort a1 * ar1))) m).

(** wrist_transmission.cpp:331-375 *)
Definition wrist_propagatePositionBackwards (e : env) (t : wrist T) (js as_ : list nat) (m : mem T)
  : res (wrist T * mem T) :=
  do _ <- wrist_sizes as_ js;
  do p0 <- vget as_ 0; do p1 <- vget as_ 1;
  do q0 <- vget js 0; do q1 <- vget js 1;
  do ar0 <- vget (wt_ar t) 0; do ar1 <- vget (wt_ar t) 1;
  do jr0 <- vget (wt_jr t) 0; do jr1 <- vget (wt_jr t) 1;
  let j0 := m_js m q0 in let j1 := m_js m q1 in
  let d0 := position j0 - reference_position j0 - wt_off0 t in
  let d1 := position j1 - reference_position j1 - wt_off1 t in
  let m := act_upd p0 (set_a_position ((d0 * jr0 - d1 * jr1) * ar0)) m in
  let m := act_upd p0 (set_a_velocity ((velocity j0 * jr0 - velocity j1 * jr1) * ar0)) m in
  let m := act_upd p0 (set_a_last_measured_effort ((measured_effort j0 / jr0 - measured_effort j1 / jr1) / (ntwo * ar0))) m in
  let m := act_upd p1 (set_a_position ((- d0 * jr0 - d1 * jr1) * ar1)) m in
  let m := act_upd p1 (set_a_velocity ((- velocity j0 * jr0 - velocity j1 * jr1) * ar1)) m in
  let m := act_upd p1 (set_a_last_measured_effort ((- measured_effort j0 / jr0 - measured_effort j1 / jr1) / (ntwo * ar1))) m in
  (* ros::Time::now() is read once per actuator; both readings are e_now here *)
  let '(ini, start, stamp) := sim_clock e (wt_ts_init t) (wt_start t) in
  let t := set_wt_start start (set_wt_ts_init ini t) in
  let m := act_upd p0 (set_stamp stamp) m in
  let m := act_upd p1 (set_stamp stamp) m in
  do (c0, m) <- simcal_mem dbg (wt_cal0 t) q0 p1 m;
  do (c1, m) <- simcal_mem dbg (wt_cal1 t) q1 p0 m;
  Ok (set_wt_cal1 c1 (set_wt_cal0 c0 t), m).

(** wrist_transmission.cpp:377-388 *)
Definition wrist_propagateEffort (t : wrist T) (js as_ : list nat) (m : mem T) : res (mem T) :=
  do _ <- wrist_sizes as_ js;
  do p0 <- vget as_ 0; do p1 <- vget as_ 1;
  do q0 <- vget js 0; do q1 <- vget js 1;
  do ar0 <- vget (wt_ar t) 0; do ar1 <- vget (wt_ar t) 1;
  do jr0 <- vget (wt_jr t) 0; do jr1 <- vget (wt_jr t) 1;
  let e0 := commanded_effort (m_js m q0) in let e1 := commanded_effort (m_js m q1) in
  let m := act_upd p0 (set_a_enable true) m in
  let m := act_upd p1 (set_a_enable true) m in
  let m := act_upd p0 (set_a_effort ((e0 / jr0 - e1 / jr1) / (ntwo * ar0))) m in
  Ok (act_upd p1 (set_a_effort ((- e0 / jr0 - e1 / jr1) / (ntwo * ar1))) m).

(** wrist_transmission.cpp:390-398 *)
Definition wrist_propagateEffortBackwards (t : wrist T) (as_ js : list nat) (m : mem T) : res (mem T) :=
  do _ <- wrist_sizes as_ js;
  do p0 <- vget as_ 0; do p1 <- vget as_ 1;
  do q0 <- vget js 0; do q1 <- vget js 1;
  do ar0 <- vget (wt_ar t) 0; do ar1 <- vget (wt_ar t) 1;
  do jr0 <- vget (wt_jr t) 0; do jr1 <- vget (wt_jr t) 1;
  let e0 := a_effort (m_act m p0) in let e1 := a_effort (m_act m p1) in
  let m := js_upd q0 (set_commanded_effort (jr0 * (e0 * ar0 - e1 * ar1))) m in
  Ok (js_upd q1 (set_commanded_effort (jr1 * (- e0 * ar0 - e1 * ar1))) m).
End Wrist.
