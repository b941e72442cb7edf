(** pr2_mechanism_model: simple_transmission.h, simple_transmission.cpp. *)
From Coq Require Import List String Arith Bool ZArith.
From Verif.Model Require Import Base Num Joint Hardware Xml Transmission.
Import ListNotations.

(** simple_transmission.h:47-80 class SimpleTransmission. *)
Record simple (T : Type) := mkSimple {
  st_name : string;  (** name_ *)
  st_actuators : list string;  (** actuator_names_ *)
  st_joints : list string;  (** joint_names_ *)
  st_red : T;  (** mechanical_reduction_ *)
  st_sim_red : T;  (** simulated_reduction_ *)
  st_use_sim : bool;  (** use_simulated_actuated_joint_ *)
  st_ts_init : bool;  (** simulated_actuator_timestamp_initialized_ (an int used as a flag); no constructor initialises it *)
  st_start : Z;  (** simulated_actuator_start_time_ *)
  st_cal : calsim T }.  (** joint_calibration_simulator_ *)
Arguments st_name {T} _.
Arguments st_actuators {T} _.
Arguments st_joints {T} _.
Arguments st_red {T} _.
Arguments st_sim_red {T} _.
Arguments st_use_sim {T} _.
Arguments st_ts_init {T} _.
Arguments st_start {T} _.
Arguments st_cal {T} _.
Arguments mkSimple {T}.
Definition set_st_name {T} (x : string) (r : simple T) : simple T := mkSimple x (st_actuators r) (st_joints r) (st_red r) (st_sim_red r) (st_use_sim r) (st_ts_init r) (st_start r) (st_cal r).
Definition set_st_actuators {T} (x : list string) (r : simple T) : simple T := mkSimple (st_name r) x (st_joints r) (st_red r) (st_sim_red r) (st_use_sim r) (st_ts_init r) (st_start r) (st_cal r).
Definition set_st_joints {T} (x : list string) (r : simple T) : simple T := mkSimple (st_name r) (st_actuators r) x (st_red r) (st_sim_red r) (st_use_sim r) (st_ts_init r) (st_start r) (st_cal r).
Definition set_st_red {T} (x : T) (r : simple T) : simple T := mkSimple (st_name r) (st_actuators r) (st_joints r) x (st_sim_red r) (st_use_sim r) (st_ts_init r) (st_start r) (st_cal r).
Definition set_st_sim_red {T} (x : T) (r : simple T) : simple T := mkSimple (st_name r) (st_actuators r) (st_joints r) (st_red r) x (st_use_sim r) (st_ts_init r) (st_start r) (st_cal r).
Definition set_st_use_sim {T} (x : bool) (r : simple T) : simple T := mkSimple (st_name r) (st_actuators r) (st_joints r) (st_red r) (st_sim_red r) x (st_ts_init r) (st_start r) (st_cal r).
Definition set_st_ts_init {T} (x : bool) (r : simple T) : simple T := mkSimple (st_name r) (st_actuators r) (st_joints r) (st_red r) (st_sim_red r) (st_use_sim r) x (st_start r) (st_cal r).
Definition set_st_start {T} (x : Z) (r : simple T) : simple T := mkSimple (st_name r) (st_actuators r) (st_joints r) (st_red r) (st_sim_red r) (st_use_sim r) (st_ts_init r) x (st_cal r).
Definition set_st_cal {T} (x : calsim T) (r : simple T) : simple T := mkSimple (st_name r) (st_actuators r) (st_joints r) (st_red r) (st_sim_red r) (st_use_sim r) (st_ts_init r) (st_start r) x.

Section Simple.
Context {T : Type} {N : Num T} {G : Trig T}.
Variable dbg : bool.
Local Open Scope num_scope.
Local Open Scope string_scope.

(** simple_transmission.h:50 constructor; the arguments are the indeterminate members *)
Definition new_simple (g1 g2 : T) (b : bool) (c : calsim T) : simple T := mkSimple "" [] [] g1 g2 false b 0 c.

(** simple_transmission.cpp:92-135 (and 165-195 with [getj := fun n => true]): the loop over simulated_actuated_joint;
    None = return false (members of a transmission whose initialisation failed are not modelled). *)
Fixpoint simple_sim_loop (P : parsers T) (known : string -> bool) (els : list xml) (t : simple T) : option (simple T) :=
  match els with
  | [] => Some t
  | j :: els' =>
    match Attribute j "name" with
    | None => simple_sim_loop P known els' (set_st_use_sim false t)
    | Some jn =>
      if known jn then
        let t := set_st_joints (app (st_joints t) [jn]) (set_st_use_sim true t) in
        match Attribute j "simulated_reduction" with
        | None => None
        | Some r => match p_lexical P r with
                    | None => None
                    | Some x => simple_sim_loop P known els' (set_st_sim_red x t)
                    end
        end
      else simple_sim_loop P known els' (set_st_use_sim false t)
    end
  end.

(** [atof(e->FirstChildElement(tag)->GetText())]; NULL anywhere is undefined behaviour *)
Definition atof_child (P : parsers T) (e : xml) (tag : string) : res T :=
  do c <- deref (FirstChildElement e tag);
  do s <- deref (GetText c);
  Ok (p_atof P s).

(** simple_transmission.cpp:49-137 initXml(elt, robot), on a freshly constructed transmission; the actuator heap is
    threaded because command_.enable_ is set even if initialisation fails later. *)
Definition simple_initXml (P : parsers T) (R : rview T) (elt : xml) (h : nat -> actuator T) (t : simple T)
  : res (option (simple T) * (nat -> actuator T)) :=
  let t := set_st_name (match Attribute elt "name" with Some n => n | None => "" end) t in
  match (match FirstChildElement elt "joint" with Some jel => Attribute jel "name" | None => None end) with
  | None => Ok (None, h)
  | Some jn =>
    match rv_joint R jn with
    | None => Ok (None, h)
    | Some _ =>
      let t := set_st_joints (app (st_joints t) [jn]) t in
      match FirstChildElement elt "actuator" with
      | None => Ok (None, h)
      | Some ael =>
        match Attribute ael "name" with
        | None => Ok (None, h)
        | Some an =>
          match rv_actuator R an with
          | None => Ok (None, h)
          | Some a =>
            let h := upd a (set_a_enable true) h in
            let t := set_st_actuators (app (st_actuators t) [an]) t in
            do red <- (match FirstChildElement ael "mechanicalReduction" with
                       | Some _ => atof_child P ael "mechanicalReduction"
                       | None => atof_child P elt "mechanicalReduction" end);
            let t := set_st_red red t in
            Ok (simple_sim_loop P (fun n => match rv_joint R n with Some _ => true | None => false end)
                  (ChildElements elt "simulated_actuated_joint") t, h)
          end
        end
      end
    end
  end.

(** simple_transmission.cpp:139-197 initXml(elt) *)
Definition simple_initXml1 (P : parsers T) (elt : xml) (t : simple T) : res (option (simple T)) :=
  let t := set_st_name (match Attribute elt "name" with Some n => n | None => "" end) t in
  match (match FirstChildElement elt "joint" with Some jel => Attribute jel "name" | None => None end) with
  | None => Ok None
  | Some jn =>
    let t := set_st_joints (app (st_joints t) [jn]) t in
    match (match FirstChildElement elt "actuator" with Some ael => Attribute ael "name" | None => None end) with
    | None => Ok None
    | Some an =>
      let t := set_st_actuators (app (st_actuators t) [an]) t in
      do red <- atof_child P elt "mechanicalReduction";
      let t := set_st_red red t in
      Ok (simple_sim_loop P (fun _ => true) (ChildElements elt "simulated_actuated_joint") t)
    end
  end.

(** the size assertions at the top of every propagate function, e.g. simple_transmission.cpp:202-204 *)
Definition simple_sizes (t : simple T) (as_ js : list nat) : res unit :=
  do _ <- cassert dbg (List.length as_ =? 1)%nat;
  cassert dbg (List.length js =? if st_use_sim t then 2 else 1)%nat.

(** simple_transmission.cpp:199-218 *)
Definition simple_propagatePosition (t : simple T) (as_ js : list nat) (m : mem T) : res (mem T) :=
  do _ <- simple_sizes t as_ js;
  do a0 <- vget as_ 0;
  do j0 <- vget js 0;
  let m := js_upd j0 (fun j => set_position (a_position (m_act m a0) / st_red t + reference_position j) j) m in
  let m := js_upd j0 (set_velocity (a_velocity (m_act m a0) / st_red t)) m in
  let m := js_upd j0 (set_measured_effort (a_last_measured_effort (m_act m a0) * st_red t)) m in
  if st_use_sim t then
    do j1 <- vget js 1;
    let m := js_upd j1 (set_position nzero) m in
    let m := js_upd j1 (set_velocity nzero) m in
    let m := js_upd j1 (set_measured_effort nzero) m in
    let m := js_upd j1 (set_reference_position nzero) m in
    Ok (js_upd j1 (set_calibrated true) m)
  else Ok m.

(** simple_transmission.cpp:220-253 *)
Definition simple_propagatePositionBackwards (e : env) (t : simple T) (js as_ : list nat) (m : mem T)
  : res (simple T * mem T) :=
  do _ <- simple_sizes t as_ js;
  do a0 <- vget as_ 0;
  do j0 <- vget js 0;
  let m := act_upd a0 (set_a_position ((position (m_js m j0) - reference_position (m_js m j0)) * st_red t)) m in
  let m := act_upd a0 (set_a_velocity (velocity (m_js m j0) * st_red t)) m in
  let m := act_upd a0 (set_a_last_measured_effort (measured_effort (m_js m j0) / st_red t)) m in
  let '(ini, start, stamp) := sim_clock e (st_ts_init t) (st_start t) in
  let t := set_st_start start (set_st_ts_init ini t) in
  let m := act_upd a0 (set_stamp stamp) m in
  do (c, m) <- simcal_mem dbg (st_cal t) j0 a0 m;
  Ok (set_st_cal c t, m).

(** simple_transmission.cpp:255-263 *)
Definition simple_propagateEffort (t : simple T) (js as_ : list nat) (m : mem T) : res (mem T) :=
  do _ <- simple_sizes t as_ js;
  do a0 <- vget as_ 0;
  do j0 <- vget js 0;
  let m := act_upd a0 (set_a_enable true) m in
  Ok (act_upd a0 (set_a_effort (commanded_effort (m_js m j0) / st_red t)) m).

(** simple_transmission.cpp:265-278 *)
Definition simple_propagateEffortBackwards (t : simple T) (as_ js : list nat) (m : mem T) : res (mem T) :=
  do _ <- simple_sizes t as_ js;
  do a0 <- vget as_ 0;
  if st_use_sim t then
    do j1 <- vget js 1;
    Ok (js_upd j1 (set_commanded_effort (a_effort (m_act m a0) * st_red t / st_sim_red t)) m)
  else
    do j0 <- vget js 0;
    Ok (js_upd j0 (set_commanded_effort (a_effort (m_act m a0) * st_red t)) m).
End Simple.
