(** pr2_mechanism_model: pr2_gripper_transmission.h, pr2_gripper_transmission.cpp. *)
From Coq Require Import List String Arith Bool ZArith.
From Verif.Model Require Import Base Num Joint Hardware Xml Transmission.
Import ListNotations.

(** pr2_gripper_transmission.h:53-132 class PR2GripperTransmission. *)
Record gripper (T : Type) := mkGripper {
  gr_name : string;  (** name_ *)
  gr_actuators : list string;  (** actuator_names_ *)
  gr_joints : list string;  (** joint_names_ *)
  gr_gap_joint : string;  (** gap_joint_ *)
  gr_red : T;  (** gap_mechanical_reduction_ *)
  gr_sim_red : T;  (** simulated_reduction_ *)
  gr_use_sim : bool;  (** use_simulated_actuated_joint_; never used *)
  gr_has_passive : bool;  (** has_simulated_passive_actuated_joint_ *)
  gr_passive : list string;  (** passive_joints_ *)
  gr_screw : T;  (** screw_reduction_ *)
  gr_gear : T;  (** gear_ratio_ *)
  gr_theta0 : T;  (** theta0_ *)
  gr_phi0 : T;  (** phi0_ *)
  gr_t0 : T;  (** t0_ *)
  gr_L0 : T;  (** L0_ *)
  gr_h : T;  (** h_ *)
  gr_a : T;  (** a_ *)
  gr_b : T;  (** b_ *)
  gr_r : T;  (** r_ *)
  gr_ts_init : bool;  (** simulated_actuator_timestamp_initialized_; never initialised *)
  gr_start : Z;  (** simulated_actuator_start_time_ *)
  gr_cal : calsim T }.  (** joint_calibration_simulator_ *)
Arguments gr_name {T} _.
Arguments gr_actuators {T} _.
Arguments gr_joints {T} _.
Arguments gr_gap_joint {T} _.
Arguments gr_red {T} _.
Arguments gr_sim_red {T} _.
Arguments gr_use_sim {T} _.
Arguments gr_has_passive {T} _.
Arguments gr_passive {T} _.
Arguments gr_screw {T} _.
Arguments gr_gear {T} _.
Arguments gr_theta0 {T} _.
Arguments gr_phi0 {T} _.
Arguments gr_t0 {T} _.
Arguments gr_L0 {T} _.
Arguments gr_h {T} _.
Arguments gr_a {T} _.
Arguments gr_b {T} _.
Arguments gr_r {T} _.
Arguments gr_ts_init {T} _.
Arguments gr_start {T} _.
Arguments gr_cal {T} _.
Arguments mkGripper {T}.
Definition set_gr_name {T} (x : string) (r : gripper T) : gripper T := mkGripper x (gr_actuators r) (gr_joints r) (gr_gap_joint r) (gr_red r) (gr_sim_red r) (gr_use_sim r) (gr_has_passive r) (gr_passive r) (gr_screw r) (gr_gear r) (gr_theta0 r) (gr_phi0 r) (gr_t0 r) (gr_L0 r) (gr_h r) (gr_a r) (gr_b r) (gr_r r) (gr_ts_init r) (gr_start r) (gr_cal r).
Definition set_gr_actuators {T} (x : list string) (r : gripper T) : gripper T := mkGripper (gr_name r) x (gr_joints r) (gr_gap_joint r) (gr_red r) (gr_sim_red r) (gr_use_sim r) (gr_has_passive r) (gr_passive r) (gr_screw r) (gr_gear r) (gr_theta0 r) (gr_phi0 r) (gr_t0 r) (gr_L0 r) (gr_h r) (gr_a r) (gr_b r) (gr_r r) (gr_ts_init r) (gr_start r) (gr_cal r).
Definition set_gr_joints {T} (x : list string) (r : gripper T) : gripper T := mkGripper (gr_name r) (gr_actuators r) x (gr_gap_joint r) (gr_red r) (gr_sim_red r) (gr_use_sim r) (gr_has_passive r) (gr_passive r) (gr_screw r) (gr_gear r) (gr_theta0 r) (gr_phi0 r) (gr_t0 r) (gr_L0 r) (gr_h r) (gr_a r) (gr_b r) (gr_r r) (gr_ts_init r) (gr_start r) (gr_cal r).
Definition set_gr_gap_joint {T} (x : string) (r : gripper T) : gripper T := mkGripper (gr_name r) (gr_actuators r) (gr_joints r) x (gr_red r) (gr_sim_red r) (gr_use_sim r) (gr_has_passive r) (gr_passive r) (gr_screw r) (gr_gear r) (gr_theta0 r) (gr_phi0 r) (gr_t0 r) (gr_L0 r) (gr_h r) (gr_a r) (gr_b r) (gr_r r) (gr_ts_init r) (gr_start r) (gr_cal r).
Definition set_gr_red {T} (x : T) (r : gripper T) : gripper T := mkGripper (gr_name r) (gr_actuators r) (gr_joints r) (gr_gap_joint r) x (gr_sim_red r) (gr_use_sim r) (gr_has_passive r) (gr_passive r) (gr_screw r) (gr_gear r) (gr_theta0 r) (gr_phi0 r) (gr_t0 r) (gr_L0 r) (gr_h r) (gr_a r) (gr_b r) (gr_r r) (gr_ts_init r) (gr_start r) (gr_cal r).
Definition set_gr_sim_red {T} (x : T) (r : gripper T) : gripper T := mkGripper (gr_name r) (gr_actuators r) (gr_joints r) (gr_gap_joint r) (gr_red r) x (gr_use_sim r) (gr_has_passive r) (gr_passive r) (gr_screw r) (gr_gear r) (gr_theta0 r) (gr_phi0 r) (gr_t0 r) (gr_L0 r) (gr_h r) (gr_a r) (gr_b r) (gr_r r) (gr_ts_init r) (gr_start r) (gr_cal r).
Definition set_gr_use_sim {T} (x : bool) (r : gripper T) : gripper T := mkGripper (gr_name r) (gr_actuators r) (gr_joints r) (gr_gap_joint r) (gr_red r) (gr_sim_red r) x (gr_has_passive r) (gr_passive r) (gr_screw r) (gr_gear r) (gr_theta0 r) (gr_phi0 r) (gr_t0 r) (gr_L0 r) (gr_h r) (gr_a r) (gr_b r) (gr_r r) (gr_ts_init r) (gr_start r) (gr_cal r).
Definition set_gr_has_passive {T} (x : bool) (r : gripper T) : gripper T := mkGripper (gr_name r) (gr_actuators r) (gr_joints r) (gr_gap_joint r) (gr_red r) (gr_sim_red r) (gr_use_sim r) x (gr_passive r) (gr_screw r) (gr_gear r) (gr_theta0 r) (gr_phi0 r) (gr_t0 r) (gr_L0 r) (gr_h r) (gr_a r) (gr_b r) (gr_r r) (gr_ts_init r) (gr_start r) (gr_cal r).
Definition set_gr_passive {T} (x : list string) (r : gripper T) : gripper T := mkGripper (gr_name r) (gr_actuators r) (gr_joints r) (gr_gap_joint r) (gr_red r) (gr_sim_red r) (gr_use_sim r) (gr_has_passive r) x (gr_screw r) (gr_gear r) (gr_theta0 r) (gr_phi0 r) (gr_t0 r) (gr_L0 r) (gr_h r) (gr_a r) (gr_b r) (gr_r r) (gr_ts_init r) (gr_start r) (gr_cal r).
Definition set_gr_screw {T} (x : T) (r : gripper T) : gripper T := mkGripper (gr_name r) (gr_actuators r) (gr_joints r) (gr_gap_joint r) (gr_red r) (gr_sim_red r) (gr_use_sim r) (gr_has_passive r) (gr_passive r) x (gr_gear r) (gr_theta0 r) (gr_phi0 r) (gr_t0 r) (gr_L0 r) (gr_h r) (gr_a r) (gr_b r) (gr_r r) (gr_ts_init r) (gr_start r) (gr_cal r).
Definition set_gr_gear {T} (x : T) (r : gripper T) : gripper T := mkGripper (gr_name r) (gr_actuators r) (gr_joints r) (gr_gap_joint r) (gr_red r) (gr_sim_red r) (gr_use_sim r) (gr_has_passive r) (gr_passive r) (gr_screw r) x (gr_theta0 r) (gr_phi0 r) (gr_t0 r) (gr_L0 r) (gr_h r) (gr_a r) (gr_b r) (gr_r r) (gr_ts_init r) (gr_start r) (gr_cal r).
Definition set_gr_theta0 {T} (x : T) (r : gripper T) : gripper T := mkGripper (gr_name r) (gr_actuators r) (gr_joints r) (gr_gap_joint r) (gr_red r) (gr_sim_red r) (gr_use_sim r) (gr_has_passive r) (gr_passive r) (gr_screw r) (gr_gear r) x (gr_phi0 r) (gr_t0 r) (gr_L0 r) (gr_h r) (gr_a r) (gr_b r) (gr_r r) (gr_ts_init r) (gr_start r) (gr_cal r).
Definition set_gr_phi0 {T} (x : T) (r : gripper T) : gripper T := mkGripper (gr_name r) (gr_actuators r) (gr_joints r) (gr_gap_joint r) (gr_red r) (gr_sim_red r) (gr_use_sim r) (gr_has_passive r) (gr_passive r) (gr_screw r) (gr_gear r) (gr_theta0 r) x (gr_t0 r) (gr_L0 r) (gr_h r) (gr_a r) (gr_b r) (gr_r r) (gr_ts_init r) (gr_start r) (gr_cal r).
Definition set_gr_t0 {T} (x : T) (r : gripper T) : gripper T := mkGripper (gr_name r) (gr_actuators r) (gr_joints r) (gr_gap_joint r) (gr_red r) (gr_sim_red r) (gr_use_sim r) (gr_has_passive r) (gr_passive r) (gr_screw r) (gr_gear r) (gr_theta0 r) (gr_phi0 r) x (gr_L0 r) (gr_h r) (gr_a r) (gr_b r) (gr_r r) (gr_ts_init r) (gr_start r) (gr_cal r).
Definition set_gr_L0 {T} (x : T) (r : gripper T) : gripper T := mkGripper (gr_name r) (gr_actuators r) (gr_joints r) (gr_gap_joint r) (gr_red r) (gr_sim_red r) (gr_use_sim r) (gr_has_passive r) (gr_passive r) (gr_screw r) (gr_gear r) (gr_theta0 r) (gr_phi0 r) (gr_t0 r) x (gr_h r) (gr_a r) (gr_b r) (gr_r r) (gr_ts_init r) (gr_start r) (gr_cal r).
Definition set_gr_h {T} (x : T) (r : gripper T) : gripper T := mkGripper (gr_name r) (gr_actuators r) (gr_joints r) (gr_gap_joint r) (gr_red r) (gr_sim_red r) (gr_use_sim r) (gr_has_passive r) (gr_passive r) (gr_screw r) (gr_gear r) (gr_theta0 r) (gr_phi0 r) (gr_t0 r) (gr_L0 r) x (gr_a r) (gr_b r) (gr_r r) (gr_ts_init r) (gr_start r) (gr_cal r).
Definition set_gr_a {T} (x : T) (r : gripper T) : gripper T := mkGripper (gr_name r) (gr_actuators r) (gr_joints r) (gr_gap_joint r) (gr_red r) (gr_sim_red r) (gr_use_sim r) (gr_has_passive r) (gr_passive r) (gr_screw r) (gr_gear r) (gr_theta0 r) (gr_phi0 r) (gr_t0 r) (gr_L0 r) (gr_h r) x (gr_b r) (gr_r r) (gr_ts_init r) (gr_start r) (gr_cal r).
Definition set_gr_b {T} (x : T) (r : gripper T) : gripper T := mkGripper (gr_name r) (gr_actuators r) (gr_joints r) (gr_gap_joint r) (gr_red r) (gr_sim_red r) (gr_use_sim r) (gr_has_passive r) (gr_passive r) (gr_screw r) (gr_gear r) (gr_theta0 r) (gr_phi0 r) (gr_t0 r) (gr_L0 r) (gr_h r) (gr_a r) x (gr_r r) (gr_ts_init r) (gr_start r) (gr_cal r).
Definition set_gr_r {T} (x : T) (r : gripper T) : gripper T := mkGripper (gr_name r) (gr_actuators r) (gr_joints r) (gr_gap_joint r) (gr_red r) (gr_sim_red r) (gr_use_sim r) (gr_has_passive r) (gr_passive r) (gr_screw r) (gr_gear r) (gr_theta0 r) (gr_phi0 r) (gr_t0 r) (gr_L0 r) (gr_h r) (gr_a r) (gr_b r) x (gr_ts_init r) (gr_start r) (gr_cal r).
Definition set_gr_ts_init {T} (x : bool) (r : gripper T) : gripper T := mkGripper (gr_name r) (gr_actuators r) (gr_joints r) (gr_gap_joint r) (gr_red r) (gr_sim_red r) (gr_use_sim r) (gr_has_passive r) (gr_passive r) (gr_screw r) (gr_gear r) (gr_theta0 r) (gr_phi0 r) (gr_t0 r) (gr_L0 r) (gr_h r) (gr_a r) (gr_b r) (gr_r r) x (gr_start r) (gr_cal r).
Definition set_gr_start {T} (x : Z) (r : gripper T) : gripper T := mkGripper (gr_name r) (gr_actuators r) (gr_joints r) (gr_gap_joint r) (gr_red r) (gr_sim_red r) (gr_use_sim r) (gr_has_passive r) (gr_passive r) (gr_screw r) (gr_gear r) (gr_theta0 r) (gr_phi0 r) (gr_t0 r) (gr_L0 r) (gr_h r) (gr_a r) (gr_b r) (gr_r r) (gr_ts_init r) x (gr_cal r).
Definition set_gr_cal {T} (x : calsim T) (r : gripper T) : gripper T := mkGripper (gr_name r) (gr_actuators r) (gr_joints r) (gr_gap_joint r) (gr_red r) (gr_sim_red r) (gr_use_sim r) (gr_has_passive r) (gr_passive r) (gr_screw r) (gr_gear r) (gr_theta0 r) (gr_phi0 r) (gr_t0 r) (gr_L0 r) (gr_h r) (gr_a r) (gr_b r) (gr_r r) (gr_ts_init r) (gr_start r) x.

Section Gripper.
Context {T : Type} {N : Num T} {G : Trig T}.
Variable dbg : bool.
Local Open Scope string_scope.
Local Open Scope num_scope.

(** pr2_gripper_transmission.h:56 constructor; the numeric arguments are the indeterminate members *)
Definition new_gripper (g : T) (b : bool) (c : calsim T) : gripper T :=
  mkGripper "" [] [] "" g g false false [] g g g g g g g g g g b 0 c.

(** e.g. pr2_gripper_transmission.cpp:169-186: an optional coefficient with a default; None = return false *)
Definition coef (P : parsers T) (j : xml) (attr : string) (default : T) : option T :=
  match Attribute j attr with None => Some default | Some s => p_lexical P s end.

(** pr2_gripper_transmission.cpp:142-336: one gap_joint element; None = return false *)
Definition gripper_gap (P : parsers T) (j : xml) (t : gripper T) : option (gripper T) :=
  match Attribute j "name" with None => None | Some n =>
  let t := set_gr_joints (app (gr_joints t) [n]) (set_gr_gap_joint n t) in
  match Attribute j "mechanical_reduction" with None => None | Some s =>
  match p_lexical P s with None => None | Some x => let t := set_gr_red x t in
  match coef P j "screw_reduction" (ntwo / nofZ 1000) with None => None | Some x => let t := set_gr_screw x t in
  match coef P j "gear_ratio" (ndec 2916 2) with None => None | Some x => let t := set_gr_gear x t in
  match coef P j "theta0" (ndec 297571 5 * npi / nofZ 180) with None => None | Some x => let t := set_gr_theta0 x t in
  match coef P j "phi0" (ndec 2998717 5 * npi / nofZ 180) with None => None | Some x => let t := set_gr_phi0 x t in
  match coef P j "t0" (- ndec 19543 5 / nofZ 1000) with None => None | Some x => let t := set_gr_t0 x t in
  match coef P j "L0" (ndec 3470821 5 / nofZ 1000) with None => None | Some x => let t := set_gr_L0 x t in
  match coef P j "h" (ndec 5200 3 / nofZ 1000) with None => None | Some x => let t := set_gr_h x t in
  match coef P j "a" (ndec 6756801 5 / nofZ 1000) with None => None | Some x => let t := set_gr_a x t in
  match coef P j "b" (ndec 4897193 5 / nofZ 1000) with None => None | Some x => let t := set_gr_b x t in
  match coef P j "r" (ndec 9150000 5 / nofZ 1000) with None => None | Some x => Some (set_gr_r x t)
  end end end end end end end end end end end end end.

(** a loop over sibling elements whose body may return false *)
Fixpoint each {S} (f : xml -> S -> option S) (els : list xml) (t : S) : option S :=
  match els with [] => Some t | j :: els' => match f j t with None => None | Some t => each f els' t end end.

(** pr2_gripper_transmission.cpp:343-358: one passive_joint element *)
Definition gripper_passive (j : xml) (t : gripper T) : option (gripper T) :=
  match Attribute j "name" with
  | None => None
  | Some n => Some (set_gr_passive (app (gr_passive t) [n]) (set_gr_joints (app (gr_joints t) [n]) t))
  end.

(** pr2_gripper_transmission.cpp:361-411: one simulated_actuated_joint element *)
Definition gripper_simulated (P : parsers T) (j : xml) (t : gripper T) : option (gripper T) :=
  match Attribute j "name" with
  | None => None
  | Some n =>
    let t := set_gr_joints (app (gr_joints t) [n]) t in
    match Attribute j "simulated_reduction" with
    | None => None
    | Some s =>
      match p_lexical P s with
      | None => None
      | Some x =>
        let t := set_gr_sim_red x t in
        match Attribute j "passive_actuated_joint" with
        | None => Some t
        | Some q => Some (set_gr_joints (app (gr_joints t) [q]) (set_gr_has_passive true t))
        end
      end
    end
  end.

(** pr2_gripper_transmission.cpp:128-416 initXml(config) on a freshly constructed transmission.  (The ROS_ERROR at line
    137 prints a NULL string.) *)
Definition gripper_initXml1 (P : parsers T) (elt : xml) (t : gripper T) : option (gripper T) :=
  let t := set_gr_name (match Attribute elt "name" with Some n => n | None => "" end) t in
  match (match FirstChildElement elt "actuator" with Some ael => Attribute ael "name" | None => None end) with
  | None => None
  | Some an =>
    let t := set_gr_actuators (app (gr_actuators t) [an]) t in
    match each (gripper_gap P) (ChildElements elt "gap_joint") t with None => None | Some t =>
    match each gripper_passive (ChildElements elt "passive_joint") t with None => None | Some t =>
    each (gripper_simulated P) (ChildElements elt "simulated_actuated_joint") t
    end end
  end.

(** pr2_gripper_transmission.cpp:98-110: enable every actuator; stops at the first unknown one *)
Fixpoint enable_all (R : rview T) (ns : list string) (h : nat -> actuator T) : bool * (nat -> actuator T) :=
  match ns with
  | [] => (true, h)
  | n :: ns' => match rv_actuator R n with
                | Some a => enable_all R ns' (upd a (set_a_enable true) h)
                | None => (false, h)
                end
  end.

(** pr2_gripper_transmission.cpp:93-126 initXml(config, robot) *)
Definition gripper_initXml (P : parsers T) (R : rview T) (elt : xml) (h : nat -> actuator T) (t : gripper T)
  : res (option (gripper T) * (nat -> actuator T)) :=
  match gripper_initXml1 P elt t with
  | None => Ok (None, h)
  | Some t =>
    let '(ok, h) := enable_all R (gr_actuators t) h in
    if ok && forallb (fun n => match rv_joint R n with Some _ => true | None => false end) (gr_joints t)
    then Ok (Some t, h) else Ok (None, h)
  end.

(** pr2_gripper_transmission.h:124-125 *)
Definition RAD2MR : T := nofZ 1 / (ntwo * npi).
Definition TOL : T := ndec 1 5.

(** pow(x,2) *)
Definition sq (x : T) : T := x * x.
(** pr2_gripper_transmission.cpp:429-431 (= 448-450): cosine of the linkage angle, clamped to [-1,1] *)
Definition gap_u (t : gripper T) (MR : T) : T :=
  let u := (gr_a t * gr_a t + gr_b t * gr_b t - gr_h t * gr_h t
            - sq (gr_L0 t + MR * gr_screw t / gr_gear t)) / (ntwo * gr_a t * gr_b t) in
  if u <? - nofZ 1 then - nofZ 1 else if nofZ 1 <? u then nofZ 1 else u.

(** The results of computeGapStates, in the order of its reference parameters. *)
Record gapstates := mkGap { g_theta : T; g_dtheta_dMR : T; g_dt_dtheta : T; g_dt_dMR : T; g_size : T; g_vel : T; g_eff : T }.

(** pr2_gripper_transmission.cpp:421-472 *)
Definition computeGapStates (t : gripper T) (MR MR_dot MT : T) : gapstates :=
  let theta := gr_theta0 t - gr_phi0 t + nacos (gap_u t MR) in
  let gap_size := gr_t0 t + gr_r t * (nsin theta - nsin (gr_theta0 t)) in
  let MR := if nzero <=? MR then MR else nzero in
  let u := gap_u t MR in
  let tmp_theta := gr_theta0 t - gr_phi0 t + nacos u in
  let arg := nofZ 1 - sq u in
  let arg := if TOL <? arg then arg else TOL in
  let du_dMR := - (gr_L0 t * gr_screw t) / (gr_gear t * gr_a t * gr_b t)
                - MR / (gr_a t * gr_b t) * sq (gr_screw t / gr_gear t) in
  let dtheta_dMR := - nofZ 1 / nsqrt arg * du_dMR in
  let dt_dtheta := gr_r t * ncos tmp_theta in
  let dt_dMR := dt_dtheta * dtheta_dMR in
  mkGap theta dtheta_dMR dt_dtheta dt_dMR gap_size (MR_dot * dt_dMR) (MT / dt_dMR / RAD2MR).

(** pr2_gripper_transmission.cpp:494-531: (MR, dMR_dtheta, dtheta_dt, dMR_dt) *)
Definition inverseGapStates1 (t : gripper T) (theta : T) : T * T * T * T :=
  let arg := - ntwo * gr_a t * gr_b t * ncos (theta - gr_theta0 t + gr_phi0 t)
             - gr_h t * gr_h t + gr_a t * gr_a t + gr_b t * gr_b t in
  let '(MR, dMR_dtheta) :=
    if nzero <? arg then
      (gr_gear t / gr_screw t * (nsqrt arg - gr_L0 t),
       gr_gear t / (ntwo * gr_screw t) / nsqrt arg * ntwo * gr_a t * gr_b t * nsin (theta + gr_phi0 t - gr_theta0 t))
    else (gr_gear t / gr_screw t * (nzero - gr_L0 t), nzero) in
  let gap_size := gr_t0 t + gr_r t * (nsin theta - nsin (gr_theta0 t)) in
  let u := (gap_size - gr_t0 t) / gr_r t + nsin (gr_theta0 t) in
  let arg2 := nofZ 1 - sq u in
  let arg2 := if TOL <? arg2 then arg2 else TOL in
  let dtheta_dt := nofZ 1 / nsqrt arg2 / gr_r t in
  (MR, dMR_dtheta, dtheta_dt, nabs dMR_dtheta * dtheta_dt).

(** pr2_gripper_transmission.cpp:478-488 *)
Definition inverseGapStates (t : gripper T) (gap_size : T) : T * T * T * T :=
  let s := (gap_size - gr_t0 t) / gr_r t + nsin (gr_theta0 t) in
  let s := if nofZ 1 <? s then nofZ 1 else if s <? - nofZ 1 then - nofZ 1 else s in
  inverseGapStates1 t (nasin s).

(** the joint vector size asserted by propagatePosition and propagateEffort (pr2_gripper_transmission.cpp:541-546, 682-686) *)
Definition gripper_size_fwd (t : gripper T) (js : list nat) : bool :=
  (List.length js =? 1 + List.length (gr_passive t) + if gr_has_passive t then 2 else 1)%nat.
(** ... by propagatePositionBackwards (619-623) *)
Definition gripper_size_posback (t : gripper T) (js : list nat) : bool :=
  if gr_has_passive t then (List.length js =? 1 + List.length (gr_passive t) + 2)%nat else (List.length js =? 1)%nat.
(** ... by propagateEffortBackwards (713-716) *)
Definition gripper_size_effback (t : gripper T) (js : list nat) : bool :=
  (List.length js =? 1 + List.length (gr_passive t) + 2)%nat.

(** pr2_gripper_transmission.cpp:592-610: a screw or slider joint's state is filled with zeros *)
Definition blank_joint (q : nat) (m : mem T) : mem T :=
  let m := js_upd q (set_position nzero) m in
  let m := js_upd q (set_velocity nzero) m in
  let m := js_upd q (set_measured_effort nzero) m in
  let m := js_upd q (set_reference_position nzero) m in
  js_upd q (set_calibrated true) m.

(** pr2_gripper_transmission.cpp:582-589: the passive joints; the reference position is set to an effort *)
Fixpoint passive_loop (n i : nat) (pos vel eff : T) (js : list nat) (m : mem T) : res (mem T) :=
  match n with
  | O => Ok m
  | S n' =>
    do q <- vget js i;
    let m := js_upd q (set_position pos) m in
    let m := js_upd q (set_velocity vel) m in
    let m := js_upd q (set_measured_effort eff) m in
    let m := js_upd q (set_reference_position eff) m in
    passive_loop n' (S i) pos vel eff js m
  end.

(** pr2_gripper_transmission.cpp:537-613 *)
Definition gripper_propagatePosition (t : gripper T) (as_ js : list nat) (m : mem T) : res (mem T) :=
  do _ <- cassert dbg (List.length as_ =? 1)%nat;
  do _ <- cassert dbg (gripper_size_fwd t js);
  do a0 <- vget as_ 0;
  let A := m_act m a0 in
  let MR := a_position A / gr_red t * RAD2MR in
  let MR_dot := a_velocity A / gr_red t * RAD2MR in
  let MT := a_last_measured_effort A / gr_red t in
  let g := computeGapStates t MR MR_dot MT in
  do j0 <- vget js 0;
  let m := js_upd j0 (set_position (g_size g * ntwo)) m in
  let m := js_upd j0 (set_velocity (g_vel g * ntwo)) m in
  let m := js_upd j0 (set_measured_effort (g_eff g / ntwo)) m in
  let np := List.length (gr_passive t) in
  do m <- passive_loop np 1 (g_theta g - gr_theta0 t) (g_dtheta_dMR g * MR_dot) (MT / g_dtheta_dMR g / RAD2MR) js m;
  do k <- vget js (np + 1);
  let m := blank_joint k m in
  if gr_has_passive t then
    do k <- vget js (np + 2);
    Ok (blank_joint k m)
  else Ok m.

(** pr2_gripper_transmission.cpp:616-677 *)
Definition gripper_propagatePositionBackwards (e : env) (t : gripper T) (js as_ : list nat) (m : mem T)
  : res (gripper T * mem T) :=
  do _ <- cassert dbg (List.length as_ =? 1)%nat;
  do _ <- cassert dbg (gripper_size_posback t js);
  do j0 <- vget js 0;
  do a0 <- vget as_ 0;
  let J := m_js m j0 in
  let '(MR, dMR_dtheta, dtheta_dt, dMR_dt) := inverseGapStates t (position J / ntwo) in
  let joint_rate := velocity J / ntwo * dtheta_dt in
  let gap_effort := commanded_effort J in
  let m := act_upd a0 (set_a_position (MR * gr_red t / RAD2MR)) m in
  let m := act_upd a0 (set_a_velocity (joint_rate * dMR_dtheta * gr_red t / RAD2MR)) m in
  let m := act_upd a0 (set_a_last_measured_effort (ntwo * gap_effort / dMR_dt * RAD2MR * gr_red t)) m in
  let '(ini, start, stamp) := sim_clock e (gr_ts_init t) (gr_start t) in
  let t := set_gr_start start (set_gr_ts_init ini t) in
  let m := act_upd a0 (set_stamp stamp) m in
  do (c, m) <- simcal_mem dbg (gr_cal t) j0 a0 m;
  Ok (set_gr_cal c t, m).

(** pr2_gripper_transmission.cpp:679-708 *)
Definition gripper_propagateEffort (t : gripper T) (js as_ : list nat) (m : mem T) : res (mem T) :=
  do _ <- cassert dbg (List.length as_ =? 1)%nat;
  do _ <- cassert dbg (gripper_size_fwd t js);
  do j0 <- vget js 0;
  do a0 <- vget as_ 0;
  let J := m_js m j0 in
  let '(_, _, _, dMR_dt) := inverseGapStates t (position J / ntwo) in
  let m := act_upd a0 (set_a_enable true) m in
  Ok (act_upd a0 (set_a_effort (ntwo * commanded_effort J / dMR_dt * RAD2MR * gr_red t)) m).

(** pr2_gripper_transmission.cpp:710-744 *)
Definition gripper_propagateEffortBackwards (t : gripper T) (as_ js : list nat) (m : mem T) : res (mem T) :=
  do _ <- cassert dbg (List.length as_ =? 1)%nat;
  do _ <- cassert dbg (gripper_size_effback t js);
  do _ <- cassert dbg (nzero <? gr_sim_red t);
  do a0 <- vget as_ 0;
  let A := m_act m a0 in
  let MR := a_position A / gr_red t * RAD2MR in
  let MR_dot := a_velocity A / gr_red t * RAD2MR in
  let MT := a_effort A / gr_red t in
  let g := computeGapStates t MR MR_dot MT in
  do k <- vget js (List.length (gr_passive t) + 1);
  Ok (js_upd k (set_commanded_effort (g_eff g / gr_sim_red t)) m).
End Gripper.
