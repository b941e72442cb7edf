(** pr2_mechanism_model: joint.h, joint.cpp (JointStatistics, JointState). *)
From Coq Require Import List String Arith Bool ZArith.
From Verif.Model Require Import Base Num.
Import ListNotations.

(** urdf_model/joint.h (external): the joint types the code distinguishes. *)
Inductive jtype := JREVOLUTE | JPRISMATIC | JCONTINUOUS | JFIXED | JOTHER.
Definition jtype_eqb (a b : jtype) : bool :=
  match a, b with
  | JREVOLUTE, JREVOLUTE | JPRISMATIC, JPRISMATIC | JCONTINUOUS, JCONTINUOUS | JFIXED, JFIXED | JOTHER, JOTHER => true
  | _, _ => false
  end.

(** urdf::JointSafety, urdf::JointLimits, urdf::JointCalibration (external): the fields used by /repo. *)
Record jsafety (T : Type) := mkSafety {
  k_position : T;
  k_velocity : T;
  soft_lower : T;
  soft_upper : T }.
Arguments k_position {T} _.
Arguments k_velocity {T} _.
Arguments soft_lower {T} _.
Arguments soft_upper {T} _.
Arguments mkSafety {T}.
Definition set_k_position {T} (x : T) (r : jsafety T) : jsafety T := mkSafety x (k_velocity r) (soft_lower r) (soft_upper r).
Definition set_k_velocity {T} (x : T) (r : jsafety T) : jsafety T := mkSafety (k_position r) x (soft_lower r) (soft_upper r).
Definition set_soft_lower {T} (x : T) (r : jsafety T) : jsafety T := mkSafety (k_position r) (k_velocity r) x (soft_upper r).
Definition set_soft_upper {T} (x : T) (r : jsafety T) : jsafety T := mkSafety (k_position r) (k_velocity r) (soft_lower r) x.
Record jlimits (T : Type) := mkLimits {
  lim_lower : T;
  lim_upper : T;
  lim_effort : T;
  lim_velocity : T }.
Arguments lim_lower {T} _.
Arguments lim_upper {T} _.
Arguments lim_effort {T} _.
Arguments lim_velocity {T} _.
Arguments mkLimits {T}.
Definition set_lim_lower {T} (x : T) (r : jlimits T) : jlimits T := mkLimits x (lim_upper r) (lim_effort r) (lim_velocity r).
Definition set_lim_upper {T} (x : T) (r : jlimits T) : jlimits T := mkLimits (lim_lower r) x (lim_effort r) (lim_velocity r).
Definition set_lim_effort {T} (x : T) (r : jlimits T) : jlimits T := mkLimits (lim_lower r) (lim_upper r) x (lim_velocity r).
Definition set_lim_velocity {T} (x : T) (r : jlimits T) : jlimits T := mkLimits (lim_lower r) (lim_upper r) (lim_effort r) x.
Record jcalib (T : Type) := mkCalib {
  cal_rising : option T;  (** boost::shared_ptr<double> rising *)
  cal_falling : option T }.
Arguments cal_rising {T} _.
Arguments cal_falling {T} _.
Arguments mkCalib {T}.
Definition set_cal_rising {T} (x : option T) (r : jcalib T) : jcalib T := mkCalib x (cal_falling r).
Definition set_cal_falling {T} (x : option T) (r : jcalib T) : jcalib T := mkCalib (cal_rising r) x.
(** urdf::Joint (external). *)
Record ujoint (T : Type) := mkUjoint {
  uj_name : string;
  uj_type : jtype;
  uj_safety : option (jsafety T);  (** NULL or the <safety_controller> *)
  uj_limits : option (jlimits T);  (** NULL or the <limit> *)
  uj_calib : option (jcalib T) }.  (** NULL or the <calibration> *)
Arguments uj_name {T} _.
Arguments uj_type {T} _.
Arguments uj_safety {T} _.
Arguments uj_limits {T} _.
Arguments uj_calib {T} _.
Arguments mkUjoint {T}.
Definition set_uj_name {T} (x : string) (r : ujoint T) : ujoint T := mkUjoint x (uj_type r) (uj_safety r) (uj_limits r) (uj_calib r).
Definition set_uj_type {T} (x : jtype) (r : ujoint T) : ujoint T := mkUjoint (uj_name r) x (uj_safety r) (uj_limits r) (uj_calib r).
Definition set_uj_safety {T} (x : option (jsafety T)) (r : ujoint T) : ujoint T := mkUjoint (uj_name r) (uj_type r) x (uj_limits r) (uj_calib r).
Definition set_uj_limits {T} (x : option (jlimits T)) (r : ujoint T) : ujoint T := mkUjoint (uj_name r) (uj_type r) (uj_safety r) x (uj_calib r).
Definition set_uj_calib {T} (x : option (jcalib T)) (r : ujoint T) : ujoint T := mkUjoint (uj_name r) (uj_type r) (uj_safety r) (uj_limits r) x.
(** joint.h:48-67 class JointStatistics. *)
Record jstats (T : Type) := mkJstats {
  odometer : T;
  min_position : T;
  max_position : T;
  max_abs_velocity : T;
  max_abs_effort : T;
  violated_limits : bool;
  js_initialized : bool;
  old_position : T }.  (** not initialised by the constructor *)
Arguments odometer {T} _.
Arguments min_position {T} _.
Arguments max_position {T} _.
Arguments max_abs_velocity {T} _.
Arguments max_abs_effort {T} _.
Arguments violated_limits {T} _.
Arguments js_initialized {T} _.
Arguments old_position {T} _.
Arguments mkJstats {T}.
Definition set_odometer {T} (x : T) (r : jstats T) : jstats T := mkJstats x (min_position r) (max_position r) (max_abs_velocity r) (max_abs_effort r) (violated_limits r) (js_initialized r) (old_position r).
Definition set_min_position {T} (x : T) (r : jstats T) : jstats T := mkJstats (odometer r) x (max_position r) (max_abs_velocity r) (max_abs_effort r) (violated_limits r) (js_initialized r) (old_position r).
Definition set_max_position {T} (x : T) (r : jstats T) : jstats T := mkJstats (odometer r) (min_position r) x (max_abs_velocity r) (max_abs_effort r) (violated_limits r) (js_initialized r) (old_position r).
Definition set_max_abs_velocity {T} (x : T) (r : jstats T) : jstats T := mkJstats (odometer r) (min_position r) (max_position r) x (max_abs_effort r) (violated_limits r) (js_initialized r) (old_position r).
Definition set_max_abs_effort {T} (x : T) (r : jstats T) : jstats T := mkJstats (odometer r) (min_position r) (max_position r) (max_abs_velocity r) x (violated_limits r) (js_initialized r) (old_position r).
Definition set_violated_limits {T} (x : bool) (r : jstats T) : jstats T := mkJstats (odometer r) (min_position r) (max_position r) (max_abs_velocity r) (max_abs_effort r) x (js_initialized r) (old_position r).
Definition set_js_initialized {T} (x : bool) (r : jstats T) : jstats T := mkJstats (odometer r) (min_position r) (max_position r) (max_abs_velocity r) (max_abs_effort r) (violated_limits r) x (old_position r).
Definition set_old_position {T} (x : T) (r : jstats T) : jstats T := mkJstats (odometer r) (min_position r) (max_position r) (max_abs_velocity r) (max_abs_effort r) (violated_limits r) (js_initialized r) x.
(** joint.h:71-111 class JointState. *)
Record jointstate (T : Type) := mkJointState {
  js_joint : option (ujoint T);  (** joint_ ; NULL until the constructor of RobotState sets it *)
  position : T;
  velocity : T;
  measured_effort : T;
  joint_statistics : jstats T;
  commanded_effort : T;
  calibrated : bool;
  reference_position : T }.
Arguments js_joint {T} _.
Arguments position {T} _.
Arguments velocity {T} _.
Arguments measured_effort {T} _.
Arguments joint_statistics {T} _.
Arguments commanded_effort {T} _.
Arguments calibrated {T} _.
Arguments reference_position {T} _.
Arguments mkJointState {T}.
Definition set_js_joint {T} (x : option (ujoint T)) (r : jointstate T) : jointstate T := mkJointState x (position r) (velocity r) (measured_effort r) (joint_statistics r) (commanded_effort r) (calibrated r) (reference_position r).
Definition set_position {T} (x : T) (r : jointstate T) : jointstate T := mkJointState (js_joint r) x (velocity r) (measured_effort r) (joint_statistics r) (commanded_effort r) (calibrated r) (reference_position r).
Definition set_velocity {T} (x : T) (r : jointstate T) : jointstate T := mkJointState (js_joint r) (position r) x (measured_effort r) (joint_statistics r) (commanded_effort r) (calibrated r) (reference_position r).
Definition set_measured_effort {T} (x : T) (r : jointstate T) : jointstate T := mkJointState (js_joint r) (position r) (velocity r) x (joint_statistics r) (commanded_effort r) (calibrated r) (reference_position r).
Definition set_joint_statistics {T} (x : jstats T) (r : jointstate T) : jointstate T := mkJointState (js_joint r) (position r) (velocity r) (measured_effort r) x (commanded_effort r) (calibrated r) (reference_position r).
Definition set_commanded_effort {T} (x : T) (r : jointstate T) : jointstate T := mkJointState (js_joint r) (position r) (velocity r) (measured_effort r) (joint_statistics r) x (calibrated r) (reference_position r).
Definition set_calibrated {T} (x : bool) (r : jointstate T) : jointstate T := mkJointState (js_joint r) (position r) (velocity r) (measured_effort r) (joint_statistics r) (commanded_effort r) x (reference_position r).
Definition set_reference_position {T} (x : T) (r : jointstate T) : jointstate T := mkJointState (js_joint r) (position r) (velocity r) (measured_effort r) (joint_statistics r) (commanded_effort r) (calibrated r) x.

Section Joint.
Context {T : Type} {N : Num T}.
Local Open Scope num_scope.

(** joint.h:51-53: [garbage] is the indeterminate old_position_. *)
Definition new_jstats (garbage : T) : jstats T := mkJstats nzero nzero nzero nzero nzero false false garbage.

(** joint.h:109-110 *)
Definition new_jointstate (garbage : T) : jointstate T :=
  mkJointState None nzero nzero nzero (new_jstats garbage) nzero false nzero.

(** joint.cpp:46-63 JointStatistics::update; [jnt->joint_] NULL is undefined behaviour (only dereferenced when
    initialized_). *)
Definition stats_update (s : jstats T) (jnt : jointstate T) : res (jstats T) :=
  do s <- (if js_initialized s then
             let s := set_odometer (odometer s + nabs (old_position s - position jnt)) s in
             do u <- (match js_joint jnt with Some u => Ok u | None => UB end);
             let s := if (match uj_safety u with Some _ => true | None => false end)
                         && (match uj_limits u with Some _ => true | None => false end)
                         && (nabs (measured_effort jnt) <? nabs (commanded_effort jnt))
                      then set_violated_limits true s else s in
             let s := set_min_position (nfmin (position jnt) (min_position s)) s in
             let s := set_max_position (nfmax (position jnt) (max_position s)) s in
             let s := set_max_abs_velocity (nfmax (nabs (velocity jnt)) (max_abs_velocity s)) s in
             let s := set_max_abs_effort (nfmax (nabs (measured_effort jnt)) (max_abs_effort s)) s in
             Ok s
           else
             let s := set_min_position (position jnt) s in
             let s := set_max_position (position jnt) s in
             Ok (set_js_initialized true s));
  Ok (set_old_position (position jnt) s).

(** joint.cpp:66-74 JointStatistics::reset *)
Definition stats_reset (s : jstats T) : jstats T :=
  let tmp := min_position s in
  let s := set_min_position (max_position s) s in
  let s := set_max_position tmp s in
  let s := set_max_abs_velocity nzero s in
  let s := set_max_abs_effort nzero s in
  set_violated_limits false s.

(** joint.cpp:88-122 JointState::getLimits: (effort_low, effort_high) *)
Definition getLimits (j : jointstate T) : res (T * T) :=
  match js_joint j with
  | None => UB
  | Some u =>
    match uj_safety u, uj_limits u with
    | Some sf, Some lm =>
      let vel := lim_velocity lm in
      let eff := lim_effort lm in
      let '(vel_low, vel_high) :=
        if calibrated j && (jtype_eqb (uj_type u) JREVOLUTE || jtype_eqb (uj_type u) JPRISMATIC) then
          let vel_high := nmax (- vel) (nmin vel (- k_position sf * (position j - soft_upper sf))) in
          let vel_low := nmin vel (nmax (- vel) (- k_position sf * (position j - soft_lower sf))) in
          (vel_low, vel_high)
        else (- vel, vel) in
      let effort_high := nmax (- eff) (nmin eff (- k_velocity sf * (velocity j - vel_high))) in
      let effort_low := nmin eff (nmax (- eff) (- k_velocity sf * (velocity j - vel_low))) in
      Ok (effort_low, effort_high)
    | _, _ => Ok (- nmaxval, nmaxval)
    end
  end.

(** joint.cpp:77-86 JointState::enforceLimits *)
Definition enforceLimits (j : jointstate T) : res (jointstate T) :=
  do (effort_low, effort_high) <- getLimits j;
  Ok (set_commanded_effort (nmin (nmax (commanded_effort j) effort_low) effort_high) j).

End Joint.
