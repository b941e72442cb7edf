(** pr2_mechanism_model: pr2_belt_transmission.h, pr2_belt_transmission.cpp. *)
From Coq Require Import List String Arith Bool ZArith.
From Verif.Model Require Import Base Num Joint Hardware Xml Transmission.
Import ListNotations.

(** pr2_belt_transmission.h:45-115 class PR2BeltCompensatorTransmission. *)
Record belt (T : Type) := mkBelt {
  bt_name : string;  (** name_ *)
  bt_actuators : list string;  (** actuator_names_ *)
  bt_joints : list string;  (** joint_names_ *)
  bt_last_ts : Z;  (** last_timestamp_ *)
  bt_dt : T;  (** dt; only propagatePosition assigns it *)
  bt_red : T;  (** mechanical_reduction_ *)
  bt_compl : T;  (** trans_compl_ *)
  bt_tau : T;  (** trans_tau_ *)
  bt_kd : T;  (** Kd_motor_ *)
  bt_lmotor : T;  (** lambda_motor_ *)
  bt_ljoint : T;  (** lambda_joint_ *)
  bt_lcombo : T;  (** lambda_combo_ *)
  bt_mpos : T;  (** last_motor_pos_ *)
  bt_mvel : T;  (** last_motor_vel_ *)
  bt_j1pos : T;  (** last_jnt1_pos_ *)
  bt_j1vel : T;  (** last_jnt1_vel_ *)
  bt_j1acc : T;  (** last_jnt1_acc_ *)
  bt_dpos : T;  (** last_defl_pos_ *)
  bt_dvel : T;  (** last_defl_vel_ *)
  bt_dacc : T;  (** last_defl_acc_ *)
  bt_jpos : T;  (** last_joint_pos_ *)
  bt_jvel : T;  (** last_joint_vel_ *)
  bt_dmvel : T;  (** delta_motor_vel_ *)
  bt_damp : T;  (** last_motor_damping_force_ *)
  bt_bts : Z;  (** last_timestamp_backwards_ *)
  bt_bhalf : T;  (** halfdt_backwards_ *)
  bt_bforce : T;  (** motor_force_backwards_ *)
  bt_bmpos : T;  (** last_motor_pos_backwards_ *)
  bt_bmvel : T;  (** last_motor_vel_backwards_ *)
  bt_bmacc : T;  (** last_motor_acc_backwards_ *)
  bt_bjpos : T;  (** last_joint_pos_backwards_ *)
  bt_bjvel : T;  (** last_joint_vel_backwards_ *)
  bt_ts_init : bool;  (** simulated_actuator_timestamp_initialized_; never initialised *)
  bt_start : Z;  (** simulated_actuator_start_time_ *)
  bt_cal : calsim T }.  (** joint_calibration_simulator_ *)
Arguments bt_name {T} _.
Arguments bt_actuators {T} _.
Arguments bt_joints {T} _.
Arguments bt_last_ts {T} _.
Arguments bt_dt {T} _.
Arguments bt_red {T} _.
Arguments bt_compl {T} _.
Arguments bt_tau {T} _.
Arguments bt_kd {T} _.
Arguments bt_lmotor {T} _.
Arguments bt_ljoint {T} _.
Arguments bt_lcombo {T} _.
Arguments bt_mpos {T} _.
Arguments bt_mvel {T} _.
Arguments bt_j1pos {T} _.
Arguments bt_j1vel {T} _.
Arguments bt_j1acc {T} _.
Arguments bt_dpos {T} _.
Arguments bt_dvel {T} _.
Arguments bt_dacc {T} _.
Arguments bt_jpos {T} _.
Arguments bt_jvel {T} _.
Arguments bt_dmvel {T} _.
Arguments bt_damp {T} _.
Arguments bt_bts {T} _.
Arguments bt_bhalf {T} _.
Arguments bt_bforce {T} _.
Arguments bt_bmpos {T} _.
Arguments bt_bmvel {T} _.
Arguments bt_bmacc {T} _.
Arguments bt_bjpos {T} _.
Arguments bt_bjvel {T} _.
Arguments bt_ts_init {T} _.
Arguments bt_start {T} _.
Arguments bt_cal {T} _.
Arguments mkBelt {T}.
Definition set_bt_name {T} (x : string) (r : belt T) : belt T := mkBelt x (bt_actuators r) (bt_joints r) (bt_last_ts r) (bt_dt r) (bt_red r) (bt_compl r) (bt_tau r) (bt_kd r) (bt_lmotor r) (bt_ljoint r) (bt_lcombo r) (bt_mpos r) (bt_mvel r) (bt_j1pos r) (bt_j1vel r) (bt_j1acc r) (bt_dpos r) (bt_dvel r) (bt_dacc r) (bt_jpos r) (bt_jvel r) (bt_dmvel r) (bt_damp r) (bt_bts r) (bt_bhalf r) (bt_bforce r) (bt_bmpos r) (bt_bmvel r) (bt_bmacc r) (bt_bjpos r) (bt_bjvel r) (bt_ts_init r) (bt_start r) (bt_cal r).
Definition set_bt_actuators {T} (x : list string) (r : belt T) : belt T := mkBelt (bt_name r) x (bt_joints r) (bt_last_ts r) (bt_dt r) (bt_red r) (bt_compl r) (bt_tau r) (bt_kd r) (bt_lmotor r) (bt_ljoint r) (bt_lcombo r) (bt_mpos r) (bt_mvel r) (bt_j1pos r) (bt_j1vel r) (bt_j1acc r) (bt_dpos r) (bt_dvel r) (bt_dacc r) (bt_jpos r) (bt_jvel r) (bt_dmvel r) (bt_damp r) (bt_bts r) (bt_bhalf r) (bt_bforce r) (bt_bmpos r) (bt_bmvel r) (bt_bmacc r) (bt_bjpos r) (bt_bjvel r) (bt_ts_init r) (bt_start r) (bt_cal r).
Definition set_bt_joints {T} (x : list string) (r : belt T) : belt T := mkBelt (bt_name r) (bt_actuators r) x (bt_last_ts r) (bt_dt r) (bt_red r) (bt_compl r) (bt_tau r) (bt_kd r) (bt_lmotor r) (bt_ljoint r) (bt_lcombo r) (bt_mpos r) (bt_mvel r) (bt_j1pos r) (bt_j1vel r) (bt_j1acc r) (bt_dpos r) (bt_dvel r) (bt_dacc r) (bt_jpos r) (bt_jvel r) (bt_dmvel r) (bt_damp r) (bt_bts r) (bt_bhalf r) (bt_bforce r) (bt_bmpos r) (bt_bmvel r) (bt_bmacc r) (bt_bjpos r) (bt_bjvel r) (bt_ts_init r) (bt_start r) (bt_cal r).
Definition set_bt_last_ts {T} (x : Z) (r : belt T) : belt T := mkBelt (bt_name r) (bt_actuators r) (bt_joints r) x (bt_dt r) (bt_red r) (bt_compl r) (bt_tau r) (bt_kd r) (bt_lmotor r) (bt_ljoint r) (bt_lcombo r) (bt_mpos r) (bt_mvel r) (bt_j1pos r) (bt_j1vel r) (bt_j1acc r) (bt_dpos r) (bt_dvel r) (bt_dacc r) (bt_jpos r) (bt_jvel r) (bt_dmvel r) (bt_damp r) (bt_bts r) (bt_bhalf r) (bt_bforce r) (bt_bmpos r) (bt_bmvel r) (bt_bmacc r) (bt_bjpos r) (bt_bjvel r) (bt_ts_init r) (bt_start r) (bt_cal r).
Definition set_bt_dt {T} (x : T) (r : belt T) : belt T := mkBelt (bt_name r) (bt_actuators r) (bt_joints r) (bt_last_ts r) x (bt_red r) (bt_compl r) (bt_tau r) (bt_kd r) (bt_lmotor r) (bt_ljoint r) (bt_lcombo r) (bt_mpos r) (bt_mvel r) (bt_j1pos r) (bt_j1vel r) (bt_j1acc r) (bt_dpos r) (bt_dvel r) (bt_dacc r) (bt_jpos r) (bt_jvel r) (bt_dmvel r) (bt_damp r) (bt_bts r) (bt_bhalf r) (bt_bforce r) (bt_bmpos r) (bt_bmvel r) (bt_bmacc r) (bt_bjpos r) (bt_bjvel r) (bt_ts_init r) (bt_start r) (bt_cal r).
Definition set_bt_red {T} (x : T) (r : belt T) : belt T := mkBelt (bt_name r) (bt_actuators r) (bt_joints r) (bt_last_ts r) (bt_dt r) x (bt_compl r) (bt_tau r) (bt_kd r) (bt_lmotor r) (bt_ljoint r) (bt_lcombo r) (bt_mpos r) (bt_mvel r) (bt_j1pos r) (bt_j1vel r) (bt_j1acc r) (bt_dpos r) (bt_dvel r) (bt_dacc r) (bt_jpos r) (bt_jvel r) (bt_dmvel r) (bt_damp r) (bt_bts r) (bt_bhalf r) (bt_bforce r) (bt_bmpos r) (bt_bmvel r) (bt_bmacc r) (bt_bjpos r) (bt_bjvel r) (bt_ts_init r) (bt_start r) (bt_cal r).
Definition set_bt_compl {T} (x : T) (r : belt T) : belt T := mkBelt (bt_name r) (bt_actuators r) (bt_joints r) (bt_last_ts r) (bt_dt r) (bt_red r) x (bt_tau r) (bt_kd r) (bt_lmotor r) (bt_ljoint r) (bt_lcombo r) (bt_mpos r) (bt_mvel r) (bt_j1pos r) (bt_j1vel r) (bt_j1acc r) (bt_dpos r) (bt_dvel r) (bt_dacc r) (bt_jpos r) (bt_jvel r) (bt_dmvel r) (bt_damp r) (bt_bts r) (bt_bhalf r) (bt_bforce r) (bt_bmpos r) (bt_bmvel r) (bt_bmacc r) (bt_bjpos r) (bt_bjvel r) (bt_ts_init r) (bt_start r) (bt_cal r).
Definition set_bt_tau {T} (x : T) (r : belt T) : belt T := mkBelt (bt_name r) (bt_actuators r) (bt_joints r) (bt_last_ts r) (bt_dt r) (bt_red r) (bt_compl r) x (bt_kd r) (bt_lmotor r) (bt_ljoint r) (bt_lcombo r) (bt_mpos r) (bt_mvel r) (bt_j1pos r) (bt_j1vel r) (bt_j1acc r) (bt_dpos r) (bt_dvel r) (bt_dacc r) (bt_jpos r) (bt_jvel r) (bt_dmvel r) (bt_damp r) (bt_bts r) (bt_bhalf r) (bt_bforce r) (bt_bmpos r) (bt_bmvel r) (bt_bmacc r) (bt_bjpos r) (bt_bjvel r) (bt_ts_init r) (bt_start r) (bt_cal r).
Definition set_bt_kd {T} (x : T) (r : belt T) : belt T := mkBelt (bt_name r) (bt_actuators r) (bt_joints r) (bt_last_ts r) (bt_dt r) (bt_red r) (bt_compl r) (bt_tau r) x (bt_lmotor r) (bt_ljoint r) (bt_lcombo r) (bt_mpos r) (bt_mvel r) (bt_j1pos r) (bt_j1vel r) (bt_j1acc r) (bt_dpos r) (bt_dvel r) (bt_dacc r) (bt_jpos r) (bt_jvel r) (bt_dmvel r) (bt_damp r) (bt_bts r) (bt_bhalf r) (bt_bforce r) (bt_bmpos r) (bt_bmvel r) (bt_bmacc r) (bt_bjpos r) (bt_bjvel r) (bt_ts_init r) (bt_start r) (bt_cal r).
Definition set_bt_lmotor {T} (x : T) (r : belt T) : belt T := mkBelt (bt_name r) (bt_actuators r) (bt_joints r) (bt_last_ts r) (bt_dt r) (bt_red r) (bt_compl r) (bt_tau r) (bt_kd r) x (bt_ljoint r) (bt_lcombo r) (bt_mpos r) (bt_mvel r) (bt_j1pos r) (bt_j1vel r) (bt_j1acc r) (bt_dpos r) (bt_dvel r) (bt_dacc r) (bt_jpos r) (bt_jvel r) (bt_dmvel r) (bt_damp r) (bt_bts r) (bt_bhalf r) (bt_bforce r) (bt_bmpos r) (bt_bmvel r) (bt_bmacc r) (bt_bjpos r) (bt_bjvel r) (bt_ts_init r) (bt_start r) (bt_cal r).
Definition set_bt_ljoint {T} (x : T) (r : belt T) : belt T := mkBelt (bt_name r) (bt_actuators r) (bt_joints r) (bt_last_ts r) (bt_dt r) (bt_red r) (bt_compl r) (bt_tau r) (bt_kd r) (bt_lmotor r) x (bt_lcombo r) (bt_mpos r) (bt_mvel r) (bt_j1pos r) (bt_j1vel r) (bt_j1acc r) (bt_dpos r) (bt_dvel r) (bt_dacc r) (bt_jpos r) (bt_jvel r) (bt_dmvel r) (bt_damp r) (bt_bts r) (bt_bhalf r) (bt_bforce r) (bt_bmpos r) (bt_bmvel r) (bt_bmacc r) (bt_bjpos r) (bt_bjvel r) (bt_ts_init r) (bt_start r) (bt_cal r).
Definition set_bt_lcombo {T} (x : T) (r : belt T) : belt T := mkBelt (bt_name r) (bt_actuators r) (bt_joints r) (bt_last_ts r) (bt_dt r) (bt_red r) (bt_compl r) (bt_tau r) (bt_kd r) (bt_lmotor r) (bt_ljoint r) x (bt_mpos r) (bt_mvel r) (bt_j1pos r) (bt_j1vel r) (bt_j1acc r) (bt_dpos r) (bt_dvel r) (bt_dacc r) (bt_jpos r) (bt_jvel r) (bt_dmvel r) (bt_damp r) (bt_bts r) (bt_bhalf r) (bt_bforce r) (bt_bmpos r) (bt_bmvel r) (bt_bmacc r) (bt_bjpos r) (bt_bjvel r) (bt_ts_init r) (bt_start r) (bt_cal r).
Definition set_bt_mpos {T} (x : T) (r : belt T) : belt T := mkBelt (bt_name r) (bt_actuators r) (bt_joints r) (bt_last_ts r) (bt_dt r) (bt_red r) (bt_compl r) (bt_tau r) (bt_kd r) (bt_lmotor r) (bt_ljoint r) (bt_lcombo r) x (bt_mvel r) (bt_j1pos r) (bt_j1vel r) (bt_j1acc r) (bt_dpos r) (bt_dvel r) (bt_dacc r) (bt_jpos r) (bt_jvel r) (bt_dmvel r) (bt_damp r) (bt_bts r) (bt_bhalf r) (bt_bforce r) (bt_bmpos r) (bt_bmvel r) (bt_bmacc r) (bt_bjpos r) (bt_bjvel r) (bt_ts_init r) (bt_start r) (bt_cal r).
Definition set_bt_mvel {T} (x : T) (r : belt T) : belt T := mkBelt (bt_name r) (bt_actuators r) (bt_joints r) (bt_last_ts r) (bt_dt r) (bt_red r) (bt_compl r) (bt_tau r) (bt_kd r) (bt_lmotor r) (bt_ljoint r) (bt_lcombo r) (bt_mpos r) x (bt_j1pos r) (bt_j1vel r) (bt_j1acc r) (bt_dpos r) (bt_dvel r) (bt_dacc r) (bt_jpos r) (bt_jvel r) (bt_dmvel r) (bt_damp r) (bt_bts r) (bt_bhalf r) (bt_bforce r) (bt_bmpos r) (bt_bmvel r) (bt_bmacc r) (bt_bjpos r) (bt_bjvel r) (bt_ts_init r) (bt_start r) (bt_cal r).
Definition set_bt_j1pos {T} (x : T) (r : belt T) : belt T := mkBelt (bt_name r) (bt_actuators r) (bt_joints r) (bt_last_ts r) (bt_dt r) (bt_red r) (bt_compl r) (bt_tau r) (bt_kd r) (bt_lmotor r) (bt_ljoint r) (bt_lcombo r) (bt_mpos r) (bt_mvel r) x (bt_j1vel r) (bt_j1acc r) (bt_dpos r) (bt_dvel r) (bt_dacc r) (bt_jpos r) (bt_jvel r) (bt_dmvel r) (bt_damp r) (bt_bts r) (bt_bhalf r) (bt_bforce r) (bt_bmpos r) (bt_bmvel r) (bt_bmacc r) (bt_bjpos r) (bt_bjvel r) (bt_ts_init r) (bt_start r) (bt_cal r).
Definition set_bt_j1vel {T} (x : T) (r : belt T) : belt T := mkBelt (bt_name r) (bt_actuators r) (bt_joints r) (bt_last_ts r) (bt_dt r) (bt_red r) (bt_compl r) (bt_tau r) (bt_kd r) (bt_lmotor r) (bt_ljoint r) (bt_lcombo r) (bt_mpos r) (bt_mvel r) (bt_j1pos r) x (bt_j1acc r) (bt_dpos r) (bt_dvel r) (bt_dacc r) (bt_jpos r) (bt_jvel r) (bt_dmvel r) (bt_damp r) (bt_bts r) (bt_bhalf r) (bt_bforce r) (bt_bmpos r) (bt_bmvel r) (bt_bmacc r) (bt_bjpos r) (bt_bjvel r) (bt_ts_init r) (bt_start r) (bt_cal r).
Definition set_bt_j1acc {T} (x : T) (r : belt T) : belt T := mkBelt (bt_name r) (bt_actuators r) (bt_joints r) (bt_last_ts r) (bt_dt r) (bt_red r) (bt_compl r) (bt_tau r) (bt_kd r) (bt_lmotor r) (bt_ljoint r) (bt_lcombo r) (bt_mpos r) (bt_mvel r) (bt_j1pos r) (bt_j1vel r) x (bt_dpos r) (bt_dvel r) (bt_dacc r) (bt_jpos r) (bt_jvel r) (bt_dmvel r) (bt_damp r) (bt_bts r) (bt_bhalf r) (bt_bforce r) (bt_bmpos r) (bt_bmvel r) (bt_bmacc r) (bt_bjpos r) (bt_bjvel r) (bt_ts_init r) (bt_start r) (bt_cal r).
Definition set_bt_dpos {T} (x : T) (r : belt T) : belt T := mkBelt (bt_name r) (bt_actuators r) (bt_joints r) (bt_last_ts r) (bt_dt r) (bt_red r) (bt_compl r) (bt_tau r) (bt_kd r) (bt_lmotor r) (bt_ljoint r) (bt_lcombo r) (bt_mpos r) (bt_mvel r) (bt_j1pos r) (bt_j1vel r) (bt_j1acc r) x (bt_dvel r) (bt_dacc r) (bt_jpos r) (bt_jvel r) (bt_dmvel r) (bt_damp r) (bt_bts r) (bt_bhalf r) (bt_bforce r) (bt_bmpos r) (bt_bmvel r) (bt_bmacc r) (bt_bjpos r) (bt_bjvel r) (bt_ts_init r) (bt_start r) (bt_cal r).
Definition set_bt_dvel {T} (x : T) (r : belt T) : belt T := mkBelt (bt_name r) (bt_actuators r) (bt_joints r) (bt_last_ts r) (bt_dt r) (bt_red r) (bt_compl r) (bt_tau r) (bt_kd r) (bt_lmotor r) (bt_ljoint r) (bt_lcombo r) (bt_mpos r) (bt_mvel r) (bt_j1pos r) (bt_j1vel r) (bt_j1acc r) (bt_dpos r) x (bt_dacc r) (bt_jpos r) (bt_jvel r) (bt_dmvel r) (bt_damp r) (bt_bts r) (bt_bhalf r) (bt_bforce r) (bt_bmpos r) (bt_bmvel r) (bt_bmacc r) (bt_bjpos r) (bt_bjvel r) (bt_ts_init r) (bt_start r) (bt_cal r).
Definition set_bt_dacc {T} (x : T) (r : belt T) : belt T := mkBelt (bt_name r) (bt_actuators r) (bt_joints r) (bt_last_ts r) (bt_dt r) (bt_red r) (bt_compl r) (bt_tau r) (bt_kd r) (bt_lmotor r) (bt_ljoint r) (bt_lcombo r) (bt_mpos r) (bt_mvel r) (bt_j1pos r) (bt_j1vel r) (bt_j1acc r) (bt_dpos r) (bt_dvel r) x (bt_jpos r) (bt_jvel r) (bt_dmvel r) (bt_damp r) (bt_bts r) (bt_bhalf r) (bt_bforce r) (bt_bmpos r) (bt_bmvel r) (bt_bmacc r) (bt_bjpos r) (bt_bjvel r) (bt_ts_init r) (bt_start r) (bt_cal r).
Definition set_bt_jpos {T} (x : T) (r : belt T) : belt T := mkBelt (bt_name r) (bt_actuators r) (bt_joints r) (bt_last_ts r) (bt_dt r) (bt_red r) (bt_compl r) (bt_tau r) (bt_kd r) (bt_lmotor r) (bt_ljoint r) (bt_lcombo r) (bt_mpos r) (bt_mvel r) (bt_j1pos r) (bt_j1vel r) (bt_j1acc r) (bt_dpos r) (bt_dvel r) (bt_dacc r) x (bt_jvel r) (bt_dmvel r) (bt_damp r) (bt_bts r) (bt_bhalf r) (bt_bforce r) (bt_bmpos r) (bt_bmvel r) (bt_bmacc r) (bt_bjpos r) (bt_bjvel r) (bt_ts_init r) (bt_start r) (bt_cal r).
Definition set_bt_jvel {T} (x : T) (r : belt T) : belt T := mkBelt (bt_name r) (bt_actuators r) (bt_joints r) (bt_last_ts r) (bt_dt r) (bt_red r) (bt_compl r) (bt_tau r) (bt_kd r) (bt_lmotor r) (bt_ljoint r) (bt_lcombo r) (bt_mpos r) (bt_mvel r) (bt_j1pos r) (bt_j1vel r) (bt_j1acc r) (bt_dpos r) (bt_dvel r) (bt_dacc r) (bt_jpos r) x (bt_dmvel r) (bt_damp r) (bt_bts r) (bt_bhalf r) (bt_bforce r) (bt_bmpos r) (bt_bmvel r) (bt_bmacc r) (bt_bjpos r) (bt_bjvel r) (bt_ts_init r) (bt_start r) (bt_cal r).
Definition set_bt_dmvel {T} (x : T) (r : belt T) : belt T := mkBelt (bt_name r) (bt_actuators r) (bt_joints r) (bt_last_ts r) (bt_dt r) (bt_red r) (bt_compl r) (bt_tau r) (bt_kd r) (bt_lmotor r) (bt_ljoint r) (bt_lcombo r) (bt_mpos r) (bt_mvel r) (bt_j1pos r) (bt_j1vel r) (bt_j1acc r) (bt_dpos r) (bt_dvel r) (bt_dacc r) (bt_jpos r) (bt_jvel r) x (bt_damp r) (bt_bts r) (bt_bhalf r) (bt_bforce r) (bt_bmpos r) (bt_bmvel r) (bt_bmacc r) (bt_bjpos r) (bt_bjvel r) (bt_ts_init r) (bt_start r) (bt_cal r).
Definition set_bt_damp {T} (x : T) (r : belt T) : belt T := mkBelt (bt_name r) (bt_actuators r) (bt_joints r) (bt_last_ts r) (bt_dt r) (bt_red r) (bt_compl r) (bt_tau r) (bt_kd r) (bt_lmotor r) (bt_ljoint r) (bt_lcombo r) (bt_mpos r) (bt_mvel r) (bt_j1pos r) (bt_j1vel r) (bt_j1acc r) (bt_dpos r) (bt_dvel r) (bt_dacc r) (bt_jpos r) (bt_jvel r) (bt_dmvel r) x (bt_bts r) (bt_bhalf r) (bt_bforce r) (bt_bmpos r) (bt_bmvel r) (bt_bmacc r) (bt_bjpos r) (bt_bjvel r) (bt_ts_init r) (bt_start r) (bt_cal r).
Definition set_bt_bts {T} (x : Z) (r : belt T) : belt T := mkBelt (bt_name r) (bt_actuators r) (bt_joints r) (bt_last_ts r) (bt_dt r) (bt_red r) (bt_compl r) (bt_tau r) (bt_kd r) (bt_lmotor r) (bt_ljoint r) (bt_lcombo r) (bt_mpos r) (bt_mvel r) (bt_j1pos r) (bt_j1vel r) (bt_j1acc r) (bt_dpos r) (bt_dvel r) (bt_dacc r) (bt_jpos r) (bt_jvel r) (bt_dmvel r) (bt_damp r) x (bt_bhalf r) (bt_bforce r) (bt_bmpos r) (bt_bmvel r) (bt_bmacc r) (bt_bjpos r) (bt_bjvel r) (bt_ts_init r) (bt_start r) (bt_cal r).
Definition set_bt_bhalf {T} (x : T) (r : belt T) : belt T := mkBelt (bt_name r) (bt_actuators r) (bt_joints r) (bt_last_ts r) (bt_dt r) (bt_red r) (bt_compl r) (bt_tau r) (bt_kd r) (bt_lmotor r) (bt_ljoint r) (bt_lcombo r) (bt_mpos r) (bt_mvel r) (bt_j1pos r) (bt_j1vel r) (bt_j1acc r) (bt_dpos r) (bt_dvel r) (bt_dacc r) (bt_jpos r) (bt_jvel r) (bt_dmvel r) (bt_damp r) (bt_bts r) x (bt_bforce r) (bt_bmpos r) (bt_bmvel r) (bt_bmacc r) (bt_bjpos r) (bt_bjvel r) (bt_ts_init r) (bt_start r) (bt_cal r).
Definition set_bt_bforce {T} (x : T) (r : belt T) : belt T := mkBelt (bt_name r) (bt_actuators r) (bt_joints r) (bt_last_ts r) (bt_dt r) (bt_red r) (bt_compl r) (bt_tau r) (bt_kd r) (bt_lmotor r) (bt_ljoint r) (bt_lcombo r) (bt_mpos r) (bt_mvel r) (bt_j1pos r) (bt_j1vel r) (bt_j1acc r) (bt_dpos r) (bt_dvel r) (bt_dacc r) (bt_jpos r) (bt_jvel r) (bt_dmvel r) (bt_damp r) (bt_bts r) (bt_bhalf r) x (bt_bmpos r) (bt_bmvel r) (bt_bmacc r) (bt_bjpos r) (bt_bjvel r) (bt_ts_init r) (bt_start r) (bt_cal r).
Definition set_bt_bmpos {T} (x : T) (r : belt T) : belt T := mkBelt (bt_name r) (bt_actuators r) (bt_joints r) (bt_last_ts r) (bt_dt r) (bt_red r) (bt_compl r) (bt_tau r) (bt_kd r) (bt_lmotor r) (bt_ljoint r) (bt_lcombo r) (bt_mpos r) (bt_mvel r) (bt_j1pos r) (bt_j1vel r) (bt_j1acc r) (bt_dpos r) (bt_dvel r) (bt_dacc r) (bt_jpos r) (bt_jvel r) (bt_dmvel r) (bt_damp r) (bt_bts r) (bt_bhalf r) (bt_bforce r) x (bt_bmvel r) (bt_bmacc r) (bt_bjpos r) (bt_bjvel r) (bt_ts_init r) (bt_start r) (bt_cal r).
Definition set_bt_bmvel {T} (x : T) (r : belt T) : belt T := mkBelt (bt_name r) (bt_actuators r) (bt_joints r) (bt_last_ts r) (bt_dt r) (bt_red r) (bt_compl r) (bt_tau r) (bt_kd r) (bt_lmotor r) (bt_ljoint r) (bt_lcombo r) (bt_mpos r) (bt_mvel r) (bt_j1pos r) (bt_j1vel r) (bt_j1acc r) (bt_dpos r) (bt_dvel r) (bt_dacc r) (bt_jpos r) (bt_jvel r) (bt_dmvel r) (bt_damp r) (bt_bts r) (bt_bhalf r) (bt_bforce r) (bt_bmpos r) x (bt_bmacc r) (bt_bjpos r) (bt_bjvel r) (bt_ts_init r) (bt_start r) (bt_cal r).
Definition set_bt_bmacc {T} (x : T) (r : belt T) : belt T := mkBelt (bt_name r) (bt_actuators r) (bt_joints r) (bt_last_ts r) (bt_dt r) (bt_red r) (bt_compl r) (bt_tau r) (bt_kd r) (bt_lmotor r) (bt_ljoint r) (bt_lcombo r) (bt_mpos r) (bt_mvel r) (bt_j1pos r) (bt_j1vel r) (bt_j1acc r) (bt_dpos r) (bt_dvel r) (bt_dacc r) (bt_jpos r) (bt_jvel r) (bt_dmvel r) (bt_damp r) (bt_bts r) (bt_bhalf r) (bt_bforce r) (bt_bmpos r) (bt_bmvel r) x (bt_bjpos r) (bt_bjvel r) (bt_ts_init r) (bt_start r) (bt_cal r).
Definition set_bt_bjpos {T} (x : T) (r : belt T) : belt T := mkBelt (bt_name r) (bt_actuators r) (bt_joints r) (bt_last_ts r) (bt_dt r) (bt_red r) (bt_compl r) (bt_tau r) (bt_kd r) (bt_lmotor r) (bt_ljoint r) (bt_lcombo r) (bt_mpos r) (bt_mvel r) (bt_j1pos r) (bt_j1vel r) (bt_j1acc r) (bt_dpos r) (bt_dvel r) (bt_dacc r) (bt_jpos r) (bt_jvel r) (bt_dmvel r) (bt_damp r) (bt_bts r) (bt_bhalf r) (bt_bforce r) (bt_bmpos r) (bt_bmvel r) (bt_bmacc r) x (bt_bjvel r) (bt_ts_init r) (bt_start r) (bt_cal r).
Definition set_bt_bjvel {T} (x : T) (r : belt T) : belt T := mkBelt (bt_name r) (bt_actuators r) (bt_joints r) (bt_last_ts r) (bt_dt r) (bt_red r) (bt_compl r) (bt_tau r) (bt_kd r) (bt_lmotor r) (bt_ljoint r) (bt_lcombo r) (bt_mpos r) (bt_mvel r) (bt_j1pos r) (bt_j1vel r) (bt_j1acc r) (bt_dpos r) (bt_dvel r) (bt_dacc r) (bt_jpos r) (bt_jvel r) (bt_dmvel r) (bt_damp r) (bt_bts r) (bt_bhalf r) (bt_bforce r) (bt_bmpos r) (bt_bmvel r) (bt_bmacc r) (bt_bjpos r) x (bt_ts_init r) (bt_start r) (bt_cal r).
Definition set_bt_ts_init {T} (x : bool) (r : belt T) : belt T := mkBelt (bt_name r) (bt_actuators r) (bt_joints r) (bt_last_ts r) (bt_dt r) (bt_red r) (bt_compl r) (bt_tau r) (bt_kd r) (bt_lmotor r) (bt_ljoint r) (bt_lcombo r) (bt_mpos r) (bt_mvel r) (bt_j1pos r) (bt_j1vel r) (bt_j1acc r) (bt_dpos r) (bt_dvel r) (bt_dacc r) (bt_jpos r) (bt_jvel r) (bt_dmvel r) (bt_damp r) (bt_bts r) (bt_bhalf r) (bt_bforce r) (bt_bmpos r) (bt_bmvel r) (bt_bmacc r) (bt_bjpos r) (bt_bjvel r) x (bt_start r) (bt_cal r).
Definition set_bt_start {T} (x : Z) (r : belt T) : belt T := mkBelt (bt_name r) (bt_actuators r) (bt_joints r) (bt_last_ts r) (bt_dt r) (bt_red r) (bt_compl r) (bt_tau r) (bt_kd r) (bt_lmotor r) (bt_ljoint r) (bt_lcombo r) (bt_mpos r) (bt_mvel r) (bt_j1pos r) (bt_j1vel r) (bt_j1acc r) (bt_dpos r) (bt_dvel r) (bt_dacc r) (bt_jpos r) (bt_jvel r) (bt_dmvel r) (bt_damp r) (bt_bts r) (bt_bhalf r) (bt_bforce r) (bt_bmpos r) (bt_bmvel r) (bt_bmacc r) (bt_bjpos r) (bt_bjvel r) (bt_ts_init r) x (bt_cal r).
Definition set_bt_cal {T} (x : calsim T) (r : belt T) : belt T := mkBelt (bt_name r) (bt_actuators r) (bt_joints r) (bt_last_ts r) (bt_dt r) (bt_red r) (bt_compl r) (bt_tau r) (bt_kd r) (bt_lmotor r) (bt_ljoint r) (bt_lcombo r) (bt_mpos r) (bt_mvel r) (bt_j1pos r) (bt_j1vel r) (bt_j1acc r) (bt_dpos r) (bt_dvel r) (bt_dacc r) (bt_jpos r) (bt_jvel r) (bt_dmvel r) (bt_damp r) (bt_bts r) (bt_bhalf r) (bt_bforce r) (bt_bmpos r) (bt_bmvel r) (bt_bmacc r) (bt_bjpos r) (bt_bjvel r) (bt_ts_init r) (bt_start r) x.

Section Belt.
Context {T : Type} {N : Num T} {G : Trig T}.
Variable dbg : bool.
Local Open Scope string_scope.
Local Open Scope num_scope.

Definition nquarter : T := nofZ 1 / nofZ 4.

(** pr2_belt_transmission.cpp:136-154 (= 234-252): the filters start at zero *)
Definition belt_reset (t : belt T) : belt T :=
  let z := nzero in
  mkBelt (bt_name t) (bt_actuators t) (bt_joints t) 0 (bt_dt t) (bt_red t) (bt_compl t) (bt_tau t) (bt_kd t)
    (bt_lmotor t) (bt_ljoint t) (bt_lcombo t) z z z z z z z z z z z z 0 z z z z z z z
    (bt_ts_init t) (bt_start t) (bt_cal t).

(** pr2_belt_transmission.cpp:80-154 (= 178-252): mechanicalReduction and compensator; None = return false *)
Definition belt_params (P : parsers T) (elt : xml) (t : belt T) : res (option (belt T)) :=
  do rel <- deref (FirstChildElement elt "mechanicalReduction");
  do rs <- deref (GetText rel);
  let t := set_bt_red (p_atof P rs) t in
  match FirstChildElement elt "compensator" with
  | None => Ok None
  | Some c =>
    match Attribute c "k_belt" with None => Ok None | Some kb =>
    match Attribute c "mass_motor" with None => Ok None | Some mm =>
      let t := set_bt_compl (if nzero <? p_atof P kb then nofZ 1 / p_atof P kb else nzero) t in
      let t := set_bt_tau (nsqrt (p_atof P mm * bt_compl t)) t in
    match Attribute c "kd_motor" with None => Ok None | Some kd =>
      let t := set_bt_kd (p_atof P kd) t in
    match Attribute c "lambda_motor" with None => Ok None | Some lm =>
      let t := set_bt_lmotor (p_atof P lm) t in
    match Attribute c "lambda_joint" with None => Ok None | Some lj =>
      let t := set_bt_ljoint (p_atof P lj) t in
    match Attribute c "lambda_combined" with None => Ok None | Some lc =>
      let t := set_bt_lcombo (p_atof P lc) t in
      Ok (Some (belt_reset t))
    end end end end end end
  end.

(** pr2_belt_transmission.cpp:44-157 initXml(elt, robot) on a freshly constructed transmission *)
Definition belt_initXml (P : parsers T) (R : rview T) (elt : xml) (h : nat -> actuator T) (t : belt T)
  : res (option (belt T) * (nat -> actuator T)) :=
  let t := set_bt_name (match Attribute elt "name" with Some n => n | None => "" end) t in
  match (match FirstChildElement elt "joint" with Some jel => Attribute jel "name" | None => None end) with
  | None => Ok (None, h)
  | Some jn =>
    match rv_joint R jn with
    | None => Ok (None, h)
    | Some _ =>
      let t := set_bt_joints (app (bt_joints t) [jn]) t in
      match (match FirstChildElement elt "actuator" with Some ael => Attribute ael "name" | None => None end) with
      | None => Ok (None, h)
      | Some an =>
        match rv_actuator R an with
        | None => Ok (None, h)
        | Some a =>
          let h := upd a (set_a_enable true) h in
          let t := set_bt_actuators (app (bt_actuators t) [an]) t in
          do r <- belt_params P elt t;
          Ok (r, h)
        end
      end
    end
  end.

(** pr2_belt_transmission.cpp:159-255 initXml(elt); pushing a NULL actuator name is undefined behaviour (line 175-176) *)
Definition belt_initXml1 (P : parsers T) (elt : xml) (t : belt T) : res (option (belt T)) :=
  let t := set_bt_name (match Attribute elt "name" with Some n => n | None => "" end) t in
  match (match FirstChildElement elt "joint" with Some jel => Attribute jel "name" | None => None end) with
  | None => Ok None
  | Some jn =>
    let t := set_bt_joints (app (bt_joints t) [jn]) t in
    do an <- deref (match FirstChildElement elt "actuator" with Some ael => Attribute ael "name" | None => None end);
    let t := set_bt_actuators (app (bt_actuators t) [an]) t in
    belt_params P elt t
  end.

Definition belt_sizes (as_ js : list nat) : res unit :=
  do _ <- cassert dbg (List.length as_ =? 1)%nat;
  cassert dbg (List.length js =? 1)%nat.

(** pr2_belt_transmission.cpp:291-300 "Method 1": one step of the joint filter; (pos, vel, acc) *)
Definition belt_jnt1 (dt lambda motor_pos lpos lvel lacc : T) : T * T * T :=
  let lam := if dt * lambda <? ntwo then lambda else ntwo / dt in
  let vel := lvel + nhalf * dt * lacc in
  let pos := lpos + nhalf * dt * (vel + lvel) in
  let acc := (lam * lam * (motor_pos - pos) - ntwo * lam * vel)
             / (nofZ 1 + nhalf * dt * ntwo * lam + nquarter * dt * dt * lam * lam) in
  let vel := lvel + nhalf * dt * (acc + lacc) in
  let pos := lpos + nhalf * dt * (vel + lvel) in
  (pos, vel, acc).

(** pr2_belt_transmission.cpp:315-335 "Method 2": one step of the deflection filter *)
Definition belt_defl (dt tau0 compl force lpos lvel lacc : T) : T * T * T :=
  if tau0 =? nzero then (compl * force, nzero, nzero)
  else
    let tau := if dt <? ntwo * tau0 then tau0 else dt / ntwo in
    let vel := lvel + nhalf * dt * lacc in
    let pos := lpos + nhalf * dt * (vel + lvel) in
    let acc := (compl * force - pos - ntwo * tau * vel)
               / (tau * tau + ntwo * tau * nhalf * dt + nquarter * dt * dt) in
    let vel := lvel + nhalf * dt * (acc + lacc) in
    let pos := lpos + nhalf * dt * (vel + lvel) in
    (pos, vel, acc).

(** pr2_belt_transmission.cpp:345-359: the combined estimate (pos, vel) *)
Definition belt_combine (dt lambda j1pos j1vel j2pos lpos lvel : T) : T * T :=
  if lambda =? nzero then (j1pos, j1vel)
  else
    let lam := if dt * lambda <? ntwo then lambda else ntwo / dt in
    let pos := lpos + nhalf * dt * lvel in
    let vel := (j1vel + lam * (j2pos - pos)) / (nofZ 1 + nhalf * dt * lam) in
    let pos := lpos + nhalf * dt * (vel + lvel) in
    (pos, vel).

(** pr2_belt_transmission.cpp:257-386 *)
Definition belt_propagatePosition (t : belt T) (as_ js : list nat) (m : mem T) : res (belt T * mem T) :=
  do _ <- belt_sizes as_ js;
  do a0 <- vget as_ 0;
  do j0 <- vget js 0;
  let A := m_act m a0 in
  let timestamp := a_sample_timestamp A in
  let dt := ntosec (timestamp - bt_last_ts t) in
  let motor_pos := a_position A / bt_red t in
  let motor_vel := if nzero <? dt then (motor_pos - bt_mpos t) / dt else nzero in
  let force := a_last_measured_effort A * bt_red t in
  let '(j1pos, j1vel, j1acc) := belt_jnt1 dt (bt_ljoint t) motor_pos (bt_j1pos t) (bt_j1vel t) (bt_j1acc t) in
  let '(dpos, dvel, dacc) := belt_defl dt (bt_tau t) (bt_compl t) force (bt_dpos t) (bt_dvel t) (bt_dacc t) in
  let j2pos := motor_pos - dpos in
  let '(jpos, jvel) := belt_combine dt (bt_lcombo t) j1pos j1vel j2pos (bt_jpos t) (bt_jvel t) in
  let m := js_upd j0 (fun j => set_position (jpos + reference_position j) j) m in
  let m := js_upd j0 (set_velocity jvel) m in
  let m := js_upd j0 (set_measured_effort (a_last_measured_effort A * bt_red t)) m in
  let t := set_bt_dt dt (set_bt_last_ts timestamp t) in
  let t := set_bt_dmvel (motor_vel - bt_mvel t) t in
  let t := set_bt_mvel motor_vel (set_bt_mpos motor_pos t) in
  let t := set_bt_j1acc j1acc (set_bt_j1vel j1vel (set_bt_j1pos j1pos t)) in
  let t := set_bt_dacc dacc (set_bt_dvel dvel (set_bt_dpos dpos t)) in
  Ok (set_bt_jvel jvel (set_bt_jpos jpos t), m).

(** pr2_belt_transmission.cpp:395-412: the damping force *)
Definition belt_damping (t : belt T) : T :=
  if bt_lmotor t =? nzero then - bt_kd t * bt_mvel t
  else
    let lam := if bt_dt t * bt_lmotor t <? ntwo then bt_lmotor t else ntwo / bt_dt t in
    ((nofZ 1 - nhalf * bt_dt t * lam) * bt_damp t - bt_kd t * bt_dmvel t) / (nofZ 1 + nhalf * bt_dt t * lam).

(** pr2_belt_transmission.cpp:388-421; unlike the other transmissions it does not set command_.enable_ *)
Definition belt_propagateEffort (t : belt T) (js as_ : list nat) (m : mem T) : res (belt T * mem T) :=
  do _ <- belt_sizes as_ js;
  do a0 <- vget as_ 0;
  do j0 <- vget js 0;
  let damp := belt_damping t in
  let force := commanded_effort (m_js m j0) + damp in
  let m := act_upd a0 (set_a_effort (force / bt_red t)) m in
  Ok (set_bt_damp damp t, m).

Definition belt_rigid (t : belt T) : bool := (bt_compl t =? nzero) || (bt_tau t =? nzero).

(** pr2_belt_transmission.cpp:436-528 *)
Definition belt_propagateEffortBackwards (t : belt T) (as_ js : list nat) (m : mem T) : res (belt T * mem T) :=
  do _ <- belt_sizes as_ js;
  do a0 <- vget as_ 0;
  do j0 <- vget js 0;
  let A := m_act m a0 in
  let timestamp := a_sample_timestamp A in
  let halfdt := nhalf * ntosec (timestamp - bt_bts t) in
  let motor_force := a_effort A * bt_red t in
  let spring :=
    if belt_rigid t then motor_force
    else
      let tau := if halfdt <? bt_tau t then bt_tau t else halfdt in
      let mvel := bt_bmvel t + halfdt * (bt_bmacc t + nzero) in
      let mpos := bt_bmpos t + halfdt * (bt_bmvel t + mvel) in
      let jvel := bt_bjvel t in
      let jpos := bt_bjpos t + halfdt * (bt_bjvel t + jvel) in
      let spring := (ntwo * tau * (mvel - jvel) + (mpos - jpos)) / bt_compl t in
      let macc := (motor_force - spring) * bt_compl t / (tau * tau + ntwo * tau * halfdt + halfdt * halfdt) in
      let mvel := bt_bmvel t + halfdt * (bt_bmacc t + macc) in
      let mpos := bt_bmpos t + halfdt * (bt_bmvel t + mvel) in
      (ntwo * tau * (mvel - jvel) + (mpos - jpos)) / bt_compl t in
  let m := js_upd j0 (set_commanded_effort spring) m in
  Ok (set_bt_bforce motor_force (set_bt_bhalf halfdt (set_bt_bts timestamp t)), m).

(** pr2_belt_transmission.cpp:531-635 *)
Definition belt_propagatePositionBackwards (e : env) (t : belt T) (js as_ : list nat) (m : mem T)
  : res (belt T * mem T) :=
  do _ <- belt_sizes as_ js;
  do a0 <- vget as_ 0;
  do j0 <- vget js 0;
  let J := m_js m j0 in
  let halfdt := bt_bhalf t in
  let motor_force := bt_bforce t in
  let jpos := position J - reference_position J in
  let jvel := velocity J in
  let '(mpos, mvel, macc) :=
    if belt_rigid t then (jpos, jvel, nzero)
    else
      let tau := if halfdt <? bt_tau t then bt_tau t else halfdt in
      let mvel := bt_bmvel t + halfdt * (bt_bmacc t + nzero) in
      let mpos := bt_bmpos t + halfdt * (bt_bmvel t + mvel) in
      let spring := (ntwo * tau * (mvel - jvel) + (mpos - jpos)) / bt_compl t in
      let macc := (motor_force - spring) * bt_compl t / (tau * tau + ntwo * tau * halfdt + halfdt * halfdt) in
      let mvel := bt_bmvel t + halfdt * (bt_bmacc t + macc) in
      let mpos := bt_bmpos t + halfdt * (bt_bmvel t + mvel) in
      (mpos, mvel, macc) in
  let t := set_bt_bmacc macc (set_bt_bmvel mvel (set_bt_bmpos mpos t)) in
  let t := set_bt_bjvel jvel (set_bt_bjpos jpos t) in
  let m := act_upd a0 (set_a_position (mpos * bt_red t)) m in
  let m := act_upd a0 (set_a_velocity (mvel * bt_red t)) m in
  let m := act_upd a0 (set_a_last_measured_effort (motor_force / bt_red t)) m in
  let '(ini, start, stamp) := sim_clock e (bt_ts_init t) (bt_start t) in
  let t := set_bt_start start (set_bt_ts_init ini t) in
  let m := act_upd a0 (set_stamp stamp) m in
  do (c, m) <- simcal_mem dbg (bt_cal t) j0 a0 m;
  Ok (set_bt_cal c t, m).
End Belt.
