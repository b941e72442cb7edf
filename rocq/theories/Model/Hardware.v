(** pr2_hardware_interface: hardware_interface.h (actuators and the component registry). *)
From Coq Require Import List String Arith Bool ZArith.
From Verif.Model Require Import Base Num.
Import ListNotations.

(** hardware_interface.h:49-155 classes ActuatorState, ActuatorCommand, Actuator flattened into one record (the name is kept by the registry). *)
Record actuator (T : Type) := mkActuator {
  a_sample_timestamp : Z;  (** sample_timestamp_, nanoseconds *)
  a_timestamp : T;  (** timestamp_ *)
  a_device_id : Z;
  a_encoder_count : Z;
  a_position : T;  (** state_.position_ *)
  a_encoder_velocity : T;
  a_velocity : T;  (** state_.velocity_ *)
  a_calibration_reading : bool;
  a_rising_valid : bool;  (** calibration_rising_edge_valid_ *)
  a_falling_valid : bool;  (** calibration_falling_edge_valid_ *)
  a_last_rising : T;  (** last_calibration_rising_edge_ *)
  a_last_falling : T;  (** last_calibration_falling_edge_ *)
  a_is_enabled : bool;
  a_halted : bool;  (** state_.halted_ *)
  a_last_commanded_current : T;
  a_last_executed_current : T;
  a_last_measured_current : T;
  a_last_commanded_effort : T;
  a_last_executed_effort : T;
  a_last_measured_effort : T;  (** state_.last_measured_effort_ *)
  a_max_effort : T;  (** not initialised by the constructor *)
  a_motor_voltage : T;
  a_num_encoder_errors : Z;
  a_zero_offset : T;
  a_enable : bool;  (** command_.enable_ *)
  a_effort : T }.  (** command_.effort_ *)
Arguments a_sample_timestamp {T} _.
Arguments a_timestamp {T} _.
Arguments a_device_id {T} _.
Arguments a_encoder_count {T} _.
Arguments a_position {T} _.
Arguments a_encoder_velocity {T} _.
Arguments a_velocity {T} _.
Arguments a_calibration_reading {T} _.
Arguments a_rising_valid {T} _.
Arguments a_falling_valid {T} _.
Arguments a_last_rising {T} _.
Arguments a_last_falling {T} _.
Arguments a_is_enabled {T} _.
Arguments a_halted {T} _.
Arguments a_last_commanded_current {T} _.
Arguments a_last_executed_current {T} _.
Arguments a_last_measured_current {T} _.
Arguments a_last_commanded_effort {T} _.
Arguments a_last_executed_effort {T} _.
Arguments a_last_measured_effort {T} _.
Arguments a_max_effort {T} _.
Arguments a_motor_voltage {T} _.
Arguments a_num_encoder_errors {T} _.
Arguments a_zero_offset {T} _.
Arguments a_enable {T} _.
Arguments a_effort {T} _.
Arguments mkActuator {T}.
Definition set_a_sample_timestamp {T} (x : Z) (r : actuator T) : actuator T := mkActuator x (a_timestamp r) (a_device_id r) (a_encoder_count r) (a_position r) (a_encoder_velocity r) (a_velocity r) (a_calibration_reading r) (a_rising_valid r) (a_falling_valid r) (a_last_rising r) (a_last_falling r) (a_is_enabled r) (a_halted r) (a_last_commanded_current r) (a_last_executed_current r) (a_last_measured_current r) (a_last_commanded_effort r) (a_last_executed_effort r) (a_last_measured_effort r) (a_max_effort r) (a_motor_voltage r) (a_num_encoder_errors r) (a_zero_offset r) (a_enable r) (a_effort r).
Definition set_a_timestamp {T} (x : T) (r : actuator T) : actuator T := mkActuator (a_sample_timestamp r) x (a_device_id r) (a_encoder_count r) (a_position r) (a_encoder_velocity r) (a_velocity r) (a_calibration_reading r) (a_rising_valid r) (a_falling_valid r) (a_last_rising r) (a_last_falling r) (a_is_enabled r) (a_halted r) (a_last_commanded_current r) (a_last_executed_current r) (a_last_measured_current r) (a_last_commanded_effort r) (a_last_executed_effort r) (a_last_measured_effort r) (a_max_effort r) (a_motor_voltage r) (a_num_encoder_errors r) (a_zero_offset r) (a_enable r) (a_effort r).
Definition set_a_device_id {T} (x : Z) (r : actuator T) : actuator T := mkActuator (a_sample_timestamp r) (a_timestamp r) x (a_encoder_count r) (a_position r) (a_encoder_velocity r) (a_velocity r) (a_calibration_reading r) (a_rising_valid r) (a_falling_valid r) (a_last_rising r) (a_last_falling r) (a_is_enabled r) (a_halted r) (a_last_commanded_current r) (a_last_executed_current r) (a_last_measured_current r) (a_last_commanded_effort r) (a_last_executed_effort r) (a_last_measured_effort r) (a_max_effort r) (a_motor_voltage r) (a_num_encoder_errors r) (a_zero_offset r) (a_enable r) (a_effort r).
Definition set_a_encoder_count {T} (x : Z) (r : actuator T) : actuator T := mkActuator (a_sample_timestamp r) (a_timestamp r) (a_device_id r) x (a_position r) (a_encoder_velocity r) (a_velocity r) (a_calibration_reading r) (a_rising_valid r) (a_falling_valid r) (a_last_rising r) (a_last_falling r) (a_is_enabled r) (a_halted r) (a_last_commanded_current r) (a_last_executed_current r) (a_last_measured_current r) (a_last_commanded_effort r) (a_last_executed_effort r) (a_last_measured_effort r) (a_max_effort r) (a_motor_voltage r) (a_num_encoder_errors r) (a_zero_offset r) (a_enable r) (a_effort r).
Definition set_a_position {T} (x : T) (r : actuator T) : actuator T := mkActuator (a_sample_timestamp r) (a_timestamp r) (a_device_id r) (a_encoder_count r) x (a_encoder_velocity r) (a_velocity r) (a_calibration_reading r) (a_rising_valid r) (a_falling_valid r) (a_last_rising r) (a_last_falling r) (a_is_enabled r) (a_halted r) (a_last_commanded_current r) (a_last_executed_current r) (a_last_measured_current r) (a_last_commanded_effort r) (a_last_executed_effort r) (a_last_measured_effort r) (a_max_effort r) (a_motor_voltage r) (a_num_encoder_errors r) (a_zero_offset r) (a_enable r) (a_effort r).
Definition set_a_encoder_velocity {T} (x : T) (r : actuator T) : actuator T := mkActuator (a_sample_timestamp r) (a_timestamp r) (a_device_id r) (a_encoder_count r) (a_position r) x (a_velocity r) (a_calibration_reading r) (a_rising_valid r) (a_falling_valid r) (a_last_rising r) (a_last_falling r) (a_is_enabled r) (a_halted r) (a_last_commanded_current r) (a_last_executed_current r) (a_last_measured_current r) (a_last_commanded_effort r) (a_last_executed_effort r) (a_last_measured_effort r) (a_max_effort r) (a_motor_voltage r) (a_num_encoder_errors r) (a_zero_offset r) (a_enable r) (a_effort r).
Definition set_a_velocity {T} (x : T) (r : actuator T) : actuator T := mkActuator (a_sample_timestamp r) (a_timestamp r) (a_device_id r) (a_encoder_count r) (a_position r) (a_encoder_velocity r) x (a_calibration_reading r) (a_rising_valid r) (a_falling_valid r) (a_last_rising r) (a_last_falling r) (a_is_enabled r) (a_halted r) (a_last_commanded_current r) (a_last_executed_current r) (a_last_measured_current r) (a_last_commanded_effort r) (a_last_executed_effort r) (a_last_measured_effort r) (a_max_effort r) (a_motor_voltage r) (a_num_encoder_errors r) (a_zero_offset r) (a_enable r) (a_effort r).
Definition set_a_calibration_reading {T} (x : bool) (r : actuator T) : actuator T := mkActuator (a_sample_timestamp r) (a_timestamp r) (a_device_id r) (a_encoder_count r) (a_position r) (a_encoder_velocity r) (a_velocity r) x (a_rising_valid r) (a_falling_valid r) (a_last_rising r) (a_last_falling r) (a_is_enabled r) (a_halted r) (a_last_commanded_current r) (a_last_executed_current r) (a_last_measured_current r) (a_last_commanded_effort r) (a_last_executed_effort r) (a_last_measured_effort r) (a_max_effort r) (a_motor_voltage r) (a_num_encoder_errors r) (a_zero_offset r) (a_enable r) (a_effort r).
Definition set_a_rising_valid {T} (x : bool) (r : actuator T) : actuator T := mkActuator (a_sample_timestamp r) (a_timestamp r) (a_device_id r) (a_encoder_count r) (a_position r) (a_encoder_velocity r) (a_velocity r) (a_calibration_reading r) x (a_falling_valid r) (a_last_rising r) (a_last_falling r) (a_is_enabled r) (a_halted r) (a_last_commanded_current r) (a_last_executed_current r) (a_last_measured_current r) (a_last_commanded_effort r) (a_last_executed_effort r) (a_last_measured_effort r) (a_max_effort r) (a_motor_voltage r) (a_num_encoder_errors r) (a_zero_offset r) (a_enable r) (a_effort r).
Definition set_a_falling_valid {T} (x : bool) (r : actuator T) : actuator T := mkActuator (a_sample_timestamp r) (a_timestamp r) (a_device_id r) (a_encoder_count r) (a_position r) (a_encoder_velocity r) (a_velocity r) (a_calibration_reading r) (a_rising_valid r) x (a_last_rising r) (a_last_falling r) (a_is_enabled r) (a_halted r) (a_last_commanded_current r) (a_last_executed_current r) (a_last_measured_current r) (a_last_commanded_effort r) (a_last_executed_effort r) (a_last_measured_effort r) (a_max_effort r) (a_motor_voltage r) (a_num_encoder_errors r) (a_zero_offset r) (a_enable r) (a_effort r).
Definition set_a_last_rising {T} (x : T) (r : actuator T) : actuator T := mkActuator (a_sample_timestamp r) (a_timestamp r) (a_device_id r) (a_encoder_count r) (a_position r) (a_encoder_velocity r) (a_velocity r) (a_calibration_reading r) (a_rising_valid r) (a_falling_valid r) x (a_last_falling r) (a_is_enabled r) (a_halted r) (a_last_commanded_current r) (a_last_executed_current r) (a_last_measured_current r) (a_last_commanded_effort r) (a_last_executed_effort r) (a_last_measured_effort r) (a_max_effort r) (a_motor_voltage r) (a_num_encoder_errors r) (a_zero_offset r) (a_enable r) (a_effort r).
Definition set_a_last_falling {T} (x : T) (r : actuator T) : actuator T := mkActuator (a_sample_timestamp r) (a_timestamp r) (a_device_id r) (a_encoder_count r) (a_position r) (a_encoder_velocity r) (a_velocity r) (a_calibration_reading r) (a_rising_valid r) (a_falling_valid r) (a_last_rising r) x (a_is_enabled r) (a_halted r) (a_last_commanded_current r) (a_last_executed_current r) (a_last_measured_current r) (a_last_commanded_effort r) (a_last_executed_effort r) (a_last_measured_effort r) (a_max_effort r) (a_motor_voltage r) (a_num_encoder_errors r) (a_zero_offset r) (a_enable r) (a_effort r).
Definition set_a_is_enabled {T} (x : bool) (r : actuator T) : actuator T := mkActuator (a_sample_timestamp r) (a_timestamp r) (a_device_id r) (a_encoder_count r) (a_position r) (a_encoder_velocity r) (a_velocity r) (a_calibration_reading r) (a_rising_valid r) (a_falling_valid r) (a_last_rising r) (a_last_falling r) x (a_halted r) (a_last_commanded_current r) (a_last_executed_current r) (a_last_measured_current r) (a_last_commanded_effort r) (a_last_executed_effort r) (a_last_measured_effort r) (a_max_effort r) (a_motor_voltage r) (a_num_encoder_errors r) (a_zero_offset r) (a_enable r) (a_effort r).
Definition set_a_halted {T} (x : bool) (r : actuator T) : actuator T := mkActuator (a_sample_timestamp r) (a_timestamp r) (a_device_id r) (a_encoder_count r) (a_position r) (a_encoder_velocity r) (a_velocity r) (a_calibration_reading r) (a_rising_valid r) (a_falling_valid r) (a_last_rising r) (a_last_falling r) (a_is_enabled r) x (a_last_commanded_current r) (a_last_executed_current r) (a_last_measured_current r) (a_last_commanded_effort r) (a_last_executed_effort r) (a_last_measured_effort r) (a_max_effort r) (a_motor_voltage r) (a_num_encoder_errors r) (a_zero_offset r) (a_enable r) (a_effort r).
Definition set_a_last_commanded_current {T} (x : T) (r : actuator T) : actuator T := mkActuator (a_sample_timestamp r) (a_timestamp r) (a_device_id r) (a_encoder_count r) (a_position r) (a_encoder_velocity r) (a_velocity r) (a_calibration_reading r) (a_rising_valid r) (a_falling_valid r) (a_last_rising r) (a_last_falling r) (a_is_enabled r) (a_halted r) x (a_last_executed_current r) (a_last_measured_current r) (a_last_commanded_effort r) (a_last_executed_effort r) (a_last_measured_effort r) (a_max_effort r) (a_motor_voltage r) (a_num_encoder_errors r) (a_zero_offset r) (a_enable r) (a_effort r).
Definition set_a_last_executed_current {T} (x : T) (r : actuator T) : actuator T := mkActuator (a_sample_timestamp r) (a_timestamp r) (a_device_id r) (a_encoder_count r) (a_position r) (a_encoder_velocity r) (a_velocity r) (a_calibration_reading r) (a_rising_valid r) (a_falling_valid r) (a_last_rising r) (a_last_falling r) (a_is_enabled r) (a_halted r) (a_last_commanded_current r) x (a_last_measured_current r) (a_last_commanded_effort r) (a_last_executed_effort r) (a_last_measured_effort r) (a_max_effort r) (a_motor_voltage r) (a_num_encoder_errors r) (a_zero_offset r) (a_enable r) (a_effort r).
Definition set_a_last_measured_current {T} (x : T) (r : actuator T) : actuator T := mkActuator (a_sample_timestamp r) (a_timestamp r) (a_device_id r) (a_encoder_count r) (a_position r) (a_encoder_velocity r) (a_velocity r) (a_calibration_reading r) (a_rising_valid r) (a_falling_valid r) (a_last_rising r) (a_last_falling r) (a_is_enabled r) (a_halted r) (a_last_commanded_current r) (a_last_executed_current r) x (a_last_commanded_effort r) (a_last_executed_effort r) (a_last_measured_effort r) (a_max_effort r) (a_motor_voltage r) (a_num_encoder_errors r) (a_zero_offset r) (a_enable r) (a_effort r).
Definition set_a_last_commanded_effort {T} (x : T) (r : actuator T) : actuator T := mkActuator (a_sample_timestamp r) (a_timestamp r) (a_device_id r) (a_encoder_count r) (a_position r) (a_encoder_velocity r) (a_velocity r) (a_calibration_reading r) (a_rising_valid r) (a_falling_valid r) (a_last_rising r) (a_last_falling r) (a_is_enabled r) (a_halted r) (a_last_commanded_current r) (a_last_executed_current r) (a_last_measured_current r) x (a_last_executed_effort r) (a_last_measured_effort r) (a_max_effort r) (a_motor_voltage r) (a_num_encoder_errors r) (a_zero_offset r) (a_enable r) (a_effort r).
Definition set_a_last_executed_effort {T} (x : T) (r : actuator T) : actuator T := mkActuator (a_sample_timestamp r) (a_timestamp r) (a_device_id r) (a_encoder_count r) (a_position r) (a_encoder_velocity r) (a_velocity r) (a_calibration_reading r) (a_rising_valid r) (a_falling_valid r) (a_last_rising r) (a_last_falling r) (a_is_enabled r) (a_halted r) (a_last_commanded_current r) (a_last_executed_current r) (a_last_measured_current r) (a_last_commanded_effort r) x (a_last_measured_effort r) (a_max_effort r) (a_motor_voltage r) (a_num_encoder_errors r) (a_zero_offset r) (a_enable r) (a_effort r).
Definition set_a_last_measured_effort {T} (x : T) (r : actuator T) : actuator T := mkActuator (a_sample_timestamp r) (a_timestamp r) (a_device_id r) (a_encoder_count r) (a_position r) (a_encoder_velocity r) (a_velocity r) (a_calibration_reading r) (a_rising_valid r) (a_falling_valid r) (a_last_rising r) (a_last_falling r) (a_is_enabled r) (a_halted r) (a_last_commanded_current r) (a_last_executed_current r) (a_last_measured_current r) (a_last_commanded_effort r) (a_last_executed_effort r) x (a_max_effort r) (a_motor_voltage r) (a_num_encoder_errors r) (a_zero_offset r) (a_enable r) (a_effort r).
Definition set_a_max_effort {T} (x : T) (r : actuator T) : actuator T := mkActuator (a_sample_timestamp r) (a_timestamp r) (a_device_id r) (a_encoder_count r) (a_position r) (a_encoder_velocity r) (a_velocity r) (a_calibration_reading r) (a_rising_valid r) (a_falling_valid r) (a_last_rising r) (a_last_falling r) (a_is_enabled r) (a_halted r) (a_last_commanded_current r) (a_last_executed_current r) (a_last_measured_current r) (a_last_commanded_effort r) (a_last_executed_effort r) (a_last_measured_effort r) x (a_motor_voltage r) (a_num_encoder_errors r) (a_zero_offset r) (a_enable r) (a_effort r).
Definition set_a_motor_voltage {T} (x : T) (r : actuator T) : actuator T := mkActuator (a_sample_timestamp r) (a_timestamp r) (a_device_id r) (a_encoder_count r) (a_position r) (a_encoder_velocity r) (a_velocity r) (a_calibration_reading r) (a_rising_valid r) (a_falling_valid r) (a_last_rising r) (a_last_falling r) (a_is_enabled r) (a_halted r) (a_last_commanded_current r) (a_last_executed_current r) (a_last_measured_current r) (a_last_commanded_effort r) (a_last_executed_effort r) (a_last_measured_effort r) (a_max_effort r) x (a_num_encoder_errors r) (a_zero_offset r) (a_enable r) (a_effort r).
Definition set_a_num_encoder_errors {T} (x : Z) (r : actuator T) : actuator T := mkActuator (a_sample_timestamp r) (a_timestamp r) (a_device_id r) (a_encoder_count r) (a_position r) (a_encoder_velocity r) (a_velocity r) (a_calibration_reading r) (a_rising_valid r) (a_falling_valid r) (a_last_rising r) (a_last_falling r) (a_is_enabled r) (a_halted r) (a_last_commanded_current r) (a_last_executed_current r) (a_last_measured_current r) (a_last_commanded_effort r) (a_last_executed_effort r) (a_last_measured_effort r) (a_max_effort r) (a_motor_voltage r) x (a_zero_offset r) (a_enable r) (a_effort r).
Definition set_a_zero_offset {T} (x : T) (r : actuator T) : actuator T := mkActuator (a_sample_timestamp r) (a_timestamp r) (a_device_id r) (a_encoder_count r) (a_position r) (a_encoder_velocity r) (a_velocity r) (a_calibration_reading r) (a_rising_valid r) (a_falling_valid r) (a_last_rising r) (a_last_falling r) (a_is_enabled r) (a_halted r) (a_last_commanded_current r) (a_last_executed_current r) (a_last_measured_current r) (a_last_commanded_effort r) (a_last_executed_effort r) (a_last_measured_effort r) (a_max_effort r) (a_motor_voltage r) (a_num_encoder_errors r) x (a_enable r) (a_effort r).
Definition set_a_enable {T} (x : bool) (r : actuator T) : actuator T := mkActuator (a_sample_timestamp r) (a_timestamp r) (a_device_id r) (a_encoder_count r) (a_position r) (a_encoder_velocity r) (a_velocity r) (a_calibration_reading r) (a_rising_valid r) (a_falling_valid r) (a_last_rising r) (a_last_falling r) (a_is_enabled r) (a_halted r) (a_last_commanded_current r) (a_last_executed_current r) (a_last_measured_current r) (a_last_commanded_effort r) (a_last_executed_effort r) (a_last_measured_effort r) (a_max_effort r) (a_motor_voltage r) (a_num_encoder_errors r) (a_zero_offset r) x (a_effort r).
Definition set_a_effort {T} (x : T) (r : actuator T) : actuator T := mkActuator (a_sample_timestamp r) (a_timestamp r) (a_device_id r) (a_encoder_count r) (a_position r) (a_encoder_velocity r) (a_velocity r) (a_calibration_reading r) (a_rising_valid r) (a_falling_valid r) (a_last_rising r) (a_last_falling r) (a_is_enabled r) (a_halted r) (a_last_commanded_current r) (a_last_executed_current r) (a_last_measured_current r) (a_last_commanded_effort r) (a_last_executed_effort r) (a_last_measured_effort r) (a_max_effort r) (a_motor_voltage r) (a_num_encoder_errors r) (a_zero_offset r) (a_enable r) x.

Section Hw.
Context {T : Type} {N : Num T}.

(** hardware_interface.h:51-74,128-130,150-151: constructors; [garbage] is the indeterminate max_effort_. *)
Definition new_actuator (garbage : T) : actuator T :=
  mkActuator 0 nzero 0 0 nzero nzero nzero false false false nzero nzero false false
    nzero nzero nzero nzero nzero nzero garbage nzero 0 nzero false nzero.
End Hw.

(** ** The registry *)

(** hardware_interface.h:374-381: [std::map<std::string, X*>]; pointers are numbers, the list is sorted by key and
    has no duplicate keys. *)
Definition cmap := list (string * nat).

(** [map::find] followed by [it != end() ? it->second : NULL] *)
Fixpoint map_get (m : cmap) (name : string) : option nat :=
  match m with
  | [] => None
  | (k, p) :: m' => if String.eqb k name then Some p else map_get m' name
  end.

(** [map::insert]: does nothing and returns false if the key is present *)
Fixpoint map_insert (name : string) (p : nat) (m : cmap) : cmap * bool :=
  match m with
  | [] => ([(name, p)], true)
  | (k, q) :: m' =>
    match String.compare name k with
    | Eq => (m, false)
    | Lt => ((name, p) :: m, true)
    | Gt => let '(r, b) := map_insert name p m' in ((k, q) :: r, b)
    end
  end.

(** hardware_interface.h:408-418,587 class HardwareInterface. *)
Record hwif := mkHwif {
  actuators : cmap;
  pressure_sensors : cmap;
  accelerometers : cmap;
  ft_sensors : cmap;
  digital_outs : cmap;
  projectors : cmap;
  analog_ins : cmap;
  custom_hws : cmap;
  current_time : Z }.  (** current_time_ *)
Definition set_actuators (x : cmap) (r : hwif) : hwif := mkHwif x (pressure_sensors r) (accelerometers r) (ft_sensors r) (digital_outs r) (projectors r) (analog_ins r) (custom_hws r) (current_time r).
Definition set_pressure_sensors (x : cmap) (r : hwif) : hwif := mkHwif (actuators r) x (accelerometers r) (ft_sensors r) (digital_outs r) (projectors r) (analog_ins r) (custom_hws r) (current_time r).
Definition set_accelerometers (x : cmap) (r : hwif) : hwif := mkHwif (actuators r) (pressure_sensors r) x (ft_sensors r) (digital_outs r) (projectors r) (analog_ins r) (custom_hws r) (current_time r).
Definition set_ft_sensors (x : cmap) (r : hwif) : hwif := mkHwif (actuators r) (pressure_sensors r) (accelerometers r) x (digital_outs r) (projectors r) (analog_ins r) (custom_hws r) (current_time r).
Definition set_digital_outs (x : cmap) (r : hwif) : hwif := mkHwif (actuators r) (pressure_sensors r) (accelerometers r) (ft_sensors r) x (projectors r) (analog_ins r) (custom_hws r) (current_time r).
Definition set_projectors (x : cmap) (r : hwif) : hwif := mkHwif (actuators r) (pressure_sensors r) (accelerometers r) (ft_sensors r) (digital_outs r) x (analog_ins r) (custom_hws r) (current_time r).
Definition set_analog_ins (x : cmap) (r : hwif) : hwif := mkHwif (actuators r) (pressure_sensors r) (accelerometers r) (ft_sensors r) (digital_outs r) (projectors r) x (custom_hws r) (current_time r).
Definition set_custom_hws (x : cmap) (r : hwif) : hwif := mkHwif (actuators r) (pressure_sensors r) (accelerometers r) (ft_sensors r) (digital_outs r) (projectors r) (analog_ins r) x (current_time r).
Definition set_current_time (x : Z) (r : hwif) : hwif := mkHwif (actuators r) (pressure_sensors r) (accelerometers r) (ft_sensors r) (digital_outs r) (projectors r) (analog_ins r) (custom_hws r) x.

(** The default constructor: empty maps. *)
Definition new_hwif : hwif := mkHwif [] [] [] [] [] [] [] [] 0.

(** hardware_interface.h:424-427 getActuator *)
Definition getActuator (h : hwif) (name : string) : option nat := map_get (actuators h) name.
(** hardware_interface.h:504-508 addActuator; [name] is the component's name_ when it is added *)
Definition addActuator (name : string) (p : nat) (h : hwif) : hwif * bool :=
  let '(m, b) := map_insert name p (actuators h) in (set_actuators m h, b).
(** hardware_interface.h:434-437 getPressureSensor *)
Definition getPressureSensor (h : hwif) (name : string) : option nat := map_get (pressure_sensors h) name.
(** hardware_interface.h:515-519 addPressureSensor; [name] is the component's name_ when it is added *)
Definition addPressureSensor (name : string) (p : nat) (h : hwif) : hwif * bool :=
  let '(m, b) := map_insert name p (pressure_sensors h) in (set_pressure_sensors m h, b).
(** hardware_interface.h:444-447 getAccelerometer *)
Definition getAccelerometer (h : hwif) (name : string) : option nat := map_get (accelerometers h) name.
(** hardware_interface.h:526-530 addAccelerometer; [name] is the component's name_ when it is added *)
Definition addAccelerometer (name : string) (p : nat) (h : hwif) : hwif * bool :=
  let '(m, b) := map_insert name p (accelerometers h) in (set_accelerometers m h, b).
(** hardware_interface.h:454-457 getForceTorque *)
Definition getForceTorque (h : hwif) (name : string) : option nat := map_get (ft_sensors h) name.
(** hardware_interface.h:537-541 addForceTorque; [name] is the component's name_ when it is added *)
Definition addForceTorque (name : string) (p : nat) (h : hwif) : hwif * bool :=
  let '(m, b) := map_insert name p (ft_sensors h) in (set_ft_sensors m h, b).
(** hardware_interface.h:464-467 getDigitalOut *)
Definition getDigitalOut (h : hwif) (name : string) : option nat := map_get (digital_outs h) name.
(** hardware_interface.h:548-552 addDigitalOut; [name] is the component's name_ when it is added *)
Definition addDigitalOut (name : string) (p : nat) (h : hwif) : hwif * bool :=
  let '(m, b) := map_insert name p (digital_outs h) in (set_digital_outs m h, b).
(** hardware_interface.h:474-477 getProjector *)
Definition getProjector (h : hwif) (name : string) : option nat := map_get (projectors h) name.
(** hardware_interface.h:559-563 addProjector; [name] is the component's name_ when it is added *)
Definition addProjector (name : string) (p : nat) (h : hwif) : hwif * bool :=
  let '(m, b) := map_insert name p (projectors h) in (set_projectors m h, b).
(** hardware_interface.h:484-487 getAnalogIn *)
Definition getAnalogIn (h : hwif) (name : string) : option nat := map_get (analog_ins h) name.
(** hardware_interface.h:570-574 addAnalogIn; [name] is the component's name_ when it is added *)
Definition addAnalogIn (name : string) (p : nat) (h : hwif) : hwif * bool :=
  let '(m, b) := map_insert name p (analog_ins h) in (set_analog_ins m h, b).
(** hardware_interface.h:494-497 getCustomHW *)
Definition getCustomHW (h : hwif) (name : string) : option nat := map_get (custom_hws h) name.
(** hardware_interface.h:581-585 addCustomHW; [name] is the component's name_ when it is added *)
Definition addCustomHW (name : string) (p : nat) (h : hwif) : hwif * bool :=
  let '(m, b) := map_insert name p (custom_hws h) in (set_custom_hws m h, b).
