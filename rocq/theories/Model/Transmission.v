(** What all transmissions share: the memory they act on, their environment, and
    pr2_mechanism_model/src/joint_calibration_simulator.cpp. *)
From Coq Require Import List String Arith Bool ZArith Reals.
From Flocq Require Import Core.Raux.
From Verif.Model Require Import Base Num Joint Hardware.
Import ListNotations.

(** The library functions of <math.h> used by the transmissions.  Only the real-number instance is given: their
    binary64 implementations are not modelled. *)
Class Trig (T : Type) := {
  npi : T;                      (** M_PI *)
  nfmod : T -> T -> T;
  nsqrt : T -> T;
  nsin : T -> T;
  ncos : T -> T;
  nasin : T -> T;
  nacos : T -> T }.
#[global] Instance trig_R : Trig R := {|
  npi := PI;
  nfmod := fun x y => (x - y * IZR (Ztrunc (x / y)))%R;
  nsqrt := sqrt;
  nsin := sin;
  ncos := cos;
  nasin := asin;
  nacos := acos |}.

(** The heap: actuators and joint states, addressed by pointers (numbers).  Distinct pointers are distinct objects. *)
Record mem (T : Type) := mkMem {
  m_act : nat -> actuator T;
  m_js : nat -> jointstate T }.
Arguments m_act {T} _ _.
Arguments m_js {T} _ _.
Arguments mkMem {T}.
Definition upd {A} (p : nat) (f : A -> A) (h : nat -> A) : nat -> A := fun q => if q =? p then f (h q) else h q.
Definition act_upd {T} (p : nat) (f : actuator T -> actuator T) (m : mem T) : mem T := mkMem (upd p f (m_act m)) (m_js m).
Definition js_upd {T} (p : nat) (f : jointstate T -> jointstate T) (m : mem T) : mem T := mkMem (m_act m) (upd p f (m_js m)).

(** ros::isStarted() and ros::Time::now() (nanoseconds) during a call. *)
Record env := mkEnv { e_started : bool; e_now : Z }.

(** String to double conversions (external): atof; boost::lexical_cast<double>, None = bad_lexical_cast;
    wrist_transmission.cpp:49-59 convertDouble, None = false. *)
Record parsers (T : Type) := mkParsers {
  p_atof : string -> T;
  p_lexical : string -> option T;
  p_convert : string -> option T }.
Arguments p_atof {T} _ _.
Arguments p_lexical {T} _ _.
Arguments p_convert {T} _ _.
Arguments mkParsers {T}.

(** What initXml sees of the Robot: robot_model_.getJoint and getActuator (robot.cpp:143-146). *)
Record rview (T : Type) := mkRview {
  rv_joint : string -> option (ujoint T);
  rv_actuator : string -> option nat }.
Arguments rv_joint {T} _ _.
Arguments rv_actuator {T} _ _.
Arguments mkRview {T}.

(** joint_calibration_simulator.h:42-60 class JointCalibrationSimulator. *)
Record calsim (T : Type) := mkCalsim {
  cs_initialized : bool;  (** calibration_initialized_ *)
  cs_has_rising : bool;
  cs_has_falling : bool;
  cs_continuous : bool;
  cs_rising : T;  (** not initialised by the constructor *)
  cs_falling : T;  (** not initialised by the constructor *)
  cs_got_info : bool;
  cs_bump : bool;  (** not initialised by the constructor *)
  cs_old_reading : bool;  (** not initialised by the constructor *)
  cs_old_pos : T;  (** not initialised by the constructor *)
  cs_old_as_pos : T }.  (** not initialised by the constructor *)
Arguments cs_initialized {T} _.
Arguments cs_has_rising {T} _.
Arguments cs_has_falling {T} _.
Arguments cs_continuous {T} _.
Arguments cs_rising {T} _.
Arguments cs_falling {T} _.
Arguments cs_got_info {T} _.
Arguments cs_bump {T} _.
Arguments cs_old_reading {T} _.
Arguments cs_old_pos {T} _.
Arguments cs_old_as_pos {T} _.
Arguments mkCalsim {T}.
Definition set_cs_initialized {T} (x : bool) (r : calsim T) : calsim T := mkCalsim x (cs_has_rising r) (cs_has_falling r) (cs_continuous r) (cs_rising r) (cs_falling r) (cs_got_info r) (cs_bump r) (cs_old_reading r) (cs_old_pos r) (cs_old_as_pos r).
Definition set_cs_has_rising {T} (x : bool) (r : calsim T) : calsim T := mkCalsim (cs_initialized r) x (cs_has_falling r) (cs_continuous r) (cs_rising r) (cs_falling r) (cs_got_info r) (cs_bump r) (cs_old_reading r) (cs_old_pos r) (cs_old_as_pos r).
Definition set_cs_has_falling {T} (x : bool) (r : calsim T) : calsim T := mkCalsim (cs_initialized r) (cs_has_rising r) x (cs_continuous r) (cs_rising r) (cs_falling r) (cs_got_info r) (cs_bump r) (cs_old_reading r) (cs_old_pos r) (cs_old_as_pos r).
Definition set_cs_continuous {T} (x : bool) (r : calsim T) : calsim T := mkCalsim (cs_initialized r) (cs_has_rising r) (cs_has_falling r) x (cs_rising r) (cs_falling r) (cs_got_info r) (cs_bump r) (cs_old_reading r) (cs_old_pos r) (cs_old_as_pos r).
Definition set_cs_rising {T} (x : T) (r : calsim T) : calsim T := mkCalsim (cs_initialized r) (cs_has_rising r) (cs_has_falling r) (cs_continuous r) x (cs_falling r) (cs_got_info r) (cs_bump r) (cs_old_reading r) (cs_old_pos r) (cs_old_as_pos r).
Definition set_cs_falling {T} (x : T) (r : calsim T) : calsim T := mkCalsim (cs_initialized r) (cs_has_rising r) (cs_has_falling r) (cs_continuous r) (cs_rising r) x (cs_got_info r) (cs_bump r) (cs_old_reading r) (cs_old_pos r) (cs_old_as_pos r).
Definition set_cs_got_info {T} (x : bool) (r : calsim T) : calsim T := mkCalsim (cs_initialized r) (cs_has_rising r) (cs_has_falling r) (cs_continuous r) (cs_rising r) (cs_falling r) x (cs_bump r) (cs_old_reading r) (cs_old_pos r) (cs_old_as_pos r).
Definition set_cs_bump {T} (x : bool) (r : calsim T) : calsim T := mkCalsim (cs_initialized r) (cs_has_rising r) (cs_has_falling r) (cs_continuous r) (cs_rising r) (cs_falling r) (cs_got_info r) x (cs_old_reading r) (cs_old_pos r) (cs_old_as_pos r).
Definition set_cs_old_reading {T} (x : bool) (r : calsim T) : calsim T := mkCalsim (cs_initialized r) (cs_has_rising r) (cs_has_falling r) (cs_continuous r) (cs_rising r) (cs_falling r) (cs_got_info r) (cs_bump r) x (cs_old_pos r) (cs_old_as_pos r).
Definition set_cs_old_pos {T} (x : T) (r : calsim T) : calsim T := mkCalsim (cs_initialized r) (cs_has_rising r) (cs_has_falling r) (cs_continuous r) (cs_rising r) (cs_falling r) (cs_got_info r) (cs_bump r) (cs_old_reading r) x (cs_old_as_pos r).
Definition set_cs_old_as_pos {T} (x : T) (r : calsim T) : calsim T := mkCalsim (cs_initialized r) (cs_has_rising r) (cs_has_falling r) (cs_continuous r) (cs_rising r) (cs_falling r) (cs_got_info r) (cs_bump r) (cs_old_reading r) (cs_old_pos r) x.

Section CalSim.
Context {T : Type} {N : Num T} {G : Trig T}.
Local Open Scope num_scope.

(** angles::normalize_angle (external, angles/angles.h): normalize_angle_positive, then into (-pi, pi]. *)
Definition normalize_angle_positive (a : T) : T := nfmod (nfmod a (ntwo * npi) + ntwo * npi) (ntwo * npi).
Definition normalize_angle (a : T) : T :=
  let b := normalize_angle_positive a in if npi <? b then b - ntwo * npi else b.

(** joint_calibration_simulator.cpp:39-46 constructor; g1..g5, b1, b2 are the indeterminate values *)
Definition new_calsim (g1 g2 g3 g4 : T) (b1 b2 : bool) : calsim T :=
  mkCalsim false false false false g1 g2 false b1 b2 g3 g4.

(** joint_calibration_simulator.cpp:48-89 GetJointCalibrationInfo; [dbg]: asserts enabled.  Reading a double that
    was never initialised yields its indeterminate value (C++ formally: undefined behaviour). *)
Definition GetJointCalibrationInfo (dbg : bool) (c : calsim T) (j : jointstate T) : res (calsim T) :=
  do _ <- cassert dbg (match js_joint j with Some _ => true | None => false end);
  match js_joint j with
  | None => UB
  | Some u =>
    let c := match uj_calib u with
             | None => c
             | Some k =>
               let c := match cal_rising k with
                        | Some r => set_cs_rising r (set_cs_has_rising true c)
                        | None => c end in
               match cal_falling k with
               | Some f => set_cs_falling f (set_cs_has_falling true c)
               | None => c end
             end in
    let c := if jtype_eqb (uj_type u) JCONTINUOUS then
               let c := set_cs_continuous true c in
               let c := if cs_has_rising c && negb (cs_has_falling c)
                        then set_cs_falling (cs_rising c + npi) (set_cs_has_falling true c) else c in
               let c := if negb (cs_has_rising c) && cs_has_falling c
                        then set_cs_rising (cs_falling c + npi) (set_cs_has_rising true c) else c in
               let c := set_cs_rising (normalize_angle (cs_rising c)) c in
               let c := set_cs_falling (normalize_angle (cs_falling c)) c in
               set_cs_bump (cs_rising c <? cs_falling c) c
             else c in
    (* line 84-86 only logs *)
    Ok (set_cs_got_info true c)
  end.

(** joint_calibration_simulator.cpp:101-121: the reading *)
Definition cal_reading (c : calsim T) (pos : T) (old : bool) : bool :=
  if cs_continuous c then
    let pos_c := normalize_angle pos in
    if cs_bump c then (cs_rising c <? pos_c) && (pos_c <? cs_falling c)
    else negb ((pos_c <? cs_rising c) && (cs_falling c <? pos_c))
  else if cs_has_rising c then cs_rising c <? pos
  else if cs_has_falling c then pos <? cs_falling c
  else old.

(** joint_calibration_simulator.cpp:91-159 simulateJointCalibration *)
Definition simulateJointCalibration (dbg : bool) (c : calsim T) (j : jointstate T) (a : actuator T)
  : res (calsim T * actuator T) :=
  do c <- (if cs_got_info c then Ok c else GetJointCalibrationInfo dbg c j);
  let pos := position j - reference_position j in
  let as_pos := a_position a in
  let a := set_a_calibration_reading (cal_reading c pos (a_calibration_reading a)) a in
  let a := if cs_initialized c then
             if negb (Bool.eqb (cs_old_reading c) (a_calibration_reading a)) then
               if a_calibration_reading a then
                 if cs_old_pos c <? pos
                 then set_a_last_rising (cs_old_as_pos c) (set_a_rising_valid true a)
                 else set_a_last_falling (cs_old_as_pos c) (set_a_falling_valid true a)
               else
                 if cs_old_pos c <? pos
                 then set_a_last_falling (cs_old_as_pos c) (set_a_falling_valid true a)
                 else set_a_last_rising (cs_old_as_pos c) (set_a_rising_valid true a)
             else a
           else a in
  Ok (set_cs_initialized true (set_cs_old_as_pos as_pos (set_cs_old_pos pos (set_cs_old_reading (a_calibration_reading a) c))), a).

(** The same acting on memory: js and as are pointers. *)
Definition simcal_mem (dbg : bool) (c : calsim T) (pj pa : nat) (m : mem T) : res (calsim T * mem T) :=
  do (c, a) <- simulateJointCalibration dbg c (m_js m pj) (m_act m pa);
  Ok (c, act_upd pa (fun _ => a) m).

(** The simulated actuator clock, repeated verbatim in every transmission, e.g. simple_transmission.cpp:230-249:
    (initialized flag, start time) and the sample_timestamp_ to store. *)
Definition sim_clock (e : env) (inited : bool) (start : Z) : bool * Z * Z :=
  if negb inited then
    if e_started e then (true, e_now e, 0%Z) else (false, start, 0%Z)
  else (inited, start, (e_now e - start)%Z).
Definition set_stamp (z : Z) (a : actuator T) : actuator T :=
  let a := set_a_sample_timestamp z a in set_a_timestamp (ntosec (a_sample_timestamp a)) a.
End CalSim.
