(** Vocabulary for the robot description and its run-time state. *)
From Coq Require Import List String Arith Bool.
From Verif.Model Require Import Base Num Joint Hardware Xml Transmission Simple Wrist Belt Gripper Robot Builtin.
Import ListNotations.

(** The type a <transmission> element declares: its type attribute, else the text of its <type> child. *)
Inductive declared_type (e : xml) : string -> Prop :=
| type_attribute ty : Attribute e "type" = Some ty -> declared_type e ty
| type_child c ty : Attribute e "type" = None -> FirstChildElement e "type" = Some c -> GetText c = Some ty -> declared_type e ty.

(** An element that makes the loader read a NULL string. *)
Definition empty_type (e : xml) : Prop :=
  Attribute e "type" = None /\ exists c, FirstChildElement e "type" = Some c /\ GetText c = None.

(** The class a type name denotes: itself if the loader knows it, else the first declared class with that short name
    (else itself). *)
Inductive class_of {Tr} (L : loader Tr) (ty : string) : string -> Prop :=
| class_known : ld_available L ty = true -> class_of L ty ty
| class_short pre c post : ld_available L ty = false -> ld_declared L = pre ++ c :: post -> ld_name L c = ty ->
    (forall d, In d pre -> ld_name L d <> ty) -> class_of L ty c
| class_unknown : ld_available L ty = false -> (forall d, In d (ld_declared L) -> ld_name L d <> ty) -> class_of L ty ty.

(** Element [e] is a valid transmission of the robot, and [t] the object made of it. *)
Definition accepted {Tr T} (K : tclass Tr T) (L : loader Tr) (R : rview T) (e : xml) (t : Tr) : Prop :=
  exists ty c t0 h h', declared_type e ty /\ (exists rest, ty = String.append "pr2" rest) /\ class_of L ty c /\
    ld_create L c = Some t0 /\ tr_initXml K R e h t0 = Ok (Some t, h').

(** Two actuators that differ at most in their enable command. *)
Definition same_but_enable {T} (a b : actuator T) : Prop := set_a_enable false a = set_a_enable false b.

(** Transmission number [i] of the robot declares [n] as its joint (actuator) number [k]. *)
Definition declares_joint {Tr T} (K : tclass Tr T) (r : robot Tr T) (i k : nat) (n : string) : Prop :=
  exists t, nth_error (rb_transmissions r) i = Some t /\ nth_error (tr_joints K t) k = Some n.
Definition declares_actuator {Tr T} (K : tclass Tr T) (r : robot Tr T) (i k : nat) (n : string) : Prop :=
  exists t, nth_error (rb_transmissions r) i = Some t /\ nth_error (tr_actuators K t) k = Some n.
(** ... and is handed the pointer [p] for it. *)
Definition pointer_at (v : list (list nat)) (i k p : nat) : Prop := exists ps, nth_error v i = Some ps /\ nth_error ps k = Some p.
(** Later in the description. *)
Definition later (i k i' k' : nat) : Prop := i < i' \/ i = i' /\ k < k'.

(** A description without the two traps of the built-in transmissions: a SimpleTransmission names at most one
    simulated_actuated_joint, a PR2GripperTransmission exactly one gap_joint and one simulated_actuated_joint. *)
Definition usable {T} (L : loader (transmission T)) (e : xml) : Prop :=
  forall ty c t, declared_type e ty -> class_of L ty c -> ld_create L c = Some t ->
  match t with
  | TSimple _ => List.length (ChildElements e "simulated_actuated_joint") <= 1
  | TGripper _ => List.length (ChildElements e "gap_joint") = 1 /\ List.length (ChildElements e "simulated_actuated_joint") = 1
  | _ => True
  end.

(** ... that can also be used in simulation: the gripper's simulated_actuated_joint also names a passive_actuated_joint, and
    its reduction is positive. *)
Definition simulatable {T} {N : Num T} (P : parsers T) (L : loader (transmission T)) (e : xml) : Prop :=
  usable L e /\
  forall ty c t j, declared_type e ty -> class_of L ty c -> ld_create L c = Some (TGripper t) ->
    In j (ChildElements e "simulated_actuated_joint") ->
    Attribute j "passive_actuated_joint" <> None /\
    forall r x, Attribute j "simulated_reduction" = Some r -> p_lexical P r = Some x -> nltb nzero x = true.

(** The same description: everything a transmission object holds that its initXml read. *)
Definition same_parameters {T} (x y : transmission T) : Prop :=
  match x, y with
  | TSimple x, TSimple y => st_name x = st_name y /\ st_actuators x = st_actuators y /\ st_joints x = st_joints y /\
      st_red x = st_red y /\ st_sim_red x = st_sim_red y /\ st_use_sim x = st_use_sim y
  | TWrist x, TWrist y => wt_name x = wt_name y /\ wt_actuators x = wt_actuators y /\ wt_joints x = wt_joints y /\
      wt_ar x = wt_ar y /\ wt_jr x = wt_jr y /\ wt_off0 x = wt_off0 y /\ wt_off1 x = wt_off1 y
  | TBelt x, TBelt y => bt_name x = bt_name y /\ bt_actuators x = bt_actuators y /\ bt_joints x = bt_joints y /\
      bt_red x = bt_red y /\ bt_compl x = bt_compl y /\ bt_tau x = bt_tau y /\ bt_kd x = bt_kd y /\ bt_lmotor x = bt_lmotor y /\
      bt_ljoint x = bt_ljoint y /\ bt_lcombo x = bt_lcombo y
  | TGripper x, TGripper y => gr_name x = gr_name y /\ gr_actuators x = gr_actuators y /\ gr_joints x = gr_joints y /\
      gr_gap_joint x = gr_gap_joint y /\ gr_red x = gr_red y /\ gr_sim_red x = gr_sim_red y /\ gr_use_sim x = gr_use_sim y /\
      gr_has_passive x = gr_has_passive y /\ gr_passive x = gr_passive y /\ gr_screw x = gr_screw y /\ gr_gear x = gr_gear y /\
      gr_theta0 x = gr_theta0 y /\ gr_phi0 x = gr_phi0 y /\ gr_t0 x = gr_t0 y /\ gr_L0 x = gr_L0 y /\ gr_h x = gr_h y /\
      gr_a x = gr_a y /\ gr_b x = gr_b y /\ gr_r x = gr_r y
  | _, _ => False
  end.

(** What happens to a running robot: the calls of the control loop and of a simulator in any order, and anybody (hardware,
    controllers, calibration) writing anything to actuators and joint states, except that the joint a state belongs to is
    fixed. *)
Inductive robot_op (T : Type) :=
| OpPosition | OpZero | OpEnforce | OpEffort | OpWrite (w : mem T -> mem T)
| OpPositionBack (e : env) | OpEffortBack.
Arguments OpPosition {T}.
Arguments OpZero {T}.
Arguments OpEnforce {T}.
Arguments OpEffort {T}.
Arguments OpWrite {T} _.
Arguments OpPositionBack {T} _.
Arguments OpEffortBack {T}.
Definition fair_op {T} (o : robot_op T) : Prop :=
  match o with OpWrite w => forall m p, js_joint (m_js (w m) p) = js_joint (m_js m p) | _ => True end.
(** a call only a simulator makes *)
Definition simulator_op {T} (o : robot_op T) : Prop := match o with OpPositionBack _ | OpEffortBack => True | _ => False end.
Fixpoint run_ops {Tr T} {N : Num T} (K : tclass Tr T) (s : rstate) (ops : list (robot_op T)) (ts : list Tr) (m : mem T) : res (list Tr * mem T) :=
  match ops with
  | [] => Ok (ts, m)
  | OpPosition :: ops => do (ts, m) <- propagateActuatorPositionToJointPosition K s ts m; run_ops K s ops ts m
  | OpZero :: ops => do m <- zeroCommands s m; run_ops K s ops ts m
  | OpEnforce :: ops => do m <- enforceSafety s m; run_ops K s ops ts m
  | OpEffort :: ops => do (ts, m) <- propagateJointEffortToActuatorEffort K s ts m; run_ops K s ops ts m
  | OpWrite w :: ops => run_ops K s ops ts (w m)
  | OpPositionBack e :: ops => do (ts, m) <- propagateJointPositionToActuatorPosition K e s ts m; run_ops K s ops ts m
  | OpEffortBack :: ops => do (ts, m) <- propagateActuatorEffortToJointEffort K s ts m; run_ops K s ops ts m
  end.
