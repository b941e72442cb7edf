(** pr2_mechanism_model: robot.h, robot.cpp, transmission.h. *)
From Coq Require Import List String Arith Bool ZArith.
From Verif.Model Require Import Base Num Joint Hardware Xml Transmission.
Import ListNotations.

(** transmission.h:48-110: the virtual methods and public members of a Transmission of (dynamic) class [Tr].
    The arguments are in the order of the C++ signatures; vectors of pointers are lists of pointers. *)
Record tclass (Tr T : Type) := mkTclass {
  tr_name : Tr -> string;                (** name_ *)
  tr_actuators : Tr -> list string;      (** actuator_names_ *)
  tr_joints : Tr -> list string;         (** joint_names_ *)
  tr_initXml : rview T -> xml -> (nat -> actuator T) -> Tr -> res (option Tr * (nat -> actuator T));
  tr_position : Tr -> list nat -> list nat -> mem T -> res (Tr * mem T);
  tr_positionBackwards : env -> Tr -> list nat -> list nat -> mem T -> res (Tr * mem T);
  tr_effort : Tr -> list nat -> list nat -> mem T -> res (Tr * mem T);
  tr_effortBackwards : Tr -> list nat -> list nat -> mem T -> res (Tr * mem T) }.
Arguments tr_name {Tr T} _ _.
Arguments tr_actuators {Tr T} _ _.
Arguments tr_joints {Tr T} _ _.
Arguments tr_initXml {Tr T} _ _ _ _ _.
Arguments tr_position {Tr T} _ _ _ _ _.
Arguments tr_positionBackwards {Tr T} _ _ _ _ _ _.
Arguments tr_effort {Tr T} _ _ _ _ _.
Arguments tr_effortBackwards {Tr T} _ _ _ _ _.
Arguments mkTclass {Tr T}.

(** pluginlib::ClassLoader<Transmission> (external). *)
Record loader (Tr : Type) := mkLoader {
  ld_available : string -> bool;         (** isClassAvailable *)
  ld_declared : list string;             (** getDeclaredClasses *)
  ld_name : string -> string;            (** getName *)
  ld_create : string -> option Tr }.     (** createInstance; None: it throws std::runtime_error (caught) *)
Arguments ld_available {Tr} _ _.
Arguments ld_declared {Tr} _.
Arguments ld_name {Tr} _ _.
Arguments ld_create {Tr} _ _.
Arguments mkLoader {Tr}.

(** robot.h:78-110 class Robot (the loader is an argument of initXml). *)
Record robot (Tr T : Type) := mkRobot {
  rb_hw : option hwif;                   (** hw_, may be NULL *)
  rb_joint : string -> option (ujoint T);(** robot_model_.getJoint *)
  rb_transmissions : list Tr }.          (** transmissions_ *)
Arguments rb_hw {Tr T} _.
Arguments rb_joint {Tr T} _ _.
Arguments rb_transmissions {Tr T} _.
Arguments mkRobot {Tr T}.

Section Robot.
Context {Tr T : Type} {N : Num T}.
Variable K : tclass Tr T.

(** robot.cpp:46-48 *)
Definition new_robot (hw : option hwif) : robot Tr T := mkRobot hw (fun _ => None) [].

(** robot.cpp:76-84: the declared type; None = continue.  Assigning a NULL text to a std::string is undefined. *)
Definition transmission_type (xit : xml) : res (option string) :=
  match Attribute xit "type" with
  | Some s => Ok (Some s)
  | None => match FirstChildElement xit "type" with
            | None => Ok None
            | Some te => do s <- deref (GetText te); Ok (Some s)
            end
  end.

(** robot.cpp:89-102 deprecated names *)
Definition resolve_type (L : loader Tr) (type : string) : string :=
  if ld_available L type then type
  else match find (fun c => String.eqb type (ld_name L c)) (ld_declared L) with Some c => c | None => type end.

(** robot.cpp:72-119: the loop body over the <transmission> elements; [done]: transmissions_ so far *)
Fixpoint load_transmissions (L : loader Tr) (R : rview T) (els : list xml) (h : nat -> actuator T) (done : list Tr)
  : res (list Tr * (nat -> actuator T)) :=
  match els with
  | [] => Ok (done, h)
  | xit :: els' =>
    do ty <- transmission_type xit;
    match ty with
    | None => load_transmissions L R els' h done
    | Some type =>
      if negb (String.eqb (substring 0 3 type) "pr2") then load_transmissions L R els' h done
      else match ld_create L (resolve_type L type) with
           | None => load_transmissions L R els' h done
           | Some t =>
             do (r, h) <- tr_initXml K R xit h t;
             match r with
             | None => load_transmissions L R els' h done
             | Some t => load_transmissions L R els' h (done ++ [t])
             end
           end
    end
  end.

(** robot.cpp:143-146 Robot::getActuator; hw_ NULL is undefined behaviour *)
Definition robot_getActuator (r : robot Tr T) (name : string) : res (option nat) :=
  match rb_hw r with None => UB | Some hw => Ok (getActuator hw name) end.

(** robot.cpp:51-119 Robot::initXml; [urdf] is urdf::Model::initXml (external; None = false).  Returns the result, the
    robot and the actuators (initXml of a transmission enables its actuators). *)
Definition robot_initXml (L : loader Tr) (urdf : xml -> option (string -> option (ujoint T))) (root : xml)
  (h : nat -> actuator T) (r : robot Tr T) : res (bool * robot Tr T * (nat -> actuator T)) :=
  match rb_hw r with
  | None => Ok (false, r, h)
  | Some hw =>
    match urdf root with
    | None => Ok (false, r, h)
    | Some joints =>
      do (ts, h) <- load_transmissions L (mkRview joints (getActuator hw)) (ChildElements root "transmission") h (rb_transmissions r);
      Ok (true, mkRobot (Some hw) joints ts, h)
    end
  end.

(** robot.cpp:126-136 findIndexByName, -1 as None *)
Fixpoint findIndexByName (v : list Tr) (name : string) : option nat :=
  match v with
  | [] => None
  | t :: v' => if String.eqb (tr_name K t) name then Some 0
               else match findIndexByName v' name with Some i => Some (S i) | None => None end
  end.
(** robot.cpp:138-141 *)
Definition getTransmissionIndex (r : robot Tr T) (name : string) : option nat := findIndexByName (rb_transmissions r) name.
(** robot.cpp:148-152 *)
Definition getTransmission (r : robot Tr T) (name : string) : res (option Tr) :=
  match getTransmissionIndex r name with
  | Some i => do t <- vget (rb_transmissions r) i; Ok (Some t)
  | None => Ok None
  end.

(** ** RobotState *)

(** robot.h:126-190 class RobotState.  joint_states_[k] lives at pointer k of the heap; the vector is never resized after
    the constructor, so the pointers stay valid. *)
Record rstate := mkRstate {
  rs_size : nat;                         (** joint_states_.size() *)
  rs_in : list (list nat);               (** transmissions_in_ *)
  rs_out : list (list nat);              (** transmissions_out_ *)
  rs_map : list (string * nat) }.        (** joint_states_map_; latest assignment first *)

(** robot.cpp:170-175: the actuators of one transmission.  With assertions disabled a NULL pointer would be stored and
    dereferenced by the first isHalted or propagate call: reported as undefined behaviour right away. *)
Fixpoint wire_actuators (dbg : bool) (r : robot Tr T) (names : list string) : res (list nat) :=
  match names with
  | [] => Ok []
  | n :: names' =>
    do a <- robot_getActuator r n;
    do _ <- cassert dbg (match a with Some _ => true | None => false end);
    do p <- deref a;
    do ps <- wire_actuators dbg r names';
    Ok (p :: ps)
  end.
(** robot.cpp:167-177 *)
Fixpoint wire_in (dbg : bool) (r : robot Tr T) (ts : list Tr) : res (list (list nat)) :=
  match ts with
  | [] => Ok []
  | t :: ts' => do ps <- wire_actuators dbg r (tr_actuators K t); do rest <- wire_in dbg r ts'; Ok (ps :: rest)
  end.

(** robot.cpp:185-191: the joints of one transmission: (transmissions_out_[i], joint_states_map_, js_id, heap) *)
Fixpoint wire_joints (joints : string -> option (ujoint T)) (names : list string) (id : nat) (mp : list (string * nat)) (m : mem T)
  : list nat * list (string * nat) * nat * mem T :=
  match names with
  | [] => ([], mp, id, m)
  | n :: names' =>
    let m := js_upd id (set_js_joint (joints n)) m in
    let '(out, mp, id', m) := wire_joints joints names' (S id) ((n, id) :: mp) m in
    (id :: out, mp, id', m)
  end.
(** robot.cpp:182-193 *)
Fixpoint wire_out (joints : string -> option (ujoint T)) (ts : list Tr) (id : nat) (mp : list (string * nat)) (m : mem T)
  : list (list nat) * list (string * nat) * nat * mem T :=
  match ts with
  | [] => ([], mp, id, m)
  | t :: ts' =>
    let '(o, mp, id, m) := wire_joints joints (tr_joints K t) id mp m in
    let '(os, mp, id, m) := wire_out joints ts' id mp m in
    (o :: os, mp, id, m)
  end.

(** robot.cpp:158-200 constructor; [g] is the indeterminate member of a new JointState *)
Definition new_robotstate (dbg : bool) (g : T) (r : robot Tr T) (m : mem T) : res (rstate * mem T) :=
  do ins <- wire_in dbg r (rb_transmissions r);
  let js_size := fold_left (fun n t => n + List.length (tr_joints K t)) (rb_transmissions r) 0 in
  let m := mkMem (m_act m) (fun p => if p <? js_size then new_jointstate g else m_js m p) in
  let '(outs, mp, _, m) := wire_out (rb_joint r) (rb_transmissions r) 0 [] m in
  Ok (mkRstate js_size ins outs mp, m).

(** robot.cpp:203-219 getJointState *)
Definition getJointState (s : rstate) (name : string) : option nat :=
  match find (fun kv => String.eqb (fst kv) name) (rs_map s) with Some (_, p) => Some p | None => None end.

(** A loop over the transmissions with their pointer vectors (robot.cpp:223-227 etc.); [f t in out]. *)
Fixpoint over_transmissions (f : Tr -> list nat -> list nat -> mem T -> res (Tr * mem T))
  (ts : list Tr) (ins outs : list (list nat)) (m : mem T) : res (list Tr * mem T) :=
  match ts with
  | [] => Ok ([], m)
  | t :: ts' =>
    match ins, outs with
    | i :: ins', o :: outs' =>
      do (t', m) <- f t i o m;
      do (r, m) <- over_transmissions f ts' ins' outs' m;
      Ok (t' :: r, m)
    | _, _ => UB
    end
  end.

(** A loop over joint_states_ *)
Fixpoint over_joints (f : jointstate T -> res (jointstate T)) (ids : list nat) (m : mem T) : res (mem T) :=
  match ids with
  | [] => Ok m
  | k :: ids' => do j <- f (m_js m k); over_joints f ids' (js_upd k (fun _ => j) m)
  end.

(** robot.cpp:229-232 *)
Definition update_statistics (j : jointstate T) : res (jointstate T) :=
  do s <- stats_update (joint_statistics j) j; Ok (set_joint_statistics s j).

(** robot.cpp:221-233 *)
Definition propagateActuatorPositionToJointPosition (s : rstate) (ts : list Tr) (m : mem T) : res (list Tr * mem T) :=
  do (ts, m) <- over_transmissions (fun t i o => tr_position K t i o) ts (rs_in s) (rs_out s) m;
  do m <- over_joints update_statistics (seq 0 (rs_size s)) m;
  Ok (ts, m).
(** robot.cpp:235-242 *)
Definition propagateJointEffortToActuatorEffort (s : rstate) (ts : list Tr) (m : mem T) : res (list Tr * mem T) :=
  over_transmissions (fun t i o => tr_effort K t o i) ts (rs_in s) (rs_out s) m.
(** robot.cpp:244-254 *)
Definition isHalted (s : rstate) (m : mem T) : bool :=
  existsb (fun ins => existsb (fun a => a_halted (m_act m a)) ins) (rs_in s).
(** robot.cpp:256-262 *)
Definition enforceSafety (s : rstate) (m : mem T) : res (mem T) := over_joints enforceLimits (seq 0 (rs_size s)) m.
(** robot.cpp:264-268 *)
Definition zeroCommands (s : rstate) (m : mem T) : res (mem T) :=
  over_joints (fun j => Ok (set_commanded_effort nzero j)) (seq 0 (rs_size s)) m.
(** robot.cpp:270-277 *)
Definition propagateJointPositionToActuatorPosition (e : env) (s : rstate) (ts : list Tr) (m : mem T) : res (list Tr * mem T) :=
  over_transmissions (fun t i o => tr_positionBackwards K e t o i) ts (rs_in s) (rs_out s) m.
(** robot.cpp:279-286 *)
Definition propagateActuatorEffortToJointEffort (s : rstate) (ts : list Tr) (m : mem T) : res (list Tr * mem T) :=
  over_transmissions (fun t i o => tr_effortBackwards K t i o) ts (rs_in s) (rs_out s) m.
End Robot.
