(** The transmissions of pr2_mechanism_model as one dynamic class: what pluginlib creates for the types exported by
    pr2_mechanism_model/transmission_plugins.xml. *)
From Coq Require Import List String Arith Bool ZArith.
From Verif.Model Require Import Base Num Joint Hardware Xml Transmission Simple Wrist Belt Gripper Robot.
Import ListNotations.

(** An object of one of the four classes. *)
Inductive transmission (T : Type) :=
| TSimple (t : simple T)
| TWrist (t : wrist T)
| TBelt (t : belt T)
| TGripper (t : gripper T).
Arguments TSimple {T} _.
Arguments TWrist {T} _.
Arguments TBelt {T} _.
Arguments TGripper {T} _.

Section Builtin.
Context {T : Type} {N : Num T} {G : Trig T}.

Definition keep {A} (t : A) (r : res (mem T)) : res (A * mem T) := do m <- r; Ok (t, m).
Definition wrap {A B} (f : A -> B) (r : res (A * mem T)) : res (B * mem T) := do (t, m) <- r; Ok (f t, m).
Definition wrapi {A B H} (f : A -> B) (r : res (option A * H)) : res (option B * H) :=
  do (t, h) <- r; Ok (match t with Some t => Some (f t) | None => None end, h).

(** Virtual dispatch. *)
Definition builtin (dbg : bool) (P : parsers T) : tclass (transmission T) T := mkTclass
  (fun t => match t with TSimple t => st_name t | TWrist t => wt_name t | TBelt t => bt_name t | TGripper t => gr_name t end)
  (fun t => match t with TSimple t => st_actuators t | TWrist t => wt_actuators t | TBelt t => bt_actuators t | TGripper t => gr_actuators t end)
  (fun t => match t with TSimple t => st_joints t | TWrist t => wt_joints t | TBelt t => bt_joints t | TGripper t => gr_joints t end)
  (fun R x h t => match t with
                  | TSimple t => wrapi TSimple (simple_initXml P R x h t)
                  | TWrist t => wrapi TWrist (wrist_initXml P R x h t)
                  | TBelt t => wrapi TBelt (belt_initXml P R x h t)
                  | TGripper t => wrapi TGripper (gripper_initXml P R x h t) end)
  (fun t i o m => match t with
                  | TSimple t => keep (TSimple t) (simple_propagatePosition dbg t i o m)
                  | TWrist t => keep (TWrist t) (wrist_propagatePosition dbg t i o m)
                  | TBelt t => wrap TBelt (belt_propagatePosition dbg t i o m)
                  | TGripper t => keep (TGripper t) (gripper_propagatePosition dbg t i o m) end)
  (fun e t o i m => match t with
                  | TSimple t => wrap TSimple (simple_propagatePositionBackwards dbg e t o i m)
                  | TWrist t => wrap TWrist (wrist_propagatePositionBackwards dbg e t o i m)
                  | TBelt t => wrap TBelt (belt_propagatePositionBackwards dbg e t o i m)
                  | TGripper t => wrap TGripper (gripper_propagatePositionBackwards dbg e t o i m) end)
  (fun t o i m => match t with
                  | TSimple t => keep (TSimple t) (simple_propagateEffort dbg t o i m)
                  | TWrist t => keep (TWrist t) (wrist_propagateEffort dbg t o i m)
                  | TBelt t => wrap TBelt (belt_propagateEffort dbg t o i m)
                  | TGripper t => keep (TGripper t) (gripper_propagateEffort dbg t o i m) end)
  (fun t i o m => match t with
                  | TSimple t => keep (TSimple t) (simple_propagateEffortBackwards dbg t i o m)
                  | TWrist t => keep (TWrist t) (wrist_propagateEffortBackwards dbg t i o m)
                  | TBelt t => wrap TBelt (belt_propagateEffortBackwards dbg t i o m)
                  | TGripper t => keep (TGripper t) (gripper_propagateEffortBackwards dbg t i o m) end).
(** What createInstance returns: an object as its constructor leaves it (the numeric members of a belt transmission are
    indeterminate). *)
Definition is_new (t : transmission T) : Prop :=
  match t with
  | TSimple t => exists g1 g2 b c, t = new_simple g1 g2 b c
  | TWrist t => exists b c0 c1, t = new_wrist b c0 c1
  | TBelt t => bt_actuators t = [] /\ bt_joints t = []
  | TGripper t => exists g b c, t = new_gripper g b c
  end.


(** pr2_mechanism_model/transmission_plugins.xml with pluginlib (external): the exported classes.  No class GripperTransmission
    exists in the library, so creating one throws; [mk] are the freshly constructed objects. *)
Definition pr2_classes : list string :=
  ["pr2_mechanism_model/PR2GripperTransmission"; "pr2_mechanism_model/SimpleTransmission"; "pr2_mechanism_model/GripperTransmission";
   "pr2_mechanism_model/WristTransmission"; "pr2_mechanism_model/PR2BeltCompensatorTransmission"]%string.
Definition pr2_loader (gripper0 : gripper T) (simple0 : simple T) (wrist0 : wrist T) (belt0 : belt T) : loader (transmission T) :=
  mkLoader (fun ty => existsb (String.eqb ty) pr2_classes) pr2_classes
    (fun c => substring 20 (String.length c) c)   (* the part after "pr2_mechanism_model/" *)
    (fun c => if String.eqb c "pr2_mechanism_model/PR2GripperTransmission" then Some (TGripper gripper0)
              else if String.eqb c "pr2_mechanism_model/SimpleTransmission" then Some (TSimple simple0)
              else if String.eqb c "pr2_mechanism_model/WristTransmission" then Some (TWrist wrist0)
              else if String.eqb c "pr2_mechanism_model/PR2BeltCompensatorTransmission" then Some (TBelt belt0)
              else None).
End Builtin.
