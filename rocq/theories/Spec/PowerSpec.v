(** Mechanical power on the two sides of a transmission. *)
From Coq Require Import List Reals.
From Verif.Model Require Import Base Num Joint Hardware Transmission Simple Wrist Belt Gripper Builtin.
From Verif.Spec Require Import TransmissionSpec RobotSpec.
Import ListNotations.
Local Open Scope R_scope.

Definition total {A} (f : A -> R) (xs : list A) : R := fold_right (fun x s => f x + s) 0 xs.
(** Of a transmission's joints, those its actuators drive; the second joint of a simple transmission is only the one a
    simulator moves in place of the first. *)
Definition driven_joints (t : transmission R) (js : list nat) : list nat := match t with TSimple _ => firstn 1 js | _ => js end.
(** ... and those of all the transmissions of a robot, one after the other. *)
Definition all_driven (ts : list (transmission R)) (outs : list (list nat)) : list nat :=
  concat (map (fun p => driven_joints (fst p) (snd p)) (combine ts outs)).
(** Calls and writes after which every joint and every actuator still has the velocity it had. *)
Definition keeps_speeds (o : robot_op R) : Prop :=
  match o with
  | OpZero | OpEnforce | OpEffort | OpEffortBack => True
  | OpWrite w => forall m, (forall q, velocity (m_js (w m) q) = velocity (m_js m q)) /\
                           (forall p, a_velocity (m_act (w m) p) = a_velocity (m_act m p))
  | OpPosition | OpPositionBack _ => False
  end.
