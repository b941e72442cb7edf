(** Which joints of which transmissions can be recovered from the actuators. *)
From Coq Require Import List Reals Arith Bool.
From Verif.Model Require Import Base Num Joint Hardware Transmission Simple Wrist Belt Gripper Builtin.
Import ListNotations.
Local Open Scope R_scope.

(** Simple and wrist transmissions with non-zero reductions. *)
Definition invertible (t : transmission R) : Prop :=
  match t with
  | TSimple x => st_red x <> 0
  | TWrist x => forall r, In r (wt_ar x ++ wt_jr x) -> r <> 0
  | _ => False
  end.
(** Position [k] in the joint list is a joint the actuators drive; the second joint of a simple transmission is the one a
    simulator moves instead. *)
Definition driven (t : transmission R) (k : nat) : Prop := match t with TSimple _ => k = 0%nat | _ => True end.
(** No joint is moved in place of the driven one. *)
Definition direct (t : transmission R) : Prop := match t with TSimple x => st_use_sim x = false | _ => True end.
