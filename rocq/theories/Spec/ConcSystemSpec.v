(** Vocabulary for the manager wired to a robot, with the realtime thread, service threads and the hardware interleaved. *)
From Coq Require Import List String Arith Bool ZArith.
From Verif.Model Require Import Base Num Joint Hardware Transmission Controller Manager ManagerConc Robot System.
From Verif.Spec Require Import SystemSpec StatSystemSpec.
Import ListNotations.

(** What happens outside between any two steps writes values into actuators and joint states, as in [outside]. *)
Definition outside_labels {Tr T X} (ls : list (label (sysw Tr T X))) : Prop :=
  Forall (fun l => match l with LEnv f => outside f | _ => True end) ls.

(** Nobody outside the realtime thread writes the commanded effort of joint [k]: neither the outside events of an
    interleaving nor the init() code of any controller, which runs on a service thread. *)
Definition outside_leaves {Tr T X} (k : nat) (ls : list (label (sysw Tr T X))) : Prop :=
  Forall (fun l => match l with
                   | LEnv f => forall w p p', sy_plant w = Ok p -> sy_plant (f w) = Ok p' ->
                       commanded_effort (m_js (pl_mem p') k) = commanded_effort (m_js (pl_mem p) k)
                   | _ => True
                   end) ls.
Definition inits_leave {T X} (cb : ptr -> callback -> X -> mem T -> X * mem T) (k : nat) : Prop :=
  forall c b, leaves_command cb k (c, CbInit b).

(** The command [x] of the joint described like [j] is what limit enforcement makes of the joint state [j]. *)
Definition enforced_from {T} {N : Num T} (j j' : jointstate T) : Prop :=
  exists j1, enforceLimits j = Ok j1 /\ commanded_effort j' = commanded_effort j1 /\ js_joint j' = js_joint j1.

(** What happens outside between any two steps leaves the joints' measurements and statistics alone, as in [outside_measures]. *)
Definition measured_labels {Tr T X} (strict : Prop) (ls : list (label (sysw Tr T X))) : Prop :=
  Forall (fun l => match l with LEnv f => outside_measures strict f | _ => True end) ls.
