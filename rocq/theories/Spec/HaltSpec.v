(** Halted motors and histories, as an operator sees them. *)
From Coq Require Import List String Arith Bool ZArith.
From Verif.Model Require Import Base Num Joint Hardware Transmission Controller Manager Robot System.
From Verif.Spec Require Import SystemSpec.
Import ListNotations.

(** Some motor the robot's transmissions are wired to reports that it is halted. *)
Definition motors_halted {T} (s : rstate) (m : mem T) : Prop :=
  exists wired a, In wired (rs_in s) /\ In a wired /\ a_halted (m_act m a) = true.

(** Controllers do not write the motors' halted flags (they belong to the hardware). *)
Definition keeps_halted {T X} (cb : ptr -> callback -> X -> mem T -> X * mem T) : Prop :=
  forall c k x m p, a_halted (m_act (snd (cb c k x m)) p) = a_halted (m_act m p).

(** [last_look H p0 m0 m seen]: there is a history from [m0] to [m], and [seen] is the memory the last of its control cycles
    began with; the memory left by initXml if there was no cycle yet. *)
Inductive last_look {Tr T X} (H : hooks (sysw Tr T X)) (p0 : plant Tr T) (m0 : mgr (sysw Tr T X)) : mgr (sysw Tr T X) -> mem T -> Prop :=
| look_init : last_look H p0 m0 m0 (pl_mem p0)
| look_cycle m seen p l1 l2 a m' : last_look H p0 m0 m seen -> sy_plant (world m) = Ok p -> step H m (OpUpdate l1 l2) (Ok (a, m')) ->
    last_look H p0 m0 m' (pl_mem p)
| look_other m seen o a m' : last_look H p0 m0 m seen -> (forall l1 l2, o <> OpUpdate l1 l2) -> outside_op o -> step H m o (Ok (a, m')) ->
    last_look H p0 m0 m' seen.

(** ** Starting up *)
(** joints the manager can publish *)
Definition movable {T} (u : ujoint T) : Prop := uj_type u = JREVOLUTE \/ uj_type u = JCONTINUOUS \/ uj_type u = JPRISMATIC.
