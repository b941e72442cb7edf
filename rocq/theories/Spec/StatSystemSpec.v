(** What the statistics messages are about: the control cycles of the running system, seen from one joint. *)
From Coq Require Import List String Arith Bool ZArith.
From Verif.Model Require Import Base Num Joint Hardware Transmission Controller Manager Robot System.
From Verif.Spec Require Import JointSpec SystemSpec.
Import ListNotations.

(** The two joint states show the same joint at the same position, velocity and measured effort. *)
Definition same_measures {T} (j j' : jointstate T) : Prop :=
  js_joint j' = js_joint j /\ position j' = position j /\ velocity j' = velocity j /\ measured_effort j' = measured_effort j.

(** Controllers may command efforts and calibrate joints, but do not overwrite measurements or statistics. *)
Definition keeps_measures {T X} (cb : ptr -> callback -> X -> mem T -> X * mem T) : Prop :=
  forall c k x m p, same_measures (m_js m p) (m_js (snd (cb c k x m)) p) /\
    joint_statistics (m_js (snd (cb c k x m)) p) = joint_statistics (m_js m p).
(** ... and command efforts to joint [k] in update() only. *)
Definition commands_in_update {T X} (cb : ptr -> callback -> X -> mem T -> X * mem T) (k : nat) : Prop :=
  forall c kind, kind <> CbUpdate -> leaves_command cb k (c, kind).

(** What happens outside the manager between two operations (the hardware reading encoders, executing commands) writes
    actuators and private state; joint states keep their measurements and statistics, and, if [strict], commands. *)
Definition outside_measures {Tr T X} (strict : Prop) (f : sysw Tr T X -> sysw Tr T X) : Prop :=
  forall w, sy_out (f w) = sy_out w /\
    match sy_plant w with
    | Ok p => exists m, sy_plant (f w) = Ok (set_pl_mem m p) /\
        forall k, same_measures (m_js (pl_mem p) k) (m_js m k) /\ joint_statistics (m_js m k) = joint_statistics (m_js (pl_mem p) k) /\
          (strict -> commanded_effort (m_js m k) = commanded_effort (m_js (pl_mem p) k))
    | crashed => sy_plant (f w) = crashed
    end.
Definition measured_op {Tr T X} (strict : Prop) (o : op) : Prop :=
  match o with OpEnv f => @outside_measures Tr T X strict f | _ => True end.
(** All histories with such an outside. *)
Inductive measured_history {Tr T X} (strict : Prop) (H : hooks (sysw Tr T X)) (m0 : mgr (sysw Tr T X)) : mgr (sysw Tr T X) -> Prop :=
| mh_init : measured_history strict H m0 m0
| mh_step m o a m' : measured_history strict H m0 m -> measured_op strict o -> step H m o (Ok (a, m')) -> measured_history strict H m0 m'.

(** The statistics in a message entry *)
Definition shows {T} (st : jstat T) (s : jstats T) : Prop :=
  jo_violated_limits st = violated_limits s /\ jo_odometer st = odometer s /\ jo_min_position st = min_position s /\
  jo_max_position st = max_position s /\ jo_max_abs_velocity st = max_abs_velocity s /\ jo_max_abs_effort st = max_abs_effort s.

(** [told strict k c0 out h c]: what the log [out] means for the statistics of joint [k].  Every control cycle samples the
    joint, with the measurements it has when the efforts of that cycle are sent; every statistics message comes after some cycle,
    shows the statistics so far and resets them; nothing else happens.  [c] is the last effort sent for the joint ([c0] before the first cycle), and if [strict], the command seen by a
    sample is the one sent in the cycle before. *)
Inductive told {T} {N : Num T} (strict : Prop) (k : nat) (c0 : T) : list (output T) -> list (stat_op T) -> T -> Prop :=
| told_nil : told strict k c0 [] [] c0
| told_cycle out h c ms ma j : told strict k c0 out h c -> same_measures (m_js ms k) j -> (strict -> commanded_effort j = c) ->
    told strict k c0 (out ++ [OutEffort ms ma]) (h ++ [Sampled j]) (commanded_effort (m_js ms k))
| told_joints out h c t msg : told strict k c0 out h c -> told strict k c0 (out ++ [OutJoints t msg]) h c
| told_stats out h c t js acts st s : told strict k c0 out h c -> sent out <> [] ->
    nth_error js k = Some st -> history_yields _ h s -> shows st s -> told strict k c0 (out ++ [OutStats t js acts]) (h ++ [Published]) c.


(** The joint states [k] of the control cycles in a log, at the moment the efforts are sent *)
Definition cycles {T} (k : nat) (out : list (output T)) : list (jointstate T) := map (fun e => m_js (fst e) k) (sent out).
Definition is_stats {T} (o : output T) : bool := match o with OutStats _ _ _ => true | _ => false end.
(** a stretch of the log without statistics messages *)
Definition unpublished {T} (out : list (output T)) : Prop := forall o, In o out -> is_stats o = false.
(** each joint state of a sequence of cycles, with the effort sent one cycle earlier; [c] is the effort sent before the first *)
Fixpoint commands_before {T} (c : T) (l : list (jointstate T)) : list (T * jointstate T) :=
  match l with [] => [] | j :: l' => (c, j) :: commands_before (commanded_effort j) l' end.
