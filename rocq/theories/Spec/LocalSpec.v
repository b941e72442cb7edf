(** What a call on some actuators and joint states may depend on and may change. *)
From Coq Require Import List Arith Bool.
From Verif.Model Require Import Base Num Joint Hardware Transmission.
Import ListNotations.

(** Two memories look the same through the given actuator and joint pointers. *)
Definition agree {T} (as_ js : list nat) (m m' : mem T) : Prop :=
  (forall p, In p as_ -> m_act m' p = m_act m p) /\ (forall q, In q js -> m_js m' q = m_js m q).

(** Parts of an actuator: everything but the command; the command with what the motor driver reports. *)
Definition all_but_command {T} (x y : actuator T) : Prop :=
  forall e f, set_a_enable e (set_a_effort f x) = set_a_enable e (set_a_effort f y).
Definition same_command {T} (x y : actuator T) : Prop := a_enable x = a_enable y /\ a_effort x = a_effort y /\ a_halted x = a_halted y.
(** Parts of a joint state: everything but the commanded effort; what a controller and the description put there. *)
Definition all_but_effort {T} (x y : jointstate T) : Prop := forall f, set_commanded_effort f x = set_commanded_effort f y.
Definition same_input {T} (x y : jointstate T) : Prop :=
  js_joint x = js_joint y /\ commanded_effort x = commanded_effort y /\ joint_statistics x = joint_statistics y.

(** The call changes nothing but the joint states [js] (the actuators [as_]), and those at most up to [keep]. *)
Definition writes_joints {T} (keep : jointstate T -> jointstate T -> Prop) (js : list nat) (m m' : mem T) : Prop :=
  (forall p, m_act m' p = m_act m p) /\ (forall q, ~ In q js -> m_js m' q = m_js m q) /\ (forall q, keep (m_js m' q) (m_js m q)).
Definition writes_actuators {T} (keep : actuator T -> actuator T -> Prop) (as_ : list nat) (m m' : mem T) : Prop :=
  (forall q, m_js m' q = m_js m q) /\ (forall p, ~ In p as_ -> m_act m' p = m_act m p) /\ (forall p, keep (m_act m' p) (m_act m p)).

(** The call [f] depends only on the objects under [as_] and [js], and changes them only as [writes] says; run on a memory
    that looks the same there, it does the same. *)
Definition local {A T} (writes : mem T -> mem T -> Prop) (as_ js : list nat) (f : mem T -> res (A * mem T)) : Prop :=
  forall m, 
    (forall a m', f m = Ok (a, m') -> writes m m' /\
       forall m2, agree as_ js m m2 -> exists m2', f m2 = Ok (a, m2') /\ agree as_ js m' m2') /\
    (forall m2, agree as_ js m m2 -> (f m = UB <-> f m2 = UB) /\ (f m = Abort <-> f m2 = Abort) /\ (f m = Hang <-> f m2 = Hang)).

(** Transmission [i] of a robot has its actuators for itself. *)
Definition exclusive (ins : list (list nat)) (i : nat) : Prop :=
  forall j k k' a, (exists ps, nth_error ins i = Some ps /\ nth_error ps k = Some a) ->
    (exists ps, nth_error ins j = Some ps /\ nth_error ps k' = Some a) -> j = i.
(** ... and no two of its entries are the same actuator. *)
Definition own (ins : list (list nat)) (i : nat) : Prop := exclusive ins i /\ forall ps, nth_error ins i = Some ps -> NoDup ps.

(** The joint state [y] is [x] with one more sample in its statistics. *)
Definition takes_sample {T} {N : Num T} (x y : jointstate T) : Prop :=
  exists st, stats_update (joint_statistics x) x = Ok st /\ y = set_joint_statistics st x.
