(** Modifications in progress: what a client thread may have left half-done in memory while other threads run. *)
From Coq Require Import List String Arith Bool ZArith.
From Verif.Model Require Import Base Scheduler Controller Manager ManagerConc.
From Verif.Spec Require Import ManagerSpec ConcSpec.
Import ListNotations.

Section Race.
Context {W : Type}.
Notation mgr := (mgr W).
Notation config := (config W).

(** The thread is inside one of the code sections that modify shared containers: rebuilding the spare controller list
    (controller_manager.cpp:233-342, 382-437), collecting the switch request (487-539), resizing the statistics message
    (346-352, 442-449), clearing the old list (358-359, 456-458). *)
Definition writing (t : tstate) : Prop :=
  match t with TBody _ _ _ | TFlip _ _ _ | TClear _ _ _ => True | _ => False end.

(** [m2] is [m] with arbitrary contents in the containers the thread in state [t] is in the middle of changing. *)
Definition half_done (t : tstate) (m m2 : mgr) : Prop :=
  match t with
  | TBody _ (CSwitch _ _ _) _ => exists starts stops, m2 = set_start_req starts (set_stop_req stops m)
  | TBody _ _ _ | TClear _ _ _ => exists l s, m2 = set_lists (upd (lists m) (negb (cur m)) l) (set_scheds (upd (scheds m) (negb (cur m)) s) m)
  | TFlip _ _ _ => exists msg, m2 = set_mstats msg m
  | _ => m2 = m
  end.

(** Two configurations that differ at most in what thread [k] is in the middle of changing (and in the ghost snapshot). *)
Record looks_like (k : nat) (c c2 : config) : Prop := {
  ll_mg : half_done (thr c k) (mg c) (mg c2);
  ll_rt : rt c2 = rt c;
  ll_thr : thr c2 = thr c;
  ll_srv : srv_lock c2 = srv_lock c;
  ll_ctl : ctl_lock c2 = ctl_lock c;
  ll_pub : pub_lock c2 = pub_lock c;
  ll_ros : rosok c2 = rosok c;
  ll_cyc : cyc c2 = cyc c }.

(** The data a load, unload or switch call works from: the controller lists, their schedules, which one is current, and the
    type and dependencies of every controller. *)
Record same_catalogue (m m' : mgr) : Prop := {
  sc_lists : lists m' = lists m;
  sc_scheds : scheds m' = scheds m;
  sc_cur : cur m' = cur m;
  sc_next : next m' = next m;
  sc_type : forall p, co_type (heap m' p) = co_type (heap m p);
  sc_deps : forall p, co_deps (heap m' p) = co_deps (heap m p) }.

(** The same verdict, leaving the same lists and schedules. *)
Definition same_outcome (o o' : outcome (W := W)) : Prop :=
  match o, o' with
  | Rejected a, Rejected b | Ready a, Ready b | Thrown a, Thrown b => same_catalogue a b /\ (start_req a = start_req b /\ stop_req a = stop_req b)
  | Broken, Broken => True
  | _, _ => False
  end.
End Race.
