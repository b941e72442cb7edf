(** Vocabulary of the concurrency properties (C16, C21-C29). *)
From Coq Require Import List String Arith Bool ZArith.
From Verif.Model Require Import Base Scheduler Controller Manager ManagerConc.
From Verif.Spec Require Import ManagerSpec.
Import ListNotations.

Section Spec.
Context {W : Type} (H : hooks W).
Notation config := (config W).

(** The very first [used_by_realtime_ = current_controllers_list_] of the realtime thread is about to
    write a value which a service call has replaced since it was read. *)
Definition stale_start (c : config) : Prop :=
  used (mg c) = None /\ exists b, rt c = RGot b /\ b <> cur (mg c).

(** An execution (any interleaving) without that event. *)
Inductive steady : config -> list (label W) -> config -> Prop :=
| steady_nil c : steady c [] c
| steady_snoc c ls c1 l c2 : steady c ls c1 -> bstep H l c1 = Some (Ok c2) ->
    (forall a b, l = LRt a b -> ~ stale_start c1) -> steady c (ls ++ [l]) c2.

(** A piece of such an execution, every configuration entered on the way satisfying [P]; the number
    counts its steps satisfying [Q before label after]. *)
Inductive segment (P : config -> Prop) (Q : config -> label W -> config -> bool) : config -> nat -> config -> Prop :=
| seg_nil c : segment P Q c 0 c
| seg_snoc c n c1 l c2 : segment P Q c n c1 -> bstep H l c1 = Some (Ok c2) ->
    (forall a b, l = LRt a b -> ~ stale_start c1) -> P c2 ->
    segment P Q c (n + if Q c1 l c2 then 1 else 0) c2.

(** Configurations of a system that was initialised, used sequentially for any time, and has since run
    with any interleaving; ros has not been shut down. *)
Definition live (c : config) : Prop :=
  exists m ls, reachable H m /\ please m = false /\ steady (quiet m) ls c /\ rosok c = true.

(** the realtime thread's own steps *)
Definition is_rt_step (_ : config) (l : label W) (_ : config) : bool :=
  match l with LRt _ _ => true | _ => false end.
(** the realtime thread takes a list: used_by_realtime_ is written *)
Definition takes_list (c : config) (l : label W) (_ : config) : bool :=
  match l, rt c with LRt _ _, RGot _ => true | _, _ => false end.
(** the realtime thread completes a cycle *)
Definition ends_cycle (_ : config) (l : label W) (c' : config) : bool :=
  match l, rt c' with LRt _ _, RIdle => true | _, _ => false end.

(** thread [k] waits for the realtime thread to leave the old list / to execute its switch *)
Definition waits_for_list (k : nat) (c : config) : Prop :=
  match thr c k with TWait2 _ _ _ | TWait2b _ _ _ => True | _ => False end.
Definition waits_for_switch (k : nat) (c : config) : Prop :=
  match thr c k with TSw _ _ | TSwb _ _ => True | _ => False end.

(** the statistics message is filled by the realtime thread while a service thread rebuilds it *)
Definition message_race (c : config) : Prop :=
  (exists t, rt c = RFill t) /\ exists k srv cl kk, thr c k = TFlip srv cl kk.

(** inside a section protected by controllers_lock_ *)
Definition in_call (t : tstate) : bool :=
  match t with
  | TWait1 _ _ _ | TWait1b _ _ _ | TBody _ _ _ | TPub _ _ _ | TFlip _ _ _ | TWait2 _ _ _ | TWait2b _ _ _
  | TClear _ _ _ | TSw _ _ | TSwb _ _ => true
  | _ => false
  end.

(** a controller object is kept alive by an entry of one of the two lists *)
Definition alive (m : mgr W) (p : ptr) : Prop := exists b e, In e (lists m b) /\ e_ptr e = p.

End Spec.

(* ------------------------------------------------------------------ order of observable events *)
Definition stop_evs (ps : list ptr) : list event := map (fun p => EvCb p CbStopping) ps.
Definition start_evs (ps : list ptr) : list event := map (fun p => EvCb p CbStarting) ps.

(** events caused by the realtime thread *)
Definition is_rt (e : event) : bool :=
  match e with
  | EvCb _ (CbInit _) | EvNewLoader | EvRequest _ _ | EvSwitchReturn => false
  | _ => true
  end.
(** the last things a cycle does before looking at switch requests *)
Definition is_sent (e : event) : bool :=
  match e with EvEffort | EvPubMech _ | EvPubJoint => true | _ => false end.
(** Cycle structure: C16's automaton.  Where the realtime thread is in its cycle, and what it still
    owes to the accepted switch request. *)
Inductive phase :=
| Between            (** after a switch, before the next cycle *)
| Begun              (** inside the restart part *)
| Updating           (** inside the update part *)
| Enforced           (** safety limits applied *)
| Sent               (** efforts sent to the actuators, maybe published *)
| Switching.         (** some, not all of the requests executed *)
Inductive owes :=
| Nothing                       (** no request *)
| Owes (todo : list event)      (** these callbacks, in this order *)
| Finished.                     (** all done, the caller has not returned yet *)

Definition cb_switch (ph : phase) (o : owes) (e : event) (eqb : event -> event -> bool) : option (phase * owes) :=
  match ph, o with
  | Sent, Owes (x :: todo) | Switching, Owes (x :: todo) => if eqb x e then Some (Switching, Owes todo) else None
  | _, _ => None
  end.

Definition cb_eqb (a b : event) : bool :=
  match a, b with
  | EvCb p CbStarting, EvCb q CbStarting | EvCb p CbStopping, EvCb q CbStopping => Nat.eqb p q
  | _, _ => false
  end.

Definition obs (s : phase * owes) (e : event) : option (phase * owes) :=
  let '(ph, o) := s in
  match e with
  | EvCb _ (CbInit _) | EvNewLoader => Some s
  | EvRequest stops starts =>
      match o with Nothing => Some (ph, Owes (stop_evs stops ++ start_evs starts)) | _ => None end
  | EvSwitchReturn => match o with Finished => Some (ph, Nothing) | _ => None end
  | EvFatal => None
  | EvPropagate => match ph with Between | Sent => Some (Begun, o) | _ => None end
  | EvZero => match ph with Begun => Some (Begun, o) | _ => None end
  | EvCb _ CbUpdate => match ph with Begun | Updating => Some (Updating, o) | _ => None end
  | EvCb _ CbStarting | EvCb _ CbStopping =>
      match ph with Begun => Some (Begun, o) | _ => cb_switch ph o e cb_eqb end
  | EvEnforce => match ph with Begun | Updating => Some (Enforced, o) | _ => None end
  | EvEffort => match ph with Enforced => Some (Sent, o) | _ => None end
  | EvPubMech _ | EvPubJoint => match ph with Sent => Some (Sent, o) | _ => None end
  | EvSwitchDone =>
      match ph, o with Sent, Owes [] | Switching, Owes [] => Some (Between, Finished) | _, _ => None end
  end.
Fixpoint observe (s : phase * owes) (es : list event) : option (phase * owes) :=
  match es with
  | [] => Some s
  | e :: es' => match obs s e with Some s' => observe s' es' | None => None end
  end.

(* ------------------------------------------------------------------ one cycle under concurrency *)
Section Cycle.
Context {W : Type}.
(** the controllers of list [b] in the order its schedule gives *)
Definition order_of (m : mgr W) (b : bool) : list ptr :=
  flat_map (fun k => match nth_error (lists m b) k with Some e => [e_ptr e] | None => [] end) (scheds m b).

Definition restart_evs (m : mgr W) (ps : list ptr) : list event :=
  flat_map (fun p => if runningb m p then [EvCb p CbStopping; EvCb p CbStarting] else []) ps.
Definition update_evs (m : mgr W) (ps : list ptr) : list event :=
  flat_map (fun p => if runningb m p then [EvCb p CbUpdate] else []) ps.

(** What the realtime thread does in a cycle that started in state [m] (right after it had chosen its
    list), up to and including the publications: [again] tells whether controllers were restarted. *)
Definition cycle_body (m : mgr W) (again : bool) (pubs : list event) (evs : list event) : Prop :=
  exists b, used m = Some b /\
    evs = [EvPropagate; EvZero] ++ (if again then restart_evs m (order_of m b) else []) ++
          update_evs m (order_of m b) ++ [EvEnforce; EvEffort] ++ pubs.
Definition is_pub (e : event) : bool := match e with EvPubMech _ | EvPubJoint => true | _ => false end.
(** A complete cycle, possibly with the execution of a switch request. *)
Definition full_cycle (m : mgr W) (evs : list event) : Prop :=
  exists again pubs body tail, evs = body ++ tail /\ forallb is_pub pubs = true /\ cycle_body m again pubs body /\
    (again = true -> prev_halted m = true) /\
    (tail = [] \/ exists stops starts, tail = stop_evs stops ++ start_evs starts ++ [EvSwitchDone]).
End Cycle.
