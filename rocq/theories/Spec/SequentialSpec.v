(** Vocabulary of C75: pieces of executions of the interleaved model in which nobody interferes. *)
From Coq Require Import List String Arith Bool ZArith.
From Verif.Model Require Import Base Scheduler Controller Manager ManagerConc.
Import ListNotations.

Section Spec.
Context {W : Type} (H : hooks W).
Notation config := (config W).

(** exactly one call of update(), nobody else making a step: the realtime thread leaves its idle point once and stops
    at the first moment it is back there *)
Definition whole_cycle (a b : bool) (c c' : config) : Prop :=
  rt c = RIdle /\ rt c' = RIdle /\ exists n, runs H (repeat (LRt a b) (S n)) c = Some c' /\
  forall j, j < n -> exists d, runs H (repeat (LRt a b) (S j)) c = Some d /\ rt d <> RIdle.

(** trylock() on the statistics publisher would succeed now *)
Definition pub_free (c : config) : bool := match pub_lock c with None => true | Some _ => false end.

(** everything but the manager (and ghost bookkeeping) is as before *)
Definition same_rest (c c' : config) : Prop :=
  (forall k, thr c' k = thr c k) /\ srv_lock c' = srv_lock c /\ ctl_lock c' = ctl_lock c /\ pub_lock c' = pub_lock c /\ rosok c' = rosok c.

(** locks and the threads other than [k] are as before *)
Definition beside (k : nat) (c c' : config) : Prop :=
  (forall j, j <> k -> thr c' j = thr c j) /\ srv_lock c' = srv_lock c /\ ctl_lock c' = ctl_lock c /\ pub_lock c' = pub_lock c /\ rosok c' = rosok c.

(** nothing is going on: the realtime thread is between cycles, nobody holds controllers_lock_ or the statistics
    publisher, no switch is pending, and the realtime thread either has never run or uses the current list *)
Definition settled (c : config) : Prop :=
  rt c = RIdle /\ ctl_lock c = None /\ pub_lock c = None /\ rosok c = true /\ please (mg c) = false /\
  (used (mg c) = None \/ used (mg c) = Some (cur (mg c))).

(** the call executed in one piece (level A) *)
Definition in_one_piece (a b : bool) (cl : call) (m : mgr W) : res (answer * mgr W) :=
  match cl with
  | CLoad env name => loadController H env name m
  | CUnload name => unloadController name m
  | CSwitch start stop strictness => switchController H start stop strictness a b m
  end.

(** only thread [k] and the realtime thread make steps *)
Definition only (k : nat) (a b : bool) (ls : list (label W)) : Prop := forall l, In l ls -> l = LTh k \/ l = LRt a b.

(** a client that makes one call *)
Definition one_call (cl : call) : prog := PCall cl (fun _ => PEnd).

End Spec.
