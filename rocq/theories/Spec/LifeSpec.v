(** Vocabulary of C96: the life of one controller object as seen by its author. *)
From Coq Require Import List Arith Bool.
From Verif.Model Require Import Controller Manager.
From Verif.Spec Require Import ControllerSpec.
Import ListNotations.

(** the callbacks of the object at address [p] in a history of events, oldest first *)
Definition callbacks_of (p : ptr) (tr : list event) : list callback :=
  flat_map (fun e => match e with EvCb q cb => if Nat.eqb q p then [cb] else [] | _ => [] end) tr.

(** A life: init is called once, before everything else; if it does not succeed nothing else is ever called; otherwise
    starting, update and stopping are called, update only after a starting with no stopping in between. *)
Definition a_life (h : list callback) : Prop :=
  h = [] \/
  exists ok rest, h = CbInit ok :: rest /\ (ok = false -> rest = []) /\ (forall b, ~ In (CbInit b) rest) /\
    update_only_started rest.
