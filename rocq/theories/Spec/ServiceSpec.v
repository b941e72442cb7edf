(** Vocabulary of C71: clients that only use the services of the controller manager. *)
From Coq Require Import List String Arith Bool ZArith.
From Verif.Model Require Import Base Scheduler Controller Manager ManagerConc.
From Verif.Spec Require Import ManagerSpec ConcSpec.
Import ListNotations.

(** list_controllers, answering with the names and states it has collected *)
Definition list_request : prog := list_service (fun l => PReply l PEnd).

(** the requests a client can send to the controller manager (list_controller_types only reads the
    loader's catalogue and is not modelled) *)
Inductive service : prog -> Prop :=
| sv_load env n : service (load_service env n)
| sv_unload n : service (unload_service n)
| sv_switch start stop s : service (switch_service start stop s)
| sv_list : service list_request
| sv_reload force : service (reload_service force).

Section Spec.
Context {W : Type} (H : hooks W).
Notation config := (config W).

(** Executions in which the clients use the services and nothing else. *)
Definition via_services (ls : list (label W)) : Prop :=
  forall k srv pr, In (LStart k srv pr) ls -> srv = true /\ service pr.
Definition served (m : mgr W) (ls : list (label W)) (c : config) : Prop :=
  reachable H m /\ please m = false /\ steady H (quiet m) ls c /\ rosok c = true /\ via_services ls.

(** [c0] was the configuration in which client [k] began to execute the request [pr] it is still
    executing in [c]; [ls] are the steps made since then. *)
Definition executing (k : nat) (pr : prog) (c0 : config) (ls : list (label W)) (c : config) : Prop :=
  steady H c0 ls c /\ thr c0 k = TProg true pr /\ forall srv q, ~ In (LStart k srv q) ls.

(** [c1] was visited on the way from [c0] to [c] *)
Definition visited (c0 : config) (ls : list (label W)) (c c1 : config) : Prop :=
  exists l1 l2, ls = l1 ++ l2 /\ steady H c0 l1 c1 /\ steady H c1 l2 c.

(** the names of the loaded controllers in execution order *)
Definition names_in_order (m : mgr W) : list string :=
  flat_map (fun j => match nth_error (loaded_names m) j with Some n => [n] | None => [] end) (scheds m (cur m)).

Definition is_switching (e : event) : bool :=
  match e with EvCb _ CbStarting | EvCb _ CbStopping => true | _ => false end.
End Spec.
