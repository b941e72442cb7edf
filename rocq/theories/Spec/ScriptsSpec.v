(** Vocabulary for the claims about the client scripts. *)
From Coq Require Import List String Bool ZArith.
From Verif.Model Require Import Base Scheduler Controller Manager Scripts.
From Verif.Spec Require Import ManagerSpec.
Import ListNotations.

Section Spec.
Context {W : Type}.

(** Nobody else: only the realtime cycle and the outside world go on. *)
Definition alone (o : op (W := W)) (m : mgr W) : Prop :=
  match o with OpUpdate _ _ => True | OpEnv _ => True | _ => False end.

(** Everybody else leaves the controllers named [ns] alone (stopping them is tolerated), and no controller
    outside [ns] depends on one of them. *)
Definition keeps_off (ns : list string) (o : op (W := W)) : Prop :=
  match o with
  | OpLoad _ n => ~ In n ns
  | OpUnload n => ~ In n ns
  | OpSwitch start _ _ => forall n, In n start -> ~ In n ns
  | OpUpdate _ _ => True
  | OpEnv _ => True
  | OpNewLoader => True
  end.
Definition no_outside_dependents (ns : list string) (m : mgr W) : Prop :=
  forall e d, In e (loaded m) -> In d (dep_names m (e_ptr e)) -> In d ns -> In (e_name e) ns.
Definition respectful (ns : list string) (o : op (W := W)) (m' : mgr W) : Prop :=
  keeps_off ns o /\ no_outside_dependents ns m'.

(** The loaded controllers with a name in [ns]. *)
Definition named (ns : list string) (m : mgr W) : list entry :=
  filter (fun e => if in_dec string_dec (e_name e) ns then true else false) (loaded m).

(** A controller called [n] is loaded and running. *)
Definition is_running (m : mgr W) (n : string) : Prop :=
  exists e, In e (loaded m) /\ e_name e = n /\ running m (e_ptr e).

(** Loading [n] succeeds whenever no controller of that name is loaded, and [n] asks for no other one. *)
Definition stands_alone (env : plugin_env) (n : string) : Prop :=
  pe_node_ok env n = true /\
  exists ty pr, creates env n ty pr /\
    forall prov, run_init (Some prov) pr no_deps = (InitRet true, no_deps).
End Spec.
