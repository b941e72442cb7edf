(** What a user of the controller manager can observe. *)
From Coq Require Import List String Bool.
From Verif.Model Require Import Base Scheduler Controller Manager.
Import ListNotations.

Section Spec.
Context {W : Type}.

(** The loaded controllers (name and object), in load order. *)
Definition loaded (m : mgr W) : list entry := lists m (cur m).
Definition loaded_names (m : mgr W) : list string := map e_name (loaded m).

(** The controller objects in the order in which a cycle runs them. *)
Definition exec_order (m : mgr W) : list ptr :=
  flat_map (fun k => match nth_error (loaded m) k with Some e => [e_ptr e] | None => [] end)
           (scheds m (cur m)).

(** The object is running / the names of the running controllers. *)
Definition running (m : mgr W) (p : ptr) : Prop := co_state (heap m p) = RUNNING.
Definition runningb (m : mgr W) (p : ptr) : bool := isRunning (co_state (heap m p)).

(** names the controller object asked for with BEFORE_ME/AFTER_ME at load time *)
Definition dep_names (m : mgr W) (p : ptr) : list string :=
  d_before (co_deps (heap m p)) ++ d_after (co_deps (heap m p)).

(** Some loaded controller depends on [n]. *)
Definition has_dependent (m : mgr W) (n : string) : Prop :=
  exists e, In e (loaded m) /\ In n (dep_names m (e_ptr e)).

(** The pointers handed out to controller [p] while it was initialised. *)
Definition handed_out (m : mgr W) (p : ptr) : list (string * ptr) := d_got (co_deps (heap m p)).

(** Everything a user can observe about the set of loaded controllers: which, in which order, and each
    one's type, state and dependencies. *)
Definition same_controllers (m m' : mgr W) : Prop :=
  loaded m' = loaded m /\ scheds m' (cur m') = scheds m (cur m) /\
  (forall e, In e (loaded m) -> heap m' (e_ptr e) = heap m (e_ptr e)) /\
  map cs_name (mstats m') = map cs_name (mstats m).
End Spec.

(** The class that the type name [ty] of a controller stands for: the class of that name; if there is none, the first
    declared class with that short name; if there is none either, the name itself. *)
Inductive class_for (env : plugin_env) (ty : string) : string -> Prop :=
| cf_class : pe_available env ty = true -> class_for env ty ty
| cf_short pre c post : pe_available env ty = false -> pe_declared env = pre ++ c :: post -> pe_short env c = ty ->
    (forall d, In d pre -> pe_short env d <> ty) -> class_for env ty c
| cf_none : pe_available env ty = false -> (forall d, In d (pe_declared env) -> pe_short env d <> ty) -> class_for env ty ty.

(** A load of [name] creates an instance of class [c], whose initialisation is the program [pr]. *)
Definition creates (env : plugin_env) (name c : string) (pr : iprog) : Prop :=
  exists ty, pe_type env name = Some ty /\ class_for env ty c /\ pe_create env c = CreateOk pr.
