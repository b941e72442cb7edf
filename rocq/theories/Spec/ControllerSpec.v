(** The callback protocol promised to controller authors, as a property of a callback history. *)
From Coq Require Import List.
From Verif.Model Require Import Controller.
Import ListNotations.

(** Nothing but init happens before a successful init, and init succeeds at most once. *)
Definition init_first (tr : list callback) : Prop :=
  forall pre cb post, tr = pre ++ cb :: post ->
    match cb with
    | CbInit _ => ~ In (CbInit true) pre
    | _ => In (CbInit true) pre
    end.

(** update happens only after a starting with no stopping in between. *)
Definition update_only_started (tr : list callback) : Prop :=
  forall pre post, tr = pre ++ CbUpdate :: post ->
    exists p1 p2, pre = p1 ++ CbStarting :: p2 /\ ~ In CbStopping p2.

(** Has the controller been started and not been stopped since? *)
Definition started (tr : list callback) : Prop :=
  exists p1 p2, tr = p1 ++ CbStarting :: p2 /\ ~ In CbStopping p2.
