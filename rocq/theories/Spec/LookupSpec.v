(** getControllerByName, which takes no lock: it reads which list is current, then goes through that list. *)
From Coq Require Import List String Arith Bool ZArith.
From Verif.Model Require Import Base Scheduler Controller Manager ManagerConc.
From Verif.Spec Require Import ManagerSpec ConcSpec.
Import ListNotations.

Section Lookup.
Context {W : Type}.
Notation config := (config W).

(** The realtime thread is in the middle of a cycle: between taking a controller list and the end of update().  All
    starting(), update() and stopping() code runs here. *)
Definition in_cycle (c : config) : Prop := match rt c with RIdle | RGot _ => False | _ => True end.
(** ... and ros has not been shut down *)
Definition in_cycle_ok (c : config) : Prop := in_cycle c /\ rosok c = true.

(** Going through a controller list for a name. *)
Definition find_in (l : list entry) (n : string) : option ptr :=
  option_map e_ptr (find (fun e => String.eqb (e_name e) n) l).
End Lookup.
