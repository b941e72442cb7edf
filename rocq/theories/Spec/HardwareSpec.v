(** Vocabulary for the hardware registry (C58): histories of registrations, and which component a name denotes. *)
From Coq Require Import List String Bool.
From Verif.Model Require Import Base Num Hardware.
Import ListNotations.

(** The eight component kinds. *)
Inductive ckind := KActuator | KPressureSensor | KAccelerometer | KForceTorque | KDigitalOut | KProjector | KAnalogIn | KCustomHW.
Definition ckind_eq_dec (a b : ckind) : {a = b} + {a <> b}. Proof. decide equality. Defined.

(** The public API, by kind. *)
Definition add (k : ckind) : string -> nat -> hwif -> hwif * bool :=
  match k with
  | KActuator => addActuator | KPressureSensor => addPressureSensor | KAccelerometer => addAccelerometer
  | KForceTorque => addForceTorque | KDigitalOut => addDigitalOut | KProjector => addProjector
  | KAnalogIn => addAnalogIn | KCustomHW => addCustomHW
  end.
Definition get (k : ckind) : hwif -> string -> option nat :=
  match k with
  | KActuator => getActuator | KPressureSensor => getPressureSensor | KAccelerometer => getAccelerometer
  | KForceTorque => getForceTorque | KDigitalOut => getDigitalOut | KProjector => getProjector
  | KAnalogIn => getAnalogIn | KCustomHW => getCustomHW
  end.

(** One registration request, with the answer it got. *)
Record registration := Reg { r_kind : ckind; r_name : string; r_ptr : nat; r_answer : bool }.

(** [registers h l h']: making the requests [l] in order leads from [h] to [h']. *)
Inductive registers : hwif -> list registration -> hwif -> Prop :=
| reg_nil : forall h, registers h [] h
| reg_cons : forall h k n p h1 b l h2, add k n p h = (h1, b) -> registers h1 l h2 -> registers h (Reg k n p b :: l) h2.

(** The first request of the history made for a name. *)
Definition first_request (l : list registration) (k : ckind) (n : string) (p : nat) : Prop :=
  exists l1 b l2, l = l1 ++ Reg k n p b :: l2 /\ forall r, In r l1 -> ~ (r_kind r = k /\ r_name r = n).
