(** Simulated calibration flags, independently of the code.  A joint has a rising and/or a falling reference position;
    going up, the flag turns high at the rising reference and low at the falling one.  A continuous joint sees its
    references again every turn; if it has only one, the other is half a turn away. *)
From Coq Require Import List Reals ZArith.
From Verif.Model Require Import Base Num Joint Hardware Transmission.
Local Open Scope R_scope.

Definition rising_of (u : ujoint R) : option R := match uj_calib u with Some k => cal_rising k | None => None end.
Definition falling_of (u : ujoint R) : option R := match uj_calib u with Some k => cal_falling k | None => None end.
Definition continuous (u : ujoint R) : Prop := uj_type u = JCONTINUOUS.

(** the references of a continuous joint *)
Inductive turn_references (u : ujoint R) : R -> R -> Prop :=
| refs_both r f : rising_of u = Some r -> falling_of u = Some f -> turn_references u r f
| refs_rising r : rising_of u = Some r -> falling_of u = None -> turn_references u r (r + PI)
| refs_falling f : rising_of u = None -> falling_of u = Some f -> turn_references u (f + PI) f.

(** where the rising (falling) reference can be seen *)
Definition rising_at (u : ujoint R) (x : R) : Prop :=
  (~ continuous u /\ rising_of u = Some x) \/
  (continuous u /\ exists r f k, turn_references u r f /\ x = r + 2 * PI * IZR k).
Definition falling_at (u : ujoint R) (x : R) : Prop :=
  (~ continuous u /\ falling_of u = Some x) \/
  (continuous u /\ exists r f k, turn_references u r f /\ x = f + 2 * PI * IZR k).

Definition between (p p' x : R) : Prop := p <= x <= p' \/ p' <= x <= p.

(** The joint's position as the calibration sees it. *)
Definition cpos (j : jointstate R) : R := position j - reference_position j.

(** The calibration part of an actuator's state. *)
Definition same_edges {T} (a a' : actuator T) : Prop := 
  a_rising_valid a' = a_rising_valid a /\ a_last_rising a' = a_last_rising a /\
  a_falling_valid a' = a_falling_valid a /\ a_last_falling a' = a_last_falling a.

(** A history of calls for one joint, from a new simulator on: nobody else touches the actuator's calibration fields. *)
Definition cal_history (dbg : bool) (u : ujoint R) (cs : nat -> calsim R) (J : nat -> jointstate R) (before after : nat -> actuator R) : Prop :=
  (exists g1 g2 g3 g4 b1 b2, cs 0%nat = new_calsim g1 g2 g3 g4 b1 b2) /\
  (forall n, js_joint (J n) = Some u) /\
  (forall n, simulateJointCalibration dbg (cs n) (J n) (before n) = Ok (cs (S n), after n)) /\
  (forall n, same_edges (after n) (before (S n)) /\ a_calibration_reading (before (S n)) = a_calibration_reading (after n)).
