(** The gripper linkage, independently of the code: a triangle with two fixed sides [a], [b] enclosing the angle [phi],
    whose third side (together with the offset [h]) is driven by a screw; the finger of length [r] turns with [phi]. *)
From Coq Require Import List String Reals.
From Verif.Model Require Import Base Num Joint Hardware Xml Transmission Gripper.
Import ListNotations.
Local Open Scope R_scope.

(** actuator angle -> motor revolutions -> length of the screw *)
Definition revolutions (t : gripper R) (p : R) : R := p / gr_red t * (1 / (2 * PI)).
Definition pitch (t : gripper R) : R := gr_screw t / gr_gear t.
Definition screw_length (t : gripper R) (p : R) : R := gr_L0 t + revolutions t p * pitch t.
(** the finger's angle and the (full) gap between the finger tips *)
Definition finger_angle (t : gripper R) (phi : R) : R := gr_theta0 t - gr_phi0 t + phi.
Definition gap_of (t : gripper R) (phi : R) : R := 2 * (gr_t0 t + gr_r t * (sin (finger_angle t phi) - sin (gr_theta0 t))).

(** A mechanically possible parameter set. *)
Definition mechanism (t : gripper R) : Prop :=
  0 < gr_a t /\ 0 < gr_b t /\ gr_r t <> 0 /\ gr_red t <> 0 /\ 0 < gr_screw t /\ 0 < gr_gear t.

(** With the actuator at angle [p] the linkage angle is [phi] (law of cosines); the actuator is in the linkage's range. *)
Definition linkage (t : gripper R) (p phi : R) : Prop :=
  0 <= phi <= PI /\
  screw_length t p * screw_length t p + gr_h t * gr_h t
    = gr_a t * gr_a t + gr_b t * gr_b t - 2 * gr_a t * gr_b t * cos phi.

(** The fingers have not turned past a quarter turn and the screw is not pushed through zero length. *)
Definition upright (t : gripper R) (p phi : R) : Prop :=
  0 <= screw_length t p /\ - (PI / 2) <= finger_angle t phi <= PI / 2.

(** Away from the singular configurations by the code's tolerance, and not turned below zero. *)
Definition regular (t : gripper R) (p phi : R) : Prop :=
  0 <= revolutions t p /\ 0 < screw_length t p /\ - (PI / 2) < finger_angle t phi < PI / 2 /\
  1 / 100000 < sin phi * sin phi /\ 1 / 100000 < cos (finger_angle t phi) * cos (finger_angle t phi).

(** The joint vector: gap joint, passive finger joints, screw joint, slider joint. *)
Definition gripper_vector (t : gripper R) (j0 : nat) (ps : list nat) (rest js : list nat) : Prop :=
  js = j0 :: ps ++ rest /\ List.length ps = List.length (gr_passive t) /\
  List.length rest = (if gr_has_passive t then 2%nat else 1%nat) /\ NoDup js.

(** the joints a description declares *)
Definition names_passive_actuated (s : xml) : bool := match Attribute s "passive_actuated_joint"%string with Some _ => true | None => false end.
Definition declared_simulated (ss : list xml) : nat := (List.length ss + List.length (filter names_passive_actuated ss))%nat.

(** ** C93: where a function of <math.h> is defined *)
From Flocq Require Import Core.Core IEEE754.BinarySingleNaN.
(** a number of [-1, 1], or a NaN (which asin and acos hand on without a domain error) *)
Definition in_unit (x : B64) : bool := is_nan x || (is_finite x && Rle_bool (-1) (B2R x) && Rle_bool (B2R x) 1).
(** a number above zero, +infinity included *)
Definition above_zero (x : B64) : bool :=
  match x with B754_infinity s => negb s | B754_nan => false | _ => Rlt_bool 0 (B2R x) end.
(** A mathematics library that agrees with [M] except where asin, acos and sqrt have no business being called:
    there they answer whatever [f], [g] and [h] say. *)
Definition replaced (M : Trig B64) (f g h : B64 -> B64) : Trig B64 := {|
  npi := npi;
  nfmod := nfmod;
  nsqrt := fun x => if above_zero x then nsqrt x else h x;
  nsin := nsin;
  ncos := ncos;
  nasin := fun x => if in_unit x then nasin x else f x;
  nacos := fun x => if in_unit x then nacos x else g x |}.
