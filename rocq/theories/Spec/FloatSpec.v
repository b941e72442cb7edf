(** Accuracy of binary64 computations: what it means that a computed [double] is close to a real number. *)
From Coq Require Import Reals ZArith.
From Flocq Require Import Core.Core IEEE754.BinarySingleNaN.
From Verif.Model Require Import Base Num Joint Hardware.
Local Open Scope R_scope.

(** The unit roundoff of binary64: one rounding changes a number by at most this relative amount. *)
Definition roundoff : R := bpow radix2 (-53).

(** A reduction of ordinary size: between 2^-100 and 2^100, either sign. *)
Definition ordinary (k : B64) : Prop :=
  is_finite k = true /\ bpow radix2 (-100) <= Rabs (B2R k) <= bpow radix2 100.

(** A measured or commanded value of moderate size: at most 2^500. *)
Definition moderate (x : B64) : Prop := is_finite x = true /\ Rabs (B2R x) <= bpow radix2 500.

(** [x] is a finite number within [n] roundings of [r], for quantities of size [M]; 2^-600 pays for underflows. *)
Definition within (n : R) (x : B64) (r M : R) : Prop :=
  is_finite x = true /\ Rabs (B2R x - r) <= n * roundoff * M + bpow radix2 (-600).

(** Moderate measurements of an actuator / a joint. *)
Definition moderate_a (a : actuator B64) : Prop :=
  moderate (a_position a) /\ moderate (a_velocity a) /\ moderate (a_last_measured_effort a).
Definition moderate_j (j : jointstate B64) : Prop :=
  moderate (position j) /\ moderate (velocity j) /\ moderate (measured_effort j) /\ moderate (reference_position j).
