(** The repository's own unit tests, run on the model: what they need beyond the model itself.  These files are tests of the
    model against the behaviour its authors expected of the code, not part of any proof. *)
From Coq Require Import ZArith String List Bool Ascii.
From Flocq Require Import IEEE754.BinarySingleNaN.
From Verif.Model Require Import Base Num Hardware Joint Transmission.
Import ListNotations.
Local Open Scope Z_scope.

(** fmod on finite doubles: exact *)
Definition b64_fmod (x y : B64) : B64 :=
  match x, y with
  | B754_zero _, B754_finite _ _ _ _ => x
  | B754_finite sx mx ex _, B754_finite _ my ey _ =>
      let g := Z.min ex ey in
      let r := (Zpos mx * 2 ^ (ex - g)) mod (Zpos my * 2 ^ (ey - g)) in
      binary_normalize 53 1024 eq_refl eq_refl mode_NE (if sx then - r else r) g sx
  | _, _ => B754_nan
  end.
(** M_PI = 0x1.921fb54442d18p+1 *)
Definition b64_pi : B64 := @B754_finite 53 1024 false 7074237752028440 (-51) eq_refl.
(** Enough of <cmath> for the tests; the trigonometric functions are not reached by any of them. *)
Definition test_trig : Trig B64 := {|
  npi := b64_pi;
  nfmod := b64_fmod;
  nsqrt := Bsqrt mode_NE;
  nsin := fun _ => B754_nan;
  ncos := fun _ => B754_nan;
  nasin := fun _ => B754_nan;
  nacos := fun _ => B754_nan |}.

(** EXPECT_NEAR(a, b, 1e-6) *)
Definition near (a b : B64) : bool := (nabs (a - b) <=? ndec 1 6)%num.
(** m / 10^k, for operands that are exact doubles: the double nearest to the decimal *)
Definition dec (m k : Z) : B64 := ndec m k.
