(** The C++ type [double], abstractly: the operations the code uses, with two interpretations, the real numbers
    (no rounding) and IEEE-754 binary64 (Flocq).  (No /repo code of its own: language level.) *)
From Coq Require Import Reals ZArith Bool.
From Flocq Require Import Core.Zaux Core.Raux IEEE754.BinarySingleNaN.

Class Num (T : Type) := {
  nadd : T -> T -> T;
  nsub : T -> T -> T;
  nmul : T -> T -> T;
  ndiv : T -> T -> T;
  nopp : T -> T;
  nabs : T -> T;                (** fabs *)
  nltb : T -> T -> bool;        (** [<] : false if an operand is NaN *)
  nleb : T -> T -> bool;
  neqb : T -> T -> bool;
  nofZ : Z -> T;                (** conversion from an integer *)
  nmaxval : T }.                (** std::numeric_limits<double>::max() *)

Declare Scope num_scope.
Delimit Scope num_scope with num.
Infix "+" := nadd : num_scope.
Infix "-" := nsub : num_scope.
Infix "*" := nmul : num_scope.
Infix "/" := ndiv : num_scope.
Notation "- x" := (nopp x) : num_scope.
Infix "<?" := nltb : num_scope.
Infix "<=?" := nleb : num_scope.
Infix "=?" := neqb : num_scope.

(** ** binary64, round to nearest even *)
Definition B64 := binary_float 53 1024.
#[global] Instance b64_prec_gt_0 : FLX.Prec_gt_0 53 := eq_refl.
#[global] Instance b64_prec_lt_emax : Prec_lt_emax 53 1024 := eq_refl.
(** DBL_MAX = (2^53 - 1) 2^971 *)
Definition b64_max : B64 := @B754_finite 53 1024 false 9007199254740991 971 eq_refl.
#[global] Instance num_b64 : Num B64 := {|
  nadd := Bplus mode_NE;
  nsub := Bminus mode_NE;
  nmul := Bmult mode_NE;
  ndiv := Bdiv mode_NE;
  nopp := Bopp;
  nabs := Babs;
  nltb := Bltb;
  nleb := Bleb;
  neqb := Beqb;
  nofZ := fun z => binary_normalize 53 1024 eq_refl eq_refl mode_NE z 0 false;
  nmaxval := b64_max |}.

(** ** the real numbers *)
#[global] Instance num_R : Num R := {|
  nadd := Rplus;
  nsub := Rminus;
  nmul := Rmult;
  ndiv := Rdiv;
  nopp := Ropp;
  nabs := Rabs;
  nltb := Rlt_bool;
  nleb := Rle_bool;
  neqb := Req_bool;
  nofZ := IZR;
  nmaxval := (IZR 9007199254740991 * bpow radix2 971)%R |}.

Section Derived.
Context {T : Type} `{Num T}.
Local Open Scope num_scope.
Definition nzero : T := nofZ 0.
Definition none_ : T := nofZ 1.
Definition ntwo : T := nofZ 2.
Definition nhalf : T := nofZ 1 / nofZ 2.
(** a decimal literal m * 10^-k, correctly rounded as long as m < 2^53 and k <= 22 *)
Definition ndec (m k : Z) : T := nofZ m / nofZ (10 ^ k).
(** isnan *)
Definition nisnan (x : T) : bool := negb (x =? x).
(** std::max(a,b) / std::min(a,b) of <algorithm>: [(a < b) ? b : a] and [(b < a) ? b : a] *)
Definition nmax (a b : T) : T := if a <? b then b else a.
Definition nmin (a b : T) : T := if b <? a then b else a.
(** C99 fmin / fmax: a NaN operand is ignored *)
Definition nfmin (a b : T) : T := if nisnan a then b else if nisnan b then a else if a <? b then a else b.
Definition nfmax (a b : T) : T := if nisnan a then b else if nisnan b then a else if a <? b then b else a.
(** ros::Duration::toSec() (rostime: sec + 1e-9 * nsec with 0 <= nsec < 10^9) of a duration in nanoseconds *)
Definition ntosec (d : Z) : T := nofZ (d / 1000000000) + ndec 1 9 * nofZ (d mod 1000000000).
End Derived.
