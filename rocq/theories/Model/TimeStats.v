(** controller_spec.h:49-52 TimeStatistics: what the accumulator of a controller's update times returns for the samples it was
    fed (Model/Manager.v keeps the samples).  The recurrences are boost's: statistics/max.hpp, mean.hpp (mean and
    immediate_mean) and variance.hpp (tag::variance, which uses the immediate mean).  They are third party code, read as
    documented; only which of them is instantiated and how it is used is in the repository. *)
From Coq Require Import List ZArith Reals.
From Verif.Model Require Import Base Num Transmission Controller Manager.
Import ListNotations.

Section Acc.
Context {T : Type} {N : Num T} {G : Trig T}.
Local Open Scope num_scope.

Record timeacc := mkTimeAcc {
  ta_count : Z;
  ta_sum : T;
  ta_max : T;
  ta_mean : T;   (** immediate_mean *)
  ta_var : T }.
(** controller_spec.h:60: the accumulator of a new Statistics; the maximum starts at the lowest double *)
Definition new_timeacc : timeacc := mkTimeAcc 0 nzero (- nmaxval) nzero nzero.

(** acc(x): every feature is updated, count first *)
Definition ta_add (a : timeacc) (x : T) : timeacc :=
  let n := (ta_count a + 1)%Z in
  let mean := (ta_mean a * nofZ (n - 1) + x) / nofZ n in
  mkTimeAcc n (ta_sum a + x) (if ta_max a <? x then x else ta_max a) mean
    (if (1 <? n)%Z
     then ta_var a * nofZ (n - 1) / nofZ n + (x - mean) * (x - mean) / nofZ (n - 1)
     else ta_var a).

(** controller_manager.cpp:154: the samples are durations in seconds *)
Definition accumulated (samples : list Z) : timeacc := fold_left (fun a d => ta_add a (ntosec d)) samples new_timeacc.

(** controller_manager.cpp:666-668, in seconds (the conversion to ros::Duration rounds to nanoseconds and is left out) *)
Definition max_time (c : cstat) : T := ta_max (accumulated (cs_samples c)).
Definition mean_time (c : cstat) : T := let a := accumulated (cs_samples c) in ta_sum a / nofZ (ta_count a).
Definition variance_time (c : cstat) : T := nsqrt (ta_var (accumulated (cs_samples c))).
End Acc.
Arguments timeacc : clear implicits.
