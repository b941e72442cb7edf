(** Vocabulary for published execution times (C90), independent of how they are accumulated. *)
From Coq Require Import List ZArith Reals.
Import ListNotations.
Local Open Scope R_scope.

(** a duration of [d] nanoseconds, in seconds *)
Definition seconds (d : Z) : R := IZR d / 1000000000.
(** what a ros::Duration can hold: 32 bits of seconds *)
Definition representable (d : Z) : Prop := (Z.abs d <= 2147483648 * 1000000000)%Z.

Definition total (l : list R) : R := fold_right Rplus 0 l.
Definition longest (l : list R) (x : R) : Prop := In x l /\ forall y, In y l -> y <= x.
Definition average (l : list R) : R := total l / INR (List.length l).
(** root mean square distance from the average *)
Definition deviation (l : list R) : R := sqrt (total (map (fun x => (x - average l) * (x - average l)) l) / INR (List.length l)).
