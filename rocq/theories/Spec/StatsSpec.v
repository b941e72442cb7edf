(** Vocabulary for the execution-time statistics of controllers. *)
From Coq Require Import List String Arith Bool ZArith.
From Verif.Model Require Import Base Controller Manager.
Import ListNotations.

(** An update that takes longer than a millisecond overruns. *)
Definition overrun (d : Z) : Prop := (1000000 < d)%Z.
Definition overrunb (d : Z) : bool := (1000000 <? d)%Z.
Definition overruns_in (samples : list Z) : nat := List.length (filter overrunb samples).

(** The statistics [s'] are [s] after one more update that took [d] and ended at [t]. *)
Definition one_more (d t : Z) (s s' : stats) : Prop :=
  st_samples s' = st_samples s ++ [d] /\
  (overrun d -> st_overruns s' = S (st_overruns s) /\ st_last_overrun s' = t) /\
  (~ overrun d -> st_overruns s' = st_overruns s /\ st_last_overrun s' = st_last_overrun s).
