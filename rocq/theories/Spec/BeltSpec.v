(** Vocabulary for the belt transmission. *)
From Coq Require Import List Reals ZArith.
From Verif.Model Require Import Base Num Joint Hardware Transmission Belt.
Local Open Scope R_scope.

(** [u] converges to [l] at a geometric rate. *)
Definition geometric (u : nat -> R) (l : R) : Prop :=
  exists C q, 0 <= q < 1 /\ forall n, Rabs (u n - l) <= C * q ^ n.

(** The transmission was configured with sane filter parameters (what initXml produces for positive bandwidths). *)
Definition sane (t : belt R) : Prop := 0 < bt_ljoint t /\ 0 <= bt_lcombo t /\ 0 <= bt_tau t.

(** Two transmission objects agree on everything the position estimate depends on (they may differ in the effort
    damping, simulation and calibration parts, which other calls change between position updates). *)
Definition same_filter {T} (t t' : belt T) : Prop :=
  bt_last_ts t' = bt_last_ts t /\ bt_red t' = bt_red t /\ bt_compl t' = bt_compl t /\ bt_tau t' = bt_tau t /\
  bt_ljoint t' = bt_ljoint t /\ bt_lcombo t' = bt_lcombo t /\ bt_mpos t' = bt_mpos t /\ bt_mvel t' = bt_mvel t /\
  bt_j1pos t' = bt_j1pos t /\ bt_j1vel t' = bt_j1vel t /\ bt_j1acc t' = bt_j1acc t /\
  bt_dpos t' = bt_dpos t /\ bt_dvel t' = bt_dvel t /\ bt_dacc t' = bt_dacc t /\
  bt_jpos t' = bt_jpos t /\ bt_jvel t' = bt_jvel t.

(** The joint angle at which a motor at position [p] delivering effort [f] is in static equilibrium with the belt,
    in joint units: no deflection is modelled if the combination bandwidth is zero. *)
Definition static_joint (t : belt R) (p f : R) : R :=
  p / bt_red t - (if Req_EM_T (bt_lcombo t) 0 then 0 else bt_compl t * (f * bt_red t)).

(** The filter is at rest for motor position [p] and effort [f]. *)
Definition at_rest (t : belt R) (p f : R) : Prop :=
  bt_mpos t = p / bt_red t /\ bt_mvel t = 0 /\
  bt_j1pos t = p / bt_red t /\ bt_j1vel t = 0 /\ bt_j1acc t = 0 /\
  bt_dpos t = bt_compl t * (f * bt_red t) /\ bt_dvel t = 0 /\ bt_dacc t = 0 /\
  bt_jpos t = static_joint t p f /\ bt_jvel t = 0.
