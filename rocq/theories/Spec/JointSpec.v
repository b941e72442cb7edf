(** Vocabulary for the joint properties: IEEE-754 comparisons and windows of a sampling history. *)
From Coq Require Import List Bool Reals ZArith.
From Flocq Require Import Core.Raux IEEE754.BinarySingleNaN.
From Verif.Model Require Import Base Num Joint.
Import ListNotations.

(** IEEE comparisons; false as soon as an operand is NaN *)
Definition fle (x y : B64) : Prop := Bleb x y = true.
Definition flt (x y : B64) : Prop := Bltb x y = true.
Definition not_nan (x : B64) : Prop := is_nan x = false.
Definition finite (x : B64) : Prop := is_finite x = true.
Definition f0 : B64 := B754_zero false.

(** the joint has both a <limit> and a <safety_controller> *)
Definition has_safety {T} (j : jointstate T) (u : ujoint T) (sf : jsafety T) (lm : jlimits T) : Prop :=
  js_joint j = Some u /\ uj_safety u = Some sf /\ uj_limits u = Some lm.

(** a joint whose position is watched: calibrated and of bounded type *)
Definition position_watched {T} (j : jointstate T) (u : ujoint T) : Prop :=
  calibrated j = true /\ (uj_type u = JREVOLUTE \/ uj_type u = JPRISMATIC).

(** everything but the commanded effort is the same *)
Definition same_but_command {T} (j j' : jointstate T) : Prop :=
  js_joint j' = js_joint j /\ position j' = position j /\ velocity j' = velocity j /\
  measured_effort j' = measured_effort j /\ joint_statistics j' = joint_statistics j /\
  calibrated j' = calibrated j /\ reference_position j' = reference_position j.

(** What happens to the statistics of a joint: a control cycle samples it, a publication resets it. *)
Inductive stat_op (T : Type) := Sampled (j : jointstate T) | Published.
Arguments Sampled {T}. Arguments Published {T}.

Inductive history_yields {T} (N : Num T) : list (stat_op T) -> jstats T -> Prop :=
| hy_new g : history_yields N [] (new_jstats g)
| hy_sample h s j s' : history_yields N h s -> stats_update s j = Ok s' -> history_yields N (h ++ [Sampled j]) s'
| hy_publish h s : history_yields N h s -> history_yields N (h ++ [Published]) (stats_reset s).

(** total absolute displacement of a sequence of positions, starting from [p] *)
Fixpoint displacement (p : R) (l : list R) : R :=
  match l with [] => 0 | q :: l' => Rabs (p - q) + displacement q l' end.
