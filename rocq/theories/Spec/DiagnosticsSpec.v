(** Vocabulary for the diagnostics properties: what was heard of a joint or a controller, and the bounds it must satisfy. *)
From Coq Require Import List String Bool ZArith Reals Sorted.
From Flocq Require Import Core.Zaux Core.Raux IEEE754.BinarySingleNaN.
From Verif.Model Require Import Base Num Manager System Diagnostics.
From Verif.Spec Require Import JointSpec.
Import ListNotations.
Local Open Scope list_scope.

(** What the node hears about one joint or controller: a message at a time, or a report is published. *)
Inductive heard (A : Type) := Got (t : Z) (m : A) | Reported (t : Z).
Arguments Got {A}. Arguments Reported {A}.

Definition about_joint (n : string) (h : list dev) : list (heard (jstat B64)) :=
  flat_map (fun e => match e with
                     | DMsg t js _ => map (Got t) (filter (fun j => String.eqb (jo_name j) n) js)
                     | DReport t => [Reported t] end) h.
Definition about_ctrl (n : string) (h : list dev) : list (heard cstat) :=
  flat_map (fun e => match e with
                     | DMsg t _ cs => map (Got t) (filter (fun c => String.eqb (cs_name c) n) cs)
                     | DReport t => [Reported t] end) h.

(** [m], received at [t], is the last message; reports were published at [rs] since *)
Definition last_got {A} (l : list (heard A)) (t : Z) (m : A) (rs : list Z) : Prop :=
  exists pre, l = pre ++ Got t m :: map Reported rs.
(** [w]: the messages received since the last report that precedes the latest message *)
Definition window {A} (l : list (heard A)) (w : list A) : Prop :=
  exists pre ts rs, l = pre ++ map (fun x => Got (fst x) (snd x)) (combine ts w) ++ map Reported rs /\
                    List.length ts = List.length w /\ w <> [] /\
                    (pre = [] \/ exists pre' t, pre = pre' ++ [Reported t]).

(** a number that can be a joint value: zero or a normal number *)
Definition proper (x : B64) : Prop := is_finite x = true /\ (B2R x = 0%R \/ (bpow radix2 (-1022) <= Rabs (B2R x))%R).
Definition all_proper (j : jstat B64) : Prop :=
  proper (jo_position j) /\ proper (jo_velocity j) /\ proper (jo_measured_effort j) /\ proper (jo_commanded_effort j).

(** [v] is the maximum of the numbers in [l] that are not NaN, starting from -DBL_MAX *)
Definition is_max (v : B64) (l : list B64) : Prop :=
  not_nan v /\ (forall x, In x l -> not_nan x -> fle x v) /\ fle (Bopp b64_max) v /\ (v = Bopp b64_max \/ In v l).

(** the values shown in a report *)
Definition shows (s : dstatus) (key : string) (v : value) : Prop := In (key, v) (ds_values s).

(** keys in increasing order *)
Definition sorted_names (l : list string) : Prop := Sorted.StronglySorted (fun a b => String.compare a b = Lt) l.

Definition joint_label (n : string) : string := ("Joint (" ++ n ++ ")")%string.
Definition ctrl_label (n : string) : string := ("Controller (" ++ n ++ ")")%string.
Definition no_controllers : string := "Controller: No controllers loaded in controller manager".

(** three and thirty seconds *)
Definition stale : Z := 3000000000.
Definition recent : Z := 30000000000.

(** The severity of a joint whose last message [m] was received [age] nanoseconds ago. *)
Definition joint_verdict (m : jstat B64) (age : Z) (s : dstatus) : Prop :=
  (~ all_proper m -> ds_level s = ERROR /\ ds_message s = "NaN Values in Joint State"%string) /\
  (all_proper m -> (stale < age)%Z -> ds_level s = ERROR /\ ds_message s = "No updates"%string) /\
  (all_proper m -> (age <= stale)%Z -> jo_is_calibrated m = false -> ds_level s = WARN /\ ds_message s = "Uncalibrated"%string) /\
  (all_proper m -> (age <= stale)%Z -> jo_is_calibrated m = true -> ds_level s = OK /\ ds_message s = "OK"%string).

(** The current values of the last message are shown. *)
Definition joint_values (m : jstat B64) (s : dstatus) : Prop :=
  shows s "Position" (VDouble (jo_position m)) /\ shows s "Velocity" (VDouble (jo_velocity m)) /\
  shows s "Measured Effort" (VDouble (jo_measured_effort m)) /\ shows s "Commanded Effort" (VDouble (jo_commanded_effort m)) /\
  shows s "Calibrated" (VBool (jo_is_calibrated m)) /\ shows s "Odometer" (VDouble (jo_odometer m)) /\
  shows s "Limits Hit" (VBool (jo_violated_limits m)).

(** The severity of a controller whose last message is [m], [nowarn]: warnings are switched off. *)
Definition ctrl_verdict (nowarn : bool) (m : cstat) (now : Z) (s : dstatus) : Prop :=
  ((nowarn = true \/ cs_overruns m = 0) ->
     ds_level s = OK /\ ds_message s = (if cs_running m then "Running" else "Stopped")%string) /\
  (nowarn = false -> 0 < cs_overruns m -> (now - cs_last_overrun m < recent)%Z -> ds_level s = WARN) /\
  (nowarn = false -> 0 < cs_overruns m -> (recent <= now - cs_last_overrun m)%Z -> ds_level s = OK) /\
  (nowarn = false -> 0 < cs_overruns m ->
     ds_message s = "!!! Broke Realtime, used more than 1000 micro seconds in update loop"%string).
Definition ctrl_values (m : cstat) (s : dstatus) : Prop :=
  ds_values s = [("Avg Update Time (usec)", VMean (cs_samples m)); ("Max Update Time (usec)", VMax (cs_samples m));
     ("Variance Update Time (usec)", VVariance (cs_samples m)); ("Percent of Cycle Time Used", VPercent (cs_samples m));
     ("Number of Control Loop Overruns", VInt (cs_overruns m)); ("Timestamp of Last Overrun (sec)", VTime (cs_last_overrun m))]%string.

(** A controller is kept: it was heard of, and no report since then found it older than three seconds. *)
Definition kept (l : list (heard cstat)) : Prop :=
  exists t m rs, last_got l t m rs /\ Forall (fun t' => (t' - t <= stale)%Z) rs.
