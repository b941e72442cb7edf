(** pr2_mechanism_diagnostics: joint_diagnostics.h/.cpp, controller_diagnostics.h/.cpp, pr2_mechanism_diagnostics.h/.cpp: the
    node that turns mechanism_statistics messages into diagnostics.

    Numbers are binary64.  Times and durations are in nanoseconds; the comparisons [toSec() > 3] and [toSec() < 30] are made on
    nanoseconds (the conversion to double is monotone and exact at 3 and 30 seconds).  The conversion of the values to text is
    not modelled. *)
From Coq Require Import List String Arith Bool ZArith.
From Flocq Require Import IEEE754.BinarySingleNaN.
From Verif.Model Require Import Base Num Manager System.
Import ListNotations.
Open Scope string_scope.

(** diagnostic_msgs::DiagnosticStatus *)
Inductive level := OK | WARN | ERROR.
(** a value as passed to DiagnosticStatusWrapper::add, before it is converted to text *)
Inductive value :=
| VDouble (x : B64)
| VBool (b : bool)
| VInt (n : nat)
| VTime (t : Z)
| VText (s : string)
| VMean (samples : list Z) | VMax (samples : list Z) | VVariance (samples : list Z) | VPercent (samples : list Z).
Record dstatus := mkStatus { ds_name : string; ds_level : level; ds_message : string; ds_values : list (string * value) }.

(** joint_diagnostics.h:60-67 is_valid: zero, or boost::math::isnormal (a binary64 number is normal iff its significand has 53
    bits) *)
Definition is_valid (t : B64) : bool :=
  if (t =? nzero)%num then true
  else match t with
       | B754_finite _ m _ _ => (Zpos m >=? 2 ^ 52)%Z
       | _ => false
       end.

(** joint_diagnostics.h:76-104 class JointStats *)
Record jdiag := mkJdiag {
  jd_time : Z;  (** updateTime *)
  jd_reset : bool;  (** needs_reset (mutable) *)
  jd_name : string;
  jd_position : B64;
  jd_velocity : B64;
  jd_measured : B64;  (** measured_effort *)
  jd_commanded : B64;  (** commanded_effort *)
  jd_calibrated : bool;  (** is_calibrated *)
  jd_limits : bool;  (** violated_limits *)
  jd_odometer : B64;
  jd_maxpos : B64;  (** max_pos_val *)
  jd_minpos : B64;  (** min_pos_val *)
  jd_maxvel : B64;  (** max_abs_vel_val *)
  jd_maxeff : B64 }.  (** max_abs_eff_val *)
Definition set_jd_time (x : Z) (r : jdiag) : jdiag := mkJdiag x (jd_reset r) (jd_name r) (jd_position r) (jd_velocity r) (jd_measured r) (jd_commanded r) (jd_calibrated r) (jd_limits r) (jd_odometer r) (jd_maxpos r) (jd_minpos r) (jd_maxvel r) (jd_maxeff r).
Definition set_jd_reset (x : bool) (r : jdiag) : jdiag := mkJdiag (jd_time r) x (jd_name r) (jd_position r) (jd_velocity r) (jd_measured r) (jd_commanded r) (jd_calibrated r) (jd_limits r) (jd_odometer r) (jd_maxpos r) (jd_minpos r) (jd_maxvel r) (jd_maxeff r).
Definition set_jd_name (x : string) (r : jdiag) : jdiag := mkJdiag (jd_time r) (jd_reset r) x (jd_position r) (jd_velocity r) (jd_measured r) (jd_commanded r) (jd_calibrated r) (jd_limits r) (jd_odometer r) (jd_maxpos r) (jd_minpos r) (jd_maxvel r) (jd_maxeff r).
Definition set_jd_position (x : B64) (r : jdiag) : jdiag := mkJdiag (jd_time r) (jd_reset r) (jd_name r) x (jd_velocity r) (jd_measured r) (jd_commanded r) (jd_calibrated r) (jd_limits r) (jd_odometer r) (jd_maxpos r) (jd_minpos r) (jd_maxvel r) (jd_maxeff r).
Definition set_jd_velocity (x : B64) (r : jdiag) : jdiag := mkJdiag (jd_time r) (jd_reset r) (jd_name r) (jd_position r) x (jd_measured r) (jd_commanded r) (jd_calibrated r) (jd_limits r) (jd_odometer r) (jd_maxpos r) (jd_minpos r) (jd_maxvel r) (jd_maxeff r).
Definition set_jd_measured (x : B64) (r : jdiag) : jdiag := mkJdiag (jd_time r) (jd_reset r) (jd_name r) (jd_position r) (jd_velocity r) x (jd_commanded r) (jd_calibrated r) (jd_limits r) (jd_odometer r) (jd_maxpos r) (jd_minpos r) (jd_maxvel r) (jd_maxeff r).
Definition set_jd_commanded (x : B64) (r : jdiag) : jdiag := mkJdiag (jd_time r) (jd_reset r) (jd_name r) (jd_position r) (jd_velocity r) (jd_measured r) x (jd_calibrated r) (jd_limits r) (jd_odometer r) (jd_maxpos r) (jd_minpos r) (jd_maxvel r) (jd_maxeff r).
Definition set_jd_calibrated (x : bool) (r : jdiag) : jdiag := mkJdiag (jd_time r) (jd_reset r) (jd_name r) (jd_position r) (jd_velocity r) (jd_measured r) (jd_commanded r) x (jd_limits r) (jd_odometer r) (jd_maxpos r) (jd_minpos r) (jd_maxvel r) (jd_maxeff r).
Definition set_jd_limits (x : bool) (r : jdiag) : jdiag := mkJdiag (jd_time r) (jd_reset r) (jd_name r) (jd_position r) (jd_velocity r) (jd_measured r) (jd_commanded r) (jd_calibrated r) x (jd_odometer r) (jd_maxpos r) (jd_minpos r) (jd_maxvel r) (jd_maxeff r).
Definition set_jd_odometer (x : B64) (r : jdiag) : jdiag := mkJdiag (jd_time r) (jd_reset r) (jd_name r) (jd_position r) (jd_velocity r) (jd_measured r) (jd_commanded r) (jd_calibrated r) (jd_limits r) x (jd_maxpos r) (jd_minpos r) (jd_maxvel r) (jd_maxeff r).
Definition set_jd_maxpos (x : B64) (r : jdiag) : jdiag := mkJdiag (jd_time r) (jd_reset r) (jd_name r) (jd_position r) (jd_velocity r) (jd_measured r) (jd_commanded r) (jd_calibrated r) (jd_limits r) (jd_odometer r) x (jd_minpos r) (jd_maxvel r) (jd_maxeff r).
Definition set_jd_minpos (x : B64) (r : jdiag) : jdiag := mkJdiag (jd_time r) (jd_reset r) (jd_name r) (jd_position r) (jd_velocity r) (jd_measured r) (jd_commanded r) (jd_calibrated r) (jd_limits r) (jd_odometer r) (jd_maxpos r) x (jd_maxvel r) (jd_maxeff r).
Definition set_jd_maxvel (x : B64) (r : jdiag) : jdiag := mkJdiag (jd_time r) (jd_reset r) (jd_name r) (jd_position r) (jd_velocity r) (jd_measured r) (jd_commanded r) (jd_calibrated r) (jd_limits r) (jd_odometer r) (jd_maxpos r) (jd_minpos r) x (jd_maxeff r).
Definition set_jd_maxeff (x : B64) (r : jdiag) : jdiag := mkJdiag (jd_time r) (jd_reset r) (jd_name r) (jd_position r) (jd_velocity r) (jd_measured r) (jd_commanded r) (jd_calibrated r) (jd_limits r) (jd_odometer r) (jd_maxpos r) (jd_minpos r) (jd_maxvel r) x.

(** joint_diagnostics.cpp:58-71 constructor.  (updateTime is the zero time.) *)
Definition new_jdiag (name : string) : jdiag :=
  mkJdiag 0 true name nzero nzero nzero nzero false false nzero (- nmaxval)%num nmaxval (- nmaxval)%num (- nmaxval)%num.

(** joint_diagnostics.cpp:74-82 *)
Definition reset_vals (d : jdiag) : jdiag :=
  let d := set_jd_reset false d in
  let d := set_jd_maxpos (- nmaxval)%num d in
  let d := set_jd_minpos nmaxval d in
  let d := set_jd_maxvel (- nmaxval)%num d in
  set_jd_maxeff (- nmaxval)%num d.

(** joint_diagnostics.cpp:85-134 toDiagStat, at time [now].  summary() overwrites level and message.  The second component is
    the object afterwards (needs_reset is mutable). *)
Definition jdiag_report (now : Z) (d : jdiag) : dstatus * jdiag :=
  let '(l, msg) := if jd_calibrated d then (OK, "OK") else (WARN, "Uncalibrated") in
  let '(l, msg) := if (now - jd_time d >? 3000000000)%Z then (ERROR, "No updates") else (l, msg) in
  let '(l, msg) := if negb (is_valid (jd_position d)) || negb (is_valid (jd_velocity d))
                      || negb (is_valid (jd_measured d)) || negb (is_valid (jd_commanded d))
                   then (ERROR, "NaN Values in Joint State") else (l, msg) in
  (mkStatus ("Joint (" ++ jd_name d ++ ")") l msg
     ([("Position", VDouble (jd_position d)); ("Velocity", VDouble (jd_velocity d));
       ("Measured Effort", VDouble (jd_measured d)); ("Commanded Effort", VDouble (jd_commanded d));
       ("Calibrated", VBool (jd_calibrated d)); ("Odometer", VDouble (jd_odometer d))]
      ++ (if jd_calibrated d
          then [("Max Position", VDouble (jd_maxpos d)); ("Min Position", VDouble (jd_minpos d));
                ("Max Abs. Velocity", VDouble (jd_maxvel d)); ("Max Abs. Effort", VDouble (jd_maxeff d))]
          else [("Max Position", VText "N/A"); ("Min Position", VText "N/A");
                ("Max Abs. Velocity", VText "N/A"); ("Max Abs. Effort", VText "N/A")])
      ++ [("Limits Hit", VBool (jd_limits d))])%list,
   set_jd_reset true d).

(** joint_diagnostics.cpp:136-166 update, at time [now] *)
Definition jdiag_update (now : Z) (js : jstat B64) (d : jdiag) : bool * jdiag :=
  if negb (String.eqb (jd_name d) (jo_name js)) then (false, d) else
  let d := if jd_reset d then reset_vals d else d in
  let d := if jo_is_calibrated js then
             let d := set_jd_maxpos (nmax (jd_maxpos d) (jo_max_position js)) d in
             let d := set_jd_minpos (nmin (jd_maxpos d) (jo_min_position js)) d in
             let d := set_jd_maxvel (nmax (jd_maxvel d) (jo_max_abs_velocity js)) d in
             set_jd_maxeff (nmax (jd_maxeff d) (jo_max_abs_effort js)) d
           else d in
  let d := set_jd_position (jo_position js) d in
  let d := set_jd_velocity (jo_velocity js) d in
  let d := set_jd_measured (jo_measured_effort js) d in
  let d := set_jd_commanded (jo_commanded_effort js) d in
  let d := set_jd_calibrated (jo_is_calibrated js) d in
  let d := set_jd_limits (jo_violated_limits js) d in
  let d := set_jd_odometer (jo_odometer js) d in
  (true, set_jd_time now d).

(** controller_diagnostics.h:58-88 class ControllerStats *)
Record cdiag := mkCdiag {
  cd_time : Z;  (** updateTime *)
  cd_name : string;
  cd_stamp : Z;  (** timestamp *)
  cd_running : bool;
  cd_samples : list Z;  (** max_time, mean_time and variance_time: the execution times they summarise, see Manager.v *)
  cd_overruns : nat;  (** num_overruns *)
  cd_last_overrun : Z;  (** last_overrun_time *)
  cd_nowarn : bool }.  (** disable_warnings_ *)
Definition set_cd_time (x : Z) (r : cdiag) : cdiag := mkCdiag x (cd_name r) (cd_stamp r) (cd_running r) (cd_samples r) (cd_overruns r) (cd_last_overrun r) (cd_nowarn r).
Definition set_cd_name (x : string) (r : cdiag) : cdiag := mkCdiag (cd_time r) x (cd_stamp r) (cd_running r) (cd_samples r) (cd_overruns r) (cd_last_overrun r) (cd_nowarn r).
Definition set_cd_stamp (x : Z) (r : cdiag) : cdiag := mkCdiag (cd_time r) (cd_name r) x (cd_running r) (cd_samples r) (cd_overruns r) (cd_last_overrun r) (cd_nowarn r).
Definition set_cd_running (x : bool) (r : cdiag) : cdiag := mkCdiag (cd_time r) (cd_name r) (cd_stamp r) x (cd_samples r) (cd_overruns r) (cd_last_overrun r) (cd_nowarn r).
Definition set_cd_samples (x : list Z) (r : cdiag) : cdiag := mkCdiag (cd_time r) (cd_name r) (cd_stamp r) (cd_running r) x (cd_overruns r) (cd_last_overrun r) (cd_nowarn r).
Definition set_cd_overruns (x : nat) (r : cdiag) : cdiag := mkCdiag (cd_time r) (cd_name r) (cd_stamp r) (cd_running r) (cd_samples r) x (cd_last_overrun r) (cd_nowarn r).
Definition set_cd_last_overrun (x : Z) (r : cdiag) : cdiag := mkCdiag (cd_time r) (cd_name r) (cd_stamp r) (cd_running r) (cd_samples r) (cd_overruns r) x (cd_nowarn r).
Definition set_cd_nowarn (x : bool) (r : cdiag) : cdiag := mkCdiag (cd_time r) (cd_name r) (cd_stamp r) (cd_running r) (cd_samples r) (cd_overruns r) (cd_last_overrun r) x.

(** controller_diagnostics.cpp:43-50 constructor; the durations are zero, as for no samples *)
Definition new_cdiag (name : string) (nowarn : bool) : cdiag := mkCdiag 0 name 0 false [] 0 0 nowarn.

(** controller_diagnostics.cpp:52-71 update, at time [now] *)
Definition cdiag_update (now : Z) (cs : cstat) (d : cdiag) : bool * cdiag :=
  if negb (String.eqb (cd_name d) (cs_name cs)) then (false, d) else
  let d := set_cd_stamp (cs_stamp cs) d in
  let d := set_cd_running (cs_running cs) d in
  let d := set_cd_samples (cs_samples cs) d in
  let d := set_cd_overruns (cs_overruns cs) d in
  let d := set_cd_last_overrun (cs_last_overrun cs) d in
  (true, set_cd_time now d).

Definition broke : string := "!!! Broke Realtime, used more than 1000 micro seconds in update loop".

(** controller_diagnostics.cpp:73-100 toDiagStat, at time [now] *)
Definition cdiag_report (now : Z) (d : cdiag) : dstatus :=
  let '(l, msg) := if cd_running d then (OK, "Running") else (OK, "Stopped") in
  let '(l, msg) := if negb (cd_nowarn d) && (0 <? cd_overruns d)%nat then
                     if (now - cd_last_overrun d <? 30000000000)%Z then (WARN, broke) else (OK, broke)
                   else (l, msg) in
  mkStatus ("Controller (" ++ cd_name d ++ ")") l msg
    [("Avg Update Time (usec)", VMean (cd_samples d)); ("Max Update Time (usec)", VMax (cd_samples d));
     ("Variance Update Time (usec)", VVariance (cd_samples d)); ("Percent of Cycle Time Used", VPercent (cd_samples d));
     ("Number of Control Loop Overruns", VInt (cd_overruns d)); ("Timestamp of Last Overrun (sec)", VTime (cd_last_overrun d))].

(** controller_diagnostics.h:82 *)
Definition shouldDiscard (now : Z) (d : cdiag) : bool := (now - cd_time d >? 3000000000)%Z.

(** std::map<std::string, A> as a list sorted by key: find, operator[] =, erase *)
Section Map.
Context {A : Type}.
Fixpoint sm_get (k : string) (m : list (string * A)) : option A :=
  match m with
  | [] => None
  | (k', v) :: m' => if String.eqb k k' then Some v else sm_get k m'
  end.
Fixpoint sm_set (k : string) (v : A) (m : list (string * A)) : list (string * A) :=
  match m with
  | [] => [(k, v)]
  | (k', v') :: m' =>
    match String.compare k k' with
    | Lt => (k, v) :: m
    | Eq => (k, v) :: m'
    | Gt => (k', v') :: sm_set k v m'
    end
  end.
Definition sm_erase (k : string) (m : list (string * A)) : list (string * A) :=
  filter (fun kv => negb (String.eqb (fst kv) k)) m.
End Map.

(** pr2_mechanism_diagnostics.h:62-85 class CtrlJntDiagnosticPublisher; [dn_nowarn] is use_sim_time_ ||
    disable_controller_warnings_ (pr2_mechanism_diagnostics.cpp:52-54,81) *)
Record dnode := mkDnode {
  dn_joints : list (string * jdiag);
  dn_ctrls : list (string * cdiag);
  dn_nowarn : bool }.
(** pr2_mechanism_diagnostics.cpp:45-56 *)
Definition new_dnode (nowarn : bool) : dnode := mkDnode [] [] nowarn.

(** pr2_mechanism_diagnostics.cpp:65-73: the objects of the map are shared pointers, never shared outside it *)
Fixpoint update_joints (now : Z) (js : list (jstat B64)) (m : list (string * jdiag)) : list (string * jdiag) :=
  match js with
  | [] => m
  | j :: js' =>
    let d := match sm_get (jo_name j) m with Some d => d | None => new_jdiag (jo_name j) end in
    update_joints now js' (sm_set (jo_name j) (snd (jdiag_update now j d)) m)
  end.
(** pr2_mechanism_diagnostics.cpp:75-82 *)
Fixpoint update_ctrls (now : Z) (nowarn : bool) (cs : list cstat) (m : list (string * cdiag)) : list (string * cdiag) :=
  match cs with
  | [] => m
  | c :: cs' =>
    let d := match sm_get (cs_name c) m with Some d => d | None => new_cdiag (cs_name c) nowarn end in
    update_ctrls now nowarn cs' (sm_set (cs_name c) (snd (cdiag_update now c d)) m)
  end.
(** pr2_mechanism_diagnostics.cpp:62-83 mechCallback; the clock is read once per callback (simplification) *)
Definition mechCallback (now : Z) (js : list (jstat B64)) (cs : list cstat) (n : dnode) : dnode :=
  mkDnode (update_joints now js (dn_joints n)) (update_ctrls now (dn_nowarn n) cs (dn_ctrls n)) (dn_nowarn n).

(** pr2_mechanism_diagnostics.cpp:85-119 publishDiag: the array published and the node afterwards; the clock is read once
    (simplification) *)
Definition publishDiag (now : Z) (n : dnode) : list dstatus * dnode :=
  let jr := map (fun kd => (fst kd, jdiag_report now (snd kd))) (dn_joints n) in
  let discard := filter (fun kd => shouldDiscard now (snd kd)) (dn_ctrls n) in
  let cr := map (fun kd => cdiag_report now (snd kd)) (dn_ctrls n) in
  let ctrls := fold_left (fun m kd => sm_erase (fst kd) m) discard (dn_ctrls n) in
  let extra := if (List.length cr =? 0)%nat
               then [mkStatus "Controller: No controllers loaded in controller manager" OK "" []] else [] in
  ((map (fun x => fst (snd x)) jr ++ cr ++ extra)%list,
   mkDnode (map (fun x => (fst x, snd (snd x))) jr) ctrls (dn_nowarn n)).

(** What happens to the node (main, pr2_mechanism_diagnostics.cpp:122-146: spinOnce runs the callbacks, then publishDiag) *)
Inductive dev :=
| DMsg (now : Z) (js : list (jstat B64)) (cs : list cstat)   (** a mechanism_statistics message is handled *)
| DReport (now : Z).                                         (** publishDiag *)
Definition dstep (n : dnode) (e : dev) : dnode :=
  match e with
  | DMsg now js cs => mechCallback now js cs n
  | DReport now => snd (publishDiag now n)
  end.
Definition drun (nowarn : bool) (h : list dev) : dnode := fold_left dstep h (new_dnode nowarn).
(** the array published at time [now] after the history [h] *)
Definition published (nowarn : bool) (h : list dev) (now : Z) : list dstatus := fst (publishDiag now (drun nowarn h)).
