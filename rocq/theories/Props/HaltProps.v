(** C81: halted motors, from the hardware's flags to the controllers' callbacks. *)
From Coq Require Import List String Arith Bool ZArith Lia Reals.
From Verif.Model Require Import Base Num Joint Hardware Xml Transmission Simple Wrist Belt Gripper Scheduler Controller Manager Robot Builtin System.
From Verif.Spec Require Import JointSpec ManagerSpec LocalSpec RobotSpec SystemSpec HaltSpec.
From Verif.Proofs Require Import Locality OverLocal RobotProofs WorldSteps SystemProofs HaltProofs CycleTotal.
From Verif.Props Require Import JointProps ManagerProps RobotProps SystemProps MotorProps.
Import ListNotations.

Lemma isHalted_spec {T} (s : rstate) (m : mem T) : isHalted s m = true <-> motors_halted s m.
Proof.
  unfold isHalted, motors_halted. rewrite existsb_exists. split.
  - intros (w & I & E). apply existsb_exists in E. destruct E as (a & J & E). eauto.
  - intros (w & a & I & J & E). exists w. split; [exact I|]. apply existsb_exists. eauto.
Qed.
Lemma isHalted_same {T} (s : rstate) (m m' : mem T) : (forall p, a_halted (m_act m' p) = a_halted (m_act m p)) -> isHalted s m' = isHalted s m.
Proof.
  intros E. unfold isHalted. induction (rs_in s) as [|w l IH]; [reflexivity|]. cbn [existsb]. rewrite IH. f_equal.
  clear IH. induction w as [|a w IH]; [reflexivity|]. cbn [existsb]. now rewrite IH, E.
Qed.

Section Halt.
Context {T X : Type} {N : Num T} {G : Trig T}.
Variables (dbg : bool) (P : parsers T) (L : loader (transmission T)).
Hypothesis HL : forall c t, ld_create L c = Some t -> is_new t.
Notation K := (builtin dbg P).
Variables (urdf : xml -> option (string -> option (ujoint T))) (config : xml) (g : T) (hw : hwif) (mem0 : mem T) (s : rstate) (p0 : plant (transmission T) T).
Hypothesis HI : cm_initXml K dbg L urdf config g hw mem0 = Ok (Some (s, p0)).
Hypothesis HU : forall e, In e (ChildElements config "transmission") -> usable L e.
Variables (tick : X -> Z * X) (cb : ptr -> callback -> X -> mem T -> X * mem T) (pm pj : Z).
Hypothesis HC : keeps_joints cb.
Hypothesis HK : keeps_halted cb.
Hypothesis HP : (0 < pm)%Z /\ (0 < pj)%Z.
Let H : hooks (sysw (transmission T) T X) := sys_hooks K dbg s tick cb pm pj.

Lemma position_acts : forall ts ins outs (m : mem T) ts' m', over_transmissions (fun t i o => tr_position K t i o) ts ins outs m = Ok (ts', m') ->
  forall p, m_act m' p = m_act m p.
Proof.
  clear. induction ts as [|t ts IH]; intros ins outs m ts' m' E p; cbn [over_transmissions] in E; [congruence|].
  destruct ins as [|i ins], outs as [|o outs]; try discriminate.
  destruct (tr_position K t i o m) as [[t1 m1]| | |] eqn:F; cbn [bind] in E; try discriminate.
  destruct (over_transmissions _ ts ins outs m1) as [[r m2]| | |] eqn:O; cbn [bind] in E; try discriminate. injection E as <- <-.
  rewrite (IH _ _ _ _ _ O). destruct (position_local dbg P t i o m) as [A _]. apply (A _ _ F).
Qed.

Lemma pre_world m : world (rt_pre H m) = snd (h_now H (h_zero H (h_propagate H (snd (h_now H (world m)))))).
Proof.
  unfold rt_pre, now. destruct (h_now H (world m)) as [t w]. cbn [snd world set_world on_world log set_trace].
  destruct (h_now H (h_zero H (h_propagate H w))) as [t2 w2]. reflexivity.
Qed.
(** reading positions and zeroing commands does not change what the motors report *)
Lemma pre_plant m p : sy_plant (world m) = Ok p -> fine_plant dbg P hw s p0 p ->
  exists p', sy_plant (world (rt_pre H m)) = Ok p' /\ forall a, m_act (pl_mem p') a = m_act (pl_mem p) a.
Proof.
  intros E F. rewrite pre_world. pose proof (now_plant K dbg s tick cb pm pj (world m)) as [B0 _]. fold H in B0. rewrite E in B0.
  set (w := snd (h_now H (world m))) in *. clearbody w.
  destruct (fine_propagate dbg P hw s p0 tick cb pm pj w p B0 F) as (p1 & B1 & F1). fold H in B1.
  destruct (fine_zero dbg P hw s p0 tick cb pm pj _ p1 B1 F1) as (p2 & B2 & F2). fold H in B2.
  exists p2. split; [etransitivity; [apply (now_plant K dbg s tick cb pm pj)|exact B2]|]. intros a.
  destruct (on_plant_ok _ _ _ B2) as (q1 & o & Q1 & Z & _). rewrite B1 in Q1. injection Q1 as <-.
  destruct (zeroCommands s (pl_mem p1)) as [mz| | |] eqn:ZE; cbn [bind] in Z; try discriminate. injection Z as <- _.
  destruct (on_plant_ok _ _ _ B1) as (q0 & o' & Q0 & Y & _). rewrite B0 in Q0. injection Q0 as <-.
  destruct (propagateActuatorPositionToJointPosition K s (pl_ts p) (pl_mem p)) as [[ts mp]| | |] eqn:PE; cbn [bind] in Y; try discriminate. injection Y as <- _.
  cbn [pl_mem set_pl_mem set_pl_ts] in ZE |- *. unfold zeroCommands in ZE. destruct (over_joints_spec _ _ _ _ (seq_NoDup _ _) ZE) as (A1 & _). rewrite A1.
  unfold propagateActuatorPositionToJointPosition in PE.
  destruct (over_transmissions _ (pl_ts p) (rs_in s) (rs_out s) (pl_mem p)) as [[ts1 ma]| | |] eqn:O; cbn [bind] in PE; try discriminate.
  destruct (over_joints update_statistics (seq 0 (rs_size s)) ma) as [mb| | |] eqn:U; cbn [bind] in PE; try discriminate. injection PE as <- <-.
  destruct (over_joints_spec _ _ _ _ (seq_NoDup _ _) U) as (A2 & _). rewrite A2. apply (position_acts _ _ _ _ _ _ O).
Qed.

Lemma written_halted cbs m m' : written cb cbs m m' -> forall p, a_halted (m_act m' p) = a_halted (m_act m p).
Proof. induction 1 as [m|c x cbs m m' W IH]; intros p; [reflexivity|]. rewrite IH. apply HK. Qed.

Lemma look_history m0 m seen : last_look H p0 m0 m seen -> history H m0 m.
Proof. induction 1 as [|m seen p l1 l2 a m' LL IH E S|m seen o a m' LL IH NU OO S]; [constructor|apply (hist_step H m0 m (OpUpdate l1 l2) a m'); [exact IH|exact I|exact S]|apply (hist_step H m0 m o a m'); assumption]. Qed.

Lemma look_prev m0 m seen : starts p0 m0 -> remembers_initial_halt s p0 m0 -> last_look H p0 m0 m seen -> prev_halted m = isHalted s seen.
Proof.
  intros ST RI LL. induction LL as [|m seen p l1 l2 a m' LL IH E S|m seen o a m' LL IH NU OO S].
  - exact RI.
  - pose proof (service_world H m _ a m' S) as U. cbn in U.
    destruct (update_prev H l1 l2 m m' U) as (cbs & w2 & A & ->).
    destruct (fine_history dbg P L HL urdf config g hw mem0 s p0 HI HU tick cb pm pj HC m0 m ST (look_history _ _ _ LL)) as (_ & p' & Q & F).
    rewrite E in Q. injection Q as <-.
    destruct (pre_plant (rt_use (cur m) m) p E F) as (p1 & B1 & A1).
    destruct (acts_plant K dbg s tick cb pm pj _ _ _ A _ B1) as (mm & B2 & W).
    unfold H. cbn [h_halted sys_hooks]. unfold sys_halted. rewrite B2. cbn [pl_mem set_pl_mem]. apply isHalted_same. intros q.
    rewrite (written_halted _ _ _ W), A1. reflexivity.
  - rewrite (service_prev H m o a m' S NU). exact IH.
Qed.

(** Every history has such a last look. *)
Theorem C81_every_history_looks : forall m0 m, starts p0 m0 -> history H m0 m -> exists seen, last_look H p0 m0 m seen.
Proof.
  intros m0 m ST HH. induction HH as [|m o a m' HH [seen LL] OO S]; [eexists; constructor|].
  destruct (fine_history dbg P L HL urdf config g hw mem0 s p0 HI HU tick cb pm pj HC m0 m ST HH) as (_ & p & Q & _).
  destruct o as [env name|name|st sp kk|l1 l2|f|].
  4:{ eexists. eapply look_cycle; eauto. }
  all: exists seen; eapply look_other; eauto; discriminate.
Qed.

(** Whatever happened before, the next cycle restarts exactly the running controllers, one after the other and before any
    update, if some motor was halted when the last cycle looked and none is now; otherwise it restarts none. *)
Theorem C81_restart_after_halt : forall m0 m seen p l1 l2, starts p0 m0 -> remembers_initial_halt s p0 m0 ->
  last_look H p0 m0 m seen -> sy_plant (world m) = Ok p ->
  exists m' restarts pubs, update H l1 l2 m = Ok m' /\
    trace m' = trace m ++ [EvPropagate; EvZero] ++ restarts ++
               map (fun c => EvCb c CbUpdate) (filter (runningb m) (exec_order m)) ++ [EvEnforce; EvEffort] ++ pubs /\
    (please m = false -> forall e, In e pubs -> is_callback e = false) /\
    (motors_halted s seen -> ~ motors_halted s (pl_mem p) ->
       restarts = flat_map (fun c => [EvCb c CbStopping; EvCb c CbStarting]) (filter (runningb m) (exec_order m))) /\
    (~ motors_halted s seen \/ motors_halted s (pl_mem p) -> restarts = []).
Proof.
  intros m0 m seen p l1 l2 ST RI LL E. assert (HH := look_history _ _ _ LL).
  destruct (fine_history dbg P L HL urdf config g hw mem0 s p0 HI HU tick cb pm pj HC m0 m ST HH) as (RE & p' & Q & F).
  rewrite E in Q. injection Q as <-.
  destruct (C18_restart_when_motors_reenabled H HP l1 l2 m RE) as (m' & pubs & U & TR & NP & _).
  exists m', (if negb (isHalted s (pl_mem p)) && isHalted s seen
              then flat_map (fun c => [EvCb c CbStopping; EvCb c CbStarting]) (filter (runningb m) (exec_order m)) else []), pubs.
  split; [exact U|]. split; [|split; [exact NP|]].
  - rewrite TR, (look_prev m0 m seen ST RI LL). destruct (pre_plant m p E F) as (p1 & B1 & A1).
    replace (h_halted H (world (rt_pre H m))) with (isHalted s (pl_mem p)); [reflexivity|].
    unfold H. cbn [h_halted sys_hooks]. unfold sys_halted. fold H. rewrite B1. symmetry. apply isHalted_same. intros q. now rewrite A1.
  - rewrite <- !isHalted_spec. destruct (isHalted s seen), (isHalted s (pl_mem p)); cbn [negb andb]; split; try tauto; try congruence.
    intros [|]; congruence.
Qed.
End Halt.

(** ** Example: the robot of C74_ex.  Its motor halts while controller "a" runs; a cycle sees it; the motor is enabled again. *)
Section Example.
Context {G : Trig B64}.
Local Open Scope string_scope.
Local Open Scope list_scope.
Definition exh0 : mgr (sysw (transmission B64) B64 Z) := set_prev_halted false exb0.
Definition set_motor (halted : bool) (w : sysw (transmission B64) B64 Z) : sysw (transmission B64) B64 Z :=
  match sy_plant w with
  | Ok p => mkSysw (Ok (set_pl_mem (act_upd 0 (set_a_halted halted) (pl_mem p)) p)) (sy_user w) (sy_out w)
  | _ => w
  end.
Lemma set_motor_outside b : outside (set_motor b).
Proof.
  intros w. unfold set_motor. destruct (sy_plant w) as [p| | |] eqn:E; cbn [sy_out sy_plant]; auto.
  split; [reflexivity|]. eexists. split; [reflexivity|]. reflexivity.
Qed.
Definition exh_before : list (op (W:=sysw (transmission B64) B64 Z)) :=
  [OpLoad exEnv "a"; OpSwitch ["a"] [] STRICT; OpUpdate true true; OpEnv (set_motor true)].
Definition exh_run ops m : mgr (sysw (transmission B64) B64 Z) := match exec exb_hooks ops m with Some m => m | None => m end.
Definition exh1 : mgr (sysw (transmission B64) B64 Z) := exh_run exh_before exh0.
Definition exh2 : mgr (sysw (transmission B64) B64 Z) := exh_run [OpUpdate true true] exh1.
Definition exh3 : mgr (sysw (transmission B64) B64 Z) := exh_run [OpEnv (set_motor false)] exh2.

Lemma exh_keeps : keeps_halted exd_cb.
Proof. intros c k x m p. unfold exd_cb. destruct k; reflexivity. Qed.
Lemma exh_initial : starts exb_plant exh0 /\ remembers_initial_halt exb_state exb_plant exh0.
Proof. split; [repeat split|]. vm_compute. reflexivity. Qed.
Lemma exh_exec ops m : Forall outside_op ops -> match exec exb_hooks ops m with Some _ => true | None => false end = true ->
  forall m0, history exb_hooks m0 m -> history exb_hooks m0 (exh_run ops m).
Proof. intros F Y m0 HH. unfold exh_run. destruct (exec exb_hooks ops m) eqn:E; [|discriminate]. eapply exec_history; eauto. Qed.
Lemma exh1_history : history exb_hooks exh0 exh1.
Proof.
  apply exh_exec; [|vm_compute; reflexivity|constructor]. do 3 (constructor; [exact I|]). constructor; [apply set_motor_outside|constructor].
Qed.
Lemma exh_update m : match update exb_hooks true true m with Ok _ => true | _ => false end = true ->
  update exb_hooks true true m = Ok (exh_run [OpUpdate true true] m).
Proof. intros Y. unfold exh_run. cbn [exec]. destruct (update exb_hooks true true m); try discriminate. reflexivity. Qed.
Lemma exh_look : exists p, sy_plant (world exh1) = Ok p /\ motors_halted exb_state (pl_mem p) /\ last_look exb_hooks exb_plant exh0 exh3 (pl_mem p).
Proof.
  destruct (fine_history true exb_P exb_L exb_new exb_urdf exb_root nzero ex_hw exb_mem exb_state exb_plant exb_loaded exb_usable exd_tick exd_cb 45%Z 25%Z exb_cb_keeps
              exh0 exh1 (proj1 exh_initial) exh1_history) as (_ & p & Q & _).
  exists p. split; [exact Q|]. split.
  - apply isHalted_spec. assert (Y : match sy_plant (world exh1) with Ok p => isHalted exb_state (pl_mem p) | _ => false end = true) by (vm_compute; reflexivity).
    rewrite Q in Y. exact Y.
  - destruct (C81_every_history_looks true exb_P exb_L exb_new exb_urdf exb_root nzero ex_hw exb_mem exb_state exb_plant exb_loaded exb_usable exd_tick exd_cb 45%Z 25%Z exb_cb_keeps
              exh0 exh1 (proj1 exh_initial) exh1_history) as [seen LL].
    assert (U : update exb_hooks true true exh1 = Ok exh2).
    { apply exh_update. vm_compute. reflexivity. }
    assert (L2 : last_look exb_hooks exb_plant exh0 exh2 (pl_mem p)).
    { apply (look_cycle exb_hooks exb_plant exh0 exh1 seen p true true (Returned true) exh2); [exact LL|exact Q|].
      replace (Ok (Returned true, exh2)) with (do m' <- update exb_hooks true true exh1; Ok (Returned true, m')); [apply step_update|]. rewrite U. reflexivity. }
    apply (look_other exb_hooks exb_plant exh0 exh2 (pl_mem p) (OpEnv (set_motor false)) (Returned true) exh3); [exact L2|discriminate|apply set_motor_outside|].
    apply (step_env exb_hooks exh2 (set_motor false)).
Qed.
(** the next cycle restarts "a" *)
Example C81_ex : exists m' pubs, update exb_hooks true true exh3 = Ok m' /\
  trace m' = trace exh3 ++ [EvPropagate; EvZero; EvCb 0 CbStopping; EvCb 0 CbStarting; EvCb 0 CbUpdate; EvEnforce; EvEffort] ++ pubs.
Proof.
  destruct exh_look as (p1 & Q1 & MH & LL). destruct exh_initial as [ST RI].
  destruct (fine_history true exb_P exb_L exb_new exb_urdf exb_root nzero ex_hw exb_mem exb_state exb_plant exb_loaded exb_usable exd_tick exd_cb 45%Z 25%Z exb_cb_keeps
              exh0 exh3 ST (look_history true exb_P exb_state exb_plant exd_tick exd_cb 45%Z 25%Z exh0 exh3 (pl_mem p1) LL)) as (_ & p3 & Q3 & _).
  destruct (C81_restart_after_halt true exb_P exb_L exb_new exb_urdf exb_root nzero ex_hw exb_mem exb_state exb_plant exb_loaded exb_usable exd_tick exd_cb 45%Z 25%Z exb_cb_keeps
              exh_keeps ltac:(split; reflexivity) exh0 exh3 (pl_mem p1) p3 true true ST RI LL Q3) as (m' & rs & pubs & U & TR & _ & R1 & _).
  exists m', pubs. split; [exact U|]. rewrite TR, R1; [|exact MH|].
  - assert (Y : filter (runningb exh3) (exec_order exh3) = [0]) by (vm_compute; reflexivity). rewrite Y. reflexivity.
  - rewrite <- isHalted_spec. assert (Y : match sy_plant (world exh3) with Ok p => isHalted exb_state (pl_mem p) | _ => true end = false) by (vm_compute; reflexivity).
    rewrite Q3 in Y. congruence.
Qed.
End Example.
