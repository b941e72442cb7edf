(** pr2_controller_manager/src/controller_manager.cpp, level A: the functions of ControllerManager
    over the complete manager state.  Level B (ManagerConc.v) interleaves the same functions. *)
From Coq Require Import List String Arith Bool ZArith.
From Verif.Model Require Import Base Scheduler Controller.
Import ListNotations.

(** controller_spec.h:54-61 struct Statistics.  The boost accumulator (max, mean, variance) is kept as
    the list of samples it has been fed (durations in ns, oldest first); [max], [max1] are unused. *)
Record stats := mkStats {
  st_samples : list Z;
  st_overruns : nat;        (** num_control_loop_overruns *)
  st_last_overrun : Z }.    (** time_last_control_loop_overrun *)
(** controller_spec.h:60 *)
Definition new_stats := mkStats [] 0 0%Z.

(** A controller object (controller.h:164-171) together with the Statistics object created with it
    (controller_spec.h:68; both are shared by all copies of the ControllerSpec). *)
Record cobj := mkObj {
  co_type : string;
  co_state : cstate;
  co_deps : deps;
  co_stats : stats }.

(** controller_spec.h:63-71 struct ControllerSpec; the shared pointer is an address. *)
Record entry := mkEntry { e_name : string; e_ptr : ptr }.

(** pr2_mechanism_msgs/ControllerStatistics, the fields written in controller_manager.cpp:663-670.
    max/mean/variance are represented by the samples they are computed from. *)
Record cstat := mkCstat {
  cs_name : string;
  cs_stamp : Z;
  cs_running : bool;
  cs_samples : list Z;
  cs_overruns : nat;
  cs_last_overrun : Z }.
(** default-constructed message element (value initialisation by resize) *)
Definition new_cstat := mkCstat EmptyString 0 false [] 0 0.

(** Observable events. *)
Inductive event :=
| EvCb (p : ptr) (cb : callback)        (** a controller callback *)
| EvPropagate | EvZero | EvEnforce | EvEffort   (** controller_manager.cpp:133,134,163,164 *)
| EvPubMech (ss : list cstat)           (** mechanism statistics published *)
| EvPubJoint                            (** joint states published *)
| EvFatal                               (** "This should never happen" (controller_manager.cpp:178,183) *)
| EvSwitchDone                          (** please_switch_ reset (controller_manager.cpp:187) *)
| EvNewLoader                           (** controller_loader_ replaced (controller_manager.cpp:722) *)
| EvRequest (stops starts : list ptr)   (** ghost, level B only: please_switch_ set (controller_manager.cpp:539) *)
| EvSwitchReturn.                       (** ghost, level B only: switchController returns true (controller_manager.cpp:549) *)

Record mgr (W : Type) := mkMgr {
  heap : ptr -> cobj;  (** controller objects by address (only those in a list or under construction are alive) *)
  next : ptr;  (** next fresh address *)
  lists : bool -> list entry;  (** controllers_lists_[2]  (controller_manager.h:98); false = index 0, true = index 1 *)
  scheds : bool -> list nat;  (** controllers_scheduling_[2]  (controller_manager.h:99) *)
  cur : bool;  (** current_controllers_list_  (controller_manager.h:100) *)
  used : option bool;  (** used_by_realtime_  (controller_manager.h:100); None = -1 *)
  start_req : list ptr;  (** start_request_  (controller_manager.h:92) *)
  stop_req : list ptr;  (** stop_request_  (controller_manager.h:92) *)
  please : bool;  (** please_switch_  (controller_manager.h:93) *)
  prev_halted : bool;  (** motors_previously_halted_  (controller_manager.h:131) *)
  mstats : list cstat;  (** pub_mech_stats_.msg_.controller_statistics  (controller_manager.h:111) *)
  last_mech : Z;  (** last_published_mechanism_stats_  (controller_manager.h:113) *)
  last_js : Z;  (** last_published_joint_state_  (controller_manager.h:113) *)
  world : W;  (** everything outside the manager: robot, hardware, clock, controllers' own data *)
  trace : list event }.  (** ghost: history of observable events, oldest first *)
Arguments heap {W} _.
Arguments next {W} _.
Arguments lists {W} _.
Arguments scheds {W} _.
Arguments cur {W} _.
Arguments used {W} _.
Arguments start_req {W} _.
Arguments stop_req {W} _.
Arguments please {W} _.
Arguments prev_halted {W} _.
Arguments mstats {W} _.
Arguments last_mech {W} _.
Arguments last_js {W} _.
Arguments world {W} _.
Arguments trace {W} _.
Arguments mkMgr {W}.
Definition set_heap {W} (x : ptr -> cobj) (m : mgr W) : mgr W :=
  mkMgr x (next m) (lists m) (scheds m) (cur m) (used m) (start_req m) (stop_req m) (please m) (prev_halted m) (mstats m) (last_mech m) (last_js m) (world m) (trace m).
Definition set_next {W} (x : ptr) (m : mgr W) : mgr W :=
  mkMgr (heap m) x (lists m) (scheds m) (cur m) (used m) (start_req m) (stop_req m) (please m) (prev_halted m) (mstats m) (last_mech m) (last_js m) (world m) (trace m).
Definition set_lists {W} (x : bool -> list entry) (m : mgr W) : mgr W :=
  mkMgr (heap m) (next m) x (scheds m) (cur m) (used m) (start_req m) (stop_req m) (please m) (prev_halted m) (mstats m) (last_mech m) (last_js m) (world m) (trace m).
Definition set_scheds {W} (x : bool -> list nat) (m : mgr W) : mgr W :=
  mkMgr (heap m) (next m) (lists m) x (cur m) (used m) (start_req m) (stop_req m) (please m) (prev_halted m) (mstats m) (last_mech m) (last_js m) (world m) (trace m).
Definition set_cur {W} (x : bool) (m : mgr W) : mgr W :=
  mkMgr (heap m) (next m) (lists m) (scheds m) x (used m) (start_req m) (stop_req m) (please m) (prev_halted m) (mstats m) (last_mech m) (last_js m) (world m) (trace m).
Definition set_used {W} (x : option bool) (m : mgr W) : mgr W :=
  mkMgr (heap m) (next m) (lists m) (scheds m) (cur m) x (start_req m) (stop_req m) (please m) (prev_halted m) (mstats m) (last_mech m) (last_js m) (world m) (trace m).
Definition set_start_req {W} (x : list ptr) (m : mgr W) : mgr W :=
  mkMgr (heap m) (next m) (lists m) (scheds m) (cur m) (used m) x (stop_req m) (please m) (prev_halted m) (mstats m) (last_mech m) (last_js m) (world m) (trace m).
Definition set_stop_req {W} (x : list ptr) (m : mgr W) : mgr W :=
  mkMgr (heap m) (next m) (lists m) (scheds m) (cur m) (used m) (start_req m) x (please m) (prev_halted m) (mstats m) (last_mech m) (last_js m) (world m) (trace m).
Definition set_please {W} (x : bool) (m : mgr W) : mgr W :=
  mkMgr (heap m) (next m) (lists m) (scheds m) (cur m) (used m) (start_req m) (stop_req m) x (prev_halted m) (mstats m) (last_mech m) (last_js m) (world m) (trace m).
Definition set_prev_halted {W} (x : bool) (m : mgr W) : mgr W :=
  mkMgr (heap m) (next m) (lists m) (scheds m) (cur m) (used m) (start_req m) (stop_req m) (please m) x (mstats m) (last_mech m) (last_js m) (world m) (trace m).
Definition set_mstats {W} (x : list cstat) (m : mgr W) : mgr W :=
  mkMgr (heap m) (next m) (lists m) (scheds m) (cur m) (used m) (start_req m) (stop_req m) (please m) (prev_halted m) x (last_mech m) (last_js m) (world m) (trace m).
Definition set_last_mech {W} (x : Z) (m : mgr W) : mgr W :=
  mkMgr (heap m) (next m) (lists m) (scheds m) (cur m) (used m) (start_req m) (stop_req m) (please m) (prev_halted m) (mstats m) x (last_js m) (world m) (trace m).
Definition set_last_js {W} (x : Z) (m : mgr W) : mgr W :=
  mkMgr (heap m) (next m) (lists m) (scheds m) (cur m) (used m) (start_req m) (stop_req m) (please m) (prev_halted m) (mstats m) (last_mech m) x (world m) (trace m).
Definition set_world {W} (x : W) (m : mgr W) : mgr W :=
  mkMgr (heap m) (next m) (lists m) (scheds m) (cur m) (used m) (start_req m) (stop_req m) (please m) (prev_halted m) (mstats m) (last_mech m) (last_js m) x (trace m).
Definition set_trace {W} (x : list event) (m : mgr W) : mgr W :=
  mkMgr (heap m) (next m) (lists m) (scheds m) (cur m) (used m) (start_req m) (stop_req m) (please m) (prev_halted m) (mstats m) (last_mech m) (last_js m) (world m) x.

(** The rest of the system as seen by the manager; all of it is universally quantified in theorems.
    [h_now] is ros::Time::now() (may advance the clock); periods are nanoseconds. *)
Record hooks (W : Type) := mkHooks {
  h_now : W -> Z * W;
  h_propagate : W -> W;      (** state_->propagateActuatorPositionToJointPosition() *)
  h_zero : W -> W;           (** state_->zeroCommands() *)
  h_halted : W -> bool;      (** state_->isHalted() *)
  h_enforce : W -> W;        (** state_->enforceSafety() *)
  h_effort : W -> W;         (** state_->propagateJointEffortToActuatorEffort() *)
  h_cb : ptr -> callback -> W -> W;  (** effect of a controller callback *)
  h_pub_mech : Z -> W -> W;      (** joint/actuator part of publishMechanismStatistics (resets joint statistics); the argument is the time read at line 591 *)
  h_pub_js : Z -> W -> W;        (** the body of publishJointState; the argument is the time read at line 555 *)
  h_per_mech : Z;            (** publish_period_mechanism_stats_ *)
  h_per_js : Z }.            (** publish_period_joint_state_ *)
Arguments h_now {W}. Arguments h_propagate {W}. Arguments h_zero {W}. Arguments h_halted {W}.
Arguments h_enforce {W}. Arguments h_effort {W}. Arguments h_cb {W}. Arguments h_pub_mech {W}.
Arguments h_pub_js {W}. Arguments h_per_mech {W}. Arguments h_per_js {W}.

(** Plugin loader and parameter server as seen by loadController (controller_manager.cpp:253-295). *)
Inductive creation :=
| CreateOk (pr : iprog)     (** an instance with this init code *)
| CreateRuntimeError        (** createInstance throws std::runtime_error: caught, controller stays NULL *)
| CreateOtherException.     (** any other exception escapes loadController *)
Record plugin_env := mkEnv {
  pe_node_ok : string -> bool;               (** NodeHandle(controller_node_, name) does not throw *)
  pe_type : string -> option string;         (** parameter "type" *)
  pe_available : string -> bool;             (** isClassAvailable *)
  pe_declared : list string;                 (** getDeclaredClasses *)
  pe_short : string -> string;               (** getName *)
  pe_create : string -> creation }.          (** createInstance *)


Definition upd {A} (f : bool -> A) (b : bool) (x : A) : bool -> A :=
  fun c => if Bool.eqb c b then x else f c.
Definition upd_heap (h : ptr -> cobj) (p : ptr) (o : cobj) : ptr -> cobj :=
  fun q => if Nat.eqb q p then o else h q.

Definition set_co_state (s : cstate) (o : cobj) : cobj := mkObj (co_type o) s (co_deps o) (co_stats o).
Definition set_co_stats (s : stats) (o : cobj) : cobj := mkObj (co_type o) (co_state o) (co_deps o) s.

Section Manager.
Context {W : Type} (H : hooks W).
Notation mgr := (mgr W).

Definition log (e : event) (m : mgr) : mgr := set_trace (trace m ++ [e]) m.
Definition on_world (f : W -> W) (m : mgr) : mgr := set_world (f (world m)) m.
(** ros::Time::now() *)
Definition now (m : mgr) : Z * mgr := let '(t, w) := h_now H (world m) in (t, set_world w m).

Definition state_of (m : mgr) (p : ptr) : cstate := co_state (heap m p).
Definition put_state (p : ptr) (s : cstate) (m : mgr) : mgr :=
  set_heap (upd_heap (heap m) p (set_co_state s (heap m p))) m.
(** invoking callbacks of controller [p] *)
Definition call (p : ptr) (m : mgr) (cb : callback) : mgr := on_world (h_cb H p cb) (log (EvCb p cb) m).
Definition calls (p : ptr) (cbs : list callback) (m : mgr) : mgr := fold_left (call p) cbs m.

(** c->startRequest(), c->stopRequest(), c->updateRequest() (controller.h:115-144) on the heap *)
Definition start_ctrl (p : ptr) (m : mgr) : bool * mgr :=
  let '(b, cbs, s) := startRequest (state_of m p) in (b, put_state p s (calls p cbs m)).
Definition stop_ctrl (p : ptr) (m : mgr) : bool * mgr :=
  let '(b, cbs, s) := stopRequest (state_of m p) in (b, put_state p s (calls p cbs m)).
Definition update_ctrl (p : ptr) (m : mgr) : mgr :=
  let '(cbs, s) := updateRequest (state_of m p) in put_state p s (calls p cbs m).

(* ------------------------------------------------------------------ realtime side *)

(** controller_manager.cpp:128 [used_by_realtime_ = current_controllers_list_] with the value read. *)
Definition rt_use (b : bool) (m : mgr) : mgr := set_used (Some b) m.

(** controller_manager.cpp:129 [controllers_lists_[used_by_realtime_]] *)
Definition rt_list (m : mgr) : res (list entry) :=
  match used m with Some b => Ok (lists m b) | None => UB end.
(** controller_manager.cpp:130 *)
Definition rt_sched (m : mgr) : res (list nat) :=
  match used m with Some b => Ok (scheds m b) | None => UB end.
(** [controllers[scheduling[i]]] *)
Definition rt_nth (m : mgr) (i : nat) : res entry :=
  do s <- rt_sched m; do k <- vget s i; do l <- rt_list m; vget l k.

(** controller_manager.cpp:132-136 (the pre_update_stats_ accumulator is not modelled) *)
Definition rt_pre (m : mgr) : mgr :=
  let '(_, m) := now m in
  let m := on_world (h_propagate H) (log EvPropagate m) in
  let m := on_world (h_zero H) (log EvZero m) in
  let '(_, m) := now m in m.

(** controller_manager.cpp:141-144: one iteration of the restart loop *)
Definition rt_restart_one (m : mgr) (i : nat) : res mgr :=
  do e <- rt_nth m i;
  if isRunning (state_of m (e_ptr e))
  then let '(_, m1) := stop_ctrl (e_ptr e) m in let '(_, m2) := start_ctrl (e_ptr e) m1 in Ok m2
  else Ok m.

Fixpoint for_each (f : mgr -> nat -> res mgr) (is : list nat) (m : mgr) : res mgr :=
  match is with
  | [] => Ok m
  | i :: is' => do m' <- f m i; for_each f is' m'
  end.

(** controller_manager.cpp:139 the condition *)
Definition rt_must_restart (m : mgr) : bool := negb (h_halted H (world m)) && prev_halted m.

(** controller_manager.cpp:138-147 *)
Definition rt_restart (m : mgr) : res mgr :=
  do l <- rt_list m;
  do m1 <- (if rt_must_restart m
            then for_each rt_restart_one (seq 0 (List.length l)) m else Ok m);
  Ok (set_prev_halted (h_halted H (world m1)) m1).

(** controller_manager.cpp:155 [ros::Duration(0.001)] *)
Definition overrun_limit : Z := 1000000%Z.

Definition acc_stats (d tend : Z) (s : stats) : stats :=
  mkStats (st_samples s ++ [d])
          (if (overrun_limit <? d)%Z then S (st_overruns s) else st_overruns s)
          (if (overrun_limit <? d)%Z then tend else st_last_overrun s).

(** controller_manager.cpp:151-158: one iteration of the update loop *)
Definition rt_update_one (m : mgr) (i : nat) : res mgr :=
  do e <- rt_nth m i;
  let p := e_ptr e in
  let '(t0, m) := now m in
  let m := update_ctrl p m in
  let '(t1, m) := now m in
  Ok (set_heap (upd_heap (heap m) p (set_co_stats (acc_stats (t1 - t0) t1 (co_stats (heap m p))) (heap m p))) m).

(** controller_manager.cpp:150-159 *)
Definition rt_update_all (m : mgr) : res mgr :=
  do l <- rt_list m; for_each rt_update_one (seq 0 (List.length l)) m.

(** controller_manager.cpp:160-163 (accumulators not modelled) *)
Definition rt_enforce (m : mgr) : mgr :=
  let '(_, m) := now m in on_world (h_enforce H) (log EvEnforce m).
(** controller_manager.cpp:164-166 *)
Definition rt_send (m : mgr) : mgr :=
  let m := on_world (h_effort H) (log EvEffort m) in
  let '(_, m) := now m in m.
Definition rt_post (m : mgr) : mgr := rt_send (rt_enforce m).

(** controller_manager.cpp:560-561, 596-597: [while (last + period < now) last = last + period];
    with fuel, [Hang] if the fuel (enough for every positive period) runs out. *)
Fixpoint catch_up (fuel : nat) (last period t : Z) : res Z :=
  if (last + period <? t)%Z
  then match fuel with 0 => Hang | S f => catch_up f (last + period)%Z period t end
  else Ok last.
Definition catch_up_fuel (last t : Z) : nat := Z.to_nat (t - last).

(** controller_manager.cpp:659-671: the controller part of the statistics message *)
Fixpoint fill_stats (m : mgr) (stamp : Z) (l : list entry) (i : nat) (out : list cstat) : res (list cstat) :=
  match l with
  | [] => Ok out
  | e :: l' =>
      do old <- vget out i;
      let o := heap m (e_ptr e) in
      do out' <- vset out i (mkCstat (cs_name old) stamp (isRunning (co_state o))
                               (st_samples (co_stats o)) (st_overruns (co_stats o)) (st_last_overrun (co_stats o)));
      fill_stats m stamp l' (S i) out'
  end.

(** controller_manager.cpp:596-675: body executed when the publisher lock was obtained *)
Definition rt_fill_mech (t : Z) (m : mgr) : res mgr :=
  do last <- catch_up (catch_up_fuel (last_mech m) t) (last_mech m) (h_per_mech H) t;
  let m := set_last_mech last m in
  let m := on_world (h_pub_mech H t) m in
  do l <- rt_list m;
  do out <- fill_stats m t l 0 (mstats m);
  let m := set_mstats out m in
  let '(_, m) := now m in
  Ok (log (EvPubMech out) m).

(** controller_manager.cpp:592 *)
Definition mech_due (t : Z) (m : mgr) : bool := (last_mech m + h_per_mech H <? t)%Z.

(** controller_manager.cpp:589-678; [lock] is the result of trylock(). *)
Definition publishMechanismStatistics (lock : bool) (m : mgr) : res mgr :=
  let '(t, m) := now m in
  if mech_due t m then if lock then rt_fill_mech t m else Ok m else Ok m.

(** controller_manager.cpp:553-586 *)
Definition publishJointState (lock : bool) (m : mgr) : res mgr :=
  let '(t, m) := now m in
  if (last_js m + h_per_js H <? t)%Z then
    if lock then
      do last <- catch_up (catch_up_fuel (last_js m) t) (last_js m) (h_per_js H) t;
      let m := on_world (h_pub_js H t) (set_last_js last m) in
      let '(_, m) := now m in
      Ok (log EvPubJoint m)
    else Ok m
  else Ok m.

(** controller_manager.cpp:176-178 and 181-183: one request *)
Definition rt_stop_one (m : mgr) (p : ptr) : mgr :=
  let '(b, m') := stop_ctrl p m in if b then m' else log EvFatal m'.
Definition rt_start_one (m : mgr) (p : ptr) : mgr :=
  let '(b, m') := start_ctrl p m in if b then m' else log EvFatal m'.

(** controller_manager.cpp:185-187 *)
Definition rt_switch_end (m : mgr) : mgr :=
  log EvSwitchDone (set_please false (set_stop_req [] (set_start_req [] m))).

(** controller_manager.cpp:172-188 *)
Definition rt_switch (m : mgr) : mgr :=
  if please m then
    let m := fold_left rt_stop_one (stop_req m) m in
    let m := fold_left rt_start_one (start_req m) m in
    rt_switch_end m
  else m.

(** controller_manager.cpp:126-189; [lock1]/[lock2]: results of the two trylock() calls. *)
Definition update (lock1 lock2 : bool) (m : mgr) : res mgr :=
  let m := rt_use (cur m) m in
  let m := rt_pre m in
  do m <- rt_restart m;
  do m <- rt_update_all m;
  let m := rt_post m in
  do m <- publishMechanismStatistics lock1 m;
  do m <- publishJointState lock2 m;
  Ok (rt_switch m).

(* ------------------------------------------------------------------ service side *)

(** controller_manager.cpp:191-200 *)
Definition find_entry (name : string) (l : list entry) : option entry :=
  find (fun e => String.eqb (e_name e) name) l.
Definition getControllerByName (m : mgr) (name : string) : option ptr :=
  option_map e_ptr (find_entry name (lists m (cur m))).

(** the manager as ControllerProvider (controller_provider.h:59-72) *)
Definition as_provider (m : mgr) : provider :=
  fun name => match getControllerByName m name with
              | None => None
              | Some p => Some (p, co_type (heap m p))
              end.

(** controller_manager.cpp:202-210 (appends to the argument, does not clear it) *)
Definition getControllerNames (m : mgr) (acc : list string) : list string :=
  acc ++ map e_name (lists m (cur m)).
(** controller_manager.cpp:212-216 *)
Definition getControllerSchedule (m : mgr) : list nat := scheds m (cur m).

(** the view scheduleControllers has of a controller list *)
Definition spec_of (h : ptr -> cobj) (e : entry) : spec :=
  mkSpec (e_name e) (d_before (co_deps (h (e_ptr e)))) (d_after (co_deps (h (e_ptr e)))).
Definition specs (h : ptr -> cobj) (l : list entry) : list spec := map (spec_of h) l.

(** controller_manager.cpp:266-295: look up the type and create the instance. [None] = exception
    escapes; [Some None] = controller stays NULL. *)
Definition resolve_type (env : plugin_env) (type : string) : string :=
  if pe_available env type then type
  else match find (fun c => String.eqb type (pe_short env c)) (pe_declared env) with
       | Some c => c
       | None => type
       end.
Definition construct (env : plugin_env) (name : string) : option (option (string * iprog)) :=
  match pe_type env name with
  | None => Some None
  | Some type =>
      let ty := resolve_type env type in
      match pe_create env ty with
      | CreateOk pr => Some (Some (ty, pr))
      | CreateRuntimeError => Some None
      | CreateOtherException => None
      end
  end.

Inductive outcome :=
| Rejected (m : mgr)     (** the call returned false *)
| Ready (m : mgr)        (** checks and preparation of the free list succeeded; go on to switch over *)
| Thrown (m : mgr)       (** an exception escaped *)
| Broken.                (** undefined behaviour *)

(** the index of the list not currently in use, controller_manager.cpp:227,376 *)
Definition free_list (m : mgr) : bool := negb (cur m).

(** controller_manager.cpp:233-342: everything between the two wait loops up to scheduling. *)
Definition load_body (env : plugin_env) (name : string) (m : mgr) : outcome :=
  let f := free_list m in
  let from := lists m (cur m) in
  let m1 := set_lists (upd (lists m) f from) m in                      (* 236-240 *)
  let clear m := set_lists (upd (lists m) f []) m in
  if existsb (fun e => String.eqb (e_name e) name) from then Rejected (clear m1)   (* 243-251 *)
  else if negb (pe_node_ok env name) then Rejected m1                  (* 255-265: [to] is not cleared *)
  else match construct env name with
  | None => Thrown m1
  | Some None => Rejected (clear m1)                                   (* 298-308 *)
  | Some (Some (ty, pr)) =>
      let p := next m1 in
      let '(ir, cbs, s, d) := initRequest (Some (as_provider m1)) pr CONSTRUCTED no_deps in  (* 313-323 *)
      let m2 := set_next (S p) (set_heap (upd_heap (heap m1) p (mkObj ty s d new_stats)) m1) in
      let m2 := calls p cbs m2 in
      match ir with
      | InitRet true =>
          let to := from ++ [mkEntry name p] in                        (* 333-335 *)
          match scheduleControllers (specs (heap m2) to) (scheds m2 f) with   (* 338 *)
          | SchedOk s => Ready (set_scheds (upd (scheds m2) f s) (set_lists (upd (lists m2) f to) m2))
          | SchedFail s => Rejected (clear (set_scheds (upd (scheds m2) f s) m2))  (* 339-341 *)
          | _ => Broken
          end
      | _ => Rejected (clear m2)                                       (* 324-329 *)
      end
  end.

(** controller_manager.cpp:345-348, 441-444: resize the statistics message and set the names *)
Fixpoint set_names (l : list entry) (out : list cstat) : list cstat :=
  match l, out with
  | e :: l', c :: out' =>
      mkCstat (e_name e) (cs_stamp c) (cs_running c) (cs_samples c) (cs_overruns c) (cs_last_overrun c)
        :: set_names l' out'
  | _, _ => out
  end.
Definition resize_stats (m : mgr) : mgr :=
  let to := lists m (free_list m) in
  set_mstats (set_names to (resize new_cstat (List.length to) (mstats m))) m.

(** controller_manager.cpp:351-352, 448-449 *)
Definition flip (m : mgr) : mgr := set_cur (negb (cur m)) m.

(** controller_manager.cpp:358, 456: [from.clear()], run after [flip] *)
Definition clear_former (m : mgr) : mgr := set_lists (upd (lists m) (negb (cur m)) []) m.

(** Level A treats a service call as executed between two cycles: the wait at 353-357/450-454 is
    the realtime thread moving on to the new list (its line 128), if it has ever run. *)
Definition rt_moved_on (m : mgr) : mgr :=
  set_used (match used m with None => None | Some _ => Some (cur m) end) m.

Definition commit (m : mgr) : mgr := clear_former (rt_moved_on (flip (resize_stats m))).

(** controller_manager.cpp:387-403: some loaded controller depends on [name] *)
Definition depends_on (h : ptr -> cobj) (name : string) (e : entry) : bool :=
  existsb (String.eqb name) (d_before (co_deps (h (e_ptr e)))) ||
  existsb (String.eqb name) (d_after (co_deps (h (e_ptr e)))).

(** controller_manager.cpp:405-420: transfer all but [name]; [None] = still running. The list so
    far written to [to] is dropped in that case (line 411). *)
Fixpoint transfer (h : ptr -> cobj) (name : string) (from : list entry) : option (bool * list entry) :=
  match from with
  | [] => Some (false, [])
  | e :: from' =>
      if String.eqb (e_name e) name then
        if isRunning (co_state (h (e_ptr e))) then None
        else match transfer h name from' with
             | None => None
             | Some (_, to) => Some (true, to)
             end
      else match transfer h name from' with
           | None => None
           | Some (r, to) => Some (r, e :: to)
           end
  end.

(** controller_manager.cpp:382-437 *)
Definition unload_body (name : string) (m : mgr) : outcome :=
  let f := free_list m in
  let from := lists m (cur m) in
  let clear m := set_lists (upd (lists m) f []) m in
  if existsb (depends_on (heap m) name) from then Rejected (clear m)   (* 385, 387-403 *)
  else match transfer (heap m) name from with
  | None => Rejected (clear m)
  | Some (false, _) => Rejected (clear m)                              (* 423-429 *)
  | Some (true, to) =>
      match scheduleControllers (specs (heap m) to) (scheds m f) with  (* 433 *)
      | SchedOk s => Ready (set_scheds (upd (scheds m) f s) (set_lists (upd (lists m) f to) m))
      | SchedFail s => Rejected (clear (set_scheds (upd (scheds m) f s) m))
      | _ => Broken
      end
  end.

(** pr2_mechanism_msgs/SwitchController: BEST_EFFORT=1, STRICT=2 *)
Definition BEST_EFFORT : Z := 1%Z.
Definition STRICT : Z := 2%Z.

(** controller_manager.cpp:489-509, 513-534: collect the controllers of a request; [None] = refused *)
Fixpoint collect (m : mgr) (strict : bool) (ns : list string) : option (list ptr) :=
  match ns with
  | [] => Some []
  | n :: ns' =>
      match getControllerByName m n with
      | None => if strict then None else collect m strict ns'
      | Some p => match collect m strict ns' with None => None | Some ps => Some (p :: ps) end
      end
  end.

(** controller_manager.cpp:466-539 (until the realtime loop is asked to switch) *)
Definition switch_body (start stop : list string) (strictness : Z) (m : mgr) : outcome :=
  let strictness := if Z.eqb strictness 0 then BEST_EFFORT else strictness in   (* 473-476 *)
  let strict := Z.eqb strictness STRICT in
  match collect m strict stop with
  | None => Rejected (set_stop_req [] m)                               (* 496-497 *)
  | Some ps =>
      let m1 := set_stop_req (stop_req m ++ ps) m in
      match collect m1 strict start with
      | None => Rejected (set_start_req [] (set_stop_req [] m1))       (* 520-522 *)
      | Some qs => Ready (set_please true (set_start_req (start_req m1 ++ qs) m1))  (* 538-539 *)
      end
  end.

(* ------------------------------------------------------------------ complete service calls, level A *)

Inductive answer := Returned (b : bool) | Exception.

(** controller_manager.cpp:219-363 *)
Definition loadController (env : plugin_env) (name : string) (m : mgr) : res (answer * mgr) :=
  match load_body env name m with
  | Rejected m' => Ok (Returned false, m')
  | Thrown m' => Ok (Exception, m')
  | Ready m' => Ok (Returned true, commit m')
  | Broken => UB
  end.

(** controller_manager.cpp:368-462 *)
Definition unloadController (name : string) (m : mgr) : res (answer * mgr) :=
  match unload_body name m with
  | Rejected m' => Ok (Returned false, m')
  | Thrown m' => Ok (Exception, m')
  | Ready m' => Ok (Returned true, commit m')
  | Broken => UB
  end.

(** controller_manager.cpp:466-550: request, then the wait at 543-547 ends after the realtime thread
    has executed a cycle with [please_switch_] set. *)
Definition switchController (start stop : list string) (strictness : Z) (lock1 lock2 : bool) (m : mgr)
  : res (answer * mgr) :=
  match switch_body start stop strictness m with
  | Rejected m' => Ok (Returned false, m')
  | Thrown m' => Ok (Exception, m')
  | Ready m' => do m'' <- update lock1 lock2 m'; Ok (Returned true, m'')
  | Broken => UB
  end.

(** controller_manager.cpp:751-785; [asserts]: built with assertions. *)
Fixpoint list_loop (asserts : bool) (m : mgr) (names : list string) (sched : list nat) (i : nat)
         (resp : list (string * bool)) : res (list (string * bool)) :=
  match sched with
  | [] => Ok resp
  | k :: sched' =>
      do n <- vget names k;
      match getControllerByName m n with
      | None => if asserts then Abort else UB      (* assert(c), then c->isRunning() *)
      | Some p =>
          do resp' <- vset resp i (n, isRunning (state_of m p));
          list_loop asserts m names sched' (S i) resp'
      end
  end.
Definition listControllers (asserts : bool) (m : mgr) : res (list (string * bool)) :=
  let names := getControllerNames m [] in
  let sched := getControllerSchedule m in
  do _ <- cassert asserts (List.length names =? List.length sched);
  list_loop asserts m names sched 0 (resize (EmptyString, false) (List.length names) []).

(** controller_manager.cpp:709-716: unload the given controllers in order; [false] = one failed *)
Fixpoint unload_all (ns : list string) (m : mgr) : res (bool * mgr) :=
  match ns with
  | [] => Ok (true, m)
  | n :: ns' =>
      do r <- unloadController n m;
      match r with
      | (Returned true, m') => unload_all ns' m'
      | (_, m') => Ok (false, m')
      end
  end.

(** controller_manager.cpp:682-729; result: resp.ok *)
Definition reloadControllerLibraries (asserts force_kill lock1 lock2 : bool) (m : mgr) : res (bool * mgr) :=
  let controllers := getControllerNames m [] in
  match controllers with
  | [] => Ok (true, log EvNewLoader m)
  | _ :: _ =>
      if negb force_kill then Ok (false, m)
      else
        do r <- switchController [] controllers BEST_EFFORT lock1 lock2 m;
        match r with
        | (Returned true, m1) =>
            do u <- unload_all controllers m1;
            let '(ok, m2) := u in
            if negb ok then Ok (false, m2)
            else
              let controllers' := getControllerNames m2 controllers in     (* 717 *)
              do _ <- cassert asserts (List.length controllers' =? 0);     (* 719 *)
              Ok (true, log EvNewLoader m2)
        | (_, m1) => Ok (false, m1)
        end
  end.

(* ------------------------------------------------------------------ histories *)

(** A manager right after construction and successful initXml (controller_manager.cpp:47-61, 70-119). *)
Definition initial (m : mgr) : Prop :=
  (forall b, lists m b = []) /\ (forall b, scheds m b = []) /\ cur m = false /\ used m = None /\
  start_req m = [] /\ stop_req m = [] /\ please m = false /\ mstats m = [] /\ trace m = [] /\ next m = 0.

Inductive op :=
| OpLoad (env : plugin_env) (name : string)
| OpUnload (name : string)
| OpSwitch (start stop : list string) (strictness : Z)  (** the request; executed by a later OpUpdate *)
| OpUpdate (lock1 lock2 : bool)
| OpEnv (f : W -> W)   (** anything happening outside the manager between two operations *)
| OpNewLoader   (** reload_controller_libraries replaces the plugin loader (719-722); the stopping and unloading
                    it does before (701-716) are OpSwitch, OpUpdate and OpUnload *).

(** One operation. Service calls only start while no switch is pending: services_lock_ and
    controllers_lock_ are held until the realtime thread has executed it. *)
Inductive step : mgr -> op -> res (answer * mgr) -> Prop :=
| step_load m env name : please m = false -> step m (OpLoad env name) (loadController env name m)
| step_unload m name : please m = false -> step m (OpUnload name) (unloadController name m)
| step_switch m start stop strictness : please m = false ->
    step m (OpSwitch start stop strictness)
      (match switch_body start stop strictness m with
       | Rejected m' => Ok (Returned false, m')
       | Ready m' => Ok (Returned true, m')
       | Thrown m' => Ok (Exception, m')
       | Broken => UB
       end)
| step_update m l1 l2 : step m (OpUpdate l1 l2) (do m' <- update l1 l2 m; Ok (Returned true, m'))
| step_env m f : step m (OpEnv f) (Ok (Returned true, on_world f m))
| step_newloader m : please m = false -> lists m (cur m) = [] ->
    step m OpNewLoader (Ok (Returned true, log EvNewLoader m)).

(** States reachable by any history. *)
Inductive reachable : mgr -> Prop :=
| reach_init m : initial m -> reachable m
| reach_step m o a m' : reachable m -> step m o (Ok (a, m')) -> reachable m'.

End Manager.
