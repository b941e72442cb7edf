(** pr2_controller_manager/src/controller_manager.cpp, level B: one realtime thread and any number of
    service/user threads interleaved at the granularity of the accesses to the shared variables
    used_by_realtime_, current_controllers_list_, please_switch_, controllers_lists_, the locks and the
    controllers' state_.  Sequential consistency and atomic accesses to single variables are assumed.
    The bodies that work on data no other thread may touch at that time are single steps; that nobody
    touches it is what [racy] below is about and what is proved (C21). *)
From Coq Require Import List String Arith Bool ZArith.
From Verif.Model Require Import Base Scheduler Controller Manager.
Import ListNotations.

(** the three calls that take controllers_lock_ for writing *)
Inductive call :=
| CLoad (env : plugin_env) (name : string)
| CUnload (name : string)
| CSwitch (start stop : list string) (strictness : Z).

(** A client of the manager: an arbitrary adaptive sequence of API calls.  The services of
    controller_manager.cpp:682-833 are particular programs (below). *)
Inductive prog :=
| PEnd
| PAbort                                              (** a failing assert *)
| PCall (c : call) (k : answer -> prog)
| PNames (k : list string -> prog)                    (** getControllerNames, 202-210 *)
| PSched (k : list nat -> prog)                       (** getControllerSchedule, 212-216 *)
| PLookup (name : string) (k : option ptr -> prog)    (** getControllerByName, 191-200 (no lock) *)
| PState (p : ptr) (k : bool -> prog)                 (** c->isRunning() *)
| PLoader (k : prog)                                  (** controller_loader_.reset(new ...), 722 *)
| PReply (r : list (string * bool)) (k : prog).       (** the response of list_controllers is complete, 783 *)

(** program counter of a client thread; [srv]: it holds services_lock_ *)
Inductive tstate :=
| TIdle
| TWant (pr : prog)                                   (** waits for services_lock_ *)
| TProg (srv : bool) (pr : prog)                      (** between calls *)
| TLock (srv : bool) (c : call) (k : answer -> prog)  (** waits for controllers_lock_ (224, 373, 485) *)
| TWait1 (srv : bool) (c : call) (k : answer -> prog) (** loop condition of 228 / 377 *)
| TWait1b (srv : bool) (c : call) (k : answer -> prog)(** 229 / 378 *)
| TBody (srv : bool) (c : call) (k : answer -> prog)  (** 233-342 / 382-437 / 487-539 *)
| TPub (srv : bool) (c : call) (k : answer -> prog)   (** pub_mech_stats_.lock(), 345 / 441 *)
| TFlip (srv : bool) (c : call) (k : answer -> prog)  (** 346-352 / 442-449 *)
| TWait2 (srv : bool) (c : call) (k : answer -> prog) (** loop condition of 353 / 450 *)
| TWait2b (srv : bool) (c : call) (k : answer -> prog)(** 354 / 451 *)
| TClear (srv : bool) (c : call) (k : answer -> prog) (** 358-359 / 456-458 *)
| TSw (srv : bool) (k : answer -> prog)               (** loop condition of 543 *)
| TSwb (srv : bool) (k : answer -> prog).             (** 544 *)

(** program counter of the realtime thread inside update() *)
Inductive rpc :=
| RIdle                          (** between two calls of update() *)
| RGot (b : bool)                (** 128: current_controllers_list_ has been read *)
| RBegin                         (** 128: used_by_realtime_ has been written *)
| RRestart (i : nat)             (** 140-142, iteration i *)
| RRestarting (i : nat)          (** 144: stopRequest() done, startRequest() to come *)
| RUpdate (i : nat)              (** 150-158, iteration i *)
| REffort                        (** 164-166 *)
| RPub1                          (** 169 *)
| RFill (t : Z)                  (** 594-677, pub_mech_stats_ locked *)
| RPub2                          (** 170 *)
| RSwitch                        (** 173 *)
| RStop (ps : list ptr)          (** 176-178, requests still to do *)
| RStart (ps : list ptr)         (** 181-183, requests still to do *)
| REnd.                          (** 185-187 *)

(** who holds pub_mech_stats_ *)
Inductive owner := ORt | OThread (k : nat) | OPublisher.

Record config (W : Type) := mkConfig {
  mg : mgr W;
  rt : rpc;
  thr : nat -> tstate;
  srv_lock : option nat;         (** services_lock_ *)
  ctl_lock : option nat;         (** controllers_lock_ *)
  pub_lock : option owner;       (** pub_mech_stats_ *)
  rosok : bool;                  (** ros::ok() *)
  snap : mgr W;                  (** ghost: the manager when the running cycle took its list (128) *)
  cyc : list event }.            (** ghost: events of the realtime thread since then *)
Arguments mg {W}. Arguments rt {W}. Arguments thr {W}. Arguments srv_lock {W}. Arguments ctl_lock {W}.
Arguments pub_lock {W}. Arguments rosok {W}. Arguments snap {W}. Arguments cyc {W}. Arguments mkConfig {W}.

Inductive label (W : Type) :=
| LRt (lock1 lock2 : bool)          (** the realtime thread's next step; results of trylock if it can succeed *)
| LTh (k : nat)                     (** thread k's next step *)
| LStart (k : nat) (srv : bool) (pr : prog)  (** idle thread k begins: a service call or direct use of the API *)
| LPubTake | LPubFree               (** the publisher's own thread takes/releases pub_mech_stats_ *)
| LRosDown                          (** ros::ok() turns false *)
| LEnv (f : W -> W).                (** anything outside *)
Arguments LRt {W}. Arguments LTh {W}. Arguments LStart {W}. Arguments LPubTake {W}. Arguments LPubFree {W}.
Arguments LRosDown {W}. Arguments LEnv {W}.

Definition set_thr (f : nat -> tstate) (k : nat) (t : tstate) : nat -> tstate :=
  fun j => if Nat.eqb j k then t else f j.

Section Conc.
Context {W : Type} (H : hooks W).
Notation mgr := (mgr W).
Notation config := (config W).

(* ------------------------------------------------------------------ the realtime thread *)
(** One step of update(), 126-189. [free]: trylock() on pub_mech_stats_ would succeed.
    Result: manager, next program counter. *)
Definition rt_step (free lock1 lock2 : bool) (pc : rpc) (m : mgr) : res (mgr * rpc) :=
  match pc with
  | RIdle => Ok (m, RGot (cur m))
  | RGot b => Ok (rt_use b m, RBegin)
  | RBegin =>
      let m := rt_pre H m in
      if rt_must_restart H m then Ok (m, RRestart 0)
      else Ok (set_prev_halted (h_halted H (world m)) m, RUpdate 0)
  | RRestart i =>
      do l <- rt_list m;
      if Nat.ltb i (List.length l) then
        do e <- rt_nth m i;
        if isRunning (state_of m (e_ptr e))
        then let '(_, m1) := stop_ctrl H (e_ptr e) m in Ok (m1, RRestarting i)
        else Ok (m, RRestart (S i))
      else Ok (set_prev_halted (h_halted H (world m)) m, RUpdate 0)
  | RRestarting i =>
      do e <- rt_nth m i;
      let '(_, m1) := start_ctrl H (e_ptr e) m in Ok (m1, RRestart (S i))
  | RUpdate i =>
      do l <- rt_list m;
      if Nat.ltb i (List.length l) then do m1 <- rt_update_one H m i; Ok (m1, RUpdate (S i))
      else Ok (rt_enforce H m, REffort)
  | REffort => Ok (rt_send H m, RPub1)
  | RPub1 =>
      let '(t, m) := now H m in
      if mech_due H t m && free && lock1 then Ok (m, RFill t) else Ok (m, RPub2)
  | RFill t => do m1 <- rt_fill_mech H t m; Ok (m1, RPub2)
  | RPub2 => do m1 <- publishJointState H lock2 m; Ok (m1, RSwitch)
  | RSwitch => if please m then Ok (m, RStop (stop_req m)) else Ok (m, RIdle)
  | RStop [] => Ok (m, RStart (start_req m))
  | RStop (p :: ps) => Ok (rt_stop_one H m p, RStop ps)
  | RStart [] => Ok (m, REnd)
  | RStart (p :: ps) => Ok (rt_start_one H m p, RStart ps)
  | REnd => Ok (rt_switch_end m, RIdle)
  end.

(** new events of a realtime step (the trace only grows) *)
Definition new_events (m m' : mgr) : list event := skipn (List.length (trace m)) (trace m').

(** pub_mech_stats_ after a realtime step: taken on entering RFill, given back on leaving it *)
Definition rt_pub (pc pc' : rpc) (l : option owner) : option owner :=
  match pc', pc with
  | RFill _, _ => Some ORt
  | _, RFill _ => None
  | _, _ => l
  end.

Definition do_rt (lock1 lock2 : bool) (c : config) : res config :=
  let free := match pub_lock c with None => true | Some _ => false end in
  do r <- rt_step free lock1 lock2 (rt c) (mg c);
  let '(m', pc') := r in
  Ok (mkConfig m' pc' (thr c) (srv_lock c) (ctl_lock c) (rt_pub (rt c) pc' (pub_lock c)) (rosok c)
       (match rt c with RGot _ => m' | _ => snap c end)
       (match rt c with RGot _ => [] | _ => cyc c ++ new_events (mg c) m' end)).

(* ------------------------------------------------------------------ client threads *)
Definition with_thr (k : nat) (t : tstate) (c : config) : config :=
  mkConfig (mg c) (rt c) (set_thr (thr c) k t) (srv_lock c) (ctl_lock c) (pub_lock c) (rosok c) (snap c) (cyc c).
Definition with_mg (m : mgr) (c : config) : config :=
  mkConfig m (rt c) (thr c) (srv_lock c) (ctl_lock c) (pub_lock c) (rosok c) (snap c) (cyc c).
Definition with_srv (o : option nat) (c : config) : config :=
  mkConfig (mg c) (rt c) (thr c) o (ctl_lock c) (pub_lock c) (rosok c) (snap c) (cyc c).
Definition with_ctl (o : option nat) (c : config) : config :=
  mkConfig (mg c) (rt c) (thr c) (srv_lock c) o (pub_lock c) (rosok c) (snap c) (cyc c).
Definition with_pub (o : option owner) (c : config) : config :=
  mkConfig (mg c) (rt c) (thr c) (srv_lock c) (ctl_lock c) o (rosok c) (snap c) (cyc c).

(** a call returns: the scoped lock releases controllers_lock_ *)
Definition ret (k : nat) (srv : bool) (pr : prog) (c : config) : config :=
  with_thr k (TProg srv pr) (with_ctl None c).

(** [free_controllers_list == used_by_realtime_] (228, 377) *)
Definition free_in_use (m : mgr) : bool :=
  match used m with Some b => Bool.eqb (free_list m) b | None => false end.
(** [used_by_realtime_ == former_current_controllers_list_] (353, 450), after the flip *)
Definition former_in_use (m : mgr) : bool :=
  match used m with Some b => Bool.eqb (negb (cur m)) b | None => false end.

Definition body (c : call) (m : mgr) : outcome :=
  match c with
  | CLoad env name => load_body H env name m
  | CUnload name => unload_body name m
  | CSwitch start stop strictness => switch_body start stop strictness m
  end.

(** One step of thread [k] in state [t]; [None]: blocked or nothing to do. *)
Definition th_step (k : nat) (t : tstate) (c : config) : option (res config) :=
  match t with
  | TIdle => None
  | TWant pr =>
      match srv_lock c with
      | None => Some (Ok (with_thr k (TProg true pr) (with_srv (Some k) c)))
      | Some _ => None
      end
  | TProg srv pr =>
      match pr with
      | PEnd => Some (Ok (with_thr k TIdle (if srv then with_srv None c else c)))
      | PAbort => Some Abort
      | PCall cl kk => Some (Ok (with_thr k (TLock srv cl kk) c))
      | PNames kk => match ctl_lock c with
                     | None => Some (Ok (with_thr k (TProg srv (kk (getControllerNames (mg c) []))) c))
                     | Some _ => None end
      | PSched kk => match ctl_lock c with
                     | None => Some (Ok (with_thr k (TProg srv (kk (getControllerSchedule (mg c)))) c))
                     | Some _ => None end
      | PLookup n kk => Some (Ok (with_thr k (TProg srv (kk (getControllerByName (mg c) n))) c))
      | PState p kk => Some (Ok (with_thr k (TProg srv (kk (isRunning (state_of (mg c) p)))) c))
      | PLoader pr' => Some (Ok (with_thr k (TProg srv pr') (with_mg (log EvNewLoader (mg c)) c)))
      | PReply _ pr' => Some (Ok (with_thr k (TProg srv pr') c))
      end
  | TLock srv cl kk =>
      match ctl_lock c with
      | None => Some (Ok (with_thr k (match cl with CSwitch _ _ _ => TBody srv cl kk | _ => TWait1 srv cl kk end)
                            (with_ctl (Some k) c)))
      | Some _ => None
      end
  | TWait1 srv cl kk =>
      Some (Ok (with_thr k (if rosok c && free_in_use (mg c) then TWait1b srv cl kk else TBody srv cl kk) c))
  | TWait1b srv cl kk =>
      Some (Ok (if negb (rosok c) then ret k srv (kk (Returned false)) c else with_thr k (TWait1 srv cl kk) c))
  | TBody srv cl kk =>
      match body cl (mg c) with
      | Rejected m' => Some (Ok (ret k srv (kk (Returned false)) (with_mg m' c)))
      | Thrown m' => Some (Ok (ret k srv (kk Exception) (with_mg m' c)))
      | Broken => Some UB
      | Ready m' =>
          match cl with
          | CSwitch _ _ _ =>
              Some (Ok (with_thr k (TSw srv kk) (with_mg (log (EvRequest (stop_req m') (start_req m')) m') c)))
          | _ => Some (Ok (with_thr k (TPub srv cl kk) (with_mg m' c)))
          end
      end
  | TPub srv cl kk =>
      match pub_lock c with
      | None => Some (Ok (with_thr k (TFlip srv cl kk) (with_pub (Some (OThread k)) c)))
      | Some _ => None
      end
  | TFlip srv cl kk =>   (* 346-352: nobody can read the message between the two assignments *)
      Some (Ok (with_thr k (TWait2 srv cl kk) (with_mg (flip (resize_stats (mg c))) c)))
  | TWait2 srv cl kk =>
      Some (Ok (with_thr k (if rosok c && former_in_use (mg c) then TWait2b srv cl kk else TClear srv cl kk) c))
  | TWait2b srv cl kk =>  (* returning here leaves pub_mech_stats_ locked *)
      Some (Ok (if negb (rosok c) then ret k srv (kk (Returned false)) c else with_thr k (TWait2 srv cl kk) c))
  | TClear srv cl kk =>
      Some (Ok (ret k srv (kk (Returned true)) (with_pub None (with_mg (clear_former (mg c)) c))))
  | TSw srv kk =>
      Some (Ok (if rosok c && please (mg c) then with_thr k (TSwb srv kk) c
                else ret k srv (kk (Returned true)) (with_mg (log EvSwitchReturn (mg c)) c)))
  | TSwb srv kk =>
      Some (Ok (if negb (rosok c) then ret k srv (kk (Returned false)) c else with_thr k (TSw srv kk) c))
  end.

(* ------------------------------------------------------------------ the system *)
(** [None]: the step is not possible; otherwise its outcome. *)
Definition bstep (l : label W) (c : config) : option (res config) :=
  match l with
  | LRt lock1 lock2 => Some (do_rt lock1 lock2 c)
  | LTh k => th_step k (thr c k) c
  | LStart k srv pr =>
      match thr c k with
      | TIdle => Some (Ok (with_thr k (if srv then TWant pr else TProg false pr) c))
      | _ => None
      end
  | LPubTake => match pub_lock c with None => Some (Ok (with_pub (Some OPublisher) c)) | Some _ => None end
  | LPubFree => match pub_lock c with Some OPublisher => Some (Ok (with_pub None c)) | _ => None end
  | LRosDown => Some (Ok (mkConfig (mg c) (rt c) (thr c) (srv_lock c) (ctl_lock c) (pub_lock c) false (snap c) (cyc c)))
  | LEnv f => Some (Ok (with_mg (on_world f (mg c)) c))
  end.

(** any interleaving: the labels of an execution, oldest first *)
Inductive steps : config -> list (label W) -> config -> Prop :=
| steps_nil c : steps c [] c
| steps_snoc c ls c1 l c2 : steps c ls c1 -> bstep l c1 = Some (Ok c2) -> steps c (ls ++ [l]) c2.

(** executable version *)
Fixpoint runs (ls : list (label W)) (c : config) : option config :=
  match ls with
  | [] => Some c
  | l :: ls' => match bstep l c with Some (Ok c') => runs ls' c' | _ => None end
  end.

(* ------------------------------------------------------------------ data races *)
(** the list (and schedule) the realtime thread holds references to (129-130, 660) *)
Definition rt_uses (c : config) : option bool :=
  match rt c with
  | RBegin | RRestart _ | RRestarting _ | RUpdate _ | REffort | RPub1 | RFill _ => used (mg c)
  | _ => None
  end.
(** the list (and schedule) a client thread is modifying *)
Definition writes (t : tstate) (m : mgr) : option bool :=
  match t with
  | TBody _ (CLoad _ _) _ | TBody _ (CUnload _) _ => Some (free_list m)
  | TClear _ _ _ => Some (negb (cur m))
  | _ => None
  end.
(** the realtime thread is using the list a client thread is modifying *)
Definition list_race (c : config) : Prop :=
  exists k b, writes (thr c k) (mg c) = Some b /\ rt_uses c = Some b.
(** the realtime thread is using the requests (176-186) a client thread is modifying (488-533) *)
Definition request_race (c : config) : Prop :=
  (exists ps, rt c = RStop ps \/ rt c = RStart ps \/ rt c = REnd) /\
  exists k srv a b s kk, thr c k = TBody srv (CSwitch a b s) kk.

(* ------------------------------------------------------------------ initial configurations *)
(** The realtime thread is between cycles, no call is in progress.  [boot]: nothing has run yet. *)
Definition quiet (m : mgr) : config := mkConfig m RIdle (fun _ => TIdle) None None None true m [].

End Conc.

(* ------------------------------------------------------------------ the services as programs *)
(** controller_manager.cpp:771-781: the loop of list_controllers.  PAbort also stands for the undefined
    behaviour of indexing out of range. *)
Fixpoint list_prog (names : list string) (sched : list nat) (acc : list (string * bool))
         (fin : list (string * bool) -> prog) : prog :=
  match sched with
  | [] => fin acc
  | j :: sched' =>
      match nth_error names j with
      | None => PAbort
      | Some n => PLookup n (fun p => match p with
                              | None => PAbort
                              | Some q => PState q (fun b => list_prog names sched' (acc ++ [(n, b)]) fin)
                              end)
      end
  end.
(** controller_manager.cpp:751-785 *)
Definition list_service (fin : list (string * bool) -> prog) : prog :=
  PNames (fun names => PSched (fun sched =>
    if Nat.eqb (List.length names) (List.length sched)
    then list_prog names sched [] fin else PAbort)).
(** controller_manager.cpp:788-833 *)
Definition load_service env name : prog := PCall (CLoad env name) (fun _ => PEnd).
Definition unload_service name : prog := PCall (CUnload name) (fun _ => PEnd).
Definition switch_service start stop strictness : prog := PCall (CSwitch start stop strictness) (fun _ => PEnd).
(** controller_manager.cpp:709-716 *)
Fixpoint unload_prog (ns : list string) (ok : prog) (fail : prog) : prog :=
  match ns with
  | [] => ok
  | n :: ns' => PCall (CUnload n) (fun a => match a with Returned true => unload_prog ns' ok fail | _ => fail end)
  end.
(** controller_manager.cpp:682-729 *)
Definition reload_service (force : bool) : prog :=
  PNames (fun cs => match cs with
    | [] => PLoader PEnd
    | _ => if negb force then PEnd else
        PCall (CSwitch [] cs BEST_EFFORT) (fun a => match a with
          | Returned true => unload_prog cs (PNames (fun cs' => match cs ++ cs' with [] => PLoader PEnd | _ => PAbort end)) PEnd
          | _ => PEnd end) end).
