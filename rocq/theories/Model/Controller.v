(** pr2_controller_interface: controller.h, controller_provider.h *)
From Coq Require Import List String Arith Bool ZArith.
From Verif.Model Require Import Base.
Import ListNotations.

(** controller.h:166 [enum {CONSTRUCTED, INITIALIZED, RUNNING} state_] *)
Inductive cstate := CONSTRUCTED | INITIALIZED | RUNNING.

(** The virtual functions a controller author implements (controller.h:66,69,72,87);
    [CbInit ok] is a call of init that returned [ok] ([false] also stands for an exception). *)
Inductive callback := CbInit (ok : bool) | CbStarting | CbUpdate | CbStopping.

(** controller.h:110-113 *)
Definition isRunning (s : cstate) : bool :=
  match s with RUNNING => true | _ => false end.

(** controller.h:115-119. Result: callbacks invoked, new state (update() cannot change state_). *)
Definition updateRequest (s : cstate) : list callback * cstate :=
  match s with
  | RUNNING => ([CbUpdate], RUNNING)
  | _ => ([], s)
  end.

(** controller.h:121-131. The callback runs before the state changes. *)
Definition startRequest (s : cstate) : bool * list callback * cstate :=
  match s with
  | RUNNING | INITIALIZED => (true, [CbStarting], RUNNING)
  | CONSTRUCTED => (false, [], CONSTRUCTED)
  end.

(** controller.h:134-144 *)
Definition stopRequest (s : cstate) : bool * list callback * cstate :=
  match s with
  | RUNNING | INITIALIZED => (true, [CbStopping], INITIALIZED)
  | CONSTRUCTED => (false, [], CONSTRUCTED)
  end.

(** controller.h:56 [enum {BEFORE_ME, AFTER_ME}] *)
Definition BEFORE_ME : Z := 0%Z.
Definition AFTER_ME : Z := 1%Z.

Definition ptr := nat.

(** A controller provider (controller_provider.h:53-80): lookup by name giving the object and its
    dynamic type; the [ControllerType] template argument is the predicate [cast] on types
    for which dynamic_cast succeeds. *)
Definition provider := string -> option (ptr * string).

(** controller_provider.h:59-72 *)
Definition getControllerByName_as (prov : provider) (cast : string -> bool) (name : string) : option ptr :=
  match prov name with
  | None => None
  | Some (p, ty) => if cast ty then Some p else None
  end.

(** The dependency bookkeeping of one controller object: before_list_, after_list_ (controller.h:164)
    plus a ghost list of the pointers handed out by successful getController calls. *)
Record deps := mkDeps {
  d_before : list string;
  d_after : list string;
  d_got : list (string * ptr) }.
Definition no_deps := mkDeps [] [] [].

(** controller.h:90-107. Result: return value, value of the output pointer argument (None = not
    assigned), new bookkeeping.  [prov = None] models contr_prov_ == NULL. *)
Definition getController (prov : option provider) (name : string) (sched : Z) (cast : string -> bool)
           (d : deps) : bool * option ptr * deps :=
  match prov with
  | None => (false, None, d)
  | Some pr =>
      match getControllerByName_as pr cast name with
      | None => (false, None, d)
      | Some p =>
          if Z.eqb sched BEFORE_ME then
            (true, Some p, mkDeps (d_before d ++ [name]) (d_after d) (d_got d ++ [(name, p)]))
          else if Z.eqb sched AFTER_ME then
            (true, Some p, mkDeps (d_before d) (d_after d ++ [name]) (d_got d ++ [(name, p)]))
          else (false, Some p, d)
      end
  end.

(** User-written init code (controller.h:87): an arbitrary program that calls getController
    adaptively (seeing return value and pointer) and finally returns or throws.
    Simplification: other effects of init (its own members, ROS interface) are not modelled. *)
Inductive iprog :=
| IRet (b : bool)
| IThrow
| IGet (name : string) (sched : Z) (cast : string -> bool) (k : bool -> option ptr -> iprog).

Inductive init_result := InitRet (b : bool) | InitThrow.

Fixpoint run_init (prov : option provider) (pr : iprog) (d : deps) : init_result * deps :=
  match pr with
  | IRet b => (InitRet b, d)
  | IThrow => (InitThrow, d)
  | IGet name sched cast k =>
      let '(b, p, d') := getController prov name sched cast d in
      run_init prov (k b p) d'
  end.

(** controller.h:146-161. Result: return value or exception, callbacks, state, bookkeeping. *)
Definition initRequest (prov : option provider) (pr : iprog) (s : cstate) (d : deps)
  : init_result * list callback * cstate * deps :=
  match s with
  | CONSTRUCTED =>
      match run_init prov pr d with
      | (InitRet true, d') => (InitRet true, [CbInit true], INITIALIZED, d')
      | (InitRet false, d') => (InitRet false, [CbInit false], CONSTRUCTED, d')
      | (InitThrow, d') => (InitThrow, [CbInit false], CONSTRUCTED, d')
      end
  | _ => (InitRet false, [], s, d)
  end.

(** A single controller object driven by an arbitrary history of requests. *)
Inductive request :=
| RInit (prov : option provider) (pr : iprog)
| RStart | RStop | RUpdate.

Definition obj := (cstate * deps)%type.
(** controller.h:58 the constructor *)
Definition new_obj : obj := (CONSTRUCTED, no_deps).

(** One request: observable result ([None] = void or exception), callbacks, new object. *)
Definition do_request (r : request) (o : obj) : option bool * list callback * obj :=
  let '(s, d) := o in
  match r with
  | RInit prov pr =>
      let '(ir, cbs, s', d') := initRequest prov pr s d in
      (match ir with InitRet b => Some b | InitThrow => None end, cbs, (s', d'))
  | RStart => let '(b, cbs, s') := startRequest s in (Some b, cbs, (s', d))
  | RStop => let '(b, cbs, s') := stopRequest s in (Some b, cbs, (s', d))
  | RUpdate => let '(cbs, s') := updateRequest s in (None, cbs, (s', d))
  end.

(** A history of requests: all results and all callbacks in order. *)
Fixpoint do_requests (rs : list request) (o : obj) : list (option bool) * list callback * obj :=
  match rs with
  | [] => ([], [], o)
  | r :: rs' =>
      let '(b, cbs, o1) := do_request r o in
      let '(bs, cbs', o2) := do_requests rs' o1 in
      (b :: bs, cbs ++ cbs', o2)
  end.
