(** The command line clients of the controller manager: spawner, unspawner, pr2_controller_manager
    (pr2_controller_manager/scripts/ and src/pr2_controller_manager/pr2_controller_manager_interface.py).

    A client is a sequential program whose only effects are calls of the manager's services. Not modelled:
    waiting for the services or for the wait-for topic, yaml files (the names they contain are the argument
    list here), printing. *)
From Coq Require Import List String Bool ZArith.
From Verif.Model Require Import Base Scheduler Controller Manager.
Import ListNotations.

(** A client: the calls it makes, each continued with the answer it gets. *)
Inductive client :=
| Done
| Load (name : string) (k : answer -> client)
| Unload (name : string) (k : answer -> client)
| Switch (start stop : list string) (strictness : Z) (k : answer -> client)
| ListAll (k : list (string * bool) -> client)   (** names and "running"?, in the order of the response *)
| Reload (force_kill : bool) (k : bool -> client).

(* ------------------------------------------------------------------ scripts/spawner *)

(** spawner:61-66: unload the given controllers one after the other, whatever the answers; a service
    exception ends the loop (65-66). *)
Fixpoint unload_each (ns : list string) : client :=
  match ns with
  | [] => Done
  | n :: ns' => Unload n (fun a => match a with Exception => Done | Returned _ => unload_each ns' end)
  end.

(** spawner:58-67 [shutdown]; [mine]: the global list [loaded]. *)
Definition shutdown (mine : list string) : client :=
  Switch [] mine STRICT
    (fun a => match a with Exception => Done | Returned _ => unload_each (rev mine) end).

(** spawner:146-157: start what was loaded (unless --stopped), then spin until killed, then [shutdown].
    An exception leaves main() and the exit handler runs [shutdown] as well. *)
Definition spawner_started (autostart : bool) (mine : list string) : client :=
  if autostart then Switch mine [] STRICT (fun _ => shutdown mine) else shutdown mine.

(** spawner:137-157. [kill]: the script is killed after that many of the remaining load calls (a kill while
    a call is being executed by the manager is [spawner_lost] below). *)
Fixpoint spawner_load (autostart : bool) (kill : option nat) (todo mine : list string) : client :=
  match kill with
  | Some 0 => shutdown mine
  | _ =>
      match todo with
      | [] => spawner_started autostart mine
      | n :: todo' =>
          Load n (fun a =>
            match a with
            | Returned true => spawner_load autostart (option_map pred kill) todo' (mine ++ [n])
            | Returned false => spawner_load autostart (option_map pred kill) todo' mine
            | Exception => shutdown mine
            end)
      end
  end.

(** spawner:75-157 *)
Definition spawner (autostart : bool) (kill : option nat) (controllers : list string) : client :=
  spawner_load autostart kill controllers [].

(** spawner:136-144 interrupted while load call number [k] is being executed by the manager: the signal handler runs the
    exit handler [shutdown] (58-67, 124), and line 140 is never reached for that controller. *)
Fixpoint spawner_lost (k : nat) (todo mine : list string) {struct todo} : client :=
  match todo with
  | [] => shutdown mine
  | n :: todo' =>
      Load n (fun a =>
        match k with
        | 0 => shutdown mine
        | S k' =>
            match a with
            | Returned true => spawner_lost k' todo' (mine ++ [n])
            | Returned false => spawner_lost k' todo' mine
            | Exception => shutdown mine
            end
        end)
  end.

(* ------------------------------------------------------------------ scripts/unspawner *)

(** the order in which Python enumerates a set; unknown *)
Definition enumeration := list string -> list string.

(** unspawner:70-73 *)
Definition restart_inhibited (enum : enumeration) (inhibited : list string) : client :=
  Switch (enum inhibited) [] BEST_EFFORT (fun _ => Done).

(** unspawner:52-73: [rounds] complete rounds, then the interrupt arrives while sleeping. With [lost] the
    interrupt arrives in the last round while the script waits for the answer of switch_controller: the
    manager executes the switch but line 66 is not reached. *)
Fixpoint unspawner_loop (enum : enumeration) (to_inhibit : list string) (lost : bool) (rounds : nat)
         (inhibited : list string) : client :=
  match rounds with
  | O => restart_inhibited enum inhibited
  | S rounds' =>
      ListAll (fun listed =>
        let to_stop := map fst (filter (fun c => (if in_dec string_dec (fst c) to_inhibit then true else false)
                                                 && snd c) listed) in       (* 55-58 *)
        match to_stop with
        | [] => unspawner_loop enum to_inhibit lost rounds' inhibited
        | _ :: _ =>
            Switch [] to_stop BEST_EFFORT (fun a =>
              match a with
              | Exception => restart_inhibited enum inhibited
              | Returned _ =>
                  if lost && (rounds' =? 0)%nat then restart_inhibited enum inhibited
                  else unspawner_loop enum to_inhibit lost rounds' (inhibited ++ to_stop)
              end)
        end)
  end.
Definition unspawner (enum : enumeration) (to_inhibit : list string) (lost : bool) (rounds : nat) : client :=
  unspawner_loop enum to_inhibit lost rounds [].

(* ------------------------------------------------------------------ scripts/pr2_controller_manager *)

(** load the given controllers one after the other, whatever the answers, and go on with [k]; an exception
    leaves the script (interface.py:37-39, pr2_controller_manager:56-58, 69-70). *)
Fixpoint load_each (ns : list string) (k : client) : client :=
  match ns with
  | [] => k
  | n :: ns' => Load n (fun a => match a with Exception => Done | Returned _ => load_each ns' k end)
  end.

(** interface.py:81-121 start_stop_controllers([name], st) for each name *)
Fixpoint start_each (ns : list string) (k : client) : client :=
  match ns with
  | [] => k
  | n :: ns' => Switch [n] [] STRICT (fun a => match a with Exception => Done | Returned _ => start_each ns' k end)
  end.
Fixpoint stop_each (ns : list string) (k : client) : client :=
  match ns with
  | [] => k
  | n :: ns' => Switch [] [n] STRICT (fun a => match a with Exception => Done | Returned _ => stop_each ns' k end)
  end.

(** pr2_controller_manager:68-72 *)
Definition cmd_spawn (ns : list string) : client := load_each ns (start_each ns Done).
(** pr2_controller_manager:73-77 *)
Definition cmd_kill (ns : list string) : client := stop_each ns (unload_each ns).

(** interface.py:17-51 reload_libraries(force_kill, restore) *)
Definition restore_script (originally : list (string * bool)) : client :=
  load_each (map fst originally)
    (Switch (map fst (filter snd originally)) [] BEST_EFFORT (fun _ => Done)).
Definition reload_libraries (force_kill restore : bool) : client :=
  if restore
  then ListAll (fun originally => Reload force_kill (fun _ => restore_script originally))
  else Reload force_kill (fun _ => Done).

(* ------------------------------------------------------------------ execution *)
Section Run.
Context {W : Type} (H : hooks W).
Notation mgr := (mgr W).

(** Who else does what: [others o m'] says that another client, the realtime thread or the environment
    may execute [o] leading to [m']. *)
Variable others : op (W := W) -> mgr -> Prop.
(** the plugin environments the client's load calls may meet *)
Variable plugins : plugin_env -> Prop.
(** built with assertions *)
Variable asserts : bool.

(** [run m c m']: from [m], client [c] runs to completion and the manager is then in [m']. Between any two
    of its calls (and before the first) others may act. A call is only served while no switch is pending
    (services_lock_, controllers_lock_). *)
Inductive run : mgr -> client -> mgr -> Prop :=
| run_done m : run m Done m
| run_other m o a m1 c m' : c <> Done -> step H m o (Ok (a, m1)) -> others o m1 -> run m1 c m' -> run m c m'
| run_load m env n k a m1 m' : please m = false -> plugins env ->
    loadController H env n m = Ok (a, m1) -> run m1 (k a) m' -> run m (Load n k) m'
| run_unload m n k a m1 m' : please m = false ->
    unloadController n m = Ok (a, m1) -> run m1 (k a) m' -> run m (Unload n k) m'
| run_switch m start stop s l1 l2 k a m1 m' : please m = false ->
    switchController H start stop s l1 l2 m = Ok (a, m1) -> run m1 (k a) m' -> run m (Switch start stop s k) m'
| run_list m k ans m' : please m = false ->
    listControllers asserts m = Ok ans -> run m (k ans) m' -> run m (ListAll k) m'
| run_reload m force l1 l2 k ok m1 m' : please m = false ->
    reloadControllerLibraries H asserts force l1 l2 m = Ok (ok, m1) -> run m1 (k ok) m' -> run m (Reload force k) m'.
End Run.
