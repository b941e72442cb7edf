(** pr2_controller_manager/src/scheduler.cpp *)
From Coq Require Import List String Arith Bool.
From Verif.Model Require Import Base.
Import ListNotations.

(** What scheduling reads of a ControllerSpec (controller_spec.h:63-71): its name and the
    [before_list_]/[after_list_] of the controller object (controller.h:164). *)
Record spec := mkSpec {
  sp_name : string;
  sp_before : list string;
  sp_after : list string }.

(** scheduler.cpp:35 [typedef map<string, list<string> > schedGraph].
    Association list kept sorted by key (std::map iterates in key order). *)
Definition graph := list (string * list string).

(** scheduler.cpp:76 [graph[name];] -- std::map::operator[] inserts an empty list if absent. *)
Fixpoint gtouch (k : string) (g : graph) : graph :=
  match g with
  | [] => [(k, [])]
  | (k', l) :: g' =>
      match String.compare k k' with
      | Lt => (k, []) :: (k', l) :: g'
      | Eq => (k', l) :: g'
      | Gt => (k', l) :: gtouch k g'
      end
  end.

(** scheduler.cpp:80 [graph.find(name)] *)
Fixpoint gfind (k : string) (g : graph) : option (list string) :=
  match g with
  | [] => None
  | (k', l) :: g' => if String.eqb k k' then Some l else gfind k g'
  end.

(** scheduler.cpp:78,82 [it->second.push_back(x)] on the entry with key [k] (present). *)
Fixpoint gpush (k x : string) (g : graph) : graph :=
  match g with
  | [] => []
  | (k', l) :: g' => if String.eqb k k' then (k', l ++ [x]) :: g' else (k', l) :: gpush k x g'
  end.

(** scheduler.cpp:79-83: the loop over after_list_; [None] models [return false]. *)
Fixpoint build_after (name : string) (after : list string) (g : graph) : option graph :=
  match after with
  | [] => Some g
  | a :: after' =>
      match gfind a g with
      | None => None
      | Some _ => build_after name after' (gpush a name g)
      end
  end.

(** scheduler.cpp:77-78: the loop over before_list_. *)
Definition build_before (name : string) (before : list string) (g : graph) : graph :=
  fold_left (fun g b => gpush name b g) before g.

(** scheduler.cpp:74-84: build the graph. *)
Fixpoint build_graph (c : list spec) (g : graph) : option graph :=
  match c with
  | [] => Some g
  | s :: c' =>
      match build_after (sp_name s) (sp_after s)
              (build_before (sp_name s) (sp_before s) (gtouch (sp_name s) g)) with
      | None => None
      | Some g' => build_graph c' g'
      end
  end.

(** scheduler.cpp:51-57: remove a name from a before list. *)
Definition remove_name (c : string) (l : list string) : list string :=
  filter (fun x => negb (String.eqb x c)) l.

(** scheduler.cpp:43-45: the first controller (in map order) with an empty list. *)
Fixpoint find_free (g : graph) : option string :=
  match g with
  | [] => None
  | (k, []) :: _ => Some k
  | (_, _ :: _) :: g' => find_free g'
  end.

(** scheduler.cpp:48 [graph.erase(it)] *)
Definition gerase (k : string) (g : graph) : graph :=
  filter (fun e => negb (String.eqb (fst e) k)) g.

(** scheduler.cpp:40-63 *)
Definition getNextController (g : graph) : option (string * graph) :=
  match find_free g with
  | None => None
  | Some c => Some (c, map (fun e => (fst e, remove_name c (snd e))) (gerase c g))
  end.

(** scheduler.cpp:92-95: find controller id; every index with that name is written to
    [schedule[nr]], so the last one stays.  [i] is the index of the head of [c]. *)
Fixpoint assign_ids (c : list spec) (i : nat) (name : string) (nr : nat) (schedule : list nat)
  : res (list nat) :=
  match c with
  | [] => Ok schedule
  | s :: c' =>
      if String.eqb (sp_name s) name
      then do schedule' <- vset schedule nr i; assign_ids c' (S i) name nr schedule'
      else assign_ids c' (S i) name nr schedule
  end.

Inductive sched_result :=
| SchedOk (schedule : list nat)     (** returned true *)
| SchedFail (schedule : list nat)   (** returned false; the vector has been written to anyway *)
| SchedUB                           (** out-of-bounds access *)
| SchedDiverge.                     (** fuel exhausted; shown impossible *)

(** scheduler.cpp:86-97: the scheduling loop.  [fuel] bounds the number of iterations;
    the caller passes the number of graph nodes. *)
Fixpoint sched_loop (fuel : nat) (c : list spec) (g : graph) (nr : nat) (schedule : list nat)
  : sched_result :=
  match g with
  | [] => SchedOk schedule
  | _ :: _ =>
      match fuel with
      | 0 => SchedDiverge
      | S fuel' =>
          match getNextController g with
          | None => SchedFail schedule
          | Some (name, g') =>
              match assign_ids c 0 name nr schedule with
              | Ok schedule' => sched_loop fuel' c g' (S nr) schedule'
              | _ => SchedUB
              end
          end
      end
  end.

(** scheduler.cpp:99-103: the debug string reads [c[schedule[i]]] for every [i]. *)
Definition show_ok (c : list spec) (schedule : list nat) : bool :=
  forallb (fun i => i <? List.length c) schedule.

(** scheduler.cpp:67-106.  [old] is the content of the output vector before the call. *)
Definition scheduleControllers (c : list spec) (old : list nat) : sched_result :=
  let schedule := resize 0 (List.length c) old in
  match build_graph c [] with
  | None => SchedFail schedule
  | Some g =>
      match sched_loop (List.length g) c g 0 schedule with
      | SchedOk s => if show_ok c s then SchedOk s else SchedUB
      | r => r
      end
  end.
