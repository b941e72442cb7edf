(** pr2_controller_manager/test/test.cpp (spawner, loading, unloading, start_stop_strict, start_stop_best_effort) with
    test/controller_test.launch, on Model/Manager.v and Model/Scripts.v: the calls are made one after the other, a control
    cycle between any two of them.  The tests about topics and rates need a ROS master and are left out. *)
From Coq Require Import ZArith String List Bool.
From Verif.Model Require Import Base Scheduler Controller Manager Scripts.
Import ListNotations.
Open Scope string_scope.
Open Scope list_scope.

(** The world is a clock that advances 0.1 ms at every reading.  Publishing periods: controller_test.launch, 2 Hz and 200 Hz. *)
Definition testW := Z.
Definition testH : hooks testW :=
  mkHooks testW (fun w => (w, (w + 100000)%Z)) (fun w => w) (fun w => w) (fun _ => false) (fun w => w) (fun w => w)
    (fun _ _ w => w) (fun _ w => w) (fun _ w => w) 500000000%Z 5000000%Z.
Definition test0 : mgr testW :=
  mkMgr (fun _ => mkObj "" CONSTRUCTED no_deps new_stats) 0 (fun _ => []) (fun _ => []) false None [] [] false true
    [] 0%Z 0%Z 5%Z [].

(** controller_test.launch:3-22 and the yaml files: all have the type TestController except controller18, whose type is
    rubbish; controller10 has no parameters.  TestController::init (test_controller.cpp) succeeds for controller1 to 7; every
    other configuration lacks a parameter or names a joint or link that does not exist. *)
Definition configured (n : string) : bool :=
  existsb (String.eqb n) ["controller1"; "controller2"; "controller3"; "controller4"; "controller5"; "controller6"; "controller7"].
Definition broken (n : string) : bool :=
  existsb (String.eqb n) ["controller8"; "controller9"; "controller11"; "controller12"; "controller13"; "controller14";
                          "controller15"; "controller16"; "controller17"; "controller19"].
Definition TestController := "pr2_controller_manager/TestController".
Definition env_of (name : string) : plugin_env :=
  mkEnv (fun _ => true)
    (fun n => if configured n || broken n then Some TestController
              else if String.eqb n "controller18" then Some "#%$#$ " else None)
    (String.eqb TestController) [TestController] (fun t => t)
    (fun t => if String.eqb t TestController then CreateOk (IRet (configured name)) else CreateRuntimeError).

(** a cycle, then the call *)
Definition cycle (m : mgr testW) : mgr testW := match update testH true true m with Ok m' => m' | _ => m end.
Definition load (n : string) (m : mgr testW) : bool * mgr testW :=
  match loadController testH (env_of n) n (cycle m) with Ok (Returned b, m') => (b, m') | _ => (false, m) end.
Definition unload (n : string) (m : mgr testW) : bool * mgr testW :=
  match unloadController n (cycle m) with Ok (Returned b, m') => (b, m') | _ => (false, m) end.
Definition switch (start stop : list string) (s : Z) (m : mgr testW) : bool * mgr testW :=
  match switchController testH start stop s true true (cycle m) with Ok (Returned b, m') => (b, m') | _ => (false, m) end.
(** test.cpp:160-182 nrControllers, controllerState *)
Definition the_list (m : mgr testW) : list (string * bool) := match listControllers true m with Ok l => l | _ => [] end.
Inductive seen := Unloaded | Stopped | Running.
Definition state (m : mgr testW) (n : string) : seen :=
  match find (fun x => String.eqb (fst x) n) (the_list m) with
  | None => Unloaded | Some (_, true) => Running | Some (_, false) => Stopped
  end.
Definition states (m : mgr testW) : list seen :=
  map (state m) ["controller1"; "controller2"; "controller3"; "controller4"; "controller5"; "controller6"; "controller7";
                 "controller8"; "controller9"].

(** [k] service calls of a client; it then waits (the spawner waits until it is interrupted) *)
Fixpoint calls_of (k : nat) (c : client) (m : mgr testW) : mgr testW :=
  match k with
  | 0 => m
  | S k =>
      match c with
      | Load n f => let '(b, m) := load n m in calls_of k (f (Returned b)) m
      | Unload n f => let '(b, m) := unload n m in calls_of k (f (Returned b)) m
      | Switch a b s f => let '(r, m) := switch a b s m in calls_of k (f (Returned r)) m
      | ListAll f => calls_of k (f (the_list m)) m
      | _ => m
      end
  end.

(** controller_test.launch:25-28: load (and, unless --stopped, start) *)
Definition spawn1 := calls_of 2 (spawner true None ["controller1"]).
Definition spawn2 := calls_of 1 (spawner false None ["controller2"]).
Definition spawn34 := calls_of 3 (spawner true None ["controller3"; "controller4"]).
Definition spawn56 := calls_of 2 (spawner false None ["controller5"; "controller6"]).
Definition m1 : mgr testW := spawn56 (spawn34 (spawn2 (spawn1 test0))).

(** TEST_F(TestController, spawner) *)
Example test_spawner :
  List.length (the_list m1) = 6 /\
  states m1 = [Running; Stopped; Running; Running; Stopped; Stopped; Unloaded; Unloaded; Unloaded].
Proof. split; vm_compute; reflexivity. Qed.
(** the four spawners in another order *)
Example test_spawner_other_order :
  states (spawn1 (spawn34 (spawn56 (spawn2 test0)))) = states m1.
Proof. vm_compute. reflexivity. Qed.

Fixpoint seq (l : list (mgr testW -> bool * mgr testW)) (m : mgr testW) : list bool * mgr testW :=
  match l with
  | [] => ([], m)
  | f :: l => let '(b, m) := f m in let '(bs, m) := seq l m in (b :: bs, m)
  end.

(** TEST_F(TestController, loading) *)
Definition loading := seq (map load
  ["controller1"; "controller2"; "controller3"; "controller4"; "controller5"; "controller6"; "controller7";
   "controller9"; "controller11"; "controller12"; "controller13"; "controller14"; "controller15"; "controller16"; "controller17";
   "controller18"; "controller19"; "controller10"]) m1.
Definition m2 := snd loading.
Example test_loading :
  fst loading = repeat false 6 ++ [true] ++ repeat false 11 /\
  states m2 = [Running; Stopped; Running; Running; Stopped; Stopped; Stopped; Unloaded; Unloaded].
Proof. split; vm_compute; reflexivity. Qed.

(** TEST_F(TestController, unloading) *)
Definition unloading := seq (map unload
  ["controller1"; "controller3"; "controller4"; "controller2"; "controller5"; "controller6"; "controller7"; "controller8"]) m2.
Definition m3 := snd unloading.
Example test_unloading :
  fst unloading = [false; false; false; true; true; true; true; false] /\
  states m3 = [Running; Unloaded; Running; Running; Unloaded; Unloaded; Unloaded; Unloaded; Unloaded].
Proof. split; vm_compute; reflexivity. Qed.

(** TEST_F(TestController, start_stop_strict): the answers, and the states after every call *)
Fixpoint trail (l : list (mgr testW -> bool * mgr testW)) (m : mgr testW) : list (bool * list seen) :=
  match l with
  | [] => []
  | f :: l => let '(b, m) := f m in (b, firstn 5 (states m)) :: trail l m
  end.
Definition strict : list (mgr testW -> bool * mgr testW) :=
  [switch ["controller1"] [] STRICT;
   switch ["controller1"; "controller2"] [] STRICT;
   load "controller2";
   switch ["controller1"; "controller2"] [] STRICT;
   switch ["controller1"; "controller2"] ["controller2"] STRICT;
   switch ["controller1"; "controller2"] ["controller2"; "controller5"] STRICT;
   switch ["controller1"; "controller2"] ["controller2"; "controller5"; "controller4"] STRICT;
   load "controller5";
   switch ["controller1"; "controller2"] ["controller2"; "controller5"; "controller4"] STRICT;
   switch ["controller1"; "controller2"] ["controller2"; "controller5"; "controller4"; "controller3"] STRICT].
Example test_start_stop_strict :
  trail strict m3 =
  [(true, [Running; Unloaded; Running; Running; Unloaded]);   (** already started *)
   (false, [Running; Unloaded; Running; Running; Unloaded]);  (** one unloaded *)
   (true, [Running; Stopped; Running; Running; Unloaded]);
   (true, [Running; Running; Running; Running; Unloaded]);    (** one started, one stopped *)
   (true, [Running; Running; Running; Running; Unloaded]);    (** start and stop the same *)
   (false, [Running; Running; Running; Running; Unloaded]);   (** stop an unloaded one *)
   (false, [Running; Running; Running; Running; Unloaded]);   (** stop an unloaded and a running one *)
   (true, [Running; Running; Running; Running; Stopped]);
   (true, [Running; Running; Running; Stopped; Stopped]);     (** stop a running and a stopped one *)
   (true, [Running; Running; Stopped; Stopped; Stopped])].    (** stop two stopped and one running *)
Proof. vm_compute. reflexivity. Qed.

(** TEST_F(TestController, start_stop_best_effort) *)
Definition m4 := snd (seq strict m3).
Definition best_effort := seq
  [switch ["controller1"] [] BEST_EFFORT; switch ["controller1"; "controller3"; "controller6"] [] BEST_EFFORT] m4.
Example test_start_stop_best_effort :
  states m4 = [Running; Running; Stopped; Stopped; Stopped; Unloaded; Unloaded; Unloaded; Unloaded] /\
  fst best_effort = [true; true] /\
  states (snd best_effort) = [Running; Running; Running; Stopped; Stopped; Unloaded; Unloaded; Unloaded; Unloaded].
Proof. split; [|split]; vm_compute; reflexivity. Qed.
