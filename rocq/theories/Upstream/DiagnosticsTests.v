(** pr2_mechanism_diagnostics/test/mech_diag_test.py with test/pub_mech_stats.py and the launch files in test/launch, on
    Model/Diagnostics.v: one message and one report a second, for five seconds. *)
From Coq Require Import ZArith String List Bool.
From Flocq Require Import IEEE754.BinarySingleNaN.
From Verif.Model Require Import Base Num Manager System Diagnostics.
From Verif.Upstream Require Import TestBase.
Import ListNotations.
Open Scope string_scope.
Open Scope list_scope.
Local Open Scope Z_scope.

Definition sec : Z := 1000000000.
Definition t0 : Z := 1000 * sec.
(** pub_mech_stats.py:48-69: built once, published again and again *)
Definition joint_stat (x : B64) (cal nan : bool) : jstat B64 :=
  mkJstat t0 "my_joint" (if nan then B754_nan else x) nzero nzero nzero cal false nzero nzero nzero nzero nzero.
Definition ctrl_stat (running overrun : bool) : cstat :=
  mkCstat "my_controller" t0 running [] (if overrun then 10 else 0)%nat (if overrun then t0 - 5 * sec else 0).
Definition messages (x : B64) (cal nan running overrun : bool) : list dev :=
  flat_map (fun i => [DMsg (t0 + i * sec) [joint_stat x cal nan] [ctrl_stat running overrun]; DReport (t0 + i * sec + sec / 2)])
    [0; 1; 2; 3; 4].
Definition reported (x : B64) (cal nan running overrun : bool) : list (string * level) :=
  map (fun s => (ds_name s, ds_level s)) (published false (messages x cal nan running overrun) (t0 + 5 * sec)).

(** mech_diag_test_main.launch, for a few positions in [-1, 1] *)
Example nominal_test :
  map (fun x => reported x true false true false) [dec (-1) 0; dec (-3) 1; dec 0 0; dec 7 1; dec 1 0] =
  repeat [("Joint (my_joint)", OK); ("Controller (my_controller)", OK)] 5.
Proof. vm_compute. reflexivity. Qed.
(** nan_test.launch *)
Example nan_test : reported (dec 3 1) true true true false = [("Joint (my_joint)", ERROR); ("Controller (my_controller)", OK)].
Proof. vm_compute. reflexivity. Qed.
(** uncal_test.launch *)
Example uncal_test : reported (dec 3 1) false false true false = [("Joint (my_joint)", WARN); ("Controller (my_controller)", OK)].
Proof. vm_compute. reflexivity. Qed.
(** overrun_test.launch *)
Example overrun_test : reported (dec 3 1) true false true true = [("Joint (my_joint)", OK); ("Controller (my_controller)", WARN)].
Proof. vm_compute. reflexivity. Qed.
