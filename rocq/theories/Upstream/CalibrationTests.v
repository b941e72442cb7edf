(** pr2_mechanism_model/test/test_joint_calibration_simulator.cpp on Model/Transmission.v, with the three joints of
    test/robot.xml, in double precision. *)
From Coq Require Import ZArith String List Bool.
From Flocq Require Import IEEE754.BinarySingleNaN.
From Verif.Model Require Import Base Num Hardware Joint Transmission.
From Verif.Upstream Require Import TestBase.
Import ListNotations.
Local Open Scope Z_scope.
#[local] Existing Instance test_trig.

(** test/robot.xml:7-23 *)
Definition cont1 : ujoint B64 := mkUjoint "continuous1" JCONTINUOUS None None (Some (mkCalib (Some (dec 15 1)) (Some (dec 0 1)))).
Definition cont2 : ujoint B64 := mkUjoint "continuous2" JCONTINUOUS None None (Some (mkCalib (Some (dec 0 1)) (Some (dec 15 1)))).
Definition rev_ : ujoint B64 :=
  mkUjoint "revolute" JREVOLUTE None (Some (mkLimits (nofZ (-100)) (nofZ 100) (nofZ 30) (nofZ 1))) (Some (mkCalib (Some (dec 5 1)) None)).

(** the joint position, optionally the actuator position, then simulateJointCalibration *)
Definition step := (B64 * option Z)%type.
Definition sim (u : ujoint B64) (st : res (calsim B64 * actuator B64)) (x : step) : res (calsim B64 * actuator B64) :=
  do (c, a) <- st;
  let a := match snd x with Some z => set_a_position (nofZ z) a | None => a end in
  simulateJointCalibration true c (set_js_joint (Some u) (set_position (fst x) (new_jointstate nzero))) a.
Definition run (u : ujoint B64) (a : actuator B64) (xs : list step) : res (calsim B64 * actuator B64) :=
  fold_left (sim u) xs (Ok (new_calsim nzero nzero nzero nzero false false, a)).
(** calibration_reading_, rising_edge_valid_, falling_edge_valid_ and, where the test looks at them, the stored edges *)
Definition expect (r : res (calsim B64 * actuator B64)) (reading rising falling : bool) (lr lf : option Z) : bool :=
  match r with
  | Ok (_, a) =>
      Bool.eqb (a_calibration_reading a) reading && Bool.eqb (a_rising_valid a) rising && Bool.eqb (a_falling_valid a) falling &&
      match lr with Some z => (a_last_rising a =? nofZ z)%num | None => true end &&
      match lf with Some z => (a_last_falling a =? nofZ z)%num | None => true end
  | _ => false
  end.
Definition fresh : actuator B64 := new_actuator nzero.
(** as.state_.calibration_rising_edge_valid_ = as.state_.calibration_falling_edge_valid_ = false *)
Definition next_actuator (r : res (calsim B64 * actuator B64)) : actuator B64 :=
  match r with Ok (_, a) => set_a_rising_valid false (set_a_falling_valid false a) | _ => fresh end.

(** lines 83-135 *)
Definition s1 : list step := [(dec 1 2, None)].
Definition s2 := s1 ++ [(dec 10 1, Some 10)].
Definition s3 := s2 ++ [(dec 16 1, Some 16)].
Definition s4 := s3 ++ [(dec 15001 4, Some 150); (dec 14 1, Some 14)].
Definition s5 := s4 ++ [(dec 1 2, Some 999); (dec (-1) 1, Some (-1))].
Example continuous1_1 : expect (run cont1 fresh s1) false false false None None = true.
Proof. vm_compute. reflexivity. Qed.
Example continuous1_2 : expect (run cont1 fresh s2) false false false None None = true.
Proof. vm_compute. reflexivity. Qed.
Example continuous1_3 : expect (run cont1 fresh s3) true true false (Some 10) None = true.
Proof. vm_compute. reflexivity. Qed.
Example continuous1_4 : expect (run cont1 fresh s4) false true false (Some 150) None = true.
Proof. vm_compute. reflexivity. Qed.
Example continuous1_5 : expect (run cont1 fresh s5) true true true None (Some 999) = true.
Proof. vm_compute. reflexivity. Qed.

(** lines 137-184: a new simulator, the same actuator *)
Definition a2 := next_actuator (run cont1 fresh s5).
Definition u1 : list step := [(dec 1 1, None)].
Definition u2 := u1 ++ [(dec 10 1, None)].
Definition u3 := u2 ++ [(dec 14 1, Some 15); (dec 16 1, Some 16)].
Definition u4 := u3 ++ [(dec 16 1, Some 15); (dec 14 1, Some 14)].
Definition u5 := u4 ++ [(dec (-1) 1, Some 0); (dec 1 1, Some (-1))].
Example continuous2_1 : expect (run cont2 a2 u1) true false false None None = true.
Proof. vm_compute. reflexivity. Qed.
Example continuous2_2 : expect (run cont2 a2 u2) true false false None None = true.
Proof. vm_compute. reflexivity. Qed.
Example continuous2_3 : expect (run cont2 a2 u3) false false true None (Some 15) = true.
Proof. vm_compute. reflexivity. Qed.
Example continuous2_4 : expect (run cont2 a2 u4) true false true None (Some 15) = true.
Proof. vm_compute. reflexivity. Qed.
Example continuous2_5 : expect (run cont2 a2 u5) true true true (Some 0) None = true.
Proof. vm_compute. reflexivity. Qed.

(** lines 186-221 *)
Definition a3 := next_actuator (run cont2 a2 u5).
Definition r1 : list step := [(dec 1 2, None)].
Definition r2 := r1 ++ [(dec 4 2, None)].
Definition r3 := r2 ++ [(dec 5 1, Some 5); (dec 16 1, Some 16)].
Definition r4 := r3 ++ [(dec 100 1, Some 100); (dec (-100) 1, Some (-100))].
Example revolute_1 : expect (run rev_ a3 r1) false false false None None = true.
Proof. vm_compute. reflexivity. Qed.
Example revolute_2 : expect (run rev_ a3 r2) false false false None None = true.
Proof. vm_compute. reflexivity. Qed.
Example revolute_3 : expect (run rev_ a3 r3) true true false (Some 5) None = true.
Proof. vm_compute. reflexivity. Qed.
Example revolute_4 : expect (run rev_ a3 r4) false true false None None = true.
Proof. vm_compute. reflexivity. Qed.
