(** pr2_mechanism_model/test/test_wrist_transmission.cpp, test by test, on Model/Wrist.v in double precision. *)
From Coq Require Import ZArith String List Bool.
From Flocq Require Import IEEE754.BinarySingleNaN.
From Verif.Model Require Import Base Num Hardware Joint Transmission Wrist.
From Verif.Upstream Require Import TestBase.
Import ListNotations.
Local Open Scope Z_scope.
#[local] Existing Instance test_trig.

(** test_wrist_transmission.cpp:42-70: two fresh actuators (0, 1; a second pair 2, 3), two fresh joint states (0, 1) of one
    urdf joint without calibration or limits *)
Definition joint0 : ujoint B64 := mkUjoint EmptyString JOTHER None None None.
Definition fixture : mem B64 :=
  mkMem (fun _ => new_actuator nzero) (fun _ => set_js_joint (Some joint0) (new_jointstate nzero)).
Definition wrist0 : wrist B64 :=
  let c := new_calsim (nzero : B64) nzero nzero nzero false false in new_wrist false c c.
(** setReductions *)
Definition geared (a0 a1 j0 j1 : Z) : wrist B64 :=
  set_wt_jr [nofZ j0; nofZ j1] (set_wt_ar [nofZ a0; nofZ a1] wrist0).
Definition act (p : nat) (f : B64 -> actuator B64 -> actuator B64) (x : Z) : mem B64 -> mem B64 := act_upd p (f (nofZ x)).
Definition forward (w : wrist B64) (m : mem B64) : mem B64 :=
  match wrist_propagatePosition true w [0%nat; 1%nat] [0%nat; 1%nat] m with Ok m => m | _ => fixture end.
Definition joint_near (f : jointstate B64 -> B64) (m : mem B64) (x0 x1 : B64) : bool :=
  near (f (m_js m 0%nat)) x0 && near (f (m_js m 1%nat)) x1.

(** EasyNoGearingTest *)
Definition easy := geared 1 1 1 1.
Example ForwardPositionTest1 :
  joint_near position (forward easy (act 0 set_a_position 1 (act 1 set_a_position 1 fixture))) (nofZ 0) (nofZ (-1)) = true.
Proof. vm_compute. reflexivity. Qed.
Example ForwardVelocityTest1 :
  joint_near velocity (forward easy (act 0 set_a_velocity 1 (act 1 set_a_velocity (-1) fixture))) (nofZ 1) (nofZ 0) = true.
Proof. vm_compute. reflexivity. Qed.
Example ForwardMeasuredEffortTest1 :
  joint_near measured_effort
    (forward easy (act 0 set_a_last_measured_effort 1 (act 1 set_a_last_measured_effort (-1) fixture))) (nofZ 2) (nofZ 0) = true.
Proof. vm_compute. reflexivity. Qed.
(** EasyJointGearingTest *)
Example JointGearing_ForwardPositionTest1 :
  joint_near position (forward (geared 1 1 10 100) (act 0 set_a_position 3 (act 1 set_a_position 1 fixture)))
    (dec 10 2) (dec (-2) 2) = true.
Proof. vm_compute. reflexivity. Qed.
(** EasyMotorGearingTest *)
Example MotorGearing_ForwardPositionTest1 :
  joint_near position (forward (geared 10 100 1 1) (act 0 set_a_position 100 (act 1 set_a_position 0 fixture)))
    (nofZ 5) (nofZ (-5)) = true.
Proof. vm_compute. reflexivity. Qed.
Example MotorGearing_ForwardPositionTest2 :
  joint_near position (forward (geared 10 100 1 1) (act 0 set_a_position 0 (act 1 set_a_position 100 fixture)))
    (dec (-5) 1) (dec (-5) 1) = true.
Proof. vm_compute. reflexivity. Qed.
(** PropagateSanityCheck: forward, then backward into the second pair of actuators *)
Definition sane := geared 10 100 20 40.
Definition start : mem B64 :=
  act 0 set_a_velocity 3 (act 1 set_a_velocity 4 (act 0 set_a_last_measured_effort 5 (act 1 set_a_last_measured_effort 6 fixture))).
Definition back_and_forth (m : mem B64) : option (mem B64) :=
  match wrist_propagatePositionBackwards true (mkEnv true 0) sane [0%nat; 1%nat] [2%nat; 3%nat] (forward sane m) with
  | Ok (_, m) => Some m
  | _ => None
  end.
Definition same (f : actuator B64 -> B64) (m : option (mem B64)) : bool :=
  match m with
  | Some m => near (f (m_act m 2%nat)) (f (m_act m 0%nat)) && near (f (m_act m 3%nat)) (f (m_act m 1%nat)) &&
              negb (near (f (m_act m 2%nat)) nzero)
  | None => false
  end.
Example Position : same a_position (back_and_forth (act 0 set_a_position 1 (act 1 set_a_position 2 start))) = true.
Proof. vm_compute. reflexivity. Qed.
Example Velocity : same a_velocity (back_and_forth (act 0 set_a_velocity 1 (act 1 set_a_velocity 2 start))) = true.
Proof. vm_compute. reflexivity. Qed.
Example MeasuredEffort :
  same a_last_measured_effort (back_and_forth (act 0 set_a_last_measured_effort 1 (act 1 set_a_last_measured_effort 2 start))) = true.
Proof. vm_compute. reflexivity. Qed.
Example CommandEffort :
  same a_effort
    (match wrist_propagateEffortBackwards true sane [0%nat; 1%nat] [0%nat; 1%nat] (act 0 set_a_effort 1 (act 1 set_a_effort 2 start)) with
     | Ok m => match wrist_propagateEffort true sane [0%nat; 1%nat] [2%nat; 3%nat] m with Ok m => Some m | _ => None end
     | _ => None
     end) = true.
Proof. vm_compute. reflexivity. Qed.
