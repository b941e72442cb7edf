(** Generated by tools/mkpr2.py from /repo/pr2_mechanism_model/pr2.urdf: its transmission and joint elements. *)
From Coq Require Import ZArith String List.
From Verif.Model Require Import Num Joint Xml.
From Verif.Upstream Require Import TestBase.
Import ListNotations.
Open Scope string_scope.
Open Scope list_scope.

(** The transmissions; the file itself has no prefix before the type names. *)
Definition pr2_transmissions (prefix : string) : list xml := [
  Elem "transmission" [("name", "fl_caster_rotation_trans"); ("type", (prefix ++ "SimpleTransmission")%string)] None [Elem "actuator" [("name", "fl_caster_rotation_motor")] None []; Elem "joint" [("name", "fl_caster_rotation_joint")] None []; Elem "mechanicalReduction" [] (Some "-79.2380952381") []];
  Elem "transmission" [("name", "fl_caster_l_wheel_trans"); ("type", (prefix ++ "SimpleTransmission")%string)] None [Elem "actuator" [("name", "fl_caster_l_wheel_motor")] None []; Elem "joint" [("name", "fl_caster_l_wheel_joint")] None []; Elem "mechanicalReduction" [] (Some "79.2380952381") []];
  Elem "transmission" [("name", "fl_caster_r_wheel_trans"); ("type", (prefix ++ "SimpleTransmission")%string)] None [Elem "actuator" [("name", "fl_caster_r_wheel_motor")] None []; Elem "joint" [("name", "fl_caster_r_wheel_joint")] None []; Elem "mechanicalReduction" [] (Some "-79.2380952381") []];
  Elem "transmission" [("name", "fr_caster_rotation_trans"); ("type", (prefix ++ "SimpleTransmission")%string)] None [Elem "actuator" [("name", "fr_caster_rotation_motor")] None []; Elem "joint" [("name", "fr_caster_rotation_joint")] None []; Elem "mechanicalReduction" [] (Some "-79.2380952381") []];
  Elem "transmission" [("name", "fr_caster_l_wheel_trans"); ("type", (prefix ++ "SimpleTransmission")%string)] None [Elem "actuator" [("name", "fr_caster_l_wheel_motor")] None []; Elem "joint" [("name", "fr_caster_l_wheel_joint")] None []; Elem "mechanicalReduction" [] (Some "79.2380952381") []];
  Elem "transmission" [("name", "fr_caster_r_wheel_trans"); ("type", (prefix ++ "SimpleTransmission")%string)] None [Elem "actuator" [("name", "fr_caster_r_wheel_motor")] None []; Elem "joint" [("name", "fr_caster_r_wheel_joint")] None []; Elem "mechanicalReduction" [] (Some "-79.2380952381") []];
  Elem "transmission" [("name", "bl_caster_rotation_trans"); ("type", (prefix ++ "SimpleTransmission")%string)] None [Elem "actuator" [("name", "bl_caster_rotation_motor")] None []; Elem "joint" [("name", "bl_caster_rotation_joint")] None []; Elem "mechanicalReduction" [] (Some "-79.2380952381") []];
  Elem "transmission" [("name", "bl_caster_l_wheel_trans"); ("type", (prefix ++ "SimpleTransmission")%string)] None [Elem "actuator" [("name", "bl_caster_l_wheel_motor")] None []; Elem "joint" [("name", "bl_caster_l_wheel_joint")] None []; Elem "mechanicalReduction" [] (Some "79.2380952381") []];
  Elem "transmission" [("name", "bl_caster_r_wheel_trans"); ("type", (prefix ++ "SimpleTransmission")%string)] None [Elem "actuator" [("name", "bl_caster_r_wheel_motor")] None []; Elem "joint" [("name", "bl_caster_r_wheel_joint")] None []; Elem "mechanicalReduction" [] (Some "-79.2380952381") []];
  Elem "transmission" [("name", "br_caster_rotation_trans"); ("type", (prefix ++ "SimpleTransmission")%string)] None [Elem "actuator" [("name", "br_caster_rotation_motor")] None []; Elem "joint" [("name", "br_caster_rotation_joint")] None []; Elem "mechanicalReduction" [] (Some "-79.2380952381") []];
  Elem "transmission" [("name", "br_caster_l_wheel_trans"); ("type", (prefix ++ "SimpleTransmission")%string)] None [Elem "actuator" [("name", "br_caster_l_wheel_motor")] None []; Elem "joint" [("name", "br_caster_l_wheel_joint")] None []; Elem "mechanicalReduction" [] (Some "79.2380952381") []];
  Elem "transmission" [("name", "br_caster_r_wheel_trans"); ("type", (prefix ++ "SimpleTransmission")%string)] None [Elem "actuator" [("name", "br_caster_r_wheel_motor")] None []; Elem "joint" [("name", "br_caster_r_wheel_joint")] None []; Elem "mechanicalReduction" [] (Some "-79.2380952381") []];
  Elem "transmission" [("name", "torso_lift_trans"); ("type", (prefix ++ "SimpleTransmission")%string)] None [Elem "actuator" [("name", "torso_lift_motor")] None []; Elem "joint" [("name", "torso_lift_joint")] None []; Elem "mechanicalReduction" [] (Some "-52143.33") []];
  Elem "transmission" [("name", "head_pan_trans"); ("type", (prefix ++ "SimpleTransmission")%string)] None [Elem "actuator" [("name", "head_pan_motor")] None []; Elem "joint" [("name", "head_pan_joint")] None []; Elem "mechanicalReduction" [] (Some "6.0") []];
  Elem "transmission" [("name", "head_tilt_trans"); ("type", (prefix ++ "SimpleTransmission")%string)] None [Elem "actuator" [("name", "head_tilt_motor")] None []; Elem "joint" [("name", "head_tilt_joint")] None []; Elem "mechanicalReduction" [] (Some "6.0") []];
  Elem "transmission" [("name", "laser_tilt_mount_trans"); ("type", (prefix ++ "SimpleTransmission")%string)] None [Elem "actuator" [("name", "laser_tilt_mount_motor")] None []; Elem "joint" [("name", "laser_tilt_mount_joint")] None []; Elem "mechanicalReduction" [] (Some "-6.05") []];
  Elem "transmission" [("name", "r_upper_arm_roll_trans"); ("type", (prefix ++ "SimpleTransmission")%string)] None [Elem "actuator" [("name", "r_upper_arm_roll_motor")] None []; Elem "joint" [("name", "r_upper_arm_roll_joint")] None []; Elem "mechanicalReduction" [] (Some "32.6525111499") []];
  Elem "transmission" [("name", "r_shoulder_pan_trans"); ("type", (prefix ++ "SimpleTransmission")%string)] None [Elem "actuator" [("name", "r_shoulder_pan_motor")] None []; Elem "joint" [("name", "r_shoulder_pan_joint")] None []; Elem "mechanicalReduction" [] (Some "63.1552452977") []];
  Elem "transmission" [("name", "r_shoulder_lift_trans"); ("type", (prefix ++ "SimpleTransmission")%string)] None [Elem "actuator" [("name", "r_shoulder_lift_motor")] None []; Elem "joint" [("name", "r_shoulder_lift_joint")] None []; Elem "mechanicalReduction" [] (Some "61.8948225713") []];
  Elem "transmission" [("name", "r_forearm_roll_trans"); ("type", (prefix ++ "SimpleTransmission")%string)] None [Elem "actuator" [("name", "r_forearm_roll_motor")] None []; Elem "joint" [("name", "r_forearm_roll_joint")] None []; Elem "mechanicalReduction" [] (Some "-90.5142857143") []];
  Elem "transmission" [("name", "r_elbow_flex_trans"); ("type", (prefix ++ "SimpleTransmission")%string)] None [Elem "actuator" [("name", "r_elbow_flex_motor")] None []; Elem "joint" [("name", "r_elbow_flex_joint")] None []; Elem "mechanicalReduction" [] (Some "-36.167452007") []];
  Elem "transmission" [("name", "r_wrist_trans"); ("type", (prefix ++ "WristTransmission")%string)] None [Elem "rightActuator" [("mechanicalReduction", "60.1714285714"); ("name", "r_wrist_r_motor")] None []; Elem "leftActuator" [("mechanicalReduction", "60.1714285714"); ("name", "r_wrist_l_motor")] None []; Elem "flexJoint" [("mechanicalReduction", "-1.0"); ("name", "r_wrist_flex_joint")] None []; Elem "rollJoint" [("mechanicalReduction", "1.0"); ("name", "r_wrist_roll_joint")] None []];
  Elem "transmission" [("name", "r_gripper_trans"); ("type", (prefix ++ "PR2GripperTransmission")%string)] None [Elem "actuator" [("name", "r_gripper_motor")] None []; Elem "gap_joint" [("L0", "0.0375528"); ("a", "0.0683698"); ("b", "0.0433849"); ("gear_ratio", "40.095"); ("h", "0.0"); ("mechanical_reduction", "1.0"); ("name", "r_gripper_joint"); ("phi0", "0.518518122146"); ("r", "0.0915"); ("screw_reduction", "0.004"); ("t0", "-0.0001914"); ("theta0", "0.0628824676201")] None []; Elem "use_simulated_gripper_joint" [] None []; Elem "passive_joint" [("name", "r_gripper_l_finger_joint")] None []; Elem "passive_joint" [("name", "r_gripper_r_finger_joint")] None []; Elem "passive_joint" [("name", "r_gripper_r_finger_tip_joint")] None []; Elem "passive_joint" [("name", "r_gripper_l_finger_tip_joint")] None []; Elem "passive_joint" [("name", "r_gripper_r_parallel_root_joint")] None []; Elem "passive_joint" [("name", "r_gripper_l_parallel_root_joint")] None []];
  Elem "transmission" [("name", "l_upper_arm_roll_trans"); ("type", (prefix ++ "SimpleTransmission")%string)] None [Elem "actuator" [("name", "l_upper_arm_roll_motor")] None []; Elem "joint" [("name", "l_upper_arm_roll_joint")] None []; Elem "mechanicalReduction" [] (Some "32.6525111499") []];
  Elem "transmission" [("name", "l_shoulder_pan_trans"); ("type", (prefix ++ "SimpleTransmission")%string)] None [Elem "actuator" [("name", "l_shoulder_pan_motor")] None []; Elem "joint" [("name", "l_shoulder_pan_joint")] None []; Elem "mechanicalReduction" [] (Some "63.1552452977") []];
  Elem "transmission" [("name", "l_shoulder_lift_trans"); ("type", (prefix ++ "SimpleTransmission")%string)] None [Elem "actuator" [("name", "l_shoulder_lift_motor")] None []; Elem "joint" [("name", "l_shoulder_lift_joint")] None []; Elem "mechanicalReduction" [] (Some "61.8948225713") []];
  Elem "transmission" [("name", "l_forearm_roll_trans"); ("type", (prefix ++ "SimpleTransmission")%string)] None [Elem "actuator" [("name", "l_forearm_roll_motor")] None []; Elem "joint" [("name", "l_forearm_roll_joint")] None []; Elem "mechanicalReduction" [] (Some "-90.5142857143") []];
  Elem "transmission" [("name", "l_elbow_flex_trans"); ("type", (prefix ++ "SimpleTransmission")%string)] None [Elem "actuator" [("name", "l_elbow_flex_motor")] None []; Elem "joint" [("name", "l_elbow_flex_joint")] None []; Elem "mechanicalReduction" [] (Some "-36.167452007") []];
  Elem "transmission" [("name", "l_wrist_trans"); ("type", (prefix ++ "WristTransmission")%string)] None [Elem "rightActuator" [("mechanicalReduction", "60.1714285714"); ("name", "l_wrist_r_motor")] None []; Elem "leftActuator" [("mechanicalReduction", "60.1714285714"); ("name", "l_wrist_l_motor")] None []; Elem "flexJoint" [("mechanicalReduction", "-1.0"); ("name", "l_wrist_flex_joint")] None []; Elem "rollJoint" [("mechanicalReduction", "1.0"); ("name", "l_wrist_roll_joint")] None []];
  Elem "transmission" [("name", "l_gripper_trans"); ("type", (prefix ++ "PR2GripperTransmission")%string)] None [Elem "actuator" [("name", "l_gripper_motor")] None []; Elem "gap_joint" [("L0", "0.0375528"); ("a", "0.0683698"); ("b", "0.0433849"); ("gear_ratio", "40.095"); ("h", "0.0"); ("mechanical_reduction", "1.0"); ("name", "l_gripper_joint"); ("phi0", "0.518518122146"); ("r", "0.0915"); ("screw_reduction", "0.004"); ("t0", "-0.0001914"); ("theta0", "0.0628824676201")] None []; Elem "use_simulated_gripper_joint" [] None []; Elem "passive_joint" [("name", "l_gripper_l_finger_joint")] None []; Elem "passive_joint" [("name", "l_gripper_r_finger_joint")] None []; Elem "passive_joint" [("name", "l_gripper_r_finger_tip_joint")] None []; Elem "passive_joint" [("name", "l_gripper_l_finger_tip_joint")] None []; Elem "passive_joint" [("name", "l_gripper_r_parallel_root_joint")] None []; Elem "passive_joint" [("name", "l_gripper_l_parallel_root_joint")] None []]].

Local Open Scope Z_scope.
Definition pr2_joints : list (ujoint B64) := [
  mkUjoint "base_footprint_joint" JFIXED None None None;
  mkUjoint "base_laser_joint" JFIXED None None None;
  mkUjoint "fl_caster_rotation_joint" JCONTINUOUS (Some (mkSafety (dec 0 0) (dec 10 0) (dec 0 0) (dec 0 0))) (Some (mkLimits (dec 0 0) (dec 0 0) (dec 100 0) (dec 100 0))) (Some (mkCalib (Some (dec (-785398163397) 12)) None));
  mkUjoint "fl_caster_l_wheel_joint" JCONTINUOUS (Some (mkSafety (dec 0 0) (dec 10 0) (dec 0 0) (dec 0 0))) (Some (mkLimits (dec 0 0) (dec 0 0) (dec 100 0) (dec 100 0))) None;
  mkUjoint "fl_caster_r_wheel_joint" JCONTINUOUS (Some (mkSafety (dec 0 0) (dec 10 0) (dec 0 0) (dec 0 0))) (Some (mkLimits (dec 0 0) (dec 0 0) (dec 100 0) (dec 100 0))) None;
  mkUjoint "fr_caster_rotation_joint" JCONTINUOUS (Some (mkSafety (dec 0 0) (dec 10 0) (dec 0 0) (dec 0 0))) (Some (mkLimits (dec 0 0) (dec 0 0) (dec 100 0) (dec 100 0))) (Some (mkCalib (Some (dec (-785398163397) 12)) None));
  mkUjoint "fr_caster_l_wheel_joint" JCONTINUOUS (Some (mkSafety (dec 0 0) (dec 10 0) (dec 0 0) (dec 0 0))) (Some (mkLimits (dec 0 0) (dec 0 0) (dec 100 0) (dec 100 0))) None;
  mkUjoint "fr_caster_r_wheel_joint" JCONTINUOUS (Some (mkSafety (dec 0 0) (dec 10 0) (dec 0 0) (dec 0 0))) (Some (mkLimits (dec 0 0) (dec 0 0) (dec 100 0) (dec 100 0))) None;
  mkUjoint "bl_caster_rotation_joint" JCONTINUOUS (Some (mkSafety (dec 0 0) (dec 10 0) (dec 0 0) (dec 0 0))) (Some (mkLimits (dec 0 0) (dec 0 0) (dec 100 0) (dec 100 0))) (Some (mkCalib (Some (dec 235619449019 11)) None));
  mkUjoint "bl_caster_l_wheel_joint" JCONTINUOUS (Some (mkSafety (dec 0 0) (dec 10 0) (dec 0 0) (dec 0 0))) (Some (mkLimits (dec 0 0) (dec 0 0) (dec 100 0) (dec 100 0))) None;
  mkUjoint "bl_caster_r_wheel_joint" JCONTINUOUS (Some (mkSafety (dec 0 0) (dec 10 0) (dec 0 0) (dec 0 0))) (Some (mkLimits (dec 0 0) (dec 0 0) (dec 100 0) (dec 100 0))) None;
  mkUjoint "br_caster_rotation_joint" JCONTINUOUS (Some (mkSafety (dec 0 0) (dec 10 0) (dec 0 0) (dec 0 0))) (Some (mkLimits (dec 0 0) (dec 0 0) (dec 100 0) (dec 100 0))) (Some (mkCalib (Some (dec 235619449019 11)) None));
  mkUjoint "br_caster_l_wheel_joint" JCONTINUOUS (Some (mkSafety (dec 0 0) (dec 10 0) (dec 0 0) (dec 0 0))) (Some (mkLimits (dec 0 0) (dec 0 0) (dec 100 0) (dec 100 0))) None;
  mkUjoint "br_caster_r_wheel_joint" JCONTINUOUS (Some (mkSafety (dec 0 0) (dec 10 0) (dec 0 0) (dec 0 0))) (Some (mkLimits (dec 0 0) (dec 0 0) (dec 100 0) (dec 100 0))) None;
  mkUjoint "torso_lift_joint" JPRISMATIC (Some (mkSafety (dec 100 0) (dec 2000000 0) (dec 115 4) (dec 305 3))) (Some (mkLimits (dec 0 0) (dec 31 2) (dec 10000 0) (dec 13 3))) (Some (mkCalib None (Some (dec 536 5))));
  mkUjoint "imu_joint" JFIXED None None None;
  mkUjoint "head_pan_joint" JREVOLUTE (Some (mkSafety (dec 100 0) (dec 15 1) (dec (-2857) 3) (dec 2857 3))) (Some (mkLimits (dec (-3007) 3) (dec 3007 3) (dec 2645 3) (dec 6 0))) (Some (mkCalib (Some (dec 0 0)) None));
  mkUjoint "head_tilt_joint" JREVOLUTE (Some (mkSafety (dec 100 0) (dec 15 1) (dec (-3712) 4) (dec 129626 5))) (Some (mkLimits (dec (-471238) 6) (dec 139626 5) (dec 15 0) (dec 5 0))) (Some (mkCalib None (Some (dec 0 0))));
  mkUjoint "head_plate_frame_joint" JFIXED None None None;
  mkUjoint "sensor_mount_frame_joint" JFIXED None None None;
  mkUjoint "high_def_frame_joint" JFIXED None None None;
  mkUjoint "high_def_optical_frame_joint" JFIXED None None None;
  mkUjoint "double_stereo_frame_joint" JFIXED None None None;
  mkUjoint "wide_stereo_frame_joint" JFIXED None None None;
  mkUjoint "wide_stereo_optical_frame_joint" JFIXED None None None;
  mkUjoint "wide_stereo_gazebo_l_stereo_camera_frame_joint" JFIXED None None None;
  mkUjoint "wide_stereo_gazebo_l_stereo_camera_optical_frame_joint" JFIXED None None None;
  mkUjoint "wide_stereo_gazebo_r_stereo_camera_frame_joint" JFIXED None None None;
  mkUjoint "wide_stereo_gazebo_r_stereo_camera_optical_frame_joint" JFIXED None None None;
  mkUjoint "narrow_stereo_frame_joint" JFIXED None None None;
  mkUjoint "narrow_stereo_optical_frame_joint" JFIXED None None None;
  mkUjoint "narrow_stereo_gazebo_l_stereo_camera_frame_joint" JFIXED None None None;
  mkUjoint "narrow_stereo_gazebo_l_stereo_camera_optical_frame_joint" JFIXED None None None;
  mkUjoint "narrow_stereo_gazebo_r_stereo_camera_frame_joint" JFIXED None None None;
  mkUjoint "narrow_stereo_gazebo_r_stereo_camera_optical_frame_joint" JFIXED None None None;
  mkUjoint "laser_tilt_mount_joint" JREVOLUTE (Some (mkSafety (dec 100 0) (dec 5 2) (dec (-7354) 4) (dec 143353 5))) (Some (mkLimits (dec (-7854) 4) (dec 148353 5) (dec 65 2) (dec 10 0))) (Some (mkCalib None (Some (dec 0 0))));
  mkUjoint "laser_tilt_joint" JFIXED None None None;
  mkUjoint "r_shoulder_pan_joint" JREVOLUTE (Some (mkSafety (dec 100 0) (dec 10 0) (dec (-21353981634) 10) (dec 564601836603 12))) (Some (mkLimits (dec (-22853981634) 10) (dec 714601836603 12) (dec 30 0) (dec 2088 3))) (Some (mkCalib (Some (dec (-785398163397) 12)) None));
  mkUjoint "r_shoulder_lift_joint" JREVOLUTE (Some (mkSafety (dec 100 0) (dec 10 0) (dec (-3536) 4) (dec 12963 4))) (Some (mkLimits (dec (-5236) 4) (dec 13963 4) (dec 30 0) (dec 2082 3))) (Some (mkCalib None (Some (dec 0 0))));
  mkUjoint "r_upper_arm_roll_joint" JREVOLUTE (Some (mkSafety (dec 100 0) (dec 2 0) (dec (-375) 2) (dec 65 2))) (Some (mkLimits (dec (-39) 1) (dec 8 1) (dec 30 0) (dec 327 2))) (Some (mkCalib (Some (dec (-157079632679) 11)) None));
  mkUjoint "r_upper_arm_joint" JFIXED None None None;
  mkUjoint "r_forearm_roll_joint" JCONTINUOUS (Some (mkSafety (dec 0 0) (dec 1 0) (dec 0 0) (dec 0 0))) (Some (mkLimits (dec 0 0) (dec 0 0) (dec 30 0) (dec 36 1))) (Some (mkCalib (Some (dec 0 0)) None));
  mkUjoint "r_elbow_flex_joint" JREVOLUTE (Some (mkSafety (dec 100 0) (dec 3 0) (dec (-21213) 4) (dec (-15) 2))) (Some (mkLimits (dec (-23213) 4) (dec 0 0) (dec 30 0) (dec 33 1))) (Some (mkCalib None (Some (dec (-11606) 4))));
  mkUjoint "r_forearm_joint" JFIXED None None None;
  mkUjoint "r_wrist_flex_joint" JREVOLUTE (Some (mkSafety (dec 20 0) (dec 4 0) (dec (-1994) 3) (dec (-1) 1))) (Some (mkLimits (dec (-2094) 3) (dec 0 0) (dec 10 0) (dec 3078 3))) (Some (mkCalib None (Some (dec (-5410521) 7))));
  mkUjoint "r_wrist_roll_joint" JCONTINUOUS (Some (mkSafety (dec 0 0) (dec 2 0) (dec 0 0) (dec 0 0))) (Some (mkLimits (dec 0 0) (dec 0 0) (dec 10 0) (dec 36 1))) (Some (mkCalib (Some (dec (-157079632679) 11)) None));
  mkUjoint "r_gripper_palm_joint" JFIXED None None None;
  mkUjoint "r_gripper_led_joint" JFIXED None None None;
  mkUjoint "r_gripper_motor_accelerometer_joint" JFIXED None None None;
  mkUjoint "r_gripper_tool_joint" JFIXED None None None;
  mkUjoint "r_gripper_l_finger_joint" JREVOLUTE None (Some (mkLimits (dec 0 0) (dec 548 3) (dec 1000 0) (dec 5 1))) None;
  mkUjoint "r_gripper_r_finger_joint" JREVOLUTE None (Some (mkLimits (dec 0 0) (dec 548 3) (dec 1000 0) (dec 5 1))) None;
  mkUjoint "r_gripper_l_parallel_root_joint" JREVOLUTE None (Some (mkLimits (dec 0 0) (dec 548 3) (dec 1000 0) (dec 5 1))) None;
  mkUjoint "r_gripper_r_parallel_root_joint" JREVOLUTE None (Some (mkLimits (dec 0 0) (dec 548 3) (dec 1000 0) (dec 5 1))) None;
  mkUjoint "r_gripper_l_finger_tip_joint" JREVOLUTE None (Some (mkLimits (dec 0 0) (dec 548 3) (dec 1000 0) (dec 5 1))) None;
  mkUjoint "r_gripper_r_finger_tip_joint" JREVOLUTE None (Some (mkLimits (dec 0 0) (dec 548 3) (dec 1000 0) (dec 5 1))) None;
  mkUjoint "r_gripper_joint" JPRISMATIC (Some (mkSafety (dec 20 0) (dec 5000 0) (dec (-1) 2) (dec 88 3))) (Some (mkLimits (dec 0 0) (dec 9 2) (dec 1000 0) (dec 2 1))) None;
  mkUjoint "l_shoulder_pan_joint" JREVOLUTE (Some (mkSafety (dec 100 0) (dec 10 0) (dec (-564601836603) 12) (dec 21353981634 10))) (Some (mkLimits (dec (-714601836603) 12) (dec 22853981634 10) (dec 30 0) (dec 2088 3))) (Some (mkCalib (Some (dec 785398163397 12)) None));
  mkUjoint "l_shoulder_lift_joint" JREVOLUTE (Some (mkSafety (dec 100 0) (dec 10 0) (dec (-3536) 4) (dec 12963 4))) (Some (mkLimits (dec (-5236) 4) (dec 13963 4) (dec 30 0) (dec 2082 3))) (Some (mkCalib None (Some (dec 0 0))));
  mkUjoint "l_upper_arm_roll_joint" JREVOLUTE (Some (mkSafety (dec 100 0) (dec 2 0) (dec (-65) 2) (dec 375 2))) (Some (mkLimits (dec (-8) 1) (dec 39 1) (dec 30 0) (dec 327 2))) (Some (mkCalib (Some (dec 157079632679 11)) None));
  mkUjoint "l_upper_arm_joint" JFIXED None None None;
  mkUjoint "l_forearm_roll_joint" JCONTINUOUS (Some (mkSafety (dec 0 0) (dec 1 0) (dec 0 0) (dec 0 0))) (Some (mkLimits (dec 0 0) (dec 0 0) (dec 30 0) (dec 36 1))) (Some (mkCalib (Some (dec 0 0)) None));
  mkUjoint "l_elbow_flex_joint" JREVOLUTE (Some (mkSafety (dec 100 0) (dec 3 0) (dec (-21213) 4) (dec (-15) 2))) (Some (mkLimits (dec (-23213) 4) (dec 0 0) (dec 30 0) (dec 33 1))) (Some (mkCalib None (Some (dec (-11606) 4))));
  mkUjoint "l_forearm_joint" JFIXED None None None;
  mkUjoint "l_wrist_flex_joint" JREVOLUTE (Some (mkSafety (dec 20 0) (dec 4 0) (dec (-1994) 3) (dec (-1) 1))) (Some (mkLimits (dec (-2094) 3) (dec 0 0) (dec 10 0) (dec 3078 3))) (Some (mkCalib None (Some (dec (-5410521) 7))));
  mkUjoint "l_wrist_roll_joint" JCONTINUOUS (Some (mkSafety (dec 0 0) (dec 2 0) (dec 0 0) (dec 0 0))) (Some (mkLimits (dec 0 0) (dec 0 0) (dec 10 0) (dec 36 1))) (Some (mkCalib (Some (dec (-157079632679) 11)) None));
  mkUjoint "l_gripper_palm_joint" JFIXED None None None;
  mkUjoint "l_gripper_led_joint" JFIXED None None None;
  mkUjoint "l_gripper_motor_accelerometer_joint" JFIXED None None None;
  mkUjoint "l_gripper_tool_joint" JFIXED None None None;
  mkUjoint "l_gripper_l_finger_joint" JREVOLUTE None (Some (mkLimits (dec 0 0) (dec 548 3) (dec 1000 0) (dec 5 1))) None;
  mkUjoint "l_gripper_r_finger_joint" JREVOLUTE None (Some (mkLimits (dec 0 0) (dec 548 3) (dec 1000 0) (dec 5 1))) None;
  mkUjoint "l_gripper_l_parallel_root_joint" JREVOLUTE None (Some (mkLimits (dec 0 0) (dec 548 3) (dec 1000 0) (dec 5 1))) None;
  mkUjoint "l_gripper_r_parallel_root_joint" JREVOLUTE None (Some (mkLimits (dec 0 0) (dec 548 3) (dec 1000 0) (dec 5 1))) None;
  mkUjoint "l_gripper_l_finger_tip_joint" JREVOLUTE None (Some (mkLimits (dec 0 0) (dec 548 3) (dec 1000 0) (dec 5 1))) None;
  mkUjoint "l_gripper_r_finger_tip_joint" JREVOLUTE None (Some (mkLimits (dec 0 0) (dec 548 3) (dec 1000 0) (dec 5 1))) None;
  mkUjoint "l_gripper_joint" JPRISMATIC (Some (mkSafety (dec 20 0) (dec 5000 0) (dec (-1) 2) (dec 88 3))) (Some (mkLimits (dec 0 0) (dec 9 2) (dec 1000 0) (dec 2 1))) None;
  mkUjoint "l_forearm_cam_frame_joint" JFIXED None None None;
  mkUjoint "l_forearm_cam_optical_frame_joint" JFIXED None None None;
  mkUjoint "r_forearm_cam_frame_joint" JFIXED None None None;
  mkUjoint "r_forearm_cam_optical_frame_joint" JFIXED None None None].
