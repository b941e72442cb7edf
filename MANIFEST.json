{
 "claims": [
  {
   "property": "C01",
   "status": "proved",
   "theorems": [
    "C01_schedule_is_permutation"
   ],
   "note": "Props/SchedulerProps.v. modelled: `scheduleControllers`, `getNextController`, graph as sorted assoc list, stale schedule vector; proved by: loop invariant: remaining graph = original graph minus placed; topological-order completeness by minimal counterexample; canonical order via declarative \"smallest available\" relation"
  },
  {
   "property": "C02",
   "status": "proved",
   "theorems": [
    "C02_schedule_respects_constraints"
   ],
   "note": "Props/SchedulerProps.v. modelled: `scheduleControllers`, `getNextController`, graph as sorted assoc list, stale schedule vector; proved by: loop invariant: remaining graph = original graph minus placed; topological-order completeness by minimal counterexample; canonical order via declarative \"smallest available\" relation"
  },
  {
   "property": "C03",
   "status": "proved",
   "theorems": [
    "C03_schedule_succeeds_iff_possible",
    "C03_failure_explained",
    "C03_failure_exactly"
   ],
   "note": "Props/SchedulerProps.v. modelled: `scheduleControllers`, `getNextController`, graph as sorted assoc list, stale schedule vector; proved by: loop invariant: remaining graph = original graph minus placed; topological-order completeness by minimal counterexample; canonical order via declarative \"smallest available\" relation"
  },
  {
   "property": "C04",
   "status": "proved",
   "theorems": [
    "C04_schedule_is_canonical",
    "C04_schedule_independent_of_load_order"
   ],
   "note": "Props/SchedulerProps.v. modelled: `scheduleControllers`, `getNextController`, graph as sorted assoc list, stale schedule vector; proved by: loop invariant: remaining graph = original graph minus placed; topological-order completeness by minimal counterexample; canonical order via declarative \"smallest available\" relation"
  },
  {
   "property": "C05",
   "status": "proved",
   "theorems": [
    "C05_schedule_memory_safe",
    "C05_schedule_terminates",
    "C05_duplicate_names_read_out_of_bounds_refuted"
   ],
   "note": "Props/SchedulerProps.v. modelled: `scheduleControllers`, `getNextController`, graph as sorted assoc list, stale schedule vector; proved by: loop invariant: remaining graph = original graph minus placed; topological-order completeness by minimal counterexample; canonical order via declarative \"smallest available\" relation"
  },
  {
   "property": "C06",
   "status": "proved",
   "theorems": [
    "C06_callback_protocol",
    "C06_isRunning_iff_started"
   ],
   "note": "Props/ControllerProps.v. modelled: `Controller` lifecycle methods, `getController`, adaptive init programs; proved by: induction on request histories"
  },
  {
   "property": "C07",
   "status": "proved",
   "theorems": [
    "C07_start_stop_results"
   ],
   "note": "Props/ControllerProps.v. modelled: `Controller` lifecycle methods, `getController`, adaptive init programs; proved by: induction on request histories"
  },
  {
   "property": "C08",
   "status": "proved",
   "theorems": [
    "C08_getController_result",
    "C08_recorded_dependencies",
    "C08_invalid_sched_leaks_pointer"
   ],
   "note": "Props/ControllerProps.v. modelled: `Controller` lifecycle methods, `getController`, adaptive init programs; proved by: induction on request histories"
  },
  {
   "property": "C09",
   "status": "proved",
   "theorems": [
    "C09_load_all_or_nothing",
    "C09_load_succeeds_iff",
    "C09_load_throws_iff",
    "C09_object_created"
   ],
   "note": "Props/ManagerProps.v. modelled: `loadController`, `unloadController`, `switchController`, `update`, `list/reload` services at level A; proved by: invariant over all reachable states; exact-effect theorems"
  },
  {
   "property": "C10",
   "status": "proved",
   "theorems": [
    "C10_loaded_names_unique",
    "C10_duplicate_load_rejected"
   ],
   "note": "Props/ManagerProps.v. modelled: `loadController`, `unloadController`, `switchController`, `update`, `list/reload` services at level A; proved by: invariant over all reachable states; exact-effect theorems"
  },
  {
   "property": "C11",
   "status": "proved",
   "theorems": [
    "C11_unload_succeeds_iff_allowed"
   ],
   "note": "Props/ManagerProps.v. modelled: `loadController`, `unloadController`, `switchController`, `update`, `list/reload` services at level A; proved by: invariant over all reachable states; exact-effect theorems"
  },
  {
   "property": "C12",
   "status": "proved",
   "theorems": [
    "C12_dependencies_never_dangle",
    "C12_handed_out_pointers_stable"
   ],
   "note": "Props/ManagerProps.v. modelled: `loadController`, `unloadController`, `switchController`, `update`, `list/reload` services at level A; proved by: invariant over all reachable states; exact-effect theorems"
  },
  {
   "property": "C13",
   "status": "proved",
   "theorems": [
    "C13_removal_keeps_schedulable",
    "C13_unload_never_fails_scheduling"
   ],
   "note": "Props/ManagerProps.v. modelled: `loadController`, `unloadController`, `switchController`, `update`, `list/reload` services at level A; proved by: invariant over all reachable states; exact-effect theorems"
  },
  {
   "property": "C14",
   "status": "proved",
   "theorems": [
    "C14_strict_refused_as_a_whole",
    "C14_best_effort_ignores_exactly_unknown"
   ],
   "note": "Props/ManagerProps.v. modelled: `loadController`, `unloadController`, `switchController`, `update`, `list/reload` services at level A; proved by: invariant over all reachable states; exact-effect theorems"
  },
  {
   "property": "C15",
   "status": "proved",
   "theorems": [
    "C15_running_set_after_switch"
   ],
   "note": "Props/ManagerProps.v. modelled: `loadController`, `unloadController`, `switchController`, `update`, `list/reload` services at level A; proved by: invariant over all reachable states; exact-effect theorems"
  },
  {
   "property": "C16",
   "status": "proved",
   "theorems": [
    "C16_switch_atomic"
   ],
   "note": "Props/ConcProps.v. modelled: level B transition system; proved by: inductive invariants over all interleavings, reachability witnesses for the refutations, ranking functions for progress"
  },
  {
   "property": "C17",
   "status": "proved",
   "theorems": [
    "C17_cycle_events_concurrent",
    "C17_execution_order",
    "C17_cycle_events",
    "C17_each_running_updated_exactly_once"
   ],
   "note": "Props/ConcProps.v, ManagerProps.v. modelled: `loadController`, `unloadController`, `switchController`, `update`, `list/reload` services at level A; proved by: invariant over all reachable states; exact-effect theorems"
  },
  {
   "property": "C18",
   "status": "proved",
   "theorems": [
    "C18_restart_when_motors_reenabled",
    "C18_previous_flag"
   ],
   "note": "Props/ManagerProps.v. modelled: `loadController`, `unloadController`, `switchController`, `update`, `list/reload` services at level A; proved by: invariant over all reachable states; exact-effect theorems"
  },
  {
   "property": "C19",
   "status": "proved",
   "theorems": [
    "C19_list_controllers"
   ],
   "note": "Props/ManagerProps.v. modelled: `loadController`, `unloadController`, `switchController`, `update`, `list/reload` services at level A; proved by: invariant over all reachable states; exact-effect theorems"
  },
  {
   "property": "C20",
   "status": "proved",
   "theorems": [
    "C20_loader_replaced_only_when_empty",
    "C20_not_forced_untouched",
    "C20_forced_never_succeeds_with_asserts"
   ],
   "note": "Props/ManagerProps.v. modelled: `loadController`, `unloadController`, `switchController`, `update`, `list/reload` services at level A; proved by: invariant over all reachable states; exact-effect theorems"
  },
  {
   "property": "C21",
   "status": "proved",
   "theorems": [
    "C21_no_data_race",
    "C21_no_undefined_behaviour"
   ],
   "note": "Props/ConcProps.v. modelled: level B transition system; proved by: inductive invariants over all interleavings, reachability witnesses for the refutations, ranking functions for progress"
  },
  {
   "property": "C22",
   "status": "proved",
   "theorems": [
    "C22_startup_race",
    "C22_shutdown_undefined_behaviour",
    "C22_shutdown_switch_not_done"
   ],
   "note": "Props/ConcProps.v. modelled: level B transition system; proved by: inductive invariants over all interleavings, reachability witnesses for the refutations, ranking functions for progress"
  },
  {
   "property": "C23",
   "status": "proved",
   "theorems": [
    "C23_never_blocks",
    "C23_cycle_bounded"
   ],
   "note": "Props/ConcProps.v. modelled: level B transition system; proved by: inductive invariants over all interleavings, reachability witnesses for the refutations, ranking functions for progress"
  },
  {
   "property": "C24",
   "status": "proved",
   "theorems": [
    "C24_statistics_match"
   ],
   "note": "Props/ConcProps.v. modelled: level B transition system; proved by: inductive invariants over all interleavings, reachability witnesses for the refutations, ranking functions for progress"
  },
  {
   "property": "C25",
   "status": "proved",
   "theorems": [
    "C25_first_wait_immediate",
    "C25_second_wait_two_cycles",
    "C25_switch_wait_one_cycle",
    "C25_no_deadlock"
   ],
   "note": "Props/ConcProps.v. modelled: level B transition system; proved by: inductive invariants over all interleavings, reachability witnesses for the refutations, ranking functions for progress"
  },
  {
   "property": "C26",
   "status": "proved",
   "theorems": [
    "C26_callbacks_on_live_controllers",
    "C26_requests_are_loaded"
   ],
   "note": "Props/ConcProps.v. modelled: level B transition system; proved by: inductive invariants over all interleavings, reachability witnesses for the refutations, ranking functions for progress"
  },
  {
   "property": "C27",
   "status": "proved",
   "theorems": [
    "C27_realtime_never_destroys"
   ],
   "note": "Props/ConcProps.v. modelled: level B transition system; proved by: inductive invariants over all interleavings, reachability witnesses for the refutations, ranking functions for progress"
  },
  {
   "property": "C28",
   "status": "proved",
   "theorems": [
    "C28_unload_in_restart_window"
   ],
   "note": "Props/ConcProps.v. modelled: level B transition system; proved by: inductive invariants over all interleavings, reachability witnesses for the refutations, ranking functions for progress"
  },
  {
   "property": "C29",
   "status": "proved",
   "theorems": [
    "C29_mutual_exclusion",
    "C29_services_exclusive",
    "C29_linearizable",
    "C29_responses_adequate"
   ],
   "note": "Props/ConcProps.v. modelled: level B transition system; proved by: inductive invariants over all interleavings, reachability witnesses for the refutations, ranking functions for progress"
  },
  {
   "property": "C30",
   "status": "proved",
   "theorems": [
    "C30_effort_within_limit",
    "C30_effort_within_limit_abs"
   ],
   "note": "Props/JointProps.v. modelled: `JointState`, `JointStatistics`; proved by: case analysis on IEEE comparison; real arithmetic for the algebraic ones; induction over sample sequences"
  },
  {
   "property": "C31",
   "status": "proved",
   "theorems": [
    "C31_nan_command_passes"
   ],
   "note": "Props/JointProps.v. modelled: `JointState`, `JointStatistics`; proved by: case analysis on IEEE comparison; real arithmetic for the algebraic ones; induction over sample sequences"
  },
  {
   "property": "C32",
   "status": "proved",
   "theorems": [
    "C32_interval_nonempty"
   ],
   "note": "Props/JointProps.v. modelled: `JointState`, `JointStatistics`; proved by: case analysis on IEEE comparison; real arithmetic for the algebraic ones; induction over sample sequences"
  },
  {
   "property": "C33",
   "status": "proved",
   "theorems": [
    "C33_no_outward_effort",
    "C33_soft_limit_bound"
   ],
   "note": "Props/JointProps.v. modelled: `JointState`, `JointStatistics`; proved by: case analysis on IEEE comparison; real arithmetic for the algebraic ones; induction over sample sequences"
  },
  {
   "property": "C34",
   "status": "proved",
   "theorems": [
    "C34_transparent",
    "C34_idempotent",
    "C34_full_range_inside"
   ],
   "note": "Props/JointProps.v. modelled: `JointState`, `JointStatistics`; proved by: case analysis on IEEE comparison; real arithmetic for the algebraic ones; induction over sample sequences"
  },
  {
   "property": "C35",
   "status": "proved",
   "theorems": [
    "C35_no_limits_no_clamping",
    "C35_uncalibrated_ignores_position",
    "C35_uncalibrated_velocity_limit"
   ],
   "note": "Props/JointProps.v. modelled: `JointState`, `JointStatistics`; proved by: case analysis on IEEE comparison; real arithmetic for the algebraic ones; induction over sample sequences"
  },
  {
   "property": "C36",
   "status": "proved",
   "theorems": [
    "C36_statistics_bound_samples",
    "C36_range_ends",
    "C36_before_first_publication",
    "C36_odometer",
    "C36_range_not_exact"
   ],
   "note": "Props/JointStatsProps.v. modelled: `JointState`, `JointStatistics`; proved by: case analysis on IEEE comparison; real arithmetic for the algebraic ones; induction over sample sequences"
  },
  {
   "property": "C37",
   "status": "proved",
   "theorems": [
    "C37_violated_limits",
    "C37_before_first_publication"
   ],
   "note": "Props/JointStatsProps.v. modelled: `JointState`, `JointStatistics`; proved by: case analysis on IEEE comparison; real arithmetic for the algebraic ones; induction over sample sequences"
  },
  {
   "property": "C38",
   "status": "proved",
   "theorems": [
    "C38_halted_iff",
    "C38_ex"
   ],
   "note": "Props/RobotProps.v. modelled: `Robot::initXml`, `RobotState` (constructor, lookups, four propagation calls, zero, enforce, isHalted), the transmission class table (Model/Builtin.v); proved by: list induction; a \"behaves\" interface every transmission satisfies; totality of the cycle by a well-formedness invariant"
  },
  {
   "property": "C39",
   "status": "proved",
   "theorems": [
    "C39_one_cycle",
    "C39_untouched_joint_zero",
    "C39_every_sent_effort_enforced",
    "C39_effort_within_limit"
   ],
   "note": "Props/SystemProps.v. modelled: the manager wired to the robot (Model/System.v: the level A manager over a world holding clock, actuators, joints, outbox); proved by: invariants over all histories; publish loop with fuel shown sufficient iff the period is positive"
  },
  {
   "property": "C40",
   "status": "proved",
   "theorems": [
    "C40_wiring",
    "C40_lookup",
    "C40_constructor_succeeds",
    "C40_ex"
   ],
   "note": "Props/RobotProps.v. modelled: `Robot::initXml`, `RobotState` (constructor, lookups, four propagation calls, zero, enforce, isHalted), the transmission class table (Model/Builtin.v); proved by: list induction; a \"behaves\" interface every transmission satisfies; totality of the cycle by a well-formedness invariant"
  },
  {
   "property": "C41",
   "status": "proved",
   "theorems": [
    "C41_loaded_in_document_order",
    "C41_transmission_lookup",
    "C41_loaded_names_known_and_enabled",
    "C41_empty_type_undefined",
    "C41_only_namespaced_types",
    "C41_ex_loader",
    "C41_ex"
   ],
   "note": "Props/RobotProps.v. modelled: `Robot::initXml`, `RobotState` (constructor, lookups, four propagation calls, zero, enforce, isHalted), the transmission class table (Model/Builtin.v); proved by: list induction; a \"behaves\" interface every transmission satisfies; totality of the cycle by a well-formedness invariant"
  },
  {
   "property": "C42",
   "status": "proved",
   "theorems": [
    "C42_actuator_roundtrip",
    "C42_joint_roundtrip",
    "C42_effort_roundtrip",
    "C42_actuator_effort_roundtrip",
    "C42_power",
    "C42_simulated_joint"
   ],
   "note": "Props/SimpleProps.v. modelled: transmissions (initXml from an abstract XML tree, four propagation directions); proved by: field/nra over R; Coquelicot derivative and limits"
  },
  {
   "property": "C43",
   "status": "proved",
   "theorems": [
    "C43_actuator_roundtrip",
    "C43_joint_roundtrip",
    "C43_effort_roundtrip",
    "C43_actuator_effort_roundtrip"
   ],
   "note": "Props/WristProps.v. modelled: transmissions (initXml from an abstract XML tree, four propagation directions); proved by: field/nra over R; Coquelicot derivative and limits"
  },
  {
   "property": "C44",
   "status": "proved",
   "theorems": [
    "C44_power"
   ],
   "note": "Props/WristProps.v. modelled: transmissions (initXml from an abstract XML tree, four propagation directions); proved by: field/nra over R; Coquelicot derivative and limits"
  },
  {
   "property": "C45",
   "status": "proved",
   "theorems": [
    "C45_initXml",
    "C45_initXml1_roll_offset",
    "C45_variants_agree",
    "C45_missing_joint_element"
   ],
   "note": "Props/WristProps.v. modelled: transmissions (initXml from an abstract XML tree, four propagation directions); proved by: field/nra over R; Coquelicot derivative and limits"
  },
  {
   "property": "C46",
   "status": "proved",
   "theorems": [
    "C46_equilibrium",
    "C46_zero_step",
    "C46_rigid_backwards",
    "C46_simulated_equilibrium"
   ],
   "note": "Props/BeltProps.v. modelled: transmissions (initXml from an abstract XML tree, four propagation directions); proved by: field/nra over R; Coquelicot derivative and limits"
  },
  {
   "property": "C47",
   "status": "proved",
   "theorems": [
    "C47_follows_settling_motor",
    "C47_converges"
   ],
   "note": "Props/BeltProps.v. modelled: transmissions (initXml from an abstract XML tree, four propagation directions); proved by: field/nra over R; Coquelicot derivative and limits"
  },
  {
   "property": "C48",
   "status": "proved",
   "theorems": [
    "C48_effort",
    "C48_undamped_roundtrip",
    "C48_plain_damping_dissipates",
    "C48_damping_fades"
   ],
   "note": "Props/BeltProps.v. modelled: transmissions (initXml from an abstract XML tree, four propagation directions); proved by: field/nra over R; Coquelicot derivative and limits"
  },
  {
   "property": "C49",
   "status": "proved",
   "theorems": [
    "C49_reports_linkage",
    "C49_actuator_roundtrip",
    "C49_effort_roundtrip",
    "C49_gap_roundtrip",
    "C49_other_joints"
   ],
   "note": "Props/GripperProps.v. modelled: transmissions (initXml from an abstract XML tree, four propagation directions); proved by: field/nra over R; Coquelicot derivative and limits"
  },
  {
   "property": "C50",
   "status": "proved",
   "theorems": [
    "C50_velocity_is_derivative",
    "C50_below_zero_uses_slope_at_zero",
    "C50_power_ratio",
    "C50_simulated_effort"
   ],
   "note": "Props/GripperProps.v. modelled: transmissions (initXml from an abstract XML tree, four propagation directions); proved by: field/nra over R; Coquelicot derivative and limits"
  },
  {
   "property": "C51",
   "status": "proved",
   "theorems": [
    "C51_accepted_joint_count",
    "C51_position_directions_incompatible",
    "C51_effort_directions_incompatible",
    "C51_no_simulated_joint_unusable",
    "C51_complete_description_usable"
   ],
   "note": "Props/GripperProps.v. modelled: transmissions (initXml from an abstract XML tree, four propagation directions); proved by: field/nra over R; Coquelicot derivative and limits"
  },
  {
   "property": "C52",
   "status": "proved",
   "theorems": [
    "C52_reading_limited",
    "C52_reading_continuous",
    "C52_edges",
    "C52_continuous_without_reference_indeterminate"
   ],
   "note": "Props/CalibrationProps.v. modelled: calibration simulator; proved by: induction over motion sequences"
  },
  {
   "property": "C53",
   "status": "proved",
   "theorems": [
    "C53_valid_is_forever",
    "C53_rising_only",
    "C53_falling_only"
   ],
   "note": "Props/CalibrationProps.v. modelled: calibration simulator; proved by: induction over motion sequences"
  },
  {
   "property": "C54",
   "status": "proved",
   "theorems": [
    "C54_init",
    "C54_failed_init",
    "C54_joints",
    "C54_read_vector",
    "C54_read",
    "C54_read_wrong_size",
    "C54_set_efforts",
    "C54_add_efforts",
    "C54_efforts_not_read_back",
    "C54_write_wrong_size"
   ],
   "note": "Props/KinematicsProps.v. modelled: `Chain`, `Tree` with KDL's answer as a parameter; proved by: list induction"
  },
  {
   "property": "C55",
   "status": "proved",
   "theorems": [
    "C55_all_calibrated",
    "C55_get_joint"
   ],
   "note": "Props/KinematicsProps.v. modelled: `Chain`, `Tree` with KDL's answer as a parameter; proved by: list induction"
  },
  {
   "property": "C56",
   "status": "proved",
   "theorems": [
    "C56_init"
   ],
   "note": "Props/KinematicsProps.v. modelled: `Chain`, `Tree` with KDL's answer as a parameter; proved by: list induction"
  },
  {
   "property": "C57",
   "status": "proved",
   "theorems": [
    "C57_success_without_tree"
   ],
   "note": "Props/KinematicsProps.v. modelled: `Chain`, `Tree` with KDL's answer as a parameter; proved by: list induction"
  },
  {
   "property": "C58",
   "status": "proved",
   "theorems": [
    "C58_lookup",
    "C58_answer",
    "C58_other_lookups"
   ],
   "note": "Props/HardwareProps.v. modelled: `HardwareInterface` registry; proved by: map induction"
  },
  {
   "property": "C59",
   "status": "proved",
   "theorems": [
    "C59_one_joint_message_per_period",
    "C59_one_statistics_message_per_period",
    "C59_published_when_due"
   ],
   "note": "Props/SystemProps.v. modelled: the manager wired to the robot (Model/System.v: the level A manager over a world holding clock, actuators, joints, outbox); proved by: invariants over all histories; publish loop with fuel shown sufficient iff the period is positive"
  },
  {
   "property": "C60",
   "status": "proved",
   "theorems": [
    "C60_loop_ends_iff",
    "C60_zero_period_iff",
    "C60_zero_period_hangs"
   ],
   "note": "Props/SystemProps.v. modelled: the manager wired to the robot (Model/System.v: the level A manager over a world holding clock, actuators, joints, outbox); proved by: invariants over all histories; publish loop with fuel shown sufficient iff the period is positive"
  },
  {
   "property": "C61",
   "status": "proved",
   "theorems": [
    "C61_one_entry_each",
    "C61_joint_severity"
   ],
   "note": "Props/DiagnosticsProps.v. modelled: diagnostics node, over binary64; proved by: induction over message histories"
  },
  {
   "property": "C62",
   "status": "proved",
   "theorems": [
    "C62_maxima",
    "C62_minimum_is_last",
    "C62_minimum_lost"
   ],
   "note": "Props/DiagnosticsProps.v. modelled: diagnostics node, over binary64; proved by: induction over message histories"
  },
  {
   "property": "C63",
   "status": "proved",
   "theorems": [
    "C63_controller_severity",
    "C63_listed"
   ],
   "note": "Props/DiagnosticsProps.v. modelled: diagnostics node, over binary64; proved by: induction over message histories"
  },
  {
   "property": "C64",
   "status": "proved",
   "theorems": [
    "C64_spawner_leaves_nothing_behind",
    "C64_shutdown_refused_after_foreign_unload",
    "C64_interrupted_load_left_behind",
    "C64_spawner_completes"
   ],
   "note": "Props/ScriptsProps.v. modelled: python clients as programs over the level A services, interleaved with other clients (Model/Scripts.v); proved by: invariant over the interleaved run; composition of level A lemmas"
  },
  {
   "property": "C65",
   "status": "proved",
   "theorems": [
    "C65_forced_reload_outcome",
    "C65_restore_restores",
    "C65_reload_completes"
   ],
   "note": "Props/ScriptsProps.v. modelled: python clients as programs over the level A services, interleaved with other clients (Model/Scripts.v); proved by: invariant over the interleaved run; composition of level A lemmas"
  },
  {
   "property": "C66",
   "status": "proved",
   "theorems": [
    "C66_cycle_never_crashes",
    "C66_simulation_never_crashes",
    "C66_ex",
    "C66_two_simulated_joints_abort",
    "C66_ex_simulatable",
    "C66_system_never_crashes"
   ],
   "note": "Props/RobotProps.v, RoundTripProps.v, SystemProps.v. modelled: `Robot::initXml`, `RobotState` (constructor, lookups, four propagation calls, zero, enforce, isHalted), the transmission class table (Model/Builtin.v); proved by: list induction; a \"behaves\" interface every transmission satisfies; totality of the cycle by a well-formedness invariant"
  },
  {
   "property": "C67",
   "status": "proved",
   "theorems": [
    "C67_one_sample_per_cycle",
    "C67_only_cycles_count",
    "C67_overruns_counted",
    "C67_published_statistics"
   ],
   "note": "Props/StatsProps.v. modelled: execution-time statistics (level A); proved by: invariants over histories"
  },
  {
   "property": "C68",
   "status": "proved",
   "theorems": [
    "C68_messages",
    "C68_late_actuator_undefined"
   ],
   "note": "Props/SystemProps.v. modelled: the manager wired to the robot (Model/System.v: the level A manager over a world holding clock, actuators, joints, outbox); proved by: invariants over all histories; publish loop with fuel shown sufficient iff the period is positive"
  },
  {
   "property": "C69",
   "status": "proved",
   "theorems": [
    "C69_kill_complete_iff_dependents_first",
    "C69_kill_touches_only_named",
    "C69_spawn_runs_what_it_loaded"
   ],
   "note": "Props/ScriptsProps.v. modelled: python clients as programs over the level A services, interleaved with other clients (Model/Scripts.v); proved by: invariant over the interleaved run; composition of level A lemmas"
  },
  {
   "property": "C70",
   "status": "proved",
   "theorems": [
    "C70_unspawner_restores",
    "C70_interrupted_call_is_forgotten"
   ],
   "note": "Props/ScriptsProps.v. modelled: python clients as programs over the level A services, interleaved with other clients (Model/Scripts.v); proved by: invariant over the interleaved run; composition of level A lemmas"
  },
  {
   "property": "C71",
   "status": "proved",
   "theorems": [
    "C71_loader_replaced_only_when_empty",
    "C71_only_forced_reload_aborts",
    "C71_list_answer"
   ],
   "note": "Props/ServiceProps.v. modelled: the services as level B programs (end of Model/ManagerConc.v); proved by: invariant relating every client thread to the request it executes"
  },
  {
   "property": "C72",
   "status": "proved",
   "theorems": [
    "C72_position_one_by_one",
    "C72_position_independent",
    "C72_effort_one_by_one",
    "C72_effort_independent",
    "C72_simulated_position_one_by_one",
    "C72_simulated_effort_one_by_one",
    "C72_distinct_names_exclusive",
    "C72_ex_exclusive",
    "C72_ex_position",
    "C72_shared_actuator"
   ],
   "note": "Props/IndependenceProps.v. modelled: the four propagations over the transmission list (Model/Robot.v) and every built-in transmission; proved by: locality lemma per transmission (Proofs/Locality.v), induction over the list (Proofs/OverLocal.v)"
  },
  {
   "property": "C73",
   "status": "proved",
   "theorems": [
    "C73_joint_roundtrip",
    "C73_actuator_roundtrip",
    "C73_command_roundtrip",
    "C73_ex_loaded",
    "C73_ex_state",
    "C73_ex_own",
    "C73_ex_invertible",
    "C73_ex"
   ],
   "note": "Props/RoundTripProps.v. modelled: sequences of propagations of a loaded robot, exact reals; proved by: C72 reduces to one transmission, then C42, C43, C46, C47"
  },
  {
   "property": "C74",
   "status": "proved",
   "theorems": [
    "C74_motor_commands",
    "C74_simple_motor_bound",
    "C74_wrist_motor_bound"
   ],
   "note": "Props/MotorProps.v. modelled: whole-system histories (Model/System.v), binary64 with an arbitrary sin/cos; proved by: C59 (efforts sent are limited) and C72, rounding monotonicity (Proofs/NumFacts.v)"
  },
  {
   "property": "C75",
   "status": "proved",
   "theorems": [
    "C75_cycle_is_update",
    "C75_load_unload_then_cycle",
    "C75_switch_in_one_cycle",
    "C75_switch_refused",
    "C75_settled_when_quiet"
   ],
   "note": "Props/SequentialProps.v. modelled: both manager models: calls/cycles in one piece (Model/Manager.v) and interleaved (Model/ManagerConc.v); proved by: the rest of a cycle as a function of the program counter, one lemma per step, induction on the steps left; the trace is shown not to influence anything"
  },
  {
   "property": "C76",
   "status": "proved",
   "theorems": [
    "C76_accepts",
    "C76_refuses",
    "C76_without_robot",
    "C76_ex",
    "C76_ex_without_robot"
   ],
   "note": "Props/DescriptionProps.v. modelled: the initXml functions (with and without a Robot) of the simple, belt and gripper transmissions over TinyXML's view of an element; number conversions are parameters; proved by: a separate specification of what a description says (Spec/DescriptionSpec.v: child elements, texts, document order); loops over sibling elements by induction"
  },
  {
   "property": "C77",
   "status": "proved",
   "theorems": [
    "C77_accepts",
    "C77_refuses",
    "C77_without_robot",
    "C77_ex",
    "C77_ex_refused"
   ],
   "note": "Props/DescriptionProps.v. modelled: the initXml functions (with and without a Robot) of the simple, belt and gripper transmissions over TinyXML's view of an element; number conversions are parameters; proved by: a separate specification of what a description says (Spec/DescriptionSpec.v: child elements, texts, document order); loops over sibling elements by induction"
  },
  {
   "property": "C78",
   "status": "proved",
   "theorems": [
    "C78_accepts",
    "C78_refuses",
    "C78_without_robot",
    "C78_ex",
    "C78_ex_refused"
   ],
   "note": "Props/DescriptionProps.v. modelled: the initXml functions (with and without a Robot) of the simple, belt and gripper transmissions over TinyXML's view of an element; number conversions are parameters; proved by: a separate specification of what a description says (Spec/DescriptionSpec.v: child elements, texts, document order); loops over sibling elements by induction"
  },
  {
   "property": "C79",
   "status": "proved",
   "theorems": [
    "C79_simulated_time",
    "C79_flag_never_cleared",
    "C79_monotone",
    "C79_ex_flags",
    "C79_ex"
   ],
   "note": "Props/SimulationProps.v. modelled: histories of propagation calls of a loaded robot (Model/Robot.v with the built-in transmissions); the ROS clock and the values of uninitialised members are parameters; proved by: one lemma per transmission for the clock flag and the switch wiring, C72 to isolate one transmission, then C52/C53"
  },
  {
   "property": "C80",
   "status": "proved",
   "theorems": [
    "C80_reading_limited",
    "C80_reading_continuous",
    "C80_edges",
    "C80_valid_is_forever",
    "C80_simulation_exists",
    "C80_ex_loaded",
    "C80_ex_state",
    "C80_ex_fresh",
    "C80_ex"
   ],
   "note": "Props/SimulationProps.v. modelled: histories of propagation calls of a loaded robot (Model/Robot.v with the built-in transmissions); the ROS clock and the values of uninitialised members are parameters; proved by: one lemma per transmission for the clock flag and the switch wiring, C72 to isolate one transmission, then C52/C53"
  },
  {
   "property": "C81",
   "status": "proved",
   "theorems": [
    "C81_every_history_looks",
    "C81_restart_after_halt"
   ],
   "note": "Props/HaltProps.v. modelled: whole-system histories (Model/System.v); proved by: the remembered flag through every operation (Proofs/HaltProofs.v), C18, and that reading positions and zeroing commands changes no actuator"
  },
  {
   "property": "C82",
   "status": "proved",
   "theorems": [
    "C82_starts_exactly"
   ],
   "note": "Props/StartupProps.v. modelled: `cm_initXml` over `robot_initXml` and the RobotState constructor; proved by: C40, C41 and a loop lemma for the type check"
  },
  {
   "property": "C83",
   "status": "proved",
   "theorems": [
    "C83_every_sent_effort_enforced",
    "C83_untouched_joint_zero",
    "C83_one_message_per_period",
    "C83_effort_within_limit",
    "C83_robot_never_crashes",
    "C83_realtime_always_proceeds",
    "C83_messages_are_snapshots",
    "C83_init_can_bypass_limit"
   ],
   "note": "Props/ConcSystemProps.v. modelled: level B (`ManagerConc`) over the plant of `System`: every realtime step, including one step between enforceSafety and sending the efforts; callbacks and init() bodies are single steps (further writes of an init() are covered by outside events `LEnv`); proved by: per-step effect on the plant (`sys_step`), induction over the interleaving; a counterexample interleaving for the proviso on init()"
  },
  {
   "property": "C84",
   "status": "proved",
   "theorems": [
    "C84_simulated_belt_is_spring",
    "C84_simulated_belt_settles",
    "C84_estimate_recovers_joint",
    "C84_states_not_shared"
   ],
   "note": "Props/BeltSimProps.v. modelled: the two backward calls of the belt over exact reals, as infinite histories of simulation cycles; proved by: algebra of one step gives the trapezoidal rule; convergence by the geometric-sequence lemmas also used for C47, now with a driven equilibrium"
  },
  {
   "property": "C85",
   "status": "proved",
   "theorems": [
    "C85_statistics_follow_cycles",
    "C85_message_content",
    "C85_odometer",
    "C85_first_message",
    "C85_range_covers_cycles",
    "C85_violated_limits"
   ],
   "note": "Props/StatSystemProps.v. modelled: the system model of C59/C68 with the joint statistics of C36/C37: the output log determines the history of samples and publications of a joint; proved by: induction on histories; every cycle appends one sample, every statistics message one publication (`told`), then C36/C37 are applied to that history"
  },
  {
   "property": "C86",
   "status": "proved",
   "theorems": [
    "C86_clients_finish",
    "C86_calls_return",
    "C86_locks_released",
    "C86_cycles_complete",
    "C86_fair_executions_exist",
    "C86_shutdown_hangs"
   ],
   "note": "Props/LivenessProps.v. modelled: infinite executions of level B (`Spec/LivenessSpec.v`): any labels, weak/strong fairness assumptions stated as hypotheses on the label sequence; proved by: the finite bounds of C26\u2013C29 (cycles complete, waits end) are chained by well-founded arguments; lock waits use the strong fairness of client threads; stdlib `Classical` for \"again and again or eventually never\""
  },
  {
   "property": "C87",
   "status": "proved",
   "theorems": [
    "C87_half_done_is_invisible",
    "C87_whole_stretches",
    "C87_client_writes",
    "C87_realtime_writes",
    "C87_inputs_stable",
    "C87_outcome_from_inputs"
   ],
   "note": "Props/RaceProps.v. modelled: level B steps on configurations whose containers under modification hold arbitrary contents (`Spec/RaceSpec.v: half_done, looks_like`); this is what justifies modelling the bodies of load, unload and switch as single steps; proved by: every realtime helper commutes with a change of the fields it does not read (`Proofs/Race.v: rt_blind`), C21 shows those are the fields; frame lemmas for both sides; induction over stretches"
  },
  {
   "property": "C88",
   "status": "proved",
   "theorems": [
    "C88_simple_forward",
    "C88_simple_actuator_roundtrip",
    "C88_simple_joint_roundtrip",
    "C88_simple_effort",
    "C88_wrist_forward",
    "C88_wrist_actuator_roundtrip",
    "C88_wrist_joint_roundtrip",
    "C88_wrist_effort"
   ],
   "note": "Props/FloatProps.v. modelled: simple and wrist transmission over IEEE binary64 (Flocq), any `Trig` instance; proved by: chains of roundings (Proofs/Rounding.v): every operation adds at most two units of 2^-53 to the accumulated error; overflow and underflow tracked by exponents"
  },
  {
   "property": "C89",
   "status": "proved",
   "theorems": [
    "C89_lookup_in_cycle"
   ],
   "note": "Props/LookupProps.v. modelled: `getControllerByName` split into reading the index and going through the list, interleaved with everything at level B; proved by: from the level B invariant: while the realtime thread is in a cycle, the list that was current at any point of it is neither rebuilt nor cleared; induction over the steps of the cycle"
  },
  {
   "property": "C90",
   "status": "proved",
   "theorems": [
    "C90_published_times",
    "C90_one_sample_per_cycle",
    "C90_nothing_else_counts"
   ],
   "note": "Props/TimeProps.v. modelled: `Model/TimeStats.v`: boost's incremental maximum, mean and variance (third party code, as documented) over the samples kept by Model/Manager.v; level B executions; proved by: induction over executions with an invariant per program point of the cycle (sample lists compared with those at the start of the cycle); the recurrences solved over R"
  },
  {
   "property": "C91",
   "status": "proved",
   "theorems": [
    "C91_motor_commands",
    "C91_simple_motor_bound",
    "C91_wrist_motor_bound"
   ],
   "note": "Props/ConcMotorProps.v. modelled: whole-system model at level B (Model/System.v hooks run by ManagerConc) with the built-in transmissions; proved by: induction on the interleaving with the plant invariant of C83, then the per-transmission lemmas of C74"
  },
  {
   "property": "C92",
   "status": "proved",
   "theorems": [
    "C92_message_content",
    "C92_odometer",
    "C92_first_message",
    "C92_range_covers_cycles",
    "C92_violated_limits"
   ],
   "note": "Props/ConcStatProps.v. modelled: whole-system model at level B (as C83), log vocabulary of C85 (Spec/StatSystemSpec.v); proved by: invariant per program point of the realtime thread (a cycle that has sampled but not yet sent), then the log lemmas of C85"
  },
  {
   "property": "C93",
   "status": "proved",
   "theorems": [
    "C93_propagate_position",
    "C93_propagate_effort_backwards",
    "C93_propagate_effort",
    "C93_propagate_position_backwards"
   ],
   "note": "Props/GripperDomainProps.v. modelled: gripper propagation over binary64 with an arbitrary mathematics library: replacing asin, acos and sqrt outside their domains changes nothing; proved by: clamps and floors located on the extended order of the doubles (b64_ord)"
  },
  {
   "property": "C94",
   "status": "proved",
   "theorems": [
    "C94_every_interleaving_looks",
    "C94_restart_after_halt"
   ],
   "note": "Props/ConcHaltProps.v. modelled: `ManagerConc.v` with `System.v` plugged in: `conc_look` names the memory seen when the realtime thread last began updating; proved by: invariant: the remembered flag is the halt state of that memory; the cycle that ends is the specified body for the decision taken at its beginning (`ConcCycle`)"
  },
  {
   "property": "C95",
   "status": "proved",
   "theorems": [
    "C95_one_update",
    "C95_overruns_counted",
    "C95_published_overruns"
   ],
   "note": "Props/OverrunProps.v. modelled: `ManagerConc.v`: statistics live in the controller objects, the lists hold pointers; proved by: invariant over every object ever created, from the sequential history on (`OverrunConc`), one-step description of the update loop"
  },
  {
   "property": "C96",
   "status": "proved",
   "theorems": [
    "C96_every_life_is_proper",
    "C96_listed_controllers",
    "C96_nothing_after_destruction",
    "C96_every_cycle_updates_the_started"
   ],
   "note": "Props/LifeProps.v. modelled: level B model; every object's callback history is the history of a request sequence on the single-object model of C06; proved by: invariant over all steps of all threads (no liveness assumption), refinement to the single-object model; destruction from C26/C27"
  },
  {
   "property": "C97",
   "status": "proved",
   "theorems": [
    "C97_measured_power",
    "C97_commanded_power",
    "C97_whole_robot_power",
    "C97_ex_loaded",
    "C97_ex_state",
    "C97_ex_simulatable",
    "C97_ex_all",
    "C97_ex"
   ],
   "note": "Props/PowerProps.v. modelled: Whole robots conserve mechanical power; proved by: Spec/PowerSpec.v (totals, driven joints, calls that keep speeds); Props/PowerProps.v: C72's one-by-one lemmas lift the power identities of simple and wrist transmissions to any loaded robot in any run; whole-robot sum; example with controller write and enforcement"
  },
  {
   "property": "C98",
   "status": "proved",
   "theorems": [
    "C98_uncommanded_joint_interleaved",
    "C98_simple_motor_limp_interleaved",
    "C98_ex_interleaved",
    "C98_ex_interleaved_hypotheses",
    "C98_uncommanded_joint",
    "C98_zero_stays_zero",
    "C98_zero_allowed_without_limits",
    "C98_simple_motor_limp",
    "C98_wrist_motors_limp",
    "C98_gripper_motor_limp",
    "C98_belt_motor_only_damped",
    "C98_idle_uncommanded",
    "C98_ex",
    "C98_ex_hypotheses",
    "C98_ex_gripper_belt"
   ],
   "note": "Props/ConcIdleProps.v, IdleProps.v. modelled: An idle robot is limp; proved by: Props/IdleProps.v: C39 (one cycle's events and writes), C18 (which callbacks run) and C34 (transparent limits) give the zero command; C74's one-transmission lemmas carry it to the motors; example: a controller is started, commands 100 (enforced 30, motor 15), is stopped, and the next cycle sends 0. Props/ConcIdleProps.v: the same in the fine-grained model, by an invariant over steps tying commands to the callbacks of the current cycle and C17's cycle record"
  },
  {
   "property": "C99",
   "status": "proved",
   "theorems": [
    "C99_wrong_size_refused",
    "C99_right_size_accepted",
    "C99_gripper_without_slider",
    "C99_ex"
   ],
   "note": "Props/SizeProps.v. modelled: Mis-sized calls are refused; proved by: Props/SizeProps.v: the wanted sizes are a separate specification (`fits`); every call of the built-in class aborts outside it and (but for positionBackwards) never aborts inside it; C51 for the gripper without slider; example with one joint too many, one actuator too few and the right sizes"
  },
  {
   "property": "C100",
   "status": "proved",
   "theorems": [
    "C100_transmission_calls",
    "C100_robot_calls",
    "C100_load",
    "C100_chain_access",
    "C100_cycle_pieces",
    "C100_cycle",
    "C100_list",
    "C100_ex"
   ],
   "note": "Props/AssertProps.v. modelled: Assertions only stop, they change nothing; proved by: Props/AssertProps.v: `agrees` (stops, or equal), congruent for the model's sequencing; proved call by call, lifted to the loops, to initXml and RobotState, and through the world steps of WorldSteps.v to a whole cycle; example where the builds agree and one where only the one with assertions stops"
  }
 ]
}