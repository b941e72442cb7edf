# Output of Print Assumptions for every theorem of MANIFEST.json

Generated by tools/assumptions.py. 337 theorems, 4 different axiom sets; all axioms are the standard library's.

## Closed under the global context (no axioms)

C01_schedule_is_permutation, C02_schedule_respects_constraints, C03_schedule_succeeds_iff_possible, C03_failure_explained, C03_failure_exactly, C04_schedule_is_canonical, C04_schedule_independent_of_load_order, C05_schedule_memory_safe, C05_schedule_terminates, C05_duplicate_names_read_out_of_bounds_refuted, C06_callback_protocol, C06_isRunning_iff_started, C07_start_stop_results, C08_getController_result, C08_recorded_dependencies, C08_invalid_sched_leaks_pointer, C09_load_all_or_nothing, C09_load_succeeds_iff, C09_load_throws_iff, C09_object_created, C10_loaded_names_unique, C10_duplicate_load_rejected, C11_unload_succeeds_iff_allowed, C12_dependencies_never_dangle, C12_handed_out_pointers_stable, C13_removal_keeps_schedulable, C13_unload_never_fails_scheduling, C14_strict_refused_as_a_whole, C14_best_effort_ignores_exactly_unknown, C15_running_set_after_switch, C16_switch_atomic, C17_cycle_events_concurrent, C17_execution_order, C17_cycle_events, C17_each_running_updated_exactly_once, C18_restart_when_motors_reenabled, C18_previous_flag, C19_list_controllers, C20_loader_replaced_only_when_empty, C20_not_forced_untouched, C20_forced_never_succeeds_with_asserts, C21_no_data_race, C21_no_undefined_behaviour, C22_startup_race, C22_shutdown_undefined_behaviour, C22_shutdown_switch_not_done, C23_never_blocks, C23_cycle_bounded, C24_statistics_match, C25_first_wait_immediate, C25_second_wait_two_cycles, C25_switch_wait_one_cycle, C25_no_deadlock, C26_callbacks_on_live_controllers, C26_requests_are_loaded, C27_realtime_never_destroys, C28_unload_in_restart_window, C29_mutual_exclusion, C29_services_exclusive, C29_linearizable, C29_responses_adequate, C38_halted_iff, C39_one_cycle, C39_untouched_joint_zero, C39_every_sent_effort_enforced, C40_wiring, C40_lookup, C40_constructor_succeeds, C41_loaded_in_document_order, C41_transmission_lookup, C41_loaded_names_known_and_enabled, C41_empty_type_undefined, C41_only_namespaced_types, C45_initXml, C45_initXml1_roll_offset, C45_variants_agree, C45_missing_joint_element, C54_init, C54_failed_init, C54_joints, C54_read_vector, C54_read, C54_read_wrong_size, C54_set_efforts, C54_add_efforts, C54_efforts_not_read_back, C54_write_wrong_size, C55_all_calibrated, C55_get_joint, C56_init, C57_success_without_tree, C58_lookup, C58_answer, C58_other_lookups, C59_one_joint_message_per_period, C59_one_statistics_message_per_period, C59_published_when_due, C60_loop_ends_iff, C60_zero_period_hangs, C64_spawner_leaves_nothing_behind, C64_shutdown_refused_after_foreign_unload, C64_interrupted_load_left_behind, C64_spawner_completes, C65_forced_reload_outcome, C65_restore_restores, C65_reload_completes, C66_cycle_never_crashes, C66_simulation_never_crashes, C66_system_never_crashes, C67_one_sample_per_cycle, C67_only_cycles_count, C67_overruns_counted, C67_published_statistics, C68_messages, C68_late_actuator_undefined, C69_kill_complete_iff_dependents_first, C69_kill_touches_only_named, C69_spawn_runs_what_it_loaded, C70_unspawner_restores, C70_interrupted_call_is_forgotten, C71_loader_replaced_only_when_empty, C71_only_forced_reload_aborts, C71_list_answer, C72_position_one_by_one, C72_position_independent, C72_effort_one_by_one, C72_effort_independent, C72_simulated_position_one_by_one, C72_simulated_effort_one_by_one, C72_distinct_names_exclusive, C72_ex_exclusive, C73_ex_own, C74_motor_commands, C75_cycle_is_update, C75_load_unload_then_cycle, C75_switch_in_one_cycle, C75_switch_refused, C75_settled_when_quiet, C76_accepts, C76_refuses, C76_without_robot, C76_ex, C76_ex_without_robot, C77_accepts, C77_refuses, C77_without_robot, C77_ex, C77_ex_refused, C78_accepts, C78_refuses, C78_without_robot, C78_ex, C78_ex_refused, C79_simulated_time, C79_flag_never_cleared, C79_monotone, C81_every_history_looks, C81_restart_after_halt, C82_starts_exactly, C83_every_sent_effort_enforced, C83_untouched_joint_zero, C83_one_message_per_period, C83_robot_never_crashes, C83_realtime_always_proceeds, C83_messages_are_snapshots, C85_statistics_follow_cycles, C85_message_content, C86_fair_executions_exist, C86_shutdown_hangs, C87_half_done_is_invisible, C87_whole_stretches, C87_client_writes, C87_realtime_writes, C87_inputs_stable, C87_outcome_from_inputs, C89_lookup_in_cycle, C90_one_sample_per_cycle, C90_nothing_else_counts, C91_motor_commands, C92_message_content, C94_every_interleaving_looks, C94_restart_after_halt, C95_one_update, C95_overruns_counted, C95_published_overruns, C96_every_life_is_proper, C96_listed_controllers, C96_nothing_after_destruction, C96_every_cycle_updates_the_started, C98_uncommanded_joint, C98_idle_uncommanded

## `Classical_Prop.classic`

C86_clients_finish, C86_calls_return, C86_locks_released, C86_cycles_complete

## `ClassicalDedekindReals.sig_forall_dec`, `FunctionalExtensionality.functional_extensionality_dep`

C33_soft_limit_bound, C34_full_range_inside, C35_uncalibrated_velocity_limit, C36_range_ends, C36_before_first_publication, C36_odometer, C36_range_not_exact, C38_ex, C41_ex_loader, C42_effort_roundtrip, C42_actuator_effort_roundtrip, C42_power, C42_simulated_joint, C43_effort_roundtrip, C43_actuator_effort_roundtrip, C44_power, C46_equilibrium, C46_zero_step, C47_follows_settling_motor, C47_converges, C48_effort, C48_undamped_roundtrip, C48_plain_damping_dissipates, C48_damping_fades, C60_zero_period_iff, C66_ex, C66_ex_simulatable, C73_ex_invertible, C79_ex_flags, C80_ex_fresh, C85_odometer, C85_first_message, C92_odometer, C92_first_message, C97_ex_simulatable, C97_ex_all

## `ClassicalDedekindReals.sig_forall_dec`, `ClassicalDedekindReals.sig_not_dec`, `Classical_Prop.classic`, `FunctionalExtensionality.functional_extensionality_dep`

C30_effort_within_limit, C30_effort_within_limit_abs, C31_nan_command_passes, C32_interval_nonempty, C33_no_outward_effort, C34_transparent, C34_idempotent, C35_no_limits_no_clamping, C35_uncalibrated_ignores_position, C36_statistics_bound_samples, C37_violated_limits, C37_before_first_publication, C39_effort_within_limit, C40_ex, C41_ex, C42_actuator_roundtrip, C42_joint_roundtrip, C43_actuator_roundtrip, C43_joint_roundtrip, C46_rigid_backwards, C46_simulated_equilibrium, C49_reports_linkage, C49_actuator_roundtrip, C49_effort_roundtrip, C49_gap_roundtrip, C49_other_joints, C50_velocity_is_derivative, C50_below_zero_uses_slope_at_zero, C50_power_ratio, C50_simulated_effort, C51_accepted_joint_count, C51_position_directions_incompatible, C51_effort_directions_incompatible, C51_no_simulated_joint_unusable, C51_complete_description_usable, C52_reading_limited, C52_reading_continuous, C52_edges, C52_continuous_without_reference_indeterminate, C53_valid_is_forever, C53_rising_only, C53_falling_only, C61_one_entry_each, C61_joint_severity, C62_maxima, C62_minimum_is_last, C62_minimum_lost, C63_controller_severity, C63_listed, C66_two_simulated_joints_abort, C72_ex_position, C72_shared_actuator, C73_joint_roundtrip, C73_actuator_roundtrip, C73_command_roundtrip, C73_ex_loaded, C73_ex_state, C73_ex, C74_simple_motor_bound, C74_wrist_motor_bound, C79_ex, C80_reading_limited, C80_reading_continuous, C80_edges, C80_valid_is_forever, C80_simulation_exists, C80_ex_loaded, C80_ex_state, C80_ex, C83_effort_within_limit, C83_init_can_bypass_limit, C84_simulated_belt_is_spring, C84_simulated_belt_settles, C84_estimate_recovers_joint, C84_states_not_shared, C85_range_covers_cycles, C85_violated_limits, C88_simple_forward, C88_simple_actuator_roundtrip, C88_simple_joint_roundtrip, C88_simple_effort, C88_wrist_forward, C88_wrist_actuator_roundtrip, C88_wrist_joint_roundtrip, C88_wrist_effort, C90_published_times, C91_simple_motor_bound, C91_wrist_motor_bound, C92_range_covers_cycles, C92_violated_limits, C93_propagate_position, C93_propagate_effort_backwards, C93_propagate_effort, C93_propagate_position_backwards, C97_measured_power, C97_commanded_power, C97_whole_robot_power, C97_ex_loaded, C97_ex_state, C97_ex, C98_zero_stays_zero, C98_zero_allowed_without_limits, C98_simple_motor_limp, C98_wrist_motors_limp, C98_ex, C98_ex_hypotheses
