c("C01","proved","C01_granted_time_never_decreases C01_grant_strictly_later C01_grant_minimum_step","per-federate event model (requests, messages, data, blocks, forced grants); the minimum step needs a non-negative input delay and no change of timing options while waiting")
c("C03","proved","C03_grants_on_grid","entered execution at 0, non-negative offset, options unchanged; forced grants are excluded by keepsGrid")
c("C04","proved","C04_grant_never_overshoots C04_grant_is_exact_without_earlier_data C04_offset_equal_delta_overshoots_refuted","true except when offset = time delta and the federate is at 0, where the code skips the first permissible time (refuted witness)")
c("C02","proved","C02_grant_only_what_dependencies_released C02_input_delay_runaway_refuted C02_waiting_grant_is_strict C02_early_grant_is_strict","per-federate model; in full for a non-positive input delay or the restrictive policy, with the general bound otherwise, and a refuted witness for a positive input delay; times are taken far from the end of the time axis")
c("C05","proved","C05_no_grant_at_or_beyond_barrier C05_barriers_act_as_minimum C05_no_entry_beyond_barrier C05_clearing_decides_again","barriers are specified from the message history alone; forced grants are the documented override; clearing re-decides for commands addressed to the federate")
c("C08","proved","C08_lookups_follow_latest_operation C08_one_entry_per_federate C08_operations_are_independent C08_lookup_is_membership C08_federate_table_has_one_entry_per_federate","dependency table as the ordered vector with binary search")
c("C09","proved","C09_left_dependency_never_blocks C09_message_of_non_dependency_changes_nothing","decisions equal those with the departed federate struck from the table, for every later history in which it stays silent")
c("C12","proved","C12_advance_shows_latest_due_value C12_current_value_is_latest_published C12_current_value_is_latest_published_in_order C12_next_iteration_hides_value_refuted","whole histories from the connection of a source on; arbitrary arrival order without the value-dropping options, in-order arrivals with only-update-on-change; advances between iterations of one time are covered by the one-step theorem and a refuted witness")
c("C13","proved","C13_queues_ordered_and_accounting_exact","all histories of all calls, by refinement to an arrival-order specification")
c("C14","proved","C14_unknown_source_refused C14_disconnected_source_refused C14_removed_name_refused C14_connected_source_accepted C14_removal_drops_later_values C14_disconnect_keeps_later_values_refuted C14_reconnect_changes_type_refuted","two defects shown: disconnecting a federate keeps its later queued values, reconnecting stores units as type")
c("C15","proved","C15_input_update_iff_changed C15_publication_transmits_changes C15_consecutive_transmitted_differ C15_stale_comparison_refuted C15_first_empty_value_not_sent_refuted","for a publication whose change check stays on; refuted witnesses for toggling it and for an empty first value")
c("C16","proved","C16_publication_gap C16_publication_outside_gap_sent C16_input_gap C16_first_publication_lost_refuted C16_out_of_order_gap_refuted C16_gap_with_change_only_refuted","inputs: values of a source arriving in order, change check off; the other cases are refuted by witnesses")
c("C17","proved","C17_reads_newest_preferred_source","")
c("C18","proved","C18_each_message_once C18_receive_first_not_later C18_read_in_order","per endpoint; calls are atomic (the queue is locked in the code)")
c("C19","proved","C19_available_count C19_queue_sizes C19_first_message_time C19_available_messages_can_be_received","")
c("C31","proved","C31_input_options_read_back C31_input_options_independent C31_publication_options_read_back C31_publication_options_independent C31_endpoint_options_read_back C31_endpoint_options_independent C31_input_connections_not_read_back_refuted C31_multiple_connections_inverted_refuted","every option except the listed ones, for which the code is shown not to read back")
c("C20","proved","C20_command_round_trip C20_all_fields_kept C20_all_fields_of_time_request_kept C20_size_predicted C20_buffer_can_be_reused C20_encoding_injective C20_reused_object_keeps_payload_refuted","binary form, every command within the format limits; the JSON reader is an arbitrary function; decoding into an object which already holds a payload is refuted by a witness")
c("C21","proved","C21_packet_round_trip C21_packet_size C21_bad_frame_rejected C21_wrong_lead_rejected C21_wrong_tail_rejected C21_accepted_is_frame C21_packet_is_bytes C21_large_packet_never_accepted_refuted","packets below 2^24 bytes; larger ones can never be received (refuted witness)")
c("C22","proved","C22_decoder_stays_inside C22_depacketizer_stays_inside C22_command_or_invalid C22_receiver_stays_inside C22_empty_packet_read_outside_refuted C22_recursion_as_deep_as_the_packet_refuted","reading outside the buffer is an explicit outcome of the model; the JSON reader is an arbitrary total function")
c("C23","partial","C23_other_byte_order_partial C23_packets_other_byte_order_partial C23_sequence_number_swapped_refuted","every field but the sequence number; for the sequence number the claim is false of the code")
c("C38","proved","C38_class_order_preserved C38_priority_first C38_progress","the blocking priority queue itself is a dependency and is taken as two FIFO queues")
c("C39","proved","C39_bundle_unpacks_in_order C39_append_counts C39_publication_reaches_every_subscriber C39_at_most_255_per_bundle C39_disconnect_notices C39_disconnect_notices_lost_refuted C39_ping_ends_bundle_refuted","")
c("C40","proved","C40_stream_gives_commands_in_order C40_no_command_before_its_packet","buffering of unused bytes by the TCP connection class (a dependency) is taken as documented")
c("C32","proved","C32_lost_only_after_timeout C32_silent_parent_reported_by_core C32_silent_parent_reported_by_broker C32_silent_connection_reported C32_reply_resets_wait C32_disabled_parent_declared_lost_refuted C32_busy_loop_delivers_no_tick_refuted","for all histories of ticks, replies and configuration; two defects shown: the ping of a slow parent cannot be disabled, and requested ticks are not delivered to a busy broker")
c("C41","proved","C41_error_is_permanent C41_error_recorded C41_termination_keeps_error C41_error_lost_in_race_refuted","each state change taken as atomic; a refuted witness shows an error overwritten when a load and a store are separated")
c("C42","proved","C42_message_survives C42_assigned_message_survives C42_command_fields_kept C42_message_survives_wire","")
c("C24","proved","C24_value_round_trip C24_type_detected C24_size_reserved C24_values_distinguished C24_read_stays_inside C24_long_string_cut_refuted C24_other_byte_order_refuted C24_short_data_read_outside_refuted","every value type but the vector of strings (JSON text); defects shown: strings of 2^24 bytes or more are cut, values converted from the other byte order, and a reader given short data")
c("C25","proved","C25_buffers_are_strings C25_fails_only_when_full C25_storage_is_separate C25_no_memory_lost C25_swap_shares_storage_refuted C25_swap_then_destroy_refuted C25_append_self_refuted","all operation sequences except the shown defects (swap of an inline with a heap buffer, appending a buffer to itself)")
c("C26","proved","C26_keys_distinguish_handles C26_comparisons C26_ids_are_distinct C26_federates_are_distinct C26_ids_are_classified C26_limits_are_needed_refuted C26_routes","up to 2^26 brokers and 2^26 federates; beyond that the code collides (refuted witness)")
c("C30","proved","C30_set C30_clear C30_toggle C30_toggle_flag C30_make_flags C30_flags_are_switches C30_index_beyond_word","")
c("C27","proved","C27_lookup_finds_the_interface C27_lookup_of_unknown_name C27_names_are_unique C27_duplicates_fail C27_handles_are_stable C27_core_check_is_exact C27_removed_is_unknown C27_failed_translator_leaves_publication_refuted","all histories of registration, removal, alias declaration; a failing registration of an interface of several kinds is excluded and shown to leave a trace")
c("C28","proved","C28_aliases_give_the_same_interface C28_alias_takes_effect C28_removed_interface_found_under_alias_refuted C28_joining_two_groups_refuted C28_alias_of_alias_lost_refuted C28_failed_alias_remains_refuted","declarations in any order, of groups of any size, under the stated conditions; each excluded case is shown to fail in the code by a witness (removal of an aliased interface, joining two groups, alias of an alias, failing declaration)")
c("C29","proved","C29_known_target_is_connected_at_once C29_unknown_target_is_remembered C29_registration_answers_the_open_requests C29_open_until_registered C29_answered_by_the_registration C29_forgotten_when_the_requester_leaves C29_known_at_the_start_is_connected C29_what_stays_open_is_reported C29_open_only_while_unknown C29_closed_requester_is_forgotten_refuted C29_answered_once_while_operating_refuted C29_filters_are_reconnected_refuted C29_forgotten_when_the_core_leaves_refuted C29_required_and_optional_is_silent_refuted","the root broker's matching, for all histories; the refuted theorems show where the code departs from the English claim (closed requester, reconnectable requests while operating, lost core)")
c("C06","proved","C06_no_entry_before_dependency_requests C06_initialized_dependency_blocks C06_entry_exactly_when_ready C06_not_vacuous","all histories of one federate's coordinator, all dependency tables")
c("C07","proved","C07_initialization_iterations_are_bounded C07_at_the_limit_entry_exactly_when_ready C07_no_iteration_beyond_the_limit C07_forced_iteration_keeps_the_time C07_not_vacuous C07_dynamic_federate_iterates_beyond_the_limit_refuted","all histories and limits; federates which joined dynamically are excluded from the bound on initialization iterations and shown to exceed it")
c("C11","proved","C11_broker_never_releases_early C11_reported_times_are_attained C11_exec_grant_needs_everyone C11_event_times_are_safe C11_dynamic_join_refuted C11_only_dependents_are_told C11_execution_is_announced_to_all C11_new_times_are_announced_to_all","all histories of the coordinator of a broker or core, all tables; while every dependency is past initialization. With the default policy the announced limit is the later of next time and earliest dependent event. The refuted theorem shows the stale report when a federate joins a running co-simulation")
c("C10","partial","C10_no_data_in_the_past_partial C10_default_policy_refuted","Proved for any number of federates, any dependency graph, any schedule (late, reordered, repeated or lost commands) when federates use the restrictive time policy, options fixed at creation, without forced grants or dynamic joining. With the default policy the property is false: C10_default_policy_refuted is a chain of four federates with every command delivered once and in order in which a federate granted 8 is later sent data stamped 5.")
c("C33","proved","C33_at_most_once C33_not_early C33_sent_was_taken C33_expiration_time C33_nothing_after_cancel C33_sent_after_cancel_refuted","every interleaving of calls, callbacks and hand-overs; the asio timers themselves are arbitrary; the strict reading of 'never after cancel' fails for a message already taken out of the timer (witness)")
c("C34","proved","C34_keeps_most_recent C34_fixed_size C34_concurrent_resize_refuted C34_concurrent_disable_refuted","for calls that do not overlap; with a resize overlapping a push the size limit can be lost for ever or an empty deque popped (witnesses)")
c("C35","proved","C35_delay C35_delay_not_negative C35_negative_delay_text_refuted C35_random_delay C35_random_drop C35_reroute C35_reroute_formula C35_unmatched_is_unchanged_refuted C35_dollar_in_a_name_refuted C35_clone C35_firewall_operator C35_firewall_filter_drops_everything_refuted","all messages and all sequences of configuration calls; std::regex_search and the expansion of replacement texts are parameters. Refuted witnesses: a delay given as text can be negative, an unmatched reroute still fills in the original destination, a '$' in an endpoint name is expanded, the firewall filter's default check and operation drop everything")
c("C36","proved","C36_timing_commands_wait_for_filters C36_held_commands_are_released_in_order C36_receivers_wait_for_destination_filters C36_announced_time_holds C36_hold_removed_when_returns_are_in_order C36_hold_outlives_answers_refuted C36_destination_hold_lost_refuted","all histories of sends, arrivals, answers, filter changes and timing commands at one core. The timing commands of a federate are held exactly while one of its messages is with a filter elsewhere; the message time the filter federate announces is proved safe for histories without destination filters elsewhere and exact when answers come back in order; with overtaking answers the announced time is never raised again, and with destination filters it can be raised too early (witnesses).")
c("C43","proved","C43_filters_applied_once_in_order C43_every_message_reaches_its_end C43_closed_filter_refuted C43_lost_answer_refuted C43_no_operator_crash_refuted C43_dropping_destination_filter_crash_refuted","for chains without closed filters, with operators on the local ones, and without a local changing filter in front of the first remote one that must send the message back; each of these exclusions is shown necessary by a witness in which the program misbehaves")
c("C37","proved","C37_modes_only_advance C37_calls_in_a_wrong_mode_are_refused C37_finalized_is_final C37_error_is_final C37_executing_is_entered_once C37_the_core_is_asked_in_order C37_legal_programs_never_fail C37_nothing_after_finalize C37_async_initializing_is_initializing C37_async_executing_is_executing C37_async_time_is_time C37_async_iterative_time_is_iterative_time C37_async_finalize_is_finalize C37_mode_notices_follow_on C37_entry_follows_the_answer C37_time_follows_the_answer C37_plain_time_follows_the_answer C37_finalized_then_error_refuted C37_single_thread_iterative_crash_refuted C37_finalize_in_pending_iteration_refuted C37_finalize_stuck_refuted C37_failing_time_differs_refuted C37_failing_executing_differs_refuted C37_async_notices_refuted C37_initialization_skipped_refuted C37_after_failed_finalize_refuted","Federate.cpp modelled call by call for one thread of calls. Literal reading refuted where the code departs: an error reported after finalize changes the mode; an asynchronous iterative call of a single-thread federate is a null dereference instead of a refusal.")
c("C44","proved","C44_commands_reach_the_federate C44_commands_reach_the_node C44_federates_are_distinct C44_nodes_are_distinct C44_federate_ids_are_not_node_ids C44_connected_from_the_top C44_no_unknown_acknowledgement C44_ids_are_permanent C44_answered_at_most_once C44_every_registration_is_answered C44_the_answer_is_the_id C44_repeated_registration_refuted C44_invalid_id_acknowledged_refuted C44_core_named_like_its_broker_refuted C44_example_history","any tree, any order of delivery, losses, refusals and equal names, up to 2^26 ids; histories without the repeated registration of a node that lost patience (that case is refuted: it is answered by name, so a second node with a used name takes over the first one's id and traffic; before the broker has its own id it is answered with the invalid id). Child federates with fixed ids and re-entrant federates are not modelled.")
c("C45","proved","C45_enough_federates_before_initialization C45_enough_brokers_before_initialization C45_nobody_starts_before_everyone_asked C45_example_history C45_late_federate_not_waited_for_refuted C45_not_ready_lost_above_two_brokers_refuted C45_minimum_reached_later_hangs_refuted C45_enabled_before_connected_hangs_refuted C45_iteration_lost_when_enabled_refuted","the limits for every history; the barrier for histories in which nobody asks to iterate, for federates and cores which registered before the core or broker above them had reported ready. That the late ones are not waited for, and three ways to hang or to lose an iteration, are refuted by witnesses.")
c("C46","proved","C46_nodes_stop_last C46_no_federate_is_finished_unasked C46_global_disconnect_waits_for_all C46_finalize_returns C46_shutdown_completes C46_root_disconnect_stops_everything C46_commands_come_to_an_end C46_every_schedule_shuts_down C46_example C46_example_every_schedule C46_example_by_theorem C46_example_global C46_example_root_disconnect C46_broker_disconnect_leaves_the_root_waiting_refuted C46_timer_breaks_global_disconnect_refuted C46_disconnect_while_finalizing_refuted C46_empty_core_blocks_shutdown_refuted","any tree and any interleaving, with the federates and children of every node fixed. The liveness half says: when no command is left to be processed, everything has stopped and every finalize has returned (deadlock freedom), and every schedule of the commands reaches such a state after a bounded number of them (termination); it assumes disconnect() only on cores and the root, every core with a federate and every broker with a child. The cases outside (disconnect() on a broker in the middle, on a core whose federate is finalizing, empty cores, the disconnect timer under --global_disconnect) are refuted by witnesses.")
c("C47","proved","C47_each_query_waits_or_is_answered_once C47_no_query_waits_for_nothing C47_broker_answers_overlapping_queries C47_answer_is_complete C47_one_entry_from_every_child C47_answer_at_once C47_cached_answer_is_current C47_core_disconnect_answers_all C47_new_child_not_in_cached_map_refuted C47_core_disconnect_leaves_query_refuted C47_child_gone_leaves_query_refuted C47_local_query_of_a_core_lost_refuted C47_named_core_query_crashes_refuted C47_overlapping_queries_mixed_refuted C47_overlapping_query_at_core_lost_refuted","one core or broker with its children, for all histories: every query waits or was answered once; the cache theorem for all histories with growing states; liveness for orderly histories (and for all overlapping ones at a broker), completeness of the answer for orderly ones. What orderly excludes is refuted by witnesses: a finished map in front of a waiting one when a child or the core leaves, a core asked by name, overlapping queries which are not cached, two local queries of one core, a child that has just joined and a cached map. Query timeouts and the text of the answers are not modelled.")
c("C48","proved","C48_permission_needs_everybody C48_permission_after_everyone_answered C48_permitted_time C48_silent_only_when_an_answer_is_missing C48_departure_is_followed C48_execution_needs_everybody C48_execution_begins C48_filter_federate_not_awaited_refuted C48_unasked_federate_refuted","the coordinator of the root broker for all histories; the theorem about answers for fewer than 32768 rounds and permissions (the counter wraps) and federates which echo the number. Refuted by witnesses: the filter federate of a core is asked but not waited for, because CommonCore.cpp connectFilterTiming never sends the prepared CMD_ADD_DEPENDENT; a federate whose next time falls below the asked time in the middle of a round is waited for without being asked. The federates themselves and the delivery of messages are not in this model.")
c("C49","proved","C49_values_arrive_in_order_once C49_nothing_is_lost C49_delivery_completes C49_used_when_a_subscriber_is_known C49_what_a_value_says C49_late_subscriber_is_told_twice_refuted","for all trees and histories, on the routing of C44 and the bundles of C39; the connections are first-in first-out and do not lose commands, and values are shorter than 2000000000 bytes. The federate of the input has to be registered before the publication hears of the subscription. Refuted by a witness: a late subscriber is told the last value once; its core and its federate both send it. The networks below, and what the input makes of the values (C12-C15), are elsewhere.")
c("C50","proved","C50_message_in_one_place C50_messages_are_numbered C50_right_receiver C50_messages_arrive_in_order_once C50_nothing_is_lost C50_delivery_completes C50_name_is_known C50_registration_completes C50_unknown_name_is_reported C50_message_before_the_announcement_refuted C50_one_endpoint_for_a_name_refuted","for all trees and histories, on the routing of C44; connections are first-in first-out and lose nothing; without filters (C35, C36, C43), translators and aliases. Order and completeness need the name to be registered at one core only and its announcement to have reached the root. Both conditions are necessary, by witnesses: a message of another core can overtake the announcement (the sender is then warned and the message is gone), and a second endpoint of the same name, though refused by the common broker, still gets the messages sent on its side of that broker.")
c("C51","proved","C51_global_error_reaches_below C51_global_error_reaches_all C51_core_error_reaches_below C51_broker_error_reaches_below C51_escalated_error_reaches_all C51_global_error_gets_there C51_escalated_error_gets_there C51_broker_error_gets_there C51_stopped_for_good C51_errors_are_reported C51_local_error_stays_local C51_global_error_means_all_refuted C51_broker_error_means_all_refuted C51_broker_escalation_means_all_refuted","for all trees, terminate_on_error settings and histories; connections are first-in first-out and lose nothing; without the disconnection which follows (C46) and the errors time coordinators exchange. The documented promise that a global error propagates through the entire federation is refuted: a broker which is not the root tells only the nodes below it, whether the error comes from a federate, from itself, or from its own terminate_on_error (the error of a core with terminate_on_error does reach everybody).")
c("C52","proved","C52_commands_arrive_in_order_once C52_nothing_is_lost C52_delivery_completes C52_unknown_target_is_reported C52_right_receiver C52_queue_in_order C52_get_returns_in_order C52_calls_return_in_order C52_control_commands_stay_inside C52_what_is_sent C52_notify_is_answered C52_wait_returns_notify_refuted C52_comment_refuted","for all trees, placements and histories; the names are registered beforehand (C44), connections are first-in first-out and lose nothing; commands to cores and brokers and the effect of the commands HELICS handles itself are not modelled, nor quotes and the trimming of blanks. Refuted: waitCommand, unlike getCommand, returns a 'notify' which follows another one; the comment sign # also removes the character before it.")
c("C53","proved","C53_grant_hands_over C53_due_messages_are_there C53_nothing_early C53_each_message_once C53_read_in_order C53_counts C53_any_reads_by_endpoint C53_arrival_order_refuted C53_last_time_refuted","for all numbers of endpoints and histories; callbacks during the time update are not modelled. Refuted: the documented order of arrival (messages with equal time come by the name of their source), and a message for the greatest time is never handed over.")
c("C54","proved","C54_sent_iff_changed C54_receivers_are_close C54_everything_is_sent C54_input_answers C54_read_value_is_close C54_first_value_refuted C54_set_later_refuted C54_not_a_number_refuted C54_units_sent_once_refuted C54_clear_only_clears_refuted C54_reads_do_not_change_refuted","for all histories; the minimum change is set before the first value, numbers are not NaN, differences are taken without rounding, inputs are of doubles. Refuted where these do not hold: the first value within the minimum change of 0.0 is not sent, values published before the minimum change is set are forgotten, NaN blocks a publication, publishing in the publication's own unit sends twice, clearUpdate and getBytes lose the value for later reads, and a read as integer changes later reads.")
c("C55","proved","C55_max C55_min C55_max_min_int C55_max_min_vector C55_sum C55_average C55_sum_texts C55_diff C55_diff_int C55_diff_vector C55_diff_texts C55_vectorize C55_vectorize_texts C55_and_or C55_answers C55_read_value_is_close C55_or_of_numbers_refuted C55_update_until_read_refuted C55_average_is_number_refuted","for all sources, values and histories, without rounding and without complex numbers, named points and NaN from a source; text conversions, norm and JSON are arbitrary functions. Refuted: and/or of doubles (0.0 is written as 0.000000, which counts as true), with a minimum change an unread update is no longer reported after a small change, and the average of empty vectors is NaN.")
c("C56","proved","C56_one_run C56_iterations_on_time C56_all_runs C56_run_ends C56_negative_iterations_refuted C56_iterations_with_messages_refuted C56_later_runs_refuted","for all lists, grants and stop times; the lists are the sorted ones. Refuted: a negative iteration makes the player iterate for ever, while any message waits iterations are not used and the points go out a time step late, and when a period makes a run overshoot its stop time the next run skips what lies between.")
c("C57","proved","C57_publishes_on_schedule C57_unknown_generator_silent C57_no_generator_silent C57_never_ahead C57_late_grant C57_runs_end C57_own_generator_refuted C57_late_by_one_period_refuted","for all generators, publications, stop times and runs; the values of the generators and overflow of Time are not modelled. Refuted: initialize never increments its counter, so that publications without a link all use the first generator; and after a grant late by exactly one period the next value goes out at once, off the schedule.")
c("C58","proved","C58_everything_recorded C58_first_marked C58_iteration_numbers C58_numbered_meaning C58_iterations_distinct C58_no_iterations C58_first_iteration_refuted","for all grants, values, messages, stop times and runs (iteration numbers below 32768, the size of the int16_t). Refuted: the iteration counter starts at zero in every runTo, so that when a run begins with an iteration of the current time its values get the same time and iteration as those recorded before.")
c("C59","proved","C59_same_barrier_everywhere C59_no_grant_beyond C59_clear_with_id_refuted C59_join_with_ids_refuted","for barriers without an id of their own (the API calls). Refuted for the command instructions: clear barrier ignores its id, so that a barrier set with an id is never cleared, and a federate joining later gets the last barrier only and under another id.")
