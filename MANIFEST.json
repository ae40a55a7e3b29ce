{
 "claims": [
  {
   "property": "C01",
   "status": "proved",
   "theorems": [
    "c01_lossless_fifo",
    "c01_lossless_fifo_gapcheck",
    "c01_data_lossless",
    "c01_delivered_monotone",
    "c01_refused_enqueue_unchanged",
    "c01_acceptance",
    "c01_acceptance_multiple",
    "c01_peek",
    "c01_enqueueMultiple_drops_events_refuted"
   ],
   "note": "Exact FIFO equality for all histories; the position of inserted gap packets is C04. Finding F06: enqueueMultiple drops events while inactive."
  },
  {
   "property": "C02",
   "status": "partial",
   "theorems": [
    "c02_counters_exact_partial",
    "c02_available_samples",
    "c02_dequeueAll_refuted",
    "c02_dequeueUpTo_refuted",
    "c02_custom_event_refuted",
    "c02_hidden_gap_refuted"
   ],
   "note": "The property is false of the code (F01-F03, refuted); proved exactly for ordinary packets without bulk removal under gap checking; available-sample count proved for all histories."
  },
  {
   "property": "C03",
   "status": "partial",
   "theorems": [
    "c03_no_lost_wakeup_partial",
    "c03_dequeueAll_lost_wakeup_refuted"
   ],
   "note": "False for consumers draining with dequeueAll (F04); proved for all interleavings when 'empty' is concluded from dequeue."
  },
  {
   "property": "C04",
   "status": "partial",
   "theorems": [
    "c04_gap_if_partial",
    "c04_gap_only_if_partial",
    "c04_enqueueMultiple_refuted"
   ],
   "note": "Proved for integer linear domains and single enqueues; enqueueMultiple bypasses the check (F05); floating-point domains are not modelled."
  },
  {
   "property": "C05",
   "status": "partial",
   "theorems": [
    "c05_live_packets_disjoint_partial",
    "c05_resize_waits_for_packets",
    "c05_zero_sample_packet_overlap_refuted",
    "c05_size_overflow_refuted"
   ],
   "note": "Proved for every history of positive-size requests that fit size_t, any release order, resizes included; false with zero-sample packets (F07) and when the byte count overflows (F08), both refuted."
  },
  {
   "property": "C06",
   "status": "partial",
   "theorems": [
    "c06_create_iff_reported",
    "c06_fifo_no_leak_partial",
    "c06_fifo_resize_completes_partial",
    "c06_out_of_order_leak_refuted",
    "c06_full_size_after_drain_refuted",
    "c06_available_count_refuted"
   ],
   "note": "Availability report exact for all states; no leak proved for oldest-first release; out-of-order release leaks permanently (F09), getAvailableSampleCount over-reports (F10), an empty buffer may refuse its full size (F11)."
  },
  {
   "property": "C07",
   "status": "proved",
   "theorems": [
    "c07_linear_element",
    "c07_linear_exact",
    "c07_linear_value_agrees",
    "c07_linear_last_agrees",
    "c07_linear_value_agrees_any_type",
    "c07_zero_reference_offset_refuted"
   ],
   "note": "All integer types with wrap-around; for other types agreement of the accessors is proved for arbitrary arithmetic. Finding F12: a zero reference offset on a non-integer type makes every single-value read fail."
  },
  {
   "property": "C08",
   "status": "partial",
   "theorems": [
    "c08_constant_array",
    "c08_constant_value_agrees_partial",
    "c08_value_at_change_refuted",
    "c08_last_value_at_change_refuted",
    "c08_position_beyond_packet_refuted"
   ],
   "note": "Array contents proved for ordered changes inside the packet; single values agree except exactly at change positions, where the property is false (F13); positions beyond the packet write out of bounds (F14)."
  },
  {
   "property": "C09",
   "status": "proved",
   "theorems": [
    "c09_effective_is_inheritance_chain",
    "c09_chain_follows_parents",
    "c09_new_manager",
    "c09_set_permissions",
    "c09_set_parent",
    "c09_ids_unique",
    "c09_extend_replays_calls"
   ],
   "note": "All histories of creating managers, setting permissions and re-parenting without cycles. Destruction of a manager that still has children and cyclic re-parenting (endless recursion in the code) are not modelled."
  },
  {
   "property": "C10",
   "status": "proved",
   "theorems": [
    "c10_authorized_iff",
    "c10_authorized_by_chain"
   ],
   "note": "For every permission bit, every group list and every reachable manager tree."
  },
  {
   "property": "C11",
   "status": "partial",
   "theorems": [
    "c11_held_until_released",
    "c11_lock_takes_whole_tree",
    "c11_lock_succeeds_iff",
    "c11_unlock_releases_whole_tree",
    "c11_no_unlock_below_locked",
    "c11_failed_lock_leaves_nothing_locked_partial",
    "c11_restore_keeps_holder",
    "c11_failed_unlock_takes_anonymous_lock_refuted",
    "c11_failed_lock_drops_own_locks_refuted",
    "c11_failed_lock_leaves_subdevice_locked_refuted",
    "c11_failed_unlock_unlocks_refuted",
    "c11_same_user_cannot_unlock_refuted",
    "c11_restore_unknown_user_refuted"
   ],
   "note": "Other users' locks survive every history, for whole device trees. 'Failing calls change nothing' is false for trees (F16-F19) and a restored unknown holder becomes anonymous (F21), all refuted; a failed lock leaves nothing newly locked in fixed trees."
  },
  {
   "property": "C12",
   "status": "partial",
   "theorems": [
    "c12_roundtrip_partial",
    "c12_oversized_refused",
    "c12_version_count_wraps_refuted",
    "c12_parsers_in_bounds_partial",
    "c12_info_reply_overread_refuted",
    "c12_info_reply_versions",
    "c12_wrong_type_refused"
   ],
   "note": "Byte-level codec, all packet types. False in two places: the version count wraps at 65536 (F23) and the protocol-info reply is read past its end when it announces too many versions (F22, characterised exactly)."
  },
  {
   "property": "C13",
   "status": "partial",
   "theorems": [
    "c13_header_roundtrip",
    "c13_oversized_refused_partial",
    "c13_stream_roundtrip_partial",
    "c13_arbitrary_bytes_safe",
    "c13_oversized_packet_refuted"
   ],
   "note": "Whole connections: any sequence of messages round-trips, arbitrary bytes are safe. Refusal of oversized payloads is false for streaming packets of 4 GiB (F24); ms of that size are excluded from the round trip."
  },
  {
   "property": "C14",
   "status": "partial",
   "theorems": [
    "c14_rights_partial",
    "c14_presence",
    "c14_other_lock",
    "c14_view_only_partial",
    "c14_powerless_partial",
    "c14_locked_partial",
    "c14_failed_partial",
    "c14_reads",
    "c14_scope",
    "c14_external",
    "c14_modes",
    "c14_not_refused",
    "c14_set_done",
    "c14_mode_refuted",
    "c14_source_refuted",
    "c14_nested_refuted",
    "c14_update_refuted",
    "c14_half_way_refuted"
   ],
   "note": "Every call, client, lock state and permission table, and all histories, but for operation modes, streaming sources, Update and nested objects in batches, where F96-F100 show that the claim is false."
  },
  {
   "property": "C15",
   "status": "partial",
   "theorems": [
    "c15_exactly_once",
    "c15_raised_determined",
    "c15_between_threads",
    "c15_none_left",
    "c15_progress",
    "c15_reply_last_partial",
    "c15_arrival",
    "c15_neighbour_refuted",
    "c15_upgrade_refuted"
   ],
   "note": "All schedules, numbers of threads, nested calls and versions, with version changes at any time. The reply comes last if the version does not change meanwhile (F102); arrival needs serializable events (F101)."
  },
  {
   "property": "C16",
   "status": "partial",
   "theorems": [
    "c16_streaming_edges_partial",
    "c16_c17_ghost_refuted",
    "c16_failed_start_refuted"
   ],
   "note": "Alternation and 'started exactly while subscribed' for every history in which clients subscribe after asking for streaming and starting a signal does not fail; false without either condition (F31, F32, refuted)."
  },
  {
   "property": "C17",
   "status": "partial",
   "theorems": [
    "c17_delivery_partial",
    "c17_send_is_prompt_partial",
    "c17_drain_is_complete_partial",
    "c17_only_subscribers_partial",
    "c17_numbers_distinct_partial",
    "c17_told_numbers_distinct_partial",
    "c17_numbers_fresh_partial",
    "c17_numbers_refuted",
    "c16_c17_ghost_refuted",
    "c17_batch_refuted"
   ],
   "note": "What a client is sent equals what is due to it, in order, for every well-behaved history. False: numbers repeat after 2^32 additions (F34), a ghost subscriber blocks the others (F31), a batch with a removed signal is cut off (F35)."
  },
  {
   "property": "C18",
   "status": "partial",
   "theorems": [
    "c18_refines_ideal",
    "c18_domain_first",
    "c18_descriptors_reproduced",
    "c18_exactly_once",
    "c18_other_events_lost_refuted",
    "c18_late_domain_descriptor_refuted"
   ],
   "note": "Refinement of an ideal channel for all valid histories, thresholds and interleaved destructions; exactly-once and content for every order; call order when domain packets come first. False as stated: events other than descriptor changes are lost (F25) and a packet that waits for its domain packet gets a later descriptor (F26)."
  },
  {
   "property": "C19",
   "status": "partial",
   "theorems": [
    "c19_released_partial",
    "c19_domain_first",
    "c19_handover_while_waiting_refuted",
    "c19_missing_domain_packet_refuted"
   ],
   "note": "Everything released when domain packets come first, and in any order unless a last reference is handed over while the packet waits (F27) or the domain packet never comes (F28), both refuted."
  },
  {
   "property": "C20",
   "status": "partial",
   "theorems": [
    "c20_byte_stream",
    "c20_write_tasks",
    "c20_no_assertion",
    "c20_oversized_packet_loses_batch_refuted"
   ],
   "note": "Byte stream equal to a plain queue for every cache size and history of packets within the message size; an oversized packet makes the batch fail and loses packets already taken out (F29, refuted)."
  },
  {
   "property": "C21",
   "status": "partial",
   "theorems": [
    "c21_refines_ideal_partial",
    "c21_lossless_partial",
    "c21_available_partial",
    "c21_missing_domain_refuted",
    "c21_no_descriptor_refuted",
    "c21_back_to_scalar_refuted",
    "c21_from_existing_refuted",
    "c21_wait_refuted"
   ],
   "note": "Refinement of an ideal item-by-item reader for every packetisation and every sequence of calls over well-typed streams; F51-F54 show where the full claim fails (missing domain packets, data before descriptors, array back to scalar, reader made from an existing one, timed waits)."
  },
  {
   "property": "C22",
   "status": "partial",
   "theorems": [
    "c22_last_samples_partial",
    "c22_never_throws_partial",
    "c22_events_in_order_partial",
    "c22_event_progress_partial",
    "c22_gap_refuted",
    "c22_skip_events_refuted",
    "c22_before_event_refuted"
   ],
   "note": "Proved for streams of data and descriptor events (readers that skip events: at most one per call); F55-F57 show where the full claim fails."
  },
  {
   "property": "C23",
   "status": "partial",
   "theorems": [
    "c23_refines_ideal_partial",
    "c23_blocks_partial",
    "c23_contiguous_partial",
    "c23_large_packets_refuted",
    "c23_unequal_packets_refuted",
    "c23_short_read_refuted",
    "c23_available_refuted",
    "c23_empty_packet_refuted"
   ],
   "note": "Every block size, overlap below 100 and sequence of reads that asks for no more than the available blocks: without overlap for every packetisation, with overlap for packets of one size not above the block distance. F58-F62 show where the full claim fails."
  },
  {
   "property": "C24",
   "status": "partial",
   "theorems": [
    "c24_acyclic_partial",
    "c24_exact_partial",
    "c24_terminates",
    "c24_outcome_partial",
    "c24_one_connection",
    "c24_listener_refuted",
    "c24_concurrent_refuted",
    "c24_listener_failure_refuted"
   ],
   "note": "Every graph and sequence of calls by one thread with listeners set on unconnected ports; the search is proved exact and terminating. Concurrent connects (F49) and listeners changed on connected ports (F48) can close a cycle; a listener's refusal loses the old connection (F50); all refuted."
  },
  {
   "property": "C25",
   "status": "partial",
   "theorems": [
    "c25_first",
    "c25_connect",
    "c25_value",
    "c25_packets_value",
    "c25_packets_partial",
    "c25_delivery",
    "c25_sent_determined",
    "c25_listened",
    "c25_inactive_refuted",
    "c25_domain_refuted",
    "c25_removed_refuted",
    "c25_race_refuted",
    "c25_listened_refuted"
   ],
   "note": "The first-packet half and the value descriptor hold of every history; the domain descriptor half holds of histories in which the domain signal of a listened signal is not replaced or removed and its descriptor does not change while the value signal is inactive (missing: those three cases are false of the code, as is a send overtaken by a descriptor change). Also exact delivery and the listened status."
  },
  {
   "property": "C26",
   "status": "partial",
   "theorems": [
    "c26_own",
    "c26_active_partial",
    "c26_removed_partial",
    "c26_set_partial",
    "c26_late_add_refuted",
    "c26_removed_item_refuted",
    "c26_update_removed_refuted",
    "c26_stranger_refuted",
    "c26_frozen_refuted"
   ],
   "note": "Every tree and every history in which components are added to their own parent while their idea of its activity is right, items are removed through their folder and removed components are not updated; F63-F66 show what happens otherwise."
  },
  {
   "property": "C27",
   "status": "partial",
   "theorems": [
    "c27_unique",
    "c27_lookup",
    "c27_listed",
    "c27_add",
    "c27_content_partial",
    "c27_remove_other_refuted",
    "c27_removed_stays_refuted",
    "c27_add_to_removed_refuted"
   ],
   "note": "Uniqueness, exact lookups, listing order and adding for every history; exactly the named components are taken out for every tidy one. F64, F67, F68 otherwise."
  },
  {
   "property": "C28",
   "status": "partial",
   "theorems": [
    "c28_history_partial",
    "c28_refused",
    "c28_clear_refused",
    "c28_limits",
    "c28_validator_partial",
    "c28_validator_refuted",
    "c28_selection_refuted",
    "c28_clear_all_refuted"
   ],
   "note": "History theorem for objects without listeners and calls outside batches; refusals and limits for arbitrary listeners. The validator holds only if the limits preserve it (F84); F85, F86 otherwise. Integer properties with numeric text conversion; no nested objects."
  },
  {
   "property": "C29",
   "status": "partial",
   "theorems": [
    "c29_reads",
    "c29_batch_partial",
    "c29_refused_refuted",
    "c29_frozen_refuted"
   ],
   "note": "Reads for arbitrary listeners; the result of the batch for objects without listeners and acceptable writes. F87, F88 otherwise."
  },
  {
   "property": "C30",
   "status": "partial",
   "theorems": [
    "c30_idle_partial",
    "c30_last_partial",
    "c30_settles_partial",
    "c30_veto_partial",
    "c30_replaced_partial",
    "c30_any_throws_refuted",
    "c30_nested_failure_refuted",
    "c30_clear_ignored_refuted",
    "c30_erase_refuted"
   ],
   "note": "Listeners are arbitrary programs that read, write, clear, replace and throw. F89-F92 show where the claim fails."
  },
  {
   "property": "C31",
   "status": "partial",
   "theorems": [
    "c31_simplify_partial",
    "c31_equals_iff",
    "c31_equals_partial",
    "c31_equals_equivalence",
    "c31_simplify_equals",
    "c31_zero_denominator",
    "c31_arithmetic",
    "c31_no_spurious_overflow_partial",
    "c31_negative_denominator_refuted",
    "c31_hash_refuted",
    "c31_smallest_int_refuted",
    "c31_pointer_equality_refuted",
    "c31_spurious_overflow_refuted"
   ],
   "note": "Lowest terms, value-based equality and exact arithmetic for 64-bit operands with the signs and ranges stated; negative denominators are not normalised (F36), equal ratios hash differently (F37), == compares doubles (F38), INT64_MIN and avoidable overflow are undefined (F39)."
  },
  {
   "property": "C32",
   "status": "partial",
   "theorems": [
    "c32_trigger_partial",
    "c32_trigger_unchanged_partial",
    "c32_prefix_partial",
    "c32_muted_calls_nobody",
    "c32_subscribers",
    "c32_frozen",
    "c32_removal_skips_refuted",
    "c32_added_is_called_refuted",
    "c32_endless_refuted",
    "c32_failing_handler_refuted",
    "c32_collision_refuted"
   ],
   "note": "Each subscribed unmuted handler once, in order, for every trigger during which the handler list is not shortened or extended, nested triggers included; false when handlers change the list (F40, F41), fail (F42) or share a hash (F43)."
  },
  {
   "property": "C33",
   "status": "proved",
   "theorems": [
    "c33_lookup",
    "c33_one_type_per_name",
    "c33_add",
    "c33_remove",
    "c33_stays",
    "c33_builtin_refused"
   ],
   "note": "For every history of additions and removals and every byte-string name; callbacks and serialization are not part of it."
  },
  {
   "property": "C34",
   "status": "partial",
   "theorems": [
    "c34_numbers",
    "c34_at_most_once",
    "c34_only_pending",
    "c34_order_partial",
    "c34_iteration_partial",
    "c34_stop_partial",
    "c34_exclusive_partial",
    "c34_lost_stop_refuted",
    "c34_order_refuted"
   ],
   "note": "Every interleaving of scheduling, works and loop calls. Order, exact iterations and stopping hold while calls do not overlap, which is guaranteed until a stop request is executed; afterwards a second call may begin in the same iteration, and then the stop is lost and works overtake each other (F47)."
  },
  {
   "property": "C35",
   "status": "partial",
   "theorems": [
    "c35_subscribed_partial",
    "c35_signal_partial",
    "c35_proper_partial",
    "c35_accepted_partial",
    "c35_extra_partial",
    "c35_unknown_partial",
    "c35_consumers_determined",
    "c35_consumers_exist",
    "c35_only_announced",
    "c35_failed_request_refuted",
    "c35_domain_kept_refuted",
    "c35_domain_gone_refuted",
    "c35_suffix_refuted",
    "c35_drop_refuted"
   ],
   "note": "Every history in which ids are unambiguous, no request fails to be sent, and value and domain signals are added, cancelled and dropped together (missing: those cases are false of the code, F109-F113). Requests go to announced signals only in every history."
  },
  {
   "property": "C36",
   "status": "partial",
   "theorems": [
    "c36_tags",
    "c36_changes",
    "c36_equals",
    "c36_saved",
    "c36_query",
    "c36_filter",
    "c36_visit",
    "c36_search_partial",
    "c36_items_partial",
    "c36_no_filter",
    "c36_same_id_refuted",
    "c36_inner_recursive_refuted"
   ],
   "note": "Tags, queries and filters without restriction; searches for trees without slashes in local ids (F80), with the recursive mark on the outside (F81)."
  },
  {
   "property": "C37",
   "status": "partial",
   "theorems": [
    "c37_relative_partial",
    "c37_only_partial",
    "c37_global_partial",
    "c37_distinct_partial",
    "c37_nested_partial",
    "c37_ends_with",
    "c37_own_id_refuted",
    "c37_foreign_refuted",
    "c37_slash_refuted"
   ],
   "note": "Every tree without slashes in local ids; F80, F82, F83 otherwise."
  },
  {
   "property": "C38",
   "status": "partial",
   "theorems": [
    "c38_explicit_value_agrees_partial",
    "c38_out_of_range",
    "c38_reference_offset_only_refuted"
   ],
   "note": "False when only a reference domain offset applies (F15, unwritten memory is read); proved otherwise."
  },
  {
   "property": "C39",
   "status": "partial",
   "theorems": [
    "c39_signal_list_partial"
   ],
   "note": "For every history of well-behaved clients (C17's conditions)."
  },
  {
   "property": "C40",
   "status": "partial",
   "theorems": [
    "c40_settings_refuted",
    "c40_settings_exchanged"
   ],
   "note": "False: the two settings are passed in exchanged order; proved that this happens for every client of every history (F30)."
  },
  {
   "property": "C41",
   "status": "partial",
   "theorems": [
    "c41_get_property_partial",
    "c41_one_definition",
    "c41_list_partial",
    "c41_custom_order",
    "c41_careful",
    "c41_listed_twice_refuted",
    "c41_cyclic_refuted",
    "c41_missing_parent_refuted"
   ],
   "note": "For every class with a registered, ending chain of ancestors, which careful histories guarantee; false otherwise (F45, F46), and a redefined property is listed twice without a custom order (F44)."
  },
  {
   "property": "C42",
   "status": "partial",
   "theorems": [
    "c42_tokens",
    "c42_parse",
    "c42_unambiguous",
    "c42_accepts_partial",
    "c42_ends",
    "c42_trailing_refuted",
    "c42_unclosed_refuted",
    "c42_trailing_comma_refuted",
    "c42_keyword_names_refuted"
   ],
   "note": "Every text of the grammar is parsed to its tree, the grammar is unambiguous and the parser ends on every input. The converse holds only up to ignored text behind the expression, unclosed strings and commas behind the last element (F69-F71)."
  },
  {
   "property": "C43",
   "status": "partial",
   "theorems": [
    "c43_integers_partial",
    "c43_conditions_partial",
    "c43_switch_partial",
    "c43_lists_partial",
    "c43_list_number_partial",
    "c43_number_list_refuted",
    "c43_lengths_refuted",
    "c43_symmetric_refuted",
    "c43_list_less_refuted",
    "c43_undefined_refuted",
    "c43_branch_refuted"
   ],
   "note": "All integer and logic expressions with references, if and comparisons, and elementwise list arithmetic. Floating point, strings converted to numbers, units are not covered; F73-F78 show where the claim fails."
  },
  {
   "property": "C44",
   "status": "partial",
   "theorems": [
    "c44_mirror_partial",
    "c44_batches_partial",
    "c44_failed_batch_refuted",
    "c44_stale_refuted",
    "c44_replaced_refuted"
   ],
   "note": "Outside batches for all listeners that do not replace the value; with batches for objects without listeners. F93-F95 otherwise."
  },
  {
   "property": "C45",
   "status": "partial",
   "theorems": [
    "c45_last_value",
    "c45_determined",
    "c45_batch_refuted",
    "c45_hand_refuted"
   ],
   "note": "Holds with two exceptions that the statement of LastValue spells out: of packets sent together only the last counts, and a value set by hand is kept by a signal that keeps no values. Timestamps and the decoding of the sample are not modelled."
  },
  {
   "property": "C46",
   "status": "partial",
   "theorems": [
    "c46_safe_partial",
    "c46_alive_partial",
    "c46_once_partial",
    "c46_not_kept_partial",
    "c46_collected_partial",
    "c46_got_partial",
    "c46_expired_partial",
    "c46_yields_partial",
    "c46_progress",
    "c46_self_refuted",
    "c46_throw_refuted",
    "c46_early_refuted",
    "c46_interface_refuted"
   ],
   "note": "All interleavings of all agents, when constructors take their own reference before they hand themselves out and use the guard when they throw (missing: without it the property is false, F114-F116), and weak references are asked for interfaces the object has (F117)."
  },
  {
   "property": "C47",
   "status": "partial",
   "theorems": [
    "c47_layout_partial",
    "c47_aligned_partial",
    "c47_safe",
    "c47_alive",
    "c47_once",
    "c47_given_back",
    "c47_domain_type_refuted",
    "c47_overflow_refuted",
    "c47_destroyed_refuted"
   ],
   "note": "Lifetime: all interleavings. Layout: when the sizes fit into size_t and domain samples have at most 8 bytes (missing: neither is checked in a release build and the layout is then wrong, F118, F119)."
  },
  {
   "property": "C48",
   "status": "partial",
   "theorems": [
    "c48_round_trip_partial",
    "c48_id_round_trip",
    "c48_unknown_type_partial",
    "c48_read_anything",
    "c48_always_answers",
    "c48_no_null_pointer_partial",
    "c48_read_write_read",
    "c48_zero_byte_refuted",
    "c48_lost_entry_refuted",
    "c48_version_1_refuted",
    "c48_null_pointer_refuted",
    "c48_exception_refuted",
    "c48_complex_integers_refuted",
    "c48_unknown_type_refuted"
   ],
   "note": "The round trip is proved for every object whose strings have no zero byte, whose structure and enumeration types are registered and whose floating-point numbers survive the text form (a parameter, rt). Outside these conditions it is false, as the refuted theorems show. Any text: the manager only grows, the result is well formed, there is always an answer; a null pointer is used only for dictionaries without an entry list or with a null entry."
  },
  {
   "property": "C49",
   "status": "partial",
   "theorems": [
    "c49_aligned_partial",
    "c49_one_rate",
    "c49_available_is_read",
    "c49_starts_at_latest",
    "c49_invalid_for_ever",
    "c49_rates_drift_refuted",
    "c49_skip_drift_refuted",
    "c49_hole_refuted",
    "c49_start_never_earlier_refuted",
    "c49_zero_read_takes_samples_refuted",
    "c49_zero_read_spins_refuted",
    "c49_null_domain_crashes_refuted",
    "c49_stale_buffers_refuted",
    "c49_unused_first_throws_refuted",
    "c49_none_used_crashes_refuted",
    "c49_gap_hides_descriptor_refuted",
    "c49_available_late_refuted"
   ],
   "note": "For signals of one rate, sent without holes, the whole story is proved (c49_one_rate). For different rates it needs every count handed out to be a multiple of the dividers, which the reader does not ensure (c49_rates_drift_refuted). The theorems assume that the first signal is used, the minimum read count is at most 1, no descriptor is refused and buffers are passed to readWithDomain; without these the refuted theorems show what happens."
  },
  {
   "property": "C50",
   "status": "partial",
   "theorems": [
    "c50_roundtrip_partial",
    "c50_own",
    "c50_missing_types",
    "c50_any_fixed_stay",
    "c50_any_nothing_invented",
    "c50_one_failure_loses_all_refuted",
    "c50_failure_unnoticed_refuted",
    "c50_keeps_old_refuted",
    "c50_circle_never_loads_refuted",
    "c50_wrong_port_refuted"
   ],
   "note": "Proved for every tree and every order of feeding when the ports of the fixed components are free or connected as saved; a port that is connected otherwise keeps its old connection (c50_keeps_old_refuted). Properties and attributes are not part of the model. A type that is missing only costs what needs it (c50_missing_types, for blocks with fixed ports), but a block that refuses to be created costs everything (c50_one_failure_loses_all_refuted)."
  },
  {
   "property": "C51",
   "status": "partial",
   "theorems": [
    "c51_modes_partial",
    "c51_mode_as_set_partial",
    "c51_mode_not_set",
    "c51_paths_partial",
    "c51_shared_mode_refuted",
    "c51_swap_refuted",
    "c51_unreachable_loses_refuted",
    "c51_new_id_unknown_refuted",
    "c51_two_on_one_refuted",
    "c51_other_segment_refuted"
   ],
   "note": "Proved for all trees and modes when nothing is in the way at any device and its saved configuration (record clear): local ids are distinct in the file, devices come back under their ids, new devices can be reached, no two saved devices are to land on the same device, and no device takes the place of one that is itself replaced later. Without these it is false; the _refuted theorems show how."
  },
  {
   "property": "C52",
   "status": "partial",
   "theorems": [
    "c52_agreement_partial",
    "c52_operations_succeed_partial",
    "c52_nothing_left_partial",
    "c52_replace_shared_domain_refuted",
    "c52_full_claim_refuted",
    "c52_change_domain_refuted",
    "c52_refused_connect_refuted",
    "c52_domain_of_domain_refuted"
   ],
   "note": "Proved for all histories in which domain signals have no domain of their own, domains change only while the signal is not connected, the device accepts each connect, and a signal is replaced at a port only where that is safe (the old one stays connected elsewhere, or what the two have in common stays needed). Without any one of these it is false; the _refuted theorems show how."
  },
  {
   "property": "C53",
   "status": "partial",
   "theorems": [
    "c53_lists_are_sequences",
    "c53_list_references",
    "c53_dictionary_references",
    "c53_dictionaries_are_maps_partial",
    "c53_equal_keys_same_hash_partial",
    "c53_equals_is_sameness_partial",
    "c53_equality_is_equivalence_partial",
    "c53_clone_is_equal_partial",
    "c53_written_value_is_read_partial",
    "c53_ratio_keys_refuted",
    "c53_null_items_refuted",
    "c53_nan_in_dictionary_refuted",
    "c53_nul_in_string_refuted",
    "c53_negative_key_refuted",
    "c53_has_null_key_refuted",
    "c53_nan_write_refuted",
    "c53_pointer_equality_refuted",
    "c53_bool_of_256_refuted"
   ],
   "note": "Lists and reference counts are proved for all histories. Dictionaries are maps for keys that are whole numbers, numbers in [0, 2^64), truth values and strings without NUL; equality is proved for nested data of any depth without null, NaN and NUL, with such keys; written property values are read back NaN apart. Without any one of these conditions the claim is false; the _refuted theorems show how."
  },
  {
   "property": "C54",
   "status": "partial",
   "theorems": [
    "c54_requested_exactly_while_needed_partial",
    "c54_letting_go_succeeds_partial",
    "c54_asking_succeeds_partial",
    "c54_switching_source_partial",
    "c54_data_from_active_source",
    "c54_data_reaches_all_partial",
    "c54_domain_change_refuted",
    "c54_failed_connect_refuted",
    "c54_stolen_subscription_refuted",
    "c54_domain_taken_refuted"
   ],
   "note": "That data comes only through the active source is proved for all histories. The rest is proved for all histories of calls that succeed in which the device does not change the domain signal of a signal that is being received and no domain signal is taken from a source while a signal that needs it is received through it; without one of these conditions the claim is false, as the _refuted theorems show."
  },
  {
   "property": "C55",
   "status": "partial",
   "theorems": [
    "c55_mirror_follows_partial",
    "c55_clients_agree_partial",
    "c55_reconnect_partial",
    "c55_set_on_device",
    "c55_tree_on_device",
    "c55_made_public_refuted",
    "c55_made_private_refuted",
    "c55_private_after_load_refuted",
    "c55_private_added_refuted",
    "c55_replaced_block_refuted",
    "c55_status_added_refuted",
    "c55_empty_name_refuted",
    "c55_change_while_connecting_refuted",
    "c55_tags_after_reconnect_refuted",
    "c55_change_while_reconnecting_refuted",
    "c55_name_race_refuted",
    "c55_names_in_turn"
   ],
   "note": "Proved for all histories in which nothing is made public or private, no private signal is added by itself, no name is made empty, no status is added to a component that is there, and loading a configuration replaces no component under the same local id and touches no private ones; for reconnection, when what both sides have in common has the same kind and tags and no lost status. Without any of these the claim is false, as the _refuted theorems show. Properties, connections and domain signals are not in this model; the order of items is not claimed."
  },
  {
   "property": "C56",
   "status": "partial",
   "theorems": [
    "c56_struct_fits_its_type_partial",
    "c56_struct_never_changes",
    "c56_fitting_defaults",
    "c56_values_were_made",
    "c56_field_access",
    "c56_creation_of_known_type",
    "c56_creation_without_values",
    "c56_creation_of_unknown_type",
    "c56_failed_creation",
    "c56_new_builder",
    "c56_builder_set",
    "c56_build",
    "c56_enumeration_value",
    "c56_enumeration_by_name",
    "c56_enumeration_by_number",
    "c56_enumerators_are_counted",
    "c56_enumerators_are_distinct",
    "c56_equal_types",
    "c56_equal_values",
    "c56_equal_to_itself",
    "c56_enumeration_field_refuted",
    "c56_default_values_refuted",
    "c56_builder_null_refuted",
    "c56_builder_after_build_refuted",
    "c56_set_values_refuted",
    "c56_builder_is_stricter_refuted",
    "c56_failed_creation_changes_dictionary_refuted",
    "c56_equality_order_refuted",
    "c56_equality_symmetry_refuted",
    "c56_null_default_refuted",
    "c56_duplicate_names_refuted",
    "c56_empty_enumerator_refuted",
    "c56_enumerator_overflow_refuted"
   ],
   "note": "Everything claimed is proved for every history but for two parts that are false: a field of an enumeration type takes enumerations of any type, and default values are not checked (the theorem names both exceptions; c56_fitting_defaults removes the second when the defaults suit). Values that are neither structs nor enumerations are a core type and a number. The converse of equality (same content compares equal) holds only for one and the same object; the order of fields, the object asked and null defaults break it."
  },
  {
   "property": "C57",
   "status": "partial",
   "theorems": [
    "c57_configured",
    "c57_reconfigured",
    "c57_blocks",
    "c57_results_unique",
    "c57_packets_do_not_matter",
    "c57_triggered_partial",
    "c57_average_partial",
    "c57_rms_partial",
    "c57_explicit_domain_partial",
    "c57_refused",
    "c57_trigger",
    "c57_trigger_alternates",
    "c57_reads_past_end_refuted",
    "c57_order_of_arrival_refuted",
    "c57_rms_refuted",
    "c57_average_refuted",
    "c57_block_size_zero_refuted",
    "c57_explicit_domain_refuted",
    "c57_trigger_enables_unconfigured_refuted",
    "c57_trigger_descriptor_refuted",
    "c57_removed_trigger_refuted"
   ],
   "note": "The blocks and their domain values are proved for every list of packets without the trigger. With the trigger they are proved when no change of the trigger arrives after a packet it concerns; the claim without that condition is refuted. Averages and root mean squares are proved when the sums fit the type the code adds in; they are refuted beyond. Floating point samples are not modelled, the division by the overlap and the square root are exact instead of double, and ticks are unbounded."
  },
  {
   "property": "C58",
   "status": "partial",
   "theorems": [
    "c58_builder_complete",
    "c58_accepted_iff",
    "c58_built",
    "c58_failed_build",
    "c58_frozen_forever",
    "c58_unchanged_partial",
    "c58_new_scaling",
    "c58_scaling_partial",
    "c58_scaling_numbers_partial",
    "c58_sizes_partial",
    "c58_copy_partial",
    "c58_labels_refuted",
    "c58_struct_fields_refuted",
    "c58_scaling_refuted",
    "c58_empty_dimension_refuted",
    "c58_overflow_refuted",
    "c58_failed_build_freezes_refuted",
    "c58_custom_dimension_refuted",
    "c58_float_offset_refuted"
   ],
   "note": "Acceptance is characterised exactly for every reachable builder; what is frozen never changes; sizes are exact unless a dimension is empty or the product overflows. Dimension label lists, empty lists of struct fields and the parameters of scalings not made by a builder stay writable, so the full claim is refuted for them."
  },
  {
   "property": "C59",
   "status": "partial",
   "theorems": [
    "c59_types_kept",
    "c59_untouched",
    "c59_last_provider_wins",
    "c59_new_option",
    "c59_unreadable",
    "c59_again_partial",
    "c59_setter",
    "c59_underscore_refuted",
    "c59_address_refuted",
    "c59_junk_refuted",
    "c59_whole_float_refuted",
    "c59_unsigned_refuted",
    "c59_path_variable_refuted",
    "c59_setter_overridden_refuted",
    "c59_shared_refuted",
    "c59_again_refuted"
   ],
   "note": "Types, frame, effect and precedence are proved for every option tree, argument list and document (effect of JSON for documents whose objects have no name twice, effect of arguments for names without '_' and '='). Reading again is idempotent without nulls and refuted with them; values read as another type than meant, numbers with trailing text, and unreachable names are refuted. Floating-point values are decimal pairs; JSON text parsing is outside the model."
  },
  {
   "property": "C60",
   "status": "partial",
   "theorems": [
    "c60_limit",
    "c60_exclusive_partial",
    "c60_accepted_partial",
    "c60_refused_partial",
    "c60_ends",
    "c60_closed",
    "c60_taken_over",
    "c60_untouched",
    "c60_rights_fixed",
    "c60_rights_given",
    "c60_announced",
    "c60_new_client",
    "c60_ids",
    "c60_id_given_partial",
    "c60_numbers",
    "c60_listed_partial",
    "c60_same_number_partial",
    "c60_streams_partial",
    "c60_stream_request_partial",
    "c60_two_exclusive_refuted",
    "c60_locked_out_refuted",
    "c60_kicked_refuted",
    "c60_own_id_refuted",
    "c60_future_id_refuted",
    "c60_listed_both_refuted",
    "c60_listed_renamed_refuted",
    "c60_stream_twice_refuted",
    "c60_renamed_stream_refuted",
    "c60_misdelivered_refuted",
    "c60_limit_before_drop_refuted"
   ],
   "note": "The limit, the reasons for ends, the frame, fixed rights, distinct ids and distinct list numbers hold for all histories. Exclusive control and the rule of acceptance are proved for histories of fewer than 2^64 messages in which no configuring client announces another type; the list and streaming for histories in which clients in use keep their id (and, for the list, use a session for one thing). Without these conditions all four are refuted."
  },
  {
   "property": "C61",
   "status": "partial",
   "theorems": [
    "c61_static",
    "c61_anonymous",
    "c61_session",
    "c61_groups",
    "c61_equal",
    "c61_round_trip",
    "c61_json",
    "c61_json_refused_partial",
    "c61_use_partial",
    "c61_use_anonymous_partial",
    "c61_no_groups",
    "c61_is_anonymous",
    "c61_no_users",
    "c61_group_pushed_refuted",
    "c61_empty_user_refuted",
    "c61_not_object_refuted",
    "c61_users_ignored_refuted",
    "c61_zero_byte_refuted"
   ],
   "note": "Everything is proved for every password hash function. Missing: documents that are no object are not refused but undefined behaviour, users not given as an array are ignored, and the groups of a user can be changed through the list a user returns; all three are refuted. Null names and passwords are outside the model."
  },
  {
   "property": "C62",
   "status": "partial",
   "theorems": [
    "c62_then",
    "c62_nodes",
    "c62_order",
    "c62_once",
    "c62_workers",
    "c62_ends",
    "c62_complete_partial",
    "c62_chains",
    "c62_result",
    "c62_result_given",
    "c62_result_once",
    "c62_wait",
    "c62_blocks",
    "c62_function_once",
    "c62_completed_partial",
    "c62_cancel_partial",
    "c62_stop",
    "c62_only_accepted",
    "c62_refused",
    "c62_works_exist",
    "c62_cycle_refuted",
    "c62_other_graph_refuted",
    "c62_unattached_refuted",
    "c62_completed_refuted",
    "c62_cancel_refuted",
    "c62_race_refuted",
    "c62_after_stop_refuted"
   ],
   "note": "Order, once, workers, termination, results and stop are proved in full. Missing: completeness without the hypotheses that there is no cycle and no constraint from another graph, which then() accepts without an error (refuted); hasCompleted, cancel, and calls that race with or follow stop() (refuted). The thread pool is an external library and is modelled from its documentation; awaitables of graphs, a graph that is changed or released while it runs, and running connected graphs one after the other are not modelled."
  },
  {
   "property": "C63",
   "status": "partial",
   "theorems": [
    "c63_calls",
    "c63_expected",
    "c63_release_text",
    "c63_last_error",
    "c63_builds",
    "c63_guard",
    "c63_guard_order",
    "c63_frozen",
    "c63_serialize_partial",
    "c63_bare_refuted",
    "c63_stale_refuted",
    "c63_except_refuted",
    "c63_guard_return_refuted",
    "c63_build_refuted",
    "c63_untouched_refuted",
    "c63_thread_refuted",
    "c63_cached_refuted",
    "c63_code_lost_refuted"
   ],
   "note": "Calls, texts, builds, guards and frozen objects are proved in full for functions that follow the conventions. Missing: the same for functions that return a bare code or ignore a failure, which the code base contains (refuted); the codes of a written error object (refuted). Failing allocations and the printf formatting of messages are not modelled."
  },
  {
   "property": "C64",
   "status": "partial",
   "theorems": [
    "c64_table",
    "c64_together",
    "c64_refused",
    "c64_event",
    "c64_type",
    "c64_follow_partial",
    "c64_update",
    "c64_round_trip",
    "c64_old_text",
    "c64_conn_value",
    "c64_conn_removed",
    "c64_conn_fresh",
    "c64_conn_once",
    "c64_conn_update",
    "c64_conn_refused_partial",
    "c64_conn_removal",
    "c64_conn_read_back_partial",
    "c64_message_name_refuted",
    "c64_added_later_refuted",
    "c64_config_removed_refuted",
    "c64_removed_anyway_refuted",
    "c64_streaming_lost_refuted"
   ],
   "note": "Reading, answers, events, types and round trip of component statuses, and names, values and updates of connection statuses are proved in full. Partial: a client follows the events only while no status is added and none is called Message (both refuted otherwise); a refused removal changes nothing only if it does not throw; reading back connections gives the configuration status only. Calls are atomic (one mutex); null arguments are left out."
  },
  {
   "property": "C65",
   "status": "partial",
   "theorems": [
    "c65_no_options",
    "c65_options",
    "c65_options_only",
    "c65_prefix",
    "c65_prefix_whole",
    "c65_listed",
    "c65_found_partial",
    "c65_not_found_partial",
    "c65_unidentified_partial",
    "c65_different_devices_refuted",
    "c65_none_lost_refuted",
    "c65_entry_kept_refuted",
    "c65_direct",
    "c65_smart",
    "c65_create",
    "c65_streaming_partial",
    "c65_no_streaming",
    "c65_one_streaming_refuted",
    "c65_several",
    "c65_local_id",
    "c65_local_id_next_partial",
    "c65_local_id_refuted",
    "c65_config",
    "c65_given_value_refuted",
    "c65_merge",
    "c65_discovered_value_refuted"
   ],
   "note": "Connection strings, choice of protocol and address, dispatch to modules, several devices, freshness of local ids, configuration and merging are proved in full. Partial: a device is found under its identification only if no device without identification claims a daq:// connection string; a streaming is made once only if one module matches; a local id exists only below the largest int. Rescanning, network checks and the conversion of old protocol ids are left out."
  },
  {
   "property": "C66",
   "status": "partial",
   "theorems": [
    "c66_ignored",
    "c66_set_answer",
    "c66_set",
    "c66_nested_default",
    "c66_failed_refuted",
    "c66_recursive",
    "c66_recursive_answer",
    "c66_recursive_all_refuted",
    "c66_get",
    "c66_added_partial",
    "c66_added_alone",
    "c66_device_added",
    "c66_untold_refuted",
    "c66_device_agrees_refuted",
    "c66_root_agrees_refuted",
    "c66_root_mode"
   ],
   "note": "Setting, setting recursively and reading are proved for all trees. Partial: an added component is told the mode only if the handlers accept (a refusal is ignored), and the components of an added device or of a new root are not told its default mode. The locks and the client side are left out."
  },
  {
   "property": "C67",
   "status": "partial",
   "theorems": [
    "c67_selected",
    "c67_add",
    "c67_remove",
    "c67_objects",
    "c67_select",
    "c67_locked",
    "c67_classes",
    "c67_classes_end_refuted",
    "c67_update_partial",
    "c67_update_writes",
    "c67_update_nested",
    "c67_update_refuted",
    "c67_update_end_refuted"
   ],
   "note": "All histories outside of updates are proved. Partial: in an update only one removal by itself keeps the selection, and the class check ends only for ancestors without a cycle. Listeners, serialization and the client side are left out."
  },
  {
   "property": "C68",
   "status": "partial",
   "theorems": [
    "c68_created",
    "c68_early_refuted",
    "c68_flags",
    "c68_denied",
    "c68_set",
    "c68_before",
    "c68_unknown",
    "c68_attach",
    "c68_attach_once",
    "c68_shared",
    "c68_names_partial",
    "c68_names_refuted",
    "c68_load_readonly",
    "c68_load_partial",
    "c68_load_refuted",
    "c68_load_default_refuted"
   ],
   "note": "Creation, flags, setting and sharing are proved for all histories. Partial: names agree as long as the name is not locked, and loading restores only set values that are not shared with the device. Properties of other types, custom properties, network interfaces and mirrored devices are left out."
  },
  {
   "property": "C69",
   "status": "partial",
   "theorems": [
    "c69_names",
    "c69_add",
    "c69_same",
    "c69_remove",
    "c69_level",
    "c69_level_set",
    "c69_default",
    "c69_numbers",
    "c69_spaces",
    "c69_default_refuted",
    "c69_resolved",
    "c69_delivery",
    "c69_delivered",
    "c69_order",
    "c69_should",
    "c69_off_refuted",
    "c69_sink_default_refuted",
    "c69_flush_partial",
    "c69_flush_refuted",
    "c69_auto",
    "c69_auto_not",
    "c69_flush_now",
    "c69_sink_level",
    "c69_logger_level",
    "c69_comp_flush_level",
    "c69_flush_level",
    "c69_flush_level_others"
   ],
   "note": "Names, levels, delivery and order are proved for all histories. Partial: a flush covers all messages only if the logger has a component. The behaviour of spdlog (levels, one queue and one thread) is modelled from its documentation, as its source is not in the repository. Patterns, files and the end of the logger are left out."
  },
  {
   "property": "C70",
   "status": "partial",
   "theorems": [
    "c70_origin_partial",
    "c70_day",
    "c70_utc",
    "c70_colon",
    "c70_origin_refuted",
    "c70_range_refuted",
    "c70_no_such_day",
    "c70_bad_origin",
    "c70_bad_origin_refuted",
    "c70_time_reader_partial",
    "c70_time_reader_refuses",
    "c70_time_reader_refuted",
    "c70_shift_partial",
    "c70_shift_refuted",
    "c70_common",
    "c70_common_used_partial",
    "c70_common_used_refuted",
    "c70_common_tick_partial"
   ],
   "note": "The calendar is proved for all years against a count of days by months and years. Partial: zones with minutes written with a colon, instants outside the 64-bit clock, origins that are not read, and distances whose product with the resolution passes 64 bits are wrong in the code (refuted). date::from_stream is modelled from the documentation of the date library, as its source is not in the repository. Doubles are modelled as exact, so the claim about common ticks is limited to numbers below 2^53."
  },
  {
   "property": "C71",
   "status": "partial",
   "theorems": [
    "c71_in_step_partial",
    "c71_add_partial",
    "c71_duplicate",
    "c71_remove_partial",
    "c71_remove_unknown",
    "c71_removed_partial",
    "c71_config_partial",
    "c71_owner",
    "c71_config_refuted",
    "c71_stuck_refuted",
    "c71_requested_refuted"
   ],
   "note": "Proved for all histories in which streamings have a string, not that of the configuration connection, and the one asked for; that owned streamings are listed is proved for all histories. Partial: in the other cases a refused streaming stays in the list (refuted). Statuses are kept as present or not; their values are in C64's model."
  }
 ]
}