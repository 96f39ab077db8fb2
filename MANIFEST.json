{
 "claims": [
  {
   "property": "C01",
   "status": "proved",
   "theorems": [
    "C01_fault_report_latches",
    "C01_fault_codes_latch"
   ],
   "note": "For every configuration, state and history."
  },
  {
   "property": "C02",
   "status": "proved",
   "theorems": [
    "C02_debounce_exact",
    "C02_debounce_exact_shipped_tick",
    "C02_report_exact",
    "C02_longest_timeout_refuted"
   ],
   "note": "Exact for every tolerance below 65535 samples, in particular always at the shipped 10 ms tick. C02_longest_timeout_refuted shows that the one remaining setting (65535 ms time-out with 1 ms tick) never trips."
  },
  {
   "property": "C03",
   "status": "proved",
   "theorems": [
    "C03_codes_mean_the_table"
   ],
   "note": "Together with C02_debounce_exact this characterises the fault word bit by bit."
  },
  {
   "property": "C04",
   "status": "partial",
   "theorems": [
    "C04_checked_faults_detected_partial",
    "C04_every_documented_fault_refuted",
    "C04_other_data_never_raises_a_fault"
   ],
   "note": "Refuted as stated by C04_every_documented_fault_refuted (inverter, CAN time-out and brake disagreement faults have no check). The conditions that do have a check are detected (partial theorem)."
  },
  {
   "property": "C05",
   "status": "partial",
   "theorems": [
    "C05_temperature_limit_partial",
    "C05_charge_limit_is_20_percent",
    "C05_current_and_voltage_never_fault",
    "C05_documented_limits_refuted",
    "C05_healthy_pack_refuted"
   ],
   "note": "Refuted as stated (C05_documented_limits_refuted, C05_healthy_pack_refuted): current and cell-voltage limits can never act, low charge acts at 20 % instead of 10 %. The temperature limit acts at exactly 75 degC."
  },
  {
   "property": "C06",
   "status": "proved",
   "theorems": [
    "C06_fault_is_absorbing"
   ],
   "note": ""
  },
  {
   "property": "C07",
   "status": "proved",
   "theorems": [
    "C07_drive_fault_reaches_fault_state",
    "C07_drive_fault_during_init",
    "C07_lv_error"
   ],
   "note": "In INIT the reaction comes with the next evaluated step, as the statement says."
  },
  {
   "property": "C08",
   "status": "proved",
   "theorems": [
    "C08_fault_state_outputs_safe",
    "C08_safe_at_once_refuted"
   ],
   "note": "The open question in the statement is settled negatively by C08_safe_at_once_refuted: the step that enters FAULT commands nothing; the next one does."
  },
  {
   "property": "C09",
   "status": "proved",
   "theorems": [
    "C09_only_documented_transitions",
    "C09_drive_sequence"
   ],
   "note": ""
  },
  {
   "property": "C10",
   "status": "proved",
   "theorems": [
    "C10_hv_wait",
    "C10_entry",
    "C10_charge_timeout",
    "C10_largest_wait_refuted"
   ],
   "note": "Assumes that the elapsed milliseconds fit 32 bits; C10_largest_wait_refuted shows that without this the wait may never end. Steps in which the vehicle state lock fails postpone the charge timeout."
  },
  {
   "property": "C11",
   "status": "proved",
   "theorems": [
    "C11_change_needs_edge",
    "C11_one_press_one_change"
   ],
   "note": ""
  },
  {
   "property": "C12",
   "status": "partial",
   "theorems": [
    "C12_hv_needs_edge_partial",
    "C12_deliberate_request_refuted"
   ],
   "note": "Refuted as stated by C12_deliberate_request_refuted (button held since power-up, brake released). The edge is required once the machine has sampled the button in LV_READY."
  },
  {
   "property": "C13",
   "status": "partial",
   "theorems": [
    "C13_request_decided_while_driving_partial",
    "C13_uninterrupted_request_partial",
    "C13_at_most_one_late_request_partial",
    "C13_late_request_refuted",
    "C13_early_request_refuted"
   ],
   "note": "Proved for every schedule of the two tasks at the granularity of single unprotected reads: a frame asking for torque goes back to a read of the enable flag made while the machine was in ACTIVE_FORWARD (or in the last instants of entering it, or in the first period of FAULT after ACTIVE_FORWARD); it leaves in that window if the state manager does not run inside the activation; otherwise at most one late frame leaves. The strict property is false: C13_late_request_refuted (a request under way when ACTIVE_FORWARD is left is still sent) and C13_early_request_refuted (torque is enabled just before the state is committed)."
  },
  {
   "property": "C14",
   "status": "partial",
   "theorems": [
    "C14_every_frame_in_range",
    "C14_forward_map_envelope",
    "C14_reverse_map_envelope_partial",
    "C14_reverse_map_envelope_refuted",
    "C14_zero_outside_and_in_dead_zone",
    "C14_table_points_exact"
   ],
   "note": "Proved in full for the forward map. For the reverse map the upper bound is refuted by one rounding unit (C14_reverse_map_envelope_refuted, 75.0000076 Nm) and proved with a margin of 1/4000 Nm. On the whole ECU, under every schedule, every frame sent is within 0..500.0 Nm (C14_every_frame_in_range)."
  },
  {
   "property": "C15",
   "status": "proved",
   "theorems": [
    "C15_close_to_polygon",
    "C15_direction_selects_curve",
    "C15_polygon_total",
    "C15_pressing_never_lowers_by_more",
    "C15_exactly_monotone_refuted"
   ],
   "note": "Bound 1/4000 Nm; pressing further lowers the request by at most 1/2000 Nm. C15_exactly_monotone_refuted shows that some tolerance is needed for the reverse map."
  },
  {
   "property": "C16",
   "status": "proved",
   "theorems": [
    "C16_never_drive_and_discharge",
    "C16_conflicting_requests_refused",
    "C16_other_requests_granted"
   ],
   "note": ""
  },
  {
   "property": "C17",
   "status": "partial",
   "theorems": [
    "C17_accepted_torque_encoding",
    "C17_whole_nm_exact",
    "C17_exact_truncation_refuted",
    "C17_bad_torque_rejected",
    "C17_not_enabled_rejected",
    "C17_nan_accepted_refuted"
   ],
   "note": "The field is the truncation of the rounded product 10*t, so it may differ from the exact truncation by 1/512 of a step (C17_exact_truncation_refuted); whole Nm are exact. C17_nan_accepted_refuted: NaN is not rejected and the conversion is undefined."
  },
  {
   "property": "C18",
   "status": "partial",
   "theorems": [
    "C18_enable_follows_release",
    "C18_torque_after_enable",
    "C18_torque_directly_after_enable",
    "C18_torque_after_disable_refuted",
    "C18_lost_release_refuted"
   ],
   "note": "Proved for the frames the driver tries to send. Refuted when discharge mode is ended while driving (C18_torque_after_disable_refuted, no firmware caller does so) and when CAN drops the release frame (C18_lost_release_refuted)."
  },
  {
   "property": "C19",
   "status": "partial",
   "theorems": [
    "C19_torque_and_discharge_report_partial",
    "C19_enable_reports_failure_refuted",
    "C19_enable_never_reports_refuted"
   ],
   "note": "Proved for torque and discharge; refuted for enabling (C19_enable_reports_failure_refuted)."
  },
  {
   "property": "C20",
   "status": "proved",
   "theorems": [
    "C20_battery_mirrors_latest_frames",
    "C20_other_frames_change_nothing",
    "C20_decoding_accuracy"
   ],
   "note": "Lock failures are part of the model: a frame whose lock failed does not count."
  },
  {
   "property": "C21",
   "status": "partial",
   "theorems": [
    "C21_current_and_pack_voltage_partial",
    "C21_temperature_and_voltage_factors",
    "C21_charge_factor",
    "C21_documented_units_refuted"
   ],
   "note": "Refuted as stated by C21_documented_units_refuted; current and pack voltage follow the README, and the exact factors by which the other three fields are off are proved."
  },
  {
   "property": "C22",
   "status": "proved",
   "theorems": [
    "C22_inverter_mirrors_latest_frames",
    "C22_decoding_accuracy",
    "C22_other_frames_change_nothing"
   ],
   "note": ""
  },
  {
   "property": "C23",
   "status": "partial",
   "theorems": [
    "C23_signed_currents_and_speed_partial",
    "C23_never_negative",
    "C23_signed_measurements_refuted"
   ],
   "note": "Refuted for temperatures, voltages and torques (C23_signed_measurements_refuted, C23_never_negative); proved for currents and speed."
  },
  {
   "property": "C24",
   "status": "proved",
   "theorems": [
    "C24_init_state",
    "C24_read_is_latest_completed_scan",
    "C24_late_interrupt_tears_refuted"
   ],
   "note": "Every channel count 1..16 and every interleaving that respects the stated DMA/interrupt-latency contract (AdcSpec.timely); a theorem shows the contract is needed. Assumes one word per conversion in a circular transfer; the shipped configuration does not give that (C80)."
  },
  {
   "property": "C25",
   "status": "partial",
   "theorems": [
    "C25_channel_check_partial",
    "C25_missing_channel_accepted_refuted",
    "C25_read_outside_buffer_refuted"
   ],
   "note": "Violated at the boundary: channel == count is accepted (C25_missing_channel_accepted_refuted) and with 16 channels reads outside the buffer (C25_read_outside_buffer_refuted). Proved for every other channel number and any order of events."
  },
  {
   "property": "C26",
   "status": "partial",
   "theorems": [
    "C26_saturated_in_range",
    "C26_monotone",
    "C26_monotone_inverted_sensor",
    "C26_end_points",
    "C26_correctly_rounded",
    "C26_degenerate_calibration_refuted"
   ],
   "note": "Proved for every calibration with distinct end points (non-decreasing if lower<upper, non-increasing for inverted sensors). Equal end points give NaN even with saturation: C26_degenerate_calibration_refuted."
  },
  {
   "property": "C27",
   "status": "proved",
   "theorems": [
    "C27_published_from_one_cycle",
    "C27_successful_cycle",
    "C27_average_changes_only_when_both_read",
    "C27_average_in_range"
   ],
   "note": "Refinement of every history of sensing cycles, with arbitrary ADC failures and lock failures; range for every non-degenerate calibration, which includes the shipped one. About the readings the ADC driver returns; see C80 for what these are in the shipped configuration."
  },
  {
   "property": "C28",
   "status": "partial",
   "theorems": [
    "C28_valid_survives_failures_refuted",
    "C28_valid_means_ever_read_partial"
   ],
   "note": "Violated: the flag is never cleared (C28_valid_survives_failures_refuted). Proved: it is true iff some cycle read both channels, and the value is that of the latest such cycle."
  },
  {
   "property": "C29",
   "status": "proved",
   "theorems": [
    "C29_encoder_builds_the_frame",
    "C29_round_trip_any_chunking",
    "C29_fields_recovered"
   ],
   "note": "Chunks of at most 1024 minus the frame length bytes, decoded until false as the header prescribes. The firmware itself calls the decoder once per 8 bytes; see C35."
  },
  {
   "property": "C30",
   "status": "proved",
   "theorems": [
    "C30_only_genuine_frames",
    "C30_all_frames_found",
    "C30_delimited_and_in_order"
   ],
   "note": "C30_all_frames_found adds completeness. Both assume that the CRC mutex is obtained (see C33); position, order and delimiters hold in any case."
  },
  {
   "property": "C31",
   "status": "proved",
   "theorems": [
    "C31_memory_safe",
    "C31_refused_when_full",
    "C31_short_length_refuted"
   ],
   "note": "For frame lengths 6 to 1024. C31_short_length_refuted: the initialisation also accepts shorter lengths, for which the decoder reads before the buffer (the firmware uses 19)."
  },
  {
   "property": "C32",
   "status": "proved",
   "theorems": [
    "C32_burst_rejected",
    "C32_two_bits_rejected",
    "C32_crc_field_rejected",
    "C32_delimiter_rejected",
    "C32_straddling_burst_refuted"
   ],
   "note": "Also any two wrong bits in frames up to 256 bytes. C32_straddling_burst_refuted: a 29-bit burst reaching from the payload into the CRC field goes unnoticed because the CRC is taken over a zeroed field."
  },
  {
   "property": "C33",
   "status": "partial",
   "theorems": [
    "C33_crc_failure_accepts_refuted",
    "C33_crc_failure_partial",
    "C33_encoder_sends_zero_crc_refuted"
   ],
   "note": "Refuted as stated by C33_crc_failure_accepts_refuted (a zero CRC field passes). Proved: every frame handed out has a matching or a zero CRC field."
  },
  {
   "property": "C34",
   "status": "proved",
   "theorems": [
    "C34_nothing_before_enable",
    "C34_exactly_the_commands",
    "C34_genuine_and_addressed"
   ],
   "note": "All arrival and scheduling histories, all byte strings. Assumes the CRC mutex is available when a turn of the loop runs. Both UARTs feed one stream, so bytes of two senders can interleave, and bytes that do not fit the 2047-byte stream are lost before the loop sees them; the theorems are about the bytes accepted by the stream. The effect of the terminal calls is in C38-C40."
  },
  {
   "property": "C35",
   "status": "proved",
   "theorems": [
    "C35_buffer_never_full",
    "C35_all_frames_handled",
    "C35_back_to_back",
    "C35_no_delay"
   ],
   "note": "The decoder buffer always has room for the next 32 bytes and one call of the handler processes every frame received so far; back-to-back frames are all decoded. Same assumptions as C34."
  },
  {
   "property": "C36",
   "status": "partial",
   "theorems": [
    "C36_fields_true_partial",
    "C36_hottest_cell_refuted",
    "C36_once_a_second",
    "C36_silent_when_disabled",
    "C36_silent_without_snapshot"
   ],
   "note": "Field id 6 is refuted by C36_hottest_cell_refuted (it carries the coldest cell id). Proved for all other ids and all states, with floats recovered bit for bit. Once a second is counted in passes of the 100 Hz task up to the wrap of the 32-bit pass counter (497 days). Needs the CRC mutex and the snapshot lock."
  },
  {
   "property": "C37",
   "status": "proved",
   "theorems": [
    "C37_text_unaltered",
    "C37_logging_safe",
    "C37_nothing_left_behind",
    "C37_stored_text",
    "C37_empty_message_stops_refuted"
   ],
   "note": "Every history in which the controller is not stopped; a log call with an empty message stops it (C37_empty_message_stops_refuted, cause in C74), no caller does that. For every interleaving of log calls and sending. Log calls whose mutex is not obtained, text beyond 512 characters and bytes beyond the free stream space are dropped before the stream; loss behind UART_SendMessage is the subject of C48."
  },
  {
   "property": "C38",
   "status": "partial",
   "theorems": [
    "C38_lines_executed_once_partial",
    "C38_chunking_refuted",
    "C38_outer_blank_refuted"
   ],
   "note": "Refuted as stated by C38_chunking_refuted (two newlines in one payload) and C38_outer_blank_refuted (blank at an end of the line). Proved for every chunking with at most one newline per payload and lines of at most eight words without outer blanks."
  },
  {
   "property": "C39",
   "status": "partial",
   "theorems": [
    "C39_nine_words_refuted",
    "C39_unknown_help_refuted",
    "C39_accesses_safe_partial",
    "C39_texts_fit_frames"
   ],
   "note": "Refuted by C39_nine_words_refuted and C39_unknown_help_refuted. Proved: all texts with at most eight separators whose lines do not start with help are safe; C38 covers help with known words; printed texts up to 243 characters are sent as valid frames."
  },
  {
   "property": "C40",
   "status": "proved",
   "theorems": [
    "C40_setpdm_all_or_nothing",
    "C40_setsdc_all_or_nothing",
    "C40_first_character_refuted"
   ],
   "note": "For every list of words; an argument is judged by its first character (C40_first_character_refuted shows that 10 counts as 1). The result of the driver calls is ignored by the command."
  },
  {
   "property": "C41",
   "status": "partial",
   "theorems": [
    "C41_batch_counts_and_speed_partial",
    "C41_batches_partition_samples",
    "C41_sample_encoding",
    "C41_edges_across_batches",
    "C41_boundary_edge_lost_refuted",
    "C41_needs_teeth"
   ],
   "note": "Per batch: count = rising edges and speed = 60*count/teeth exactly, without truncation; batches partition the samples. Full statement refuted: an edge between the last sample of one batch and the first of the next is counted in neither (C41_boundary_edge_lost_refuted); the published value covers at most 2000 samples since the previous batch."
  },
  {
   "property": "C42",
   "status": "partial",
   "theorems": [
    "C42_refresh_ticks",
    "C42_hundred_ticks_apart_partial",
    "C42_wrap_refuted"
   ],
   "note": "A tick refreshes iff its index modulo 2^16 is a multiple of 100, so refreshes are 100 ticks apart except at the counter wrap, where they are 36 apart (C42_wrap_refuted)."
  },
  {
   "property": "C43",
   "status": "proved",
   "theorems": [
    "C43_pins_follow_last_accepted_request",
    "C43_pins_equal_reported_state",
    "C43_rejected_call_changes_nothing",
    "C43_too_many_channels_refused"
   ],
   "note": "Every call sequence with lock oracles; channels wired to distinct pins, array as long as numChannels."
  },
  {
   "property": "C44",
   "status": "partial",
   "theorems": [
    "C44_published_equals_pins",
    "C44_task_catches_up",
    "C44_ecu_error_output_is_last_request",
    "C44_lock_failure_loses_change_refuted",
    "C44_initial_levels_not_sampled_refuted"
   ],
   "note": "Proved when the vehicle state can be locked (VehicleState_AccessAcquire waits for ever), with interrupts between any two accesses of the copy. Refuted with a lock failure (notification consumed, change never published) and for levels present at start-up (pins not sampled before the first interrupt). Interrupts fire on rising edges only; see C60."
  },
  {
   "property": "C45",
   "status": "partial",
   "theorems": [
    "C45_delivered_to_interested_queues_partial",
    "C45_single_registration_partial",
    "C45_ninth_registration_refused",
    "C45_extended_frame_misdelivered_refuted",
    "C45_extended_frame_undefined_refuted"
   ],
   "note": "Proved for standard identifiers. Extended frames are misdelivered or use an uninitialised id: C45_extended_frame_misdelivered_refuted, C45_extended_frame_undefined_refuted (the filter accepts all, the HAL writes StdId only for standard frames)."
  },
  {
   "property": "C46",
   "status": "partial",
   "theorems": [
    "C46_exactly_once_partial",
    "C46_in_order_one_at_a_time_partial",
    "C46_handler_would_be_fifo_partial",
    "C46_queued_frame_never_sent_refuted",
    "C46_shipped_queue_only_grows",
    "C46_same_identifier_overtakes_refuted",
    "C46_failed_transmission_lost_refuted"
   ],
   "note": "Exactly-once and order hold when frames are sent one at a time. Violated in general: queued frames never drain because the tx-complete interrupt is never enabled (C46_queued_frame_never_sent_refuted), mailboxes reorder (C46_same_identifier_overtakes_refuted) and failed transmissions are lost (C46_failed_transmission_lost_refuted)."
  },
  {
   "property": "C47",
   "status": "partial",
   "theorems": [
    "C47_stream_preserved_partial",
    "C47_dma_never_exceeds_buffer",
    "C47_long_message_overflows_refuted",
    "C47_empty_message_stops_refuted",
    "C47_completion_inside_send_refuted"
   ],
   "note": "Stream identity holds when no completion interrupt falls inside a send; otherwise C47_completion_inside_send_refuted. Buffer bounds hold for all histories of messages of 1 to 512 bytes; longer ones overflow (C47_long_message_overflows_refuted), and a message of no bytes sent while the line is busy stops the controller (C47_empty_message_stops_refuted)."
  },
  {
   "property": "C48",
   "status": "partial",
   "theorems": [
    "C48_busy_means_sending",
    "C48_accepted_data_is_sent_partial",
    "C48_accepted_message_stuck_refuted",
    "C48_truncated_when_busy_refuted",
    "C48_refused_message_corrupts_refuted"
   ],
   "note": "Accepted data drains in the clean case. Violations: C48_accepted_message_stuck_refuted, C48_truncated_when_busy_refuted, C48_refused_message_corrupts_refuted."
  },
  {
   "property": "C49",
   "status": "proved",
   "theorems": [
    "C49_timer_wakes_exactly_the_registered",
    "C49_interrupt_inside_registration",
    "C49_interrupt_before_init_ignored"
   ],
   "note": "All histories; an interrupt between the stores of a registration is covered. One frequency exists."
  },
  {
   "property": "C50",
   "status": "partial",
   "theorems": [
    "C50_declared_dependencies_first",
    "C50_registry_exact",
    "C50_missing_dependency_never_boots",
    "C50_missing_dependency_refused",
    "C50_missing_logger_crashes_refuted",
    "C50_shipped_order_complete",
    "C50_shipped_order_respects_uses",
    "C50_undeclared_dependencies_refuted"
   ],
   "note": "Proved for declared dependencies in every order of calls, and for everything used in the shipped order. Violations: without the logger most init methods dereference it before checking (C50_missing_logger_crashes_refuted); several uses are not declared (C50_undeclared_dependencies_refuted)."
  },
  {
   "property": "C51",
   "status": "partial",
   "theorems": [
    "C51_decoded_fix_is_a_sentence",
    "C51_published_fixes_are_sentences",
    "C51_sentence_was_received_partial",
    "C51_checksum_of_earlier_sentence_refuted"
   ],
   "note": "Proved without conditions: whatever is decoded or published is the content of one contiguous byte sequence of the buffer that is a complete $GPGGA sentence with matching checksum, for every buffer content and every history of chunks. That those bytes were all received together needs that the stale byte after them is not a star; C51_checksum_of_earlier_sentence_refuted shows the counterexample (the end-inclusive star search, nmeadecode.c:320, picks up the star and checksum of an earlier message)."
  },
  {
   "property": "C52",
   "status": "partial",
   "theorems": [
    "C52_one_sentence_per_delivery_partial",
    "C52_bounds_partial",
    "C52_two_sentences_refuted",
    "C52_leading_bytes_refuted",
    "C52_cut_sentence_lost_refuted",
    "C52_long_field_refuted"
   ],
   "note": "The property fails: C52_two_sentences_refuted and C52_leading_bytes_refuted (start += len with len an absolute index, nmeadecode.c:459, runs past the buffer), C52_cut_sentence_lost_refuted (a sentence cut after byte 14 or later is dropped), C52_long_field_refuted (128-byte token array). Proved: any number of sentences, each delivered whole or cut within its first 13 bytes, is decoded in order with all accesses in bounds; and one decode call stays in bounds for any content of a buffer filled up to 1019 bytes with fields shorter than 128 bytes."
  },
  {
   "property": "C53",
   "status": "proved",
   "theorems": [
    "C53_time_exact"
   ],
   "note": "Exact for every array of at least 11 bytes, both directions, and no undefined behaviour."
  },
  {
   "property": "C54",
   "status": "partial",
   "theorems": [
    "C54_bus_exclusive_partial",
    "C54_one_transfer_partial",
    "C54_bytes_partial",
    "C54_first_call_returns_early_refuted",
    "C54_second_success_impossible_refuted",
    "C54_completion_halts_refuted",
    "C54_direction_bit"
   ],
   "note": "Mutual exclusion, release on every return path, one transfer at a time and the direction bit hold for every interleaving. Completion before return fails: xferInProgressSem is created as a mutex and therefore available (i2c.c:150), so the first call returns OK with its transfer still running (C54_first_call_returns_early_refuted); its completion interrupt then gives a mutex that has a holder, which trips configASSERT in queue.c:1129 and stops the processor (C54_completion_halts_refuted); at most one call ever returns OK (C54_second_success_impossible_refuted). C54_bytes_partial: which bytes are transferred while nobody has taken that semaphore and the transfer ends before the wait. In the shipped image the I2C2 event interrupt is not enabled at all, so no completion ever arrives."
  },
  {
   "property": "C55",
   "status": "partial",
   "theorems": [
    "C55_released_after_completion_partial",
    "C55_failed_start_refuted",
    "C55_callbacks_exact",
    "C55_chip_select_partial"
   ],
   "note": "Fails when a DMA start fails: spi.c:255-262 returns without giving the semaphore and the bus is busy for ever, for every continuation (C55_failed_start_refuted). If no start fails, every bus is released after completion, callbacks are exact and the completion queue never overflows; chip-select is low exactly during the transfer; the blocking call always releases."
  },
  {
   "property": "C56",
   "status": "partial",
   "theorems": [
    "C56_blink_and_dashboard_partial",
    "C56_dashboard_overwritten_refuted",
    "C56_blink_disturbed_refuted"
   ],
   "note": "Proved for distinct pins. As shipped both modules drive the same pin: C56_dashboard_overwritten_refuted, C56_blink_disturbed_refuted."
  },
  {
   "property": "C57",
   "status": "partial",
   "theorems": [
    "C57_fault_monitor_reads_null_refuted",
    "C57_live_state_if_wired_partial"
   ],
   "note": "The pointer of the fault monitor is never set: C57_fault_monitor_reads_null_refuted (every order of init calls). C57_live_state_if_wired_partial says what holds if it were set."
  },
  {
   "property": "C58",
   "status": "partial",
   "theorems": [
    "C58_output_level",
    "C58_released_only_by_hv_or_pc",
    "C58_fault_step_asserts",
    "C58_asserted_in_fault_at_once_refuted"
   ],
   "note": "Exact level of the output for every schedule without PC commands, the only releasing events with PC commands, and re-assertion by every completed step in FAULT are proved. Not true as stated for the first control period in FAULT: C58_asserted_in_fault_at_once_refuted."
  },
  {
   "property": "C59",
   "status": "partial",
   "theorems": [
    "C59_short_bursts_delivered_once_partial",
    "C59_long_burst_duplicated_refuted",
    "C59_exact_when_served_promptly"
   ],
   "note": "Bursts below 256 bytes are delivered once and in order while the consumer stream has room; bursts of 256 to 511 bytes are duplicated (C59_long_burst_duplicated_refuted) because the half-transfer interrupt also calls the receive callback."
  },
  {
   "property": "C60",
   "status": "partial",
   "theorems": [
    "C60_high_inputs_reported_partial",
    "C60_settles",
    "C60_falling_edge_not_reported_refuted"
   ],
   "note": "High levels are reported. Falling edges raise no interrupt (rising-edge configuration), so they are not reported: C60_falling_edge_not_reported_refuted."
  },
  {
   "property": "C61",
   "status": "partial",
   "theorems": [
    "C61_timer_interrupt_harmless_partial",
    "C61_sdc_edge_before_init_refuted",
    "C61_sdc_edge_after_init_partial"
   ],
   "note": "Timer interrupts are harmless at every point; shutdown-circuit edges only after SDC_Init set up its pins and task, before that NULL pointers are dereferenced: C61_sdc_edge_before_init_refuted."
  },
  {
   "property": "C62",
   "status": "partial",
   "theorems": [
    "C62_boot_completes_or_halts",
    "C62_failed_boot_leaves_error_output_inactive_refuted"
   ],
   "note": "The boot completes or stops (C62_boot_completes_or_halts); the error output is not asserted when it stops: C62_failed_boot_leaves_error_output_inactive_refuted."
  },
  {
   "property": "C63",
   "status": "proved",
   "theorems": [
    "C63_crc_agrees",
    "C63_pc_to_ecu",
    "C63_bad_payload_rejected",
    "C63_ecu_to_pc"
   ],
   "note": "Python CRC, encoder and decoder against the firmware models; Python ints outside 0..255 are refused by bytes()."
  },
  {
   "property": "C64",
   "status": "partial",
   "theorems": [
    "C64_any_chunking",
    "C64_nothing_made_up",
    "C64_frames_of_one_kind",
    "C64_mixed_line_partial",
    "C64_piecewise",
    "C64_frame_lost_refuted"
   ],
   "note": "Chunking independence and soundness proved for every stream; all frames found on a line with frames of one length, and on mixed lines where CR LF occurs only at piece ends. In general refuted: C64_frame_lost_refuted (colon in a log text and CR LF inside a float)."
  },
  {
   "property": "C65",
   "status": "partial",
   "theorems": [
    "C65_broadcast_on_terminal_partial",
    "C65_shared_line_partial",
    "C65_long_field_refuted"
   ],
   "note": "All fields but the hottest cell (id 6, wrong cell per C36) proved end to end on an own line, and on a shared line if CR LF occurs only at piece ends. Refuted for a valid frame with length byte above 13: the viewer thread dies (C65_long_field_refuted)."
  },
  {
   "property": "C66",
   "status": "proved",
   "theorems": [
    "C66_log_on_terminal",
    "C66_simulated_sender"
   ],
   "note": "Every history of writes and flushes; the CRC lock is obtained at every flush, as the property speaks of text that was sent."
  },
  {
   "property": "C67",
   "status": "partial",
   "theorems": [
    "C67_only_valid_frames_partial",
    "C67_complete_frame_refuted"
   ],
   "note": "Soundness and order proved. Completeness refuted: a complete frame is only reported with a later byte (C67_complete_frame_refuted)."
  },
  {
   "property": "C68",
   "status": "proved",
   "theorems": [
    "C68_fault_only_for_a_cause",
    "C68_unreadable_state_changes_nothing"
   ],
   "note": "All histories from power-up; time in state counted in control steps."
  },
  {
   "property": "C69",
   "status": "proved",
   "theorems": [
    "C69_frame_follows_pedal",
    "C69_pedal_reaches_inverter",
    "C69_no_torque_when_not_driving"
   ],
   "note": "All schedules of throttle and state-manager task; the torque is compared with the real polygon through the table, error below 0.1 Nm rounding down plus 1/200 of a tenth."
  },
  {
   "property": "C71",
   "status": "partial",
   "theorems": [
    "C71_never_halts",
    "C71_one_holder",
    "C71_access_needs_mutex",
    "C71_throttle_flags_refuted",
    "C71_release_within_12",
    "C71_one_at_a_time",
    "C71_idle_holds_nothing",
    "C71_no_deadlock"
   ],
   "note": "The throttle flags are read without the mutex (C71_throttle_flags_refuted); every other part of the statement holds for all schedules: no foreign give, one holder, access only by the holder, release within twelve turns, no deadlock."
  },
  {
   "property": "C72",
   "status": "partial",
   "theorems": [
    "C72_exclusive_senders_partial",
    "C72_only_known_parts",
    "C72_inverter_commands_exclusive",
    "C72_forged_torque_refuted",
    "C72_lost_command_refuted",
    "C72_debug_frame"
   ],
   "note": "Full statement proved when all senders take the inverter mutex or there is one sender. As shipped the PC debug frame is sent without it: C72_forged_torque_refuted (zero torque asked, 3276.7 Nm frame on the bus) and C72_lost_command_refuted. For every schedule a bus frame is made of parts of asked frames (C72_only_known_parts)."
  },
  {
   "property": "C70",
   "status": "partial",
   "theorems": [
    "C70_log_print",
    "C70_empty_message_stops_refuted",
    "C70_log_print_no_mutex",
    "C70_start_up_safe",
    "C70_nothing_sent_before_the_end",
    "C70_late_messages_complete_partial",
    "C70_next_turn_sends_all",
    "C70_early_messages_lost_refuted",
    "C70_failed_start_up_silent_refuted",
    "C70_failure_names_wrong_module_refuted"
   ],
   "note": "The first twelve start-up messages never reach the PC (C70_early_messages_lost_refuted), a failed start-up never sends anything (C70_failed_start_up_silent_refuted) and its message names the wrong module (C70_failure_names_wrong_module_refuted). An empty message stops the controller (C70_empty_message_stops_refuted). Proved: Log_Print is otherwise exact and safe, all later messages arrive complete and in order."
  },
  {
   "property": "C73",
   "status": "partial",
   "theorems": [
    "C73_start_up_first",
    "C73_all_tasks_exist",
    "C73_failed_start_up_keeps_tasks_off",
    "C73_start_up_undisturbed_refuted",
    "C73_priority_order_refuted",
    "C73_priority_order_below_six_partial"
   ],
   "note": "The kernel cuts all priorities above six to six, so other tasks run during start-up and after its failure (C73_start_up_undisturbed_refuted, C73_priority_order_refuted). Proved: throttle, state manager, PC, shutdown circuit and GPS tasks wait for a successful start-up; after a failure only four listening tasks run; order kept for tasks that asked for less than six; after a successful start-up all ten tasks exist."
  },
  {
   "property": "C74",
   "status": "partial",
   "theorems": [
    "C74_nothing_lost_or_reordered",
    "C74_never_stops_partial",
    "C74_never_stops_refuted",
    "C74_send_stores_what_fits",
    "C74_receive_returns_what_is_there",
    "C74_calls_end",
    "C74_send_is_queue_send",
    "C74_receive_is_queue_receive",
    "C74_is_empty"
   ],
   "note": "Everything is proved for sends of at least one byte; a send of no bytes into a buffer with room trips an assertion and stops the controller (C74_never_stops_refuted). Receive with a length of zero is fine. Blocking and its notifications: C102; the trigger level is 1 wherever the firmware creates a stream."
  },
  {
   "property": "C75",
   "status": "partial",
   "theorems": [
    "C75_both_ports_delivered_partial",
    "C75_both_ports_delivered_refuted",
    "C75_command_executed_refuted"
   ],
   "note": "Proved when the reception interrupts do not overlap. The DMA interrupt has a higher priority than the UART interrupt, both write to the stream: nested, they lose bytes (C75_both_ports_delivered_refuted). A frame that arrives in two parts around a frame of the other port is not executed (C75_command_executed_refuted)."
  },
  {
   "property": "C76",
   "status": "proved",
   "theorems": [
    "C76_priorities_exact",
    "C76_shipped_priorities_safe",
    "C76_one_user_at_a_time",
    "C76_mask_restored",
    "C76_nesting_bounded"
   ],
   "note": "Exact for any priorities; the shipped ones satisfy it. From the start of the scheduler on."
  },
  {
   "property": "C77",
   "status": "partial",
   "theorems": [
    "C77_guarded_modules_harmless_partial",
    "C77_sdc_interrupt_before_init_refuted",
    "C77_sdc_interrupt_before_task_refuted",
    "C77_sdc_harmless_after_init_partial"
   ],
   "note": "Holds for task timer, wheel speed, UART, CAN and ADC. Violated by the shutdown-circuit handler: an edge before SDC_Init has stored its configuration dereferences a null pointer, one before the task handle is stored stops in a kernel assertion (two _refuted theorems)."
  },
  {
   "property": "C78",
   "status": "partial",
   "theorems": [
    "C78_period_exact",
    "C78_task_timer_100Hz_partial",
    "C78_sampling_timer_2kHz_refuted",
    "C78_wheel_speed_stays_zero_refuted",
    "C78_with_sampling_timer_partial",
    "C78_batch_is_one_second_partial"
   ],
   "note": "Task timer and time base exact. The sampling timer TIM3 is never started, so wheel speeds stay zero (two _refuted theorems); with it started the rest holds."
  },
  {
   "property": "C79",
   "status": "partial",
   "theorems": [
    "C79_order_exact",
    "C79_fault_is_unclocked_access",
    "C79_shipped_order_refuted",
    "C79_no_stream_configured_refuted",
    "C79_intended_configuration_fits",
    "C79_streams_after_dma_partial"
   ],
   "note": "Violated: MX_DMA_Init, which turns the DMA clocks on, comes after the functions that configure the streams (C79_shipped_order_refuted, C79_no_stream_configured_refuted). The exact condition on the order is proved, and that the configurations asked for fit the request wiring."
  },
  {
   "property": "C80",
   "status": "partial",
   "theorems": [
    "C80_unfilled_channels_zero",
    "C80_pedals_never_measured_refuted",
    "C80_published_pedal_zero_refuted",
    "C80_readings_frozen_refuted",
    "C80_first_scan_refuted",
    "C80_word_stream_partial"
   ],
   "note": "Violated: halfword transfers into an array of words, and DMA requests that end after the first scan, so pedals and brakes are never measured (four _refuted theorems). C80_word_stream_partial gives what holds with word transfers in a circle."
  },
  {
   "property": "C81",
   "status": "partial",
   "theorems": [
    "C81_shipped_order_hears_all",
    "C81_exact_partial",
    "C81_order_matters_refuted"
   ],
   "note": "Holds for the shipped order. Not for every order: CAN1 configured alone or after CAN2 is deaf (C81_order_matters_refuted); C81_exact_partial gives the exact condition."
  },
  {
   "property": "C82",
   "status": "partial",
   "theorems": [
    "C82_tolerates_31_failures_partial",
    "C82_alone_stays_on_partial",
    "C82_32_disturbances_refuted",
    "C82_exact_load",
    "C82_off_for_ever_refuted",
    "C82_senders_not_told_refuted",
    "C82_recovers_with_abom_partial"
   ],
   "note": "31 failures are always tolerated and missing acknowledgement alone never takes the node off; 32 disturbances do, and then it stays off for ever while senders are still answered OK (three _refuted theorems: automatic bus-off management is disabled and nothing restarts the controller). With it enabled the node recovers."
  },
  {
   "property": "C83",
   "status": "proved",
   "theorems": [
    "C83_received_as_sent",
    "C83_divider_nearest",
    "C83_shipped_ports"
   ],
   "note": "Ideal line; tolerance 1/32 between the two bit times, 2.5 % from nominal for each shipped port."
  },
  {
   "property": "C84",
   "status": "partial",
   "theorems": [
    "C84_carries_exactly",
    "C84_exact_partial",
    "C84_shipped_ports_silent_refuted"
   ],
   "note": "Violated by the shipped order of initialisation (C84_shipped_ports_silent_refuted, a consequence of C79). For every order the exact condition is proved."
  },
  {
   "property": "C85",
   "status": "proved",
   "theorems": [
    "C85_own_pin_undisturbed",
    "C85_other_pins_do_not_matter",
    "C85_shipped_outputs_distinct"
   ],
   "note": "Pins with one user: exact level. Shared pins: a run of the calls on that pin alone gives the same level. The status LED is used by two tasks; see C56."
  },
  {
   "property": "C86",
   "status": "partial",
   "theorems": [
    "C86_read_is_one_instant_partial",
    "C86_set_then_read_partial",
    "C86_day_lost_refuted",
    "C86_half_set_refuted",
    "C86_two_readers_refuted"
   ],
   "note": "Refuted in general: C86_day_lost_refuted (midnight between setting time and date), C86_half_set_refuted (failure between the two), C86_two_readers_refuted (a second reader ends the hold of the first). True: a single reader gets one instant, and set-then-read is exact within a day. The service is not called by the shipped tasks."
  },
  {
   "property": "C87",
   "status": "proved",
   "theorems": [
    "C87_text_inside_buffer"
   ],
   "note": "For every chunk of up to 2048 bytes. The size passed to the prints is larger than the room left for long chunks; the writes themselves stay inside."
  },
  {
   "property": "C88",
   "status": "partial",
   "theorems": [
    "C88_one_device_selected_partial",
    "C88_two_devices_selected_refuted",
    "C88_refused_start_locks_bus_refuted",
    "C88_blocking_calls_exclusive",
    "C88_refused_requests",
    "C88_call_ends_released",
    "C88_timeout_named_invalid_bus_refuted"
   ],
   "note": "Proved when each bus is used either by blocking calls or by DMA. Refuted when both are used on one bus: two devices selected (C88_two_devices_selected_refuted), and the refused DMA start locks the bus for ever (C88_refused_start_locks_bus_refuted). A HAL time-out is reported as an invalid bus (C88_timeout_named_invalid_bus_refuted). Exclusion, length limit and release hold for every history. The HAL SPI driver is not part of the project, so its busy answer is taken from its documentation."
  },
  {
   "property": "C89",
   "status": "partial",
   "theorems": [
    "C89_only_accepted_commands",
    "C89_bus_frames_in_range",
    "C89_all_in_order_when_bus_keeps_up_partial",
    "C89_zero_torque_reaches_bus_partial",
    "C89_overtaken_command_refuted"
   ],
   "note": "In order and complete only on a bus that keeps up. C89_overtaken_command_refuted: on a bus that lags for one period the zero-torque command overtakes an older 500 Nm command, which is then the last one the inverter hears."
  },
  {
   "property": "C90",
   "status": "partial",
   "theorems": [
    "C90_stop_is_final",
    "C90_stop_while_driving_refuted",
    "C90_hung_throttle_asks_nothing",
    "C90_hung_throttle_unnoticed_refuted",
    "C90_hung_manager_keeps_driving_refuted"
   ],
   "note": "The fault handlers are empty endless loops and there is no watchdog: C90_stop_while_driving_refuted, C90_hung_throttle_unnoticed_refuted, C90_hung_manager_keeps_driving_refuted. What holds: after a stop at most three more frames, all given before; a hung throttle task asks for no torque."
  },
  {
   "property": "C91",
   "status": "partial",
   "theorems": [
    "C91_one_step_per_tick",
    "C91_reaction_time_partial",
    "C91_ticks_collapse",
    "C91_no_bound_under_load_refuted"
   ],
   "note": "C91_reaction_time_partial proves the bound (tolerance + 3 ticks; 13 ticks = 130 ms for the shipped pedal faults) for every interleaving in which both tasks finish before the next tick; C91_bound_is_exact shows that two ticks after the tolerance are not enough. Without that assumption there is no bound: tolerances are counted in activations, and ticks that find the task busy collapse into one (C91_ticks_collapse), so C91_no_bound_under_load_refuted gives, for every q, a run that still asks for torque 12*q ticks after the fault began."
  },
  {
   "property": "C92",
   "status": "proved",
   "theorems": [
    "C92_readings_are_current",
    "C92_sensing_goes_first"
   ],
   "note": "For every schedule that fixed-priority preemption with priority inheritance on the vehicle-state mutex allows (hypothesis: the sensing task is not starved for 2^32 ticks, 497 days). A reading is what ADC_Get returns; whether the converter behind it is refreshed is C80. Other mutexes do not occur in the model (no task holds one while it starts or uses the vehicle state, C71)."
  },
  {
   "property": "C93",
   "status": "partial",
   "theorems": [
    "C93_outputs_partial",
    "C93_no_power_without_pc_refuted",
    "C93_state_not_shown_refuted",
    "C93_fault_keeps_power_refuted"
   ],
   "note": "Violated: C93_no_power_without_pc_refuted (no power channel is ever switched on without a PC), C93_state_not_shown_refuted (the LED depends on the watchdog count only; it is the pin of the blink as well, C56), C93_fault_keeps_power_refuted. C93_outputs_partial gives the exact value of every output after every history."
  },
  {
   "property": "C94",
   "status": "proved",
   "theorems": [
    "C94_torque_is_of_the_pedal_now",
    "C94_converter_stays_readable",
    "C94_released_pedal_no_torque",
    "C94_released_in_counts",
    "C94_sensor_fault_stops_the_drive",
    "C94_disagreement_in_counts"
   ],
   "note": "Composition of C92, C91, C13, C15, C17, C26. Hypotheses: the sensing task is not starved for 2^32 ticks; a channel that was read once stays readable (C94_converter_stays_readable proves it of the ADC driver; C94_readability_needed shows what would happen otherwise); for the stopping time the two control tasks finish before the next tick (without that there is no bound: C91_no_bound_under_load_refuted). C94_released_in_counts and C94_disagreement_in_counts give the two conditions in raw counts for the shipped calibration. Whether the converter is refreshed at all is C80."
  },
  {
   "property": "C95",
   "status": "proved",
   "theorems": [
    "C95_battery_report_stops_the_drive",
    "C95_queue_holds_two_periods",
    "C95_driver_fills_the_queue",
    "C95_in_degrees_and_percent"
   ],
   "note": "From the frame in the controller to the end of the torque requests, for every schedule. Hypotheses: the battery task and the two control tasks finish before the next tick (without that there is no bound: C91), the queue has room (C95_queue_holds_two_periods), the later frames of the same message keep reporting the fault. C95_driver_fills_the_queue links the receive event to the CAN driver model of C45. C95_in_degrees_and_percent gives the condition in units for the shipped limits; the shipped current and voltage limits can never trip (C05). Frames with extended identifiers are C45; the filter of the controller is C81."
  },
  {
   "property": "C96",
   "status": "partial",
   "theorems": [
    "C96_battery_values_kept",
    "C96_silent_battery_keeps_driving",
    "C96_silent_battery_refuted"
   ],
   "note": "Violated: no code reads the configured CAN time-outs (configData.h:49, 61). C96_silent_battery_refuted gives a run that asks for torque 120 ms after the last frame of battery and inverter with time-outs of 100 ms. C96_battery_values_kept and C96_silent_battery_keeps_driving prove what happens instead, for silences of any length: the last values stay and the drive goes on."
  },
  {
   "property": "C97",
   "status": "proved",
   "theorems": [
    "C97_first_in_first_out",
    "C97_answers",
    "C97_driver_queue",
    "C97_sender_not_forgotten",
    "C97_receiver_not_forgotten",
    "C97_highest_priority_first",
    "C97_without_waiting"
   ],
   "note": "For queues of at most 127 items (wake-ups) and for every length (order, bounds, answers). C97_ex_bound_needed shows a lost wake-up with 256 items; no queue of the firmware that long is used with waiting."
  },
  {
   "property": "C98",
   "status": "proved",
   "theorems": [
    "C98_kernel_clock",
    "C98_delay_exact",
    "C98_forever",
    "C98_wake_not_lost",
    "C98_timeout_exact"
   ],
   "note": "The real tick handler, lists and time-out checks are related to a clock that never wraps, from any initial tick count. Sleeps are of at least one tick (the kernel does not put a task to sleep for zero); fewer than 2^32 ticks may fall into one suspension of the scheduler. C98_ex_gap_matters shows that the bound on the gap between two looks at a time-out is needed."
  },
  {
   "property": "C99",
   "status": "proved",
   "theorems": [
    "C99_never_halts",
    "C99_mutual_exclusion",
    "C99_holder_priority",
    "C99_priority_returns",
    "C99_runs_highest",
    "C99_no_inversion",
    "C99_give_wakes_highest",
    "C99_served_by_priority"
   ],
   "note": "For tasks that take one mutex at a time and do not give what another task has; C71_one_at_a_time proves the first for the firmware. C99_ex_nested_halts shows that the condition is needed: with nested mutexes and a time-out this kernel version clears the wrong bit and halts on an empty ready list. Recursive mutexes, xTaskDelete and vTaskPrioritySet are not used by the firmware and not modelled."
  },
  {
   "property": "C100",
   "status": "proved",
   "theorems": [
    "C100_high_voltage_needs_press",
    "C100_inverter_needs_press",
    "C100_torque_needs_two_presses",
    "C100_stuck_button_never_drives",
    "C100_neutral_until_pressed",
    "C100_press_stops_the_drive"
   ],
   "note": "From power-up over all schedules of the Vehicle model: no high voltage and no enabling frame before a published press; no torque before press, release, press; a stuck button never drives; neutral holds until a press; a press while driving ends torque requests within three ticks when both control tasks keep up and the state manager obtains the vehicle state."
  },
  {
   "property": "C101",
   "status": "proved",
   "theorems": [
    "C101_never_halts",
    "C101_no_tick_lost",
    "C101_no_lost_wake_up",
    "C101_reports_all",
    "C101_nothing_only_after_time_out",
    "C101_wait_ends_in_time"
   ],
   "note": "Histories in which at no moment 2^32 notifications are outstanding. One task is modelled; the notification value and state are per task. The upper bound on a wait needs a scheduler that is not suspended and a task that runs as soon as it is ready."
  },
  {
   "property": "C102",
   "status": "partial",
   "theorems": [
    "C102_reader_wakes",
    "C102_nothing_only_after_time_out",
    "C102_cut_only_after_time_out",
    "C102_sender_wakes",
    "C102_waits_end_in_time",
    "C102_room_wakes_sender",
    "C102_send_waits_in_vain",
    "C102_send_goes_on_refuted"
   ],
   "note": "Violated for sending: UART_SendMessage waits for room while it has disabled the interrupt of the transmit DMA (uart.c:241-259), so unless that one has just run, a message that does not fit holds up the PC task for the whole 100 ms and is cut (C102_send_waits_in_vain for every history, C102_send_goes_on_refuted). Proved: a reader sleeps only on an empty stream, a sender only if its message does not fit; a reader gets nothing only after its time if its senders are interrupts and nobody else notifies it (C102_ex_late_sender shows why); a send is cut only after its time; a sender is woken if the DMA interrupt came before the call (C102_room_wakes_sender); no wait is longer than its time if the task runs as soon as it is ready."
  },
  {
   "property": "C103",
   "status": "proved",
   "theorems": [
    "C103_one_command_each_period",
    "C103_inverter_not_left_alone",
    "C103_reaches_the_bus",
    "C103_never_more_than_ticks"
   ],
   "note": "Exactly one frame of the throttle task per timer tick once an enabling frame was sent, provided the throttle task finishes before the next tick (without that there is no bound, C91) and the pedal calibration is sensible; the frame is counted when it is handed to the CAN driver; C103_reaches_the_bus joins this to the bus model for a bus that keeps up (other buses: C72, C82, C89). The upper bound needs no condition."
  },
  {
   "property": "C104",
   "status": "proved",
   "theorems": [
    "C104_every_command_follows_the_pedal",
    "C104_pedal_answered_in_the_same_period",
    "C104_released_pedal_no_torque"
   ],
   "note": "While the machine is in ACTIVE_FORWARD and no control step leaves it: every command is of a pedal position of its own activation (both sensors read), and in a period the throttle task keeps up with there is exactly one. When the drive is left, C94, C100 and C91 apply."
  }
 ]
}