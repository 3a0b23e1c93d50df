{
 "claims": [
  {
   "property": "C01",
   "status": "proved",
   "theorems": [
    "C01_contract_through_any_stack",
    "C01_every_operation_returns",
    "C01_steer_clone_refuted",
    "C01_closed_semaphore_refuted"
   ],
   "note": "With the two exceptions found (refuted theorems) excluded by the stack grammar."
  },
  {
   "property": "C02",
   "status": "proved",
   "theorems": [
    "C02_readiness_persists",
    "C02_reconnect_refuted"
   ],
   "note": "Reconnect is the exception (C02_reconnect_refuted)."
  },
  {
   "property": "C03",
   "status": "proved",
   "theorems": [
    "C03_map_request_runs_once",
    "C03_map_err_runs_once",
    "C03_map_future_runs_once",
    "C03_service_fn_runs_once",
    "C03_boxed_history",
    "C03_boxed_drive",
    "C03_map_request_history",
    "C03_map_request_drive",
    "C03_map_response_history",
    "C03_map_response_drive",
    "C03_map_err_history",
    "C03_map_err_drive",
    "C03_map_result_history",
    "C03_map_result_drive",
    "C03_map_future_history",
    "C03_map_future_drive",
    "C03_then_history",
    "C03_then_drive",
    "C03_and_then_history",
    "C03_and_then_drive",
    "C03_either_history_l",
    "C03_either_history_r",
    "C03_either_drive_l",
    "C03_either_drive_r",
    "C03_optional_history",
    "C03_optional_drive",
    "C03_optional_none",
    "C03_optional_none_drive",
    "C03_service_fn_obs"
   ],
   "note": ""
  },
  {
   "property": "C04",
   "status": "proved",
   "theorems": [
    "C04_builder_order",
    "C04_tuple_order",
    "C04_stack_assoc",
    "C04_stack_identity",
    "C04_builder_nested",
    "C04_tuple_builder",
    "C04_option_layer_spec"
   ],
   "note": ""
  },
  {
   "property": "C05",
   "status": "proved",
   "theorems": [
    "C05_timeout_history",
    "C05_timeout_future",
    "C05_timeout_not_early"
   ],
   "note": ""
  },
  {
   "property": "C06",
   "status": "proved",
   "theorems": [
    "C06_load_shed_history",
    "C06_load_shed_passed_on",
    "C06_load_shed_rejected"
   ],
   "note": ""
  },
  {
   "property": "C07",
   "status": "proved",
   "theorems": [
    "C07_filter_history",
    "C07_filter_accepted",
    "C07_filter_rejected"
   ],
   "note": ""
  },
  {
   "property": "C08",
   "status": "proved",
   "theorems": [
    "C08_async_filter_ready",
    "C08_async_filter_call",
    "C08_async_filter_future"
   ],
   "note": ""
  },
  {
   "property": "C09",
   "status": "proved",
   "theorems": [
    "C09_retry_request"
   ],
   "note": ""
  },
  {
   "property": "C10",
   "status": "proved",
   "theorems": [
    "C10_retry_unsaved",
    "C10_policy_asked_on_completion"
   ],
   "note": ""
  },
  {
   "property": "C11",
   "status": "proved",
   "theorems": [
    "C11_retry_attempt",
    "C11_retry_ready"
   ],
   "note": ""
  },
  {
   "property": "C12",
   "status": "proved",
   "theorems": [
    "C12_total",
    "C12_decides",
    "C12_bound",
    "C12_long_run"
   ],
   "note": ""
  },
  {
   "property": "C13",
   "status": "proved",
   "theorems": [
    "C13_expired",
    "C13_whole_ttl_refuted"
   ],
   "note": ""
  },
  {
   "property": "C14",
   "status": "proved",
   "theorems": [
    "C14_accepts",
    "C14_panics",
    "C14_weights",
    "C14_sane",
    "C14_retries",
    "C14_percentage_refuted",
    "C14_reserve_refuted"
   ],
   "note": ""
  },
  {
   "property": "C15",
   "status": "proved",
   "theorems": [
    "C15_granted",
    "C15_refused",
    "C15_turn",
    "C15_age",
    "C15_alone_deposit",
    "C15_alone_withdraw",
    "C15_strict_refuted",
    "C15_turning_refuted"
   ],
   "note": ""
  },
  {
   "property": "C16",
   "status": "proved",
   "theorems": [
    "C16_bounds",
    "C16_no_jitter",
    "C16_uniform_jitter_refuted"
   ],
   "note": ""
  },
  {
   "property": "C17",
   "status": "proved",
   "theorems": [
    "C17_non_decreasing",
    "C17_sessions_alike",
    "C17_own_number"
   ],
   "note": ""
  },
  {
   "property": "C18",
   "status": "proved",
   "theorems": [
    "C18_exact",
    "C18_default",
    "C18_never_panics",
    "C18_debug_panic",
    "C18_debug_panic_refuted",
    "C18_overflow_refuted"
   ],
   "note": ""
  },
  {
   "property": "C19",
   "status": "proved",
   "theorems": [
    "C19_next_f64_range",
    "C19_next_f64_value",
    "C19_next_range",
    "C19_next_range_covers",
    "C19_sample_distinct",
    "C19_sample_bijective",
    "C19_next_f64"
   ],
   "note": ""
  },
  {
   "property": "C20",
   "status": "proved",
   "theorems": [
    "C20_hedge_protocol",
    "C20_at_most_two_attempts"
   ],
   "note": ""
  },
  {
   "property": "C21",
   "status": "proved",
   "theorems": [
    "C21_first_completion_wins"
   ],
   "note": ""
  },
  {
   "property": "C22",
   "status": "proved",
   "theorems": [
    "C22_latency_recorded",
    "C22_millis_round_up"
   ],
   "note": ""
  },
  {
   "property": "C23",
   "status": "proved",
   "theorems": [
    "C23_histogram_exact",
    "C23_histogram_fresh",
    "C23_histogram_stale_refuted",
    "C23_zero_period_panics"
   ],
   "note": ""
  },
  {
   "property": "C24",
   "status": "proved",
   "theorems": [
    "C24_hedge_ready",
    "C24_select_ready"
   ],
   "note": ""
  },
  {
   "property": "C25",
   "status": "proved",
   "theorems": [
    "C25_reconnect_error_future",
    "C25_reconnect_errors_delivered_once",
    "C25_reconnect_failure_is_ready",
    "C25_reconnect_next_call_gets_error"
   ],
   "note": ""
  },
  {
   "property": "C26",
   "status": "proved",
   "theorems": [
    "C26_reconnect_history",
    "C26_reconnect_history_with_connection"
   ],
   "note": ""
  },
  {
   "property": "C27",
   "status": "proved",
   "theorems": [
    "C27_steer_history"
   ],
   "note": ""
  },
  {
   "property": "C28",
   "status": "proved",
   "theorems": [
    "C28_log_ok",
    "C28_no_panic",
    "C28_poll_returns",
    "C28_response_future",
    "C28_poll_returns_refuted"
   ],
   "note": "C28_poll_returns_refuted: over a service that takes readiness back, poll_ready of SpawnReady may loop forever."
  },
  {
   "property": "C29",
   "status": "proved",
   "theorems": [
    "C29_ordered_answers",
    "C29_ordered_end",
    "C29_ordered_prompt"
   ],
   "note": ""
  },
  {
   "property": "C30",
   "status": "proved",
   "theorems": [
    "C30_unordered_answers",
    "C30_unordered_end"
   ],
   "note": ""
  },
  {
   "property": "C31",
   "status": "proved",
   "theorems": [
    "C31_dispatched_in_order",
    "C31_pending_has_a_cause",
    "C31_panics_and_returns",
    "C31_unordered_before_polling",
    "C31_unordered_guarded",
    "C31_unordered_after_polling_refuted"
   ],
   "note": ""
  },
  {
   "property": "C32",
   "status": "proved",
   "theorems": [
    "C32_oneshot_drive",
    "C32_ready_oneshot_drive"
   ],
   "note": ""
  },
  {
   "property": "C33",
   "status": "proved",
   "theorems": [
    "C33_future_service_drive",
    "C33_future_service_history",
    "C33_future_service_fut"
   ],
   "note": ""
  },
  {
   "property": "C34",
   "status": "proved",
   "theorems": [
    "C34_in_flight_bounded"
   ],
   "note": ""
  },
  {
   "property": "C35",
   "status": "proved",
   "theorems": [
    "C35_all_permits_back",
    "C35_permits_conserved"
   ],
   "note": ""
  },
  {
   "property": "C36",
   "status": "proved",
   "theorems": [
    "C36_refines_line"
   ],
   "note": ""
  },
  {
   "property": "C37",
   "status": "proved",
   "theorems": [
    "C37_rate_windows",
    "C37_rate_twice",
    "C37_rate_new"
   ],
   "note": ""
  },
  {
   "property": "C38",
   "status": "proved",
   "theorems": [
    "C38_rate_naive_refuted"
   ],
   "note": ""
  },
  {
   "property": "C39",
   "status": "proved",
   "theorems": [
    "C39_rate_not_needlessly"
   ],
   "note": ""
  },
  {
   "property": "C40",
   "status": "proved",
   "theorems": [
    "C40_order",
    "C40_all_served",
    "C40_own_response"
   ],
   "note": ""
  },
  {
   "property": "C41",
   "status": "proved",
   "theorems": [
    "C41_capacity"
   ],
   "note": ""
  },
  {
   "property": "C42",
   "status": "proved",
   "theorems": [
    "C42_done_settled",
    "C42_destroyed_settled",
    "C42_progress",
    "C42_sent_after_destroyed_refuted"
   ],
   "note": ""
  },
  {
   "property": "C43",
   "status": "proved",
   "theorems": [
    "C43_failed",
    "C43_told"
   ],
   "note": ""
  },
  {
   "property": "C44",
   "status": "proved",
   "theorems": [
    "C44_called_alive",
    "C44_skipped_dropped"
   ],
   "note": ""
  },
  {
   "property": "C45",
   "status": "proved",
   "theorems": [
    "C45_done",
    "C45_panic_is_misuse",
    "C45_no_panic"
   ],
   "note": ""
  },
  {
   "property": "C46",
   "status": "proved",
   "theorems": [
    "C46_cache_panics",
    "C46_dropped_once",
    "C46_nothing_lost"
   ],
   "note": ""
  },
  {
   "property": "C47",
   "status": "proved",
   "theorems": [
    "C47_evicted_never_used",
    "C47_replaced_pending_never_used",
    "C47_replaced_never_used",
    "C47_superseded_called_once"
   ],
   "note": ""
  },
  {
   "property": "C48",
   "status": "proved",
   "theorems": [
    "C48_called_when_ready",
    "C48_keys_distinct"
   ],
   "note": ""
  },
  {
   "property": "C49",
   "status": "proved",
   "theorems": [
    "C49_cache_history",
    "C49_poll_pending_answer"
   ],
   "note": ""
  },
  {
   "property": "C50",
   "status": "proved",
   "theorems": [
    "C50_uses_members",
    "C50_called_when_ready",
    "C50_superseded_called_once"
   ],
   "note": ""
  },
  {
   "property": "C51",
   "status": "proved",
   "theorems": [
    "C51_balance_history",
    "C51_response_future"
   ],
   "note": ""
  },
  {
   "property": "C52",
   "status": "proved",
   "theorems": [
    "C52_balance_safe",
    "C52_only_discovery_fails"
   ],
   "note": ""
  },
  {
   "property": "C53",
   "status": "proved",
   "theorems": [
    "C53_load_counts_unfinished",
    "C53_refines_reference",
    "C53_constant_history",
    "C53_constant_futures",
    "C53_constant_load"
   ],
   "note": ""
  },
  {
   "property": "C54",
   "status": "proved",
   "theorems": [
    "C54_load_finite",
    "C54_load_bound",
    "C54_load_decays",
    "C54_peak",
    "C54_load_is_ewma",
    "C54_assertions_hold",
    "C54_any_decay_refuted"
   ],
   "note": ""
  },
  {
   "property": "C55",
   "status": "proved",
   "theorems": [
    "C55_counts_until_response_or_drop",
    "C55_error_answer_ends_it_refuted"
   ],
   "note": ""
  },
  {
   "property": "C56",
   "status": "proved",
   "theorems": [
    "C56_ready",
    "C56_call_ok",
    "C56_call_panics",
    "C56_panics",
    "C56_delivers",
    "C56_delivers_all",
    "C56_no_more",
    "C56_response",
    "C56_admits",
    "C56_admits_single",
    "C56_wakes_ready",
    "C56_wakes_response",
    "C56_admits_clones_refuted"
   ],
   "note": ""
  },
  {
   "property": "C57",
   "status": "proved",
   "theorems": [
    "C57_shared_history",
    "C57_shared_clones",
    "C57_into_service_history",
    "C57_into_service_futures",
    "C57_into_service_rest",
    "C57_as_service_history",
    "C57_as_service_rest",
    "C57_make_balance_history",
    "C57_make_balance_futures",
    "C57_make_balance_rest"
   ],
   "note": ""
  },
  {
   "property": "C58",
   "status": "proved",
   "theorems": [
    "C58_discovery_not_polled_after_end_refuted"
   ],
   "note": ""
  },
  {
   "property": "C59",
   "status": "proved",
   "theorems": [
    "C59_service_list",
    "C59_map_discover",
    "C59_map_discover_effects"
   ],
   "note": ""
  },
  {
   "property": "C60",
   "status": "proved",
   "theorems": [
    "C60_load_shed_any_owner",
    "C60_rate_any_owner",
    "C60_steer_refuses",
    "C60_balance_refuses"
   ],
   "note": ""
  },
  {
   "property": "C61",
   "status": "proved",
   "theorems": [
    "C61_pending_registers",
    "C61_oneshot_registers",
    "C61_call_all_registers"
   ],
   "note": ""
  },
  {
   "property": "C62",
   "status": "proved",
   "theorems": [
    "C62_refines",
    "C62_accepted_bounded",
    "C62_alone_rejects_only_when_full",
    "C62_clones_reject_only_when_full_refuted"
   ],
   "note": "C62_clones_reject_only_when_full_refuted: a refused clone keeps its place in the semaphore queue and starves the other instances."
  },
  {
   "property": "C63",
   "status": "proved",
   "theorems": [
    "C63_storm"
   ],
   "note": ""
  },
  {
   "property": "C64",
   "status": "proved",
   "theorems": [
    "C64_no_amplification",
    "C64_any_bottom"
   ],
   "note": ""
  },
  {
   "property": "C65",
   "status": "proved",
   "theorems": [
    "C65_in_flight",
    "C65_nothing_detached",
    "C65_any_bottom"
   ],
   "note": ""
  },
  {
   "property": "C66",
   "status": "proved",
   "theorems": [
    "C66_calls_answered",
    "C66_becomes_ready",
    "C66_returns",
    "C66_reconnect_spins_refuted"
   ],
   "note": "C66_reconnect_spins_refuted: Reconnect over connections that fail their first poll_ready never returns from poll_ready."
  },
  {
   "property": "C67",
   "status": "proved",
   "theorems": [
    "C67_refines_line",
    "C67_in_flight_bounded",
    "C67_permits_conserved",
    "C67_all_permits_back"
   ],
   "note": ""
  },
  {
   "property": "C68",
   "status": "proved",
   "theorems": [
    "C68_pipeline",
    "C68_requests_in_order",
    "C68_responses_in_order",
    "C68_errors_in_order"
   ],
   "note": ""
  },
  {
   "property": "C69",
   "status": "proved",
   "theorems": [
    "C69_accounted",
    "C69_nothing_left",
    "C69_hedge_new",
    "C69_any_instances",
    "C69_any_futures",
    "C69_any_connector",
    "C69_any_list",
    "C69_any_mapped_discovery"
   ],
   "note": ""
  },
  {
   "property": "C70",
   "status": "proved",
   "theorems": [
    "C70_load_is_unfinished",
    "C70_picks_less_loaded",
    "C70_least_of_two",
    "C70_references",
    "C70_peak_ewma_meets",
    "C70_least_at_call_refuted"
   ],
   "note": "C70_least_at_call_refuted: the choice of poll_ready is kept until the call, and may be stale by then."
  },
  {
   "property": "C71",
   "status": "proved",
   "theorems": [
    "C71_one_owner",
    "C71_rate",
    "C71_rate_twice"
   ],
   "note": ""
  },
  {
   "property": "C72",
   "status": "proved",
   "theorems": [
    "C72_owned",
    "C72_limit",
    "C72_total"
   ],
   "note": "Concurrent Buffer model (step-level interleaving). The count is kept by a wrapper that can be put around any service. After a panic of the wrapped service the worker is gone and only the bound (not the permits) is claimed."
  },
  {
   "property": "C73",
   "status": "proved",
   "theorems": [
    "C73_room",
    "C73_in_turn"
   ],
   "note": "C73_in_turn assumes that the cooperative budget never puts a poll_ready off (a put-off poll does not get in line). Logs in which a handle was misused (call without a slot) are excluded."
  },
  {
   "property": "C74",
   "status": "proved",
   "theorems": [
    "C74_cache_pending",
    "C74_cache_ring",
    "C74_cache_clean",
    "C74_cache_idle",
    "C74_cache_returns",
    "C74_balance_pending",
    "C74_cache_refines",
    "C74_balance_refines"
   ],
   "note": "Theorems about WakeCache.v, in which wakers are values. FuturesUnordered and AtomicWaker are assumed to behave as documented in futures-util; their internal atomics are not modelled. C74_cache_returns assumes that FuturesUnordered gives up after polling as many children as it has (its rule)."
  },
  {
   "property": "C75",
   "status": "proved",
   "theorems": [
    "C75_watches",
    "C75_handle",
    "C75_future",
    "C75_worker",
    "C75_no_stall",
    "C75_no_stall_handles"
   ],
   "note": "StallSpec.v puts wakers beside the Buffer model (C75_watches: they change nothing). tokio firing the wakers it was given, by the rules listed in StallSpec.v, is assumed. The handle theorems exclude handles misused by calling without a slot."
  },
  {
   "property": "C76",
   "status": "proved",
   "theorems": [
    "C76_turn_is_woken",
    "C76_exactly",
    "C76_asking_again",
    "C76_no_stall",
    "C76_served"
   ],
   "note": "QueueSpec.v puts wakers beside the system of C34-C36; who waits in which order is read off the specification of C36 run on the same history. tokio firing the waker of whom the semaphore hands a permit, and of a task cut short by its budget, is assumed. Histories end at a panic of a wrapped service."
  },
  {
   "property": "C77",
   "status": "proved",
   "theorems": [
    "C77_within_range",
    "C77_else_same",
    "C77_call_panics",
    "C77_ready_panics",
    "C77_too_long"
   ],
   "note": "RateClock.v is RateLimit with checked addition of instants and durations; C77_within_range ties it to the model used by C37-C39."
  },
  {
   "property": "C78",
   "status": "proved",
   "theorems": [
    "C78_nothing_panics",
    "C78_nothing_hangs",
    "C78_stack_behind",
    "C78_handle",
    "C78_ready_is",
    "C78_call_is",
    "C78_poll_is",
    "C78_first_is",
    "C78_clone_is",
    "C78_left_alone"
   ],
   "note": "BufSvc.v puts the concurrent program of Buffer.v behind the Service interface; C78_*_is tie each operation to a run of that program. stk_buffer makes C01/C02 cover stacks with Buffers."
  },
  {
   "property": "C79",
   "status": "proved",
   "theorems": [
    "C79_never_waits",
    "C79_shed_only_when_full",
    "C79_alone_shed_exactly_when_full",
    "C79_pending_only_when_full",
    "C79_alone_pending_exactly_when_full",
    "C79_clones_shed_only_when_full_refuted"
   ],
   "note": "Proved for LoadShed over any Buffer handle, the rest of the program moving arbitrarily (never_put_off: the coop budget does not refuse). Refuted with clones: an idle refused clone keeps the slot."
  },
  {
   "property": "C80",
   "status": "proved",
   "theorems": [
    "C80_shares",
    "C80_sum",
    "C80_level",
    "C80_heaviest_never",
    "C80_lighter_not_less"
   ],
   "note": "Counting statement (no probability space): of the N^2 pairs of numbers below N. Ready endpoints whose poll_ready and load leave the world as it is at the moment of the choice; an endpoint chosen earlier and kept is C50."
  },
  {
   "property": "C81",
   "status": "proved",
   "theorems": [
    "C81_response_time",
    "C81_timeout",
    "C81_timeout_inside_refuted"
   ],
   "note": "Inductive family of all stacks with a computed time; waiting for readiness is not included; a Retry needs an inner service that never says Pending (LoadShed, service_fn ...); Buffer is not among the layers."
  },
  {
   "property": "C82",
   "status": "proved",
   "theorems": [
    "C82_capacity",
    "C82_ready_needs_all",
    "C82_not_held_up",
    "C82_starved"
   ],
   "note": "The limit is used by the Steer alone and its semaphore is not closed; the Steer is not cloned."
  },
  {
   "property": "C83",
   "status": "proved",
   "theorems": [
    "C83_load_after_panics",
    "C83_no_leak",
    "C83_refines_reference"
   ],
   "note": "The TrackCompletion and the clock are assumed not to panic themselves; the debug assertions of PeakEwma (which could poison its mutex) are C54_assertions_hold."
  },
  {
   "property": "C84",
   "status": "proved",
   "theorems": [
    "C84_limit_permits",
    "C84_limit_tickets",
    "C84_limit_reserved",
    "C84_permits_accounted",
    "C84_in_flight",
    "C84_all_back",
    "C84_retry"
   ],
   "note": "Stacks are those of C69 (kept): Buffer (see C85) and CallAll (see C86) are not among them. Programs are calm (no panics; see C67). For the queue, the semaphore is never closed."
  },
  {
   "property": "C85",
   "status": "proved",
   "theorems": [
    "C85_accounted",
    "C85_nothing_left",
    "C85_permits"
   ],
   "note": "The wrapped service does not panic or hang, and no completed response future is polled again (smooth). The rest of the program leaves the counted quantity alone (env_leaves)."
  },
  {
   "property": "C86",
   "status": "proved",
   "theorems": [
    "C86_accounted",
    "C86_ended",
    "C86_nothing_left",
    "C86_permits"
   ],
   "note": "The program did not panic (g_bad); dropping the request stream, a stored request and answers not yet yielded has no effect on what is counted."
  },
  {
   "property": "C87",
   "status": "proved",
   "theorems": [
    "C87_exact",
    "C87_sheds_only_when_full"
   ],
   "note": "The wrapped service is always ready and takes no time by the clock; the timer fires when its time has come (prompt). The clock is unbounded (C77)."
  },
  {
   "property": "C88",
   "status": "proved",
   "theorems": [
    "C88_pending",
    "C88_comes",
    "C88_again",
    "C88_idle",
    "C88_refines"
   ],
   "note": "C88_refines assumes that the cooperative budget does not put the look at the JoinHandle off (SpawnReady.v does not model that). tokio's side (spawn queues the task, a waker queues its task, completion wakes the JoinHandle's waker) is part of the model."
  },
  {
   "property": "C89",
   "status": "proved",
   "theorems": [
    "C89_unordered_pending",
    "C89_ordered_pending",
    "C89_unordered_comes",
    "C89_ordered_comes",
    "C89_polled_when_called",
    "C89_unordered_idle",
    "C89_ordered_idle",
    "C89_returns",
    "C89_refines"
   ],
   "note": "FuturesUnordered and FuturesOrdered of futures-util are modelled with their ready-to-run queue, one waker per child and the AtomicWaker of the parent (single-threaded: no half-finished enqueue). C89_ordered_comes: the oldest call without an answer is the child whose index is the next to be yielded."
  },
  {
   "property": "C90",
   "status": "proved",
   "theorems": [
    "C90_fades",
    "C90_second_chance"
   ],
   "note": "f64::exp is assumed to be within one unit in the last place of the exponential function on numbers up to 0 (exp_near; C90_example_meets shows that the correctly rounded one is). Reading the clock takes no time by the clock (instant); the clock does not run backwards."
  },
  {
   "property": "C91",
   "status": "proved",
   "theorems": [
    "C91_no_head_of_line_blocking",
    "C91_calls_go_through",
    "C91_clones_no_blocking_refuted"
   ],
   "note": "tokio's cooperative budget never puts a poll_ready off; the buffers are intact (no failed or destroyed worker). The services are of one Rust type with one initial value; they differ by their worlds and limits. Steer's handles are the only ones of their buffers."
  },
  {
   "property": "C92",
   "status": "proved",
   "theorems": [
    "C92_take_contract",
    "C92_take_transparent",
    "C92_take_kept",
    "C92_clone_misuses",
    "C92_clone_never_works_over_a_limit",
    "C92_clone_alike",
    "C92_doc_timeout_contract",
    "C92_doc_timeout_not_early",
    "C92_doc_timeout_not_late",
    "C92_doc_timeout_verbatim",
    "C92_doc_timeout_kept",
    "C92_doc_response_wins_refuted",
    "C92_doc_biased",
    "C92_doc_deadline",
    "C92_guide_history",
    "C92_guide_futures",
    "C92_log_call"
   ],
   "note": "All inner services; the docs' wrappers and Timeout are also constructors of `stack` (C01, C02) and lemmas of `kept` (C69). select!'s choice is an arbitrary computation in the world; tokio's coop budget is not modelled."
  },
  {
   "property": "C93",
   "status": "proved",
   "theorems": [
    "C93_request",
    "C93_at_most",
    "C93_response",
    "C93_error",
    "C93_bounded",
    "C93_returns",
    "C93_stack"
   ],
   "note": "Attempts taken as Clone; usize as nat (it only goes down)."
  },
  {
   "property": "C94",
   "status": "proved",
   "theorems": [
    "C94_spaced",
    "C94_total",
    "C94_doubles",
    "C94_least"
   ],
   "note": "The policy's own decisions are arbitrary user code; the horizon of Instant is a parameter."
  },
  {
   "property": "C95",
   "status": "proved",
   "theorems": [
    "C95_equivalence",
    "C95_map_request_fusion",
    "C95_map_response_fusion",
    "C95_map_err_fusion",
    "C95_map_result_fusion",
    "C95_request_and_response",
    "C95_request_and_err",
    "C95_request_and_result",
    "C95_request_and_then",
    "C95_request_and_and_then",
    "C95_request_and_timeout",
    "C95_response_and_err",
    "C95_request_and_load_shed",
    "C95_request_and_rate_limit",
    "C95_request_and_conc_limit",
    "C95_map_response_is_map_result",
    "C95_map_err_is_map_result",
    "C95_map_result_is_then",
    "C95_and_then_is_then",
    "C95_filter_that_accepts",
    "C95_optional_some",
    "C95_map_future_fusion",
    "C95_request_and_future",
    "C95_map_future_id",
    "C95_boxed",
    "C95_map_request_id",
    "C95_either",
    "C95_future_service",
    "C95_under_util",
    "C95_under_middleware",
    "C95_under_more",
    "C95_under_steer"
   ],
   "note": "Fusion, commutation and special-case laws plus congruence under 17 layers; three plausible non-laws are refuted by Examples (map_response with the identity panics on a poll after completion)."
  },
  {
   "property": "C96",
   "status": "proved",
   "theorems": [
    "C96_in_order",
    "C96_in_order_now",
    "C96_opposite_orders_refuted"
   ],
   "note": "For the service behind the limits: always ready and never panicking (calm). The deadlock of the opposite orders is a theorem as well (C96_opposite_orders_refuted)."
  }
 ]
}