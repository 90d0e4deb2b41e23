{
 "claims": [
  {
   "property": "C01",
   "status": "proved",
   "theorems": [
    "C01_boot_report_layout",
    "C01_boot_report_bytes"
   ],
   "note": ""
  },
  {
   "property": "C02",
   "status": "proved",
   "theorems": [
    "C02_from_key_code",
    "C02_with_modifiers",
    "C02_from_usage",
    "C02_is_modifier_key_code",
    "C02_modifiers_round_trip",
    "C02_as_key_codes",
    "C02_union",
    "C02_no_modifier_code_in_key_slots"
   ],
   "note": ""
  },
  {
   "property": "C03",
   "status": "proved",
   "theorems": [
    "C03_code_lists"
   ],
   "note": ""
  },
  {
   "property": "C04",
   "status": "partial",
   "theorems": [
    "C04_has_modifiers_all_refuted",
    "C04_has_modifiers_any",
    "C04_has_modifiers_partial"
   ],
   "note": "The documented \"all\" reading is refuted (C04_has_modifiers_all_refuted); what holds is \"any\" (C04_has_modifiers_any) and \"all\" for at most one modifier (C04_has_modifiers_partial)."
  },
  {
   "property": "C05",
   "status": "proved",
   "theorems": [
    "C05_combine_comm",
    "C05_combine_identity",
    "C05_combine_in_range",
    "C05_buttons",
    "C05_exact_sum",
    "C05_order_independent",
    "C05_order_independent_any_refuted"
   ],
   "note": "Order independence for arbitrary mouse outputs is refuted, as the property says."
  },
  {
   "property": "C06",
   "status": "proved",
   "theorems": [
    "C06_keymap_report",
    "C06_reported_is_prefix"
   ],
   "note": ""
  },
  {
   "property": "C07",
   "status": "partial",
   "theorems": [
    "C07_one_new_per_report_refuted",
    "C07_at_most_two_new",
    "C07_one_new_per_report_partial",
    "C07_all_reported"
   ],
   "note": "Full one-new-key-per-report is refuted; proved: at most two new, at most one when fewer outputs went away than were reported, and liveness."
  },
  {
   "property": "C08",
   "status": "proved",
   "theorems": [
    "C08_distinct_reports",
    "C08_adjacent_differ",
    "C08_last_is_latest",
    "C08_every_report_present",
    "C08_eq_reflexive",
    "C08_eq_symmetric_refuted"
   ],
   "note": "Reflexive but not symmetric (C08_eq_symmetric_refuted)."
  },
  {
   "property": "C09",
   "status": "proved",
   "theorems": [
    "C09_std_position_ok",
    "C09_never_early"
   ],
   "note": ""
  },
  {
   "property": "C10",
   "status": "proved",
   "theorems": [
    "C10_clock",
    "C10_conservation",
    "C10_due_time_order",
    "C10_progress"
   ],
   "note": ""
  },
  {
   "property": "C11",
   "status": "proved",
   "theorems": [
    "C11_cancelled_not_delivered",
    "C11_others_untouched"
   ],
   "note": ""
  },
  {
   "property": "C12",
   "status": "proved",
   "theorems": [
    "C12_no_immediate_event_left"
   ],
   "note": ""
  },
  {
   "property": "C13",
   "status": "partial",
   "theorems": [
    "C13_next_event_time_partial",
    "C13_next_event_time_refuted",
    "C13_next_event_time_panics_refuted"
   ],
   "note": "The documented contract is refuted (C13_next_event_time_refuted, C13_next_event_time_panics_refuted); it holds when no event is overdue (C13_next_event_time_partial)."
  },
  {
   "property": "C14",
   "status": "proved",
   "theorems": [
    "C14_dropped_only_when_full",
    "C14_waiting_inputs_keep_order_input",
    "C14_waiting_inputs_keep_order_tick",
    "C14_watching_is_faithful",
    "C14_queue_refinement",
    "C14_queue_fifo",
    "C14_queue_one_per_call",
    "C14_queue_immediate",
    "C14_queue_drained",
    "C14_composite_applies"
   ],
   "note": "The refinement to the abstract queue is for histories of inputs, ticks, reports and settings; time-advancing calls are sequences of ticks."
  },
  {
   "property": "C15",
   "status": "proved",
   "theorems": [
    "C15_pressed_once"
   ],
   "note": ""
  },
  {
   "property": "C16",
   "status": "partial",
   "theorems": [
    "C16_no_stuck_key_partial",
    "C16_composite_no_stuck_key_partial",
    "C16_no_stuck_key_refuted"
   ],
   "note": "Refuted in general (C16_no_stuck_key_refuted); proved for every key system in which an undecided key becomes a decided key at once, and hence for composite keymaps whose tap-hold, tap-dance and chorded keys become plain keys."
  },
  {
   "property": "C17",
   "status": "proved",
   "theorems": [
    "C17_bounded_state",
    "C17_panics_on_17th_key",
    "C17_panics_on_17th_input_behind_undecided_key"
   ],
   "note": ""
  },
  {
   "property": "C18",
   "status": "proved",
   "theorems": [
    "C18_callbacks",
    "C18_callbacks_in_order",
    "C18_third_callback_panics"
   ],
   "note": ""
  },
  {
   "property": "C19",
   "status": "partial",
   "theorems": [
    "C19_init_partial",
    "C19_init_refuted"
   ],
   "note": "Refuted in full (C19_init_refuted): the key-system context survives init. Everything else is as new (C19_init_partial)."
  },
  {
   "property": "C20",
   "status": "proved",
   "theorems": [
    "C20_clocks",
    "C20_tick_to_next"
   ],
   "note": ""
  },
  {
   "property": "C21",
   "status": "proved",
   "theorems": [
    "C21_tap_hold_decision"
   ],
   "note": ""
  },
  {
   "property": "C22",
   "status": "proved",
   "theorems": [
    "C22_tap_hold_in_time_hold",
    "C22_tap_hold_in_time_tap",
    "C22_tap_hold_in_time_released"
   ],
   "note": "For a keymap at rest; the release of a tap is reported two ticks after the tap key appears (as the code does), and a decision needs at least one tick."
  },
  {
   "property": "C23",
   "status": "proved",
   "theorems": [
    "C23_chord_required_idle",
    "C23_tap_hold_required_idle",
    "C23_tap_hold_too_soon"
   ],
   "note": "The idle time compared is that at the start of the last tick. For chord keys: unless the key belongs to an active chord or to the chord resolved last."
  },
  {
   "property": "C24",
   "status": "proved",
   "theorems": [
    "C24_tap_dance_decision",
    "C24_tap_dance_starts",
    "C24_tap_dance_without_definitions_refuted"
   ],
   "note": "With zero definitions it panics (C24_tap_dance_without_definitions_refuted), as the property says."
  },
  {
   "property": "C25",
   "status": "proved",
   "theorems": [
    "C25_layered_key_acts_as",
    "C25_meaning_unique",
    "C25_lookup_total"
   ],
   "note": ""
  },
  {
   "property": "C26",
   "status": "proved",
   "theorems": [
    "C26_layer_events",
    "C26_layer_events_total",
    "C26_layer_event_out_of_range",
    "C26_set_active_layers",
    "C26_set_active_layers_total",
    "C26_press_layer_key",
    "C26_release_layer_key",
    "C26_held_layer_key",
    "C26_sticky_layer",
    "C26_sticky_activated"
   ],
   "note": "Layers above 31 are not touched by set-active-layers, which is part of layer_set_step."
  },
  {
   "property": "C27",
   "status": "proved",
   "theorems": [
    "C27_balance",
    "C27_wait",
    "C27_let_go",
    "C27_sticky_key_tapped",
    "C27_sticky_key_held",
    "C27_five_refuted"
   ],
   "note": "A fifth modifier is never released (C27_five_refuted), as the property says."
  },
  {
   "property": "C28",
   "status": "proved",
   "theorems": [
    "C28_caps_word",
    "C28_shift_held",
    "C28_composite"
   ],
   "note": ""
  },
  {
   "property": "C29",
   "status": "proved",
   "theorems": [
    "C29_decision",
    "C29_all_pressed",
    "C29_press"
   ],
   "note": "For fewer presses than MAX_CHORD_SIZE while undecided (one more panics) and chord numbers below 256."
  },
  {
   "property": "C30",
   "status": "proved",
   "theorems": [
    "C30_active_chords",
    "C30_no_overlap",
    "C30_only_first_acts",
    "C30_waits_for_free_chords",
    "C30_only_first_acts_composite",
    "C30_composite"
   ],
   "note": ""
  },
  {
   "property": "C31",
   "status": "proved",
   "theorems": [
    "C31_player",
    "C31_in_order_once",
    "C31_keys",
    "C31_composite"
   ],
   "note": ""
  },
  {
   "property": "C32",
   "status": "partial",
   "theorems": [
    "C32_finishes_refuted",
    "C32_continuation_partial",
    "C32_finishes_partial"
   ],
   "note": "Refuted in general, with a history after which no macro instruction is ever executed again. Proved for keymaps in which keys that are undecided for a while never become macro keys, for histories without init: exactly one continuation is on its way while macros wait, and everything waiting is executed in order within a stated time."
  },
  {
   "property": "C33",
   "status": "proved",
   "theorems": [
    "C33_context_fits",
    "C33_keys_fit"
   ],
   "note": "For reachable states: given macros within the instruction array, the composite context panics only if its chord or layer step does (layer out of range, C41), and never because of the buffer; keys emit at most two events."
  },
  {
   "property": "C34",
   "status": "proved",
   "theorems": [
    "C34_round_trip",
    "C34_serialize_iff",
    "C34_serialize_all_refuted",
    "C34_receive_stream",
    "C34_resynchronises",
    "C34_receive_any_buffer_refuted",
    "C34_receive_physical"
   ],
   "note": "Exact for every stream into a buffer ending in a zero byte (C34_receive_stream); from any other contents at most three wrong events precede the stream (C34_resynchronises). Indices of 128 and more cannot be serialised (C34_serialize_all_refuted)."
  },
  {
   "property": "C35",
   "status": "proved",
   "theorems": [
    "C35_contents",
    "C35_over_capacity",
    "C35_equality"
   ],
   "note": ""
  },
  {
   "property": "C36",
   "status": "proved",
   "theorems": [
    "C36_events",
    "C36_events_from_c",
    "C36_virtual_from_c",
    "C36_report",
    "C36_receive_total",
    "C36_split_transport"
   ],
   "note": ""
  },
  {
   "property": "C37",
   "status": "proved",
   "theorems": [
    "C37_context",
    "C37_pressed_keys",
    "C37_pending_keys",
    "C37_keys_emit_own"
   ],
   "note": ""
  },
  {
   "property": "C38",
   "status": "proved",
   "theorems": [
    "C38_down",
    "C38_down_once",
    "C38_pressed",
    "C38_settled",
    "C38_never_panics",
    "C38_reports_what_is_down",
    "C38_seventeen_keys_refuted"
   ],
   "note": "Every keymap of plain keys and every history of inputs, ticks, reports and tick-rate changes; with the absence of panics within stated limits and the refutation beyond 16 keys."
  },
  {
   "property": "C39",
   "status": "proved",
   "theorems": [
    "C39_release_effect"
   ],
   "note": ""
  },
  {
   "property": "C40",
   "status": "proved",
   "theorems": [
    "C40_fuel_independent",
    "C40_one_outcome"
   ],
   "note": ""
  },
  {
   "property": "C41",
   "status": "partial",
   "theorems": [
    "C41_press_panics",
    "C41_never_panics_partial",
    "C41_holding_five_keys_refuted"
   ],
   "note": "The property is refuted for generated firmware sizes; proved: the exact panic condition and its absence while no more keys are held than the array has entries."
  },
  {
   "property": "C42",
   "status": "proved",
   "theorems": [
    "C42_input_after_time_is_ticks",
    "C42_tick_to_next_is_ticks",
    "C42_every_history_is_basic"
   ],
   "note": ""
  },
  {
   "property": "C43",
   "status": "proved",
   "theorems": [
    "C43_stays_pressed",
    "C43_composite_stays_pressed"
   ],
   "note": ""
  },
  {
   "property": "C44",
   "status": "proved",
   "theorems": [
    "C44_layer_needs_held_key",
    "C44_held_key_keeps_layer",
    "C44_base_when_nothing_held",
    "C44_held_key_keeps_layer_refuted",
    "C44_layer_needs_held_key_after_init_refuted"
   ],
   "note": "Both directions over all histories without init, with the refutations that show why the conditions are needed."
  },
  {
   "property": "C45",
   "status": "proved",
   "theorems": [
    "C45_reported_outputs",
    "C45_outputs_exist",
    "C45_undecided"
   ],
   "note": "Over all histories, with the exact table of outputs per key."
  },
  {
   "property": "C46",
   "status": "proved",
   "theorems": [
    "C46_only_configured",
    "C46_virtual_keys",
    "C46_no_virtual_keys"
   ],
   "note": "Over all histories, including virtual keys still waiting in a queue."
  },
  {
   "property": "C47",
   "status": "proved",
   "theorems": [
    "C47_observed",
    "C47_collecting_is_running",
    "C47_reports_do_not_disturb",
    "C47_tick_until",
    "C47_backend",
    "C47_coordinates"
   ],
   "note": "For every key system and call sequence."
  },
  {
   "property": "C48",
   "status": "proved",
   "theorems": [
    "C48_embassy_reports",
    "C48_rtic_reports",
    "C48_no_crash",
    "C48_host_up_to_date",
    "C48_mouse_moves_once_refuted",
    "C48_released_after_block_refuted"
   ],
   "note": "Keyboard reports exactly once and in order, host up to date, no crash; the corresponding statements for mouse movement and for releases during a blocked write are refuted."
  },
  {
   "property": "C49",
   "status": "proved",
   "theorems": [
    "C49_scan",
    "C49_new",
    "C49_boot_key",
    "C49_recovers",
    "C49_scan_after_error_refuted",
    "C49_events",
    "C49_iteration"
   ],
   "note": "For every matrix and failure pattern; the statement about the scan right after a failed one is refuted; more than eight events in one scan panic."
  },
  {
   "property": "C50",
   "status": "proved",
   "theorems": [
    "C50_caps_word_shift",
    "C50_caps_word_reported",
    "C50_caps_word_shift_after_init_refuted"
   ],
   "note": "Over all histories without init; after init it is refuted."
  },
  {
   "property": "C51",
   "status": "proved",
   "theorems": [
    "C51_sticky_in_force",
    "C51_no_sticky_left_over",
    "C51_sticky_released",
    "C51_sticky_released_refuted"
   ],
   "note": "Lower bound over all histories without init; equality where never more than three sticky modifiers are in force, refuted with five taps."
  },
  {
   "property": "C52",
   "status": "proved",
   "theorems": [
    "C52_stamps_change_nothing",
    "C52_stamps_are_past",
    "C52_decided_in_time",
    "C52_never_undecided_longer",
    "C52_asks_to_be_ticked",
    "C52_decided_on_time_refuted"
   ],
   "note": "Over all histories, for the keymap with stamps, which is proved to behave as without; without the slack for other due events it is refuted."
  },
  {
   "property": "C53",
   "status": "proved",
   "theorems": [
    "C53_scan_col_to_row",
    "C53_scan_row_to_col",
    "C53_boot_key"
   ],
   "note": "For both directions of the diodes, any matrix and any closed switches; the sense lines are modelled as low exactly when a closed switch joins them to a low driven line."
  },
  {
   "property": "C54",
   "status": "proved",
   "theorems": [
    "C54_settled_unique",
    "C54_debounce",
    "C54_alternates",
    "C54_glitches",
    "C54_keyboard"
   ],
   "note": "Over all sequences of readings, and of switch states through the scan from keyboard_init on."
  },
  {
   "property": "C55",
   "status": "proved",
   "theorems": [
    "C55_in_order",
    "C55_nothing_stuck",
    "C55_comes_to_rest",
    "C55_refused",
    "C55_no_panic"
   ],
   "note": "Over all schedules of the sender."
  },
  {
   "property": "C56",
   "status": "proved",
   "theorems": [
    "C56_in_order",
    "C56_served",
    "C56_end_to_end",
    "C56_any_time_refuted"
   ],
   "note": "Over all schedules in which no byte arrives inside the critical window; without that condition refuted, with a lost event and with repeated events."
  },
  {
   "property": "C57",
   "status": "proved",
   "theorems": [
    "C57_in_order",
    "C57_ticks_wait",
    "C57_gets_there",
    "C57_plain",
    "C57_panics_only_with_keymap",
    "C57_early_poll_is_fatal",
    "C57_timer_any_time_refuted",
    "C57_reset_any_time_refuted",
    "C57_mouse_refuted"
   ],
   "note": "Over all schedules that avoid the harmful moments, for the keyboard and consumer reports; outside them, and for the mouse, refuted, and the early poll proved fatal."
  },
  {
   "property": "C58",
   "status": "proved",
   "theorems": [
    "C58_square",
    "C58_square_only",
    "C58_events",
    "C58_count",
    "C58_plain"
   ],
   "note": "For square matrices; any other is proved to be read out of bounds."
  },
  {
   "property": "C59",
   "status": "proved",
   "theorems": [
    "C59_awake",
    "C59_asleep_idle",
    "C59_goes_to_sleep",
    "C59_scans_in_time",
    "C59_wakes"
   ],
   "note": "Over all schedules; the bounds on time assume that events are handled before time passes."
  },
  {
   "property": "C60",
   "status": "proved",
   "theorems": [
    "C60_synced",
    "C60_in_time",
    "C60_sampled",
    "C60_failures_refuted"
   ],
   "note": "As long as no report fails; with failures refuted."
  },
  {
   "property": "C61",
   "status": "proved",
   "theorems": [
    "C61_clock",
    "C61_asleep_no_calls",
    "C61_asleep_stuck",
    "C61_clock_with_timeouts_refuted",
    "C61_asleep_with_events_refuted"
   ],
   "note": "The bound on the clock without timeouts, and what happens asleep; with timeouts refuted."
  },
  {
   "property": "C62",
   "status": "proved",
   "theorems": [
    "C62_unique",
    "C62_exists",
    "C62_pressed",
    "C62_callbacks",
    "C62_settled",
    "C62_never_panics",
    "C62_reports_what_the_layers_say",
    "C62_default_pressed_last_refuted"
   ],
   "note": "Sticky layer keys are left out here (see C26). That the default layer is the one pressed last is refuted."
  },
  {
   "property": "C63",
   "status": "proved",
   "theorems": [
    "C63_means_what_is_written",
    "C63_builds",
    "C63_nested_macros_refuted",
    "C63_caps_word_under_layer_refuted",
    "C63_short_layer_refuted",
    "C63_layer_listed_twice_refuted"
   ],
   "note": "Nickel values and generated tables are modelled, not the text of the generated Rust. What cannot be built is given by four refutations."
  },
  {
   "property": "C64",
   "status": "proved",
   "theorems": [
    "C64_configuration",
    "C64_sizes"
   ],
   "note": "Numbers are natural numbers."
  },
  {
   "property": "C65",
   "status": "proved",
   "theorems": [
    "C65_keyboard_of_the_layout",
    "C65_reports_what_is_written",
    "C65_unique",
    "C65_transparent_layer_refuted"
   ],
   "note": "Composition of C63, C64 and C62. Tap-hold, tap-dance, sticky, chord, macro and caps word keys are covered by C63 and their own properties. A keyboard with only transparent upper layers is refuted."
  },
  {
   "property": "C66",
   "status": "proved",
   "theorems": [
    "C66_meaning",
    "C66_calls",
    "C66_answers",
    "C66_total",
    "C66_keyboard"
   ],
   "note": "Over all programs of calls; the last part for the keyboards of C62."
  },
  {
   "property": "C67",
   "status": "proved",
   "theorems": [
    "C67_typed_unique",
    "C67_passed",
    "C67_host_sees",
    "C67_switches_to_host",
    "C67_nothing_stuck",
    "C67_gets_there",
    "C67_stops_only_when_full",
    "C67_small_keyboards_never_stop",
    "C67_nothing_stuck_refuted",
    "C67_keymap_to_host",
    "C67_keymap_never_stops"
   ],
   "note": "For the keyboards of C62 and the layouts of C65, on one half without a split link; harmless moments are those of C57. The claim that nothing sticks is refuted if inputs may be dropped."
  },
  {
   "property": "C68",
   "status": "proved",
   "theorems": [
    "C68_unique",
    "C68_tapped",
    "C68_interrupted",
    "C68_timed_out",
    "C68_pressed",
    "C68_settled",
    "C68_settles",
    "C68_nothing_dropped",
    "C68_keeps_running",
    "C68_not_crowded",
    "C68_quick_taps_refuted"
   ],
   "note": "For keymaps without sticky, chorded, tap-dance and automation keys; no key is pressed while it is down. That a timer is not late is C52. C68_quick_taps_refuted shows that the limit of 32 presses is needed."
  },
  {
   "property": "C69",
   "status": "proved",
   "theorems": [
    "C69_keyboard_of_the_layout",
    "C69_reports_what_is_written",
    "C69_unique"
   ],
   "note": "For layouts without sticky, chorded, tap-dance and automation keys, like C68."
  },
  {
   "property": "C70",
   "status": "proved",
   "theorems": [
    "C70_unique",
    "C70_exists",
    "C70_pressed",
    "C70_settled",
    "C70_never_panics",
    "C70_reports_what_is_typed",
    "C70_eight_presses_fit",
    "C70_one_shot_modifier",
    "C70_one_shot_held",
    "C70_caps_word",
    "C70_one_shot_layer",
    "C70_taps_alone_panic_refuted"
   ],
   "note": "For keymaps without tap-hold, chorded, tap-dance and automation keys. The claim that a keyboard on which one key at a time is held never panics is refuted (C70_taps_alone_panic_refuted)."
  },
  {
   "property": "C71",
   "status": "proved",
   "theorems": [
    "C71_unique",
    "C71_chord_goes_down",
    "C71_joins",
    "C71_on_its_own",
    "C71_pressed",
    "C71_settled",
    "C71_settles",
    "C71_nothing_dropped",
    "C71_repeated_press_refuted"
   ],
   "note": "For keymaps without tap-hold, tap-dance, one-shot, caps word and automation keys. That such a keymap never panics with two keys down is refuted (C71_repeated_press_refuted)."
  },
  {
   "property": "C72",
   "status": "proved",
   "theorems": [
    "C72_keyboard_of_the_layout",
    "C72_reports_what_is_written",
    "C72_at_any_time",
    "C72_unique"
   ],
   "note": "Tap-hold, tap-dance, one-shot, caps word and macro keys are outside of these layouts (C69 has tap-hold keys, C63 all of them for the tables)."
  },
  {
   "property": "C73",
   "status": "proved",
   "theorems": [
    "C73_keyboard_of_the_layout",
    "C73_reports_what_is_written",
    "C73_eight_presses_fit",
    "C73_unique",
    "C73_one_shot_modifier",
    "C73_one_shot_held",
    "C73_caps_word",
    "C73_one_shot_layer"
   ],
   "note": "Tap-hold, chord, tap-dance and macro keys are outside of these layouts (C69 and C72 have the first two)."
  },
  {
   "property": "C74",
   "status": "proved",
   "theorems": [
    "C74_never_out_of_bounds",
    "C74_reads",
    "C74_does",
    "C74_halts",
    "C74_stays_halted",
    "C74_halt_ended",
    "C74_halt_ended_loses_endpoint",
    "C74_takes",
    "C74_refuses",
    "C74_reset",
    "C74_configuration_consistent",
    "C74_vendor_requests_refuted",
    "C74_get_idle_length_refuted",
    "C74_unrestricted_histories_refuted",
    "C74_halt_lasts_refuted"
   ],
   "note": "Requests marked as GET_DESCRIPTOR but with data for the device, vendor requests and GET_IDLE/GET_PROTOCOL of more than a byte are outside: for them the claim fails (the C74_..._refuted theorems). An endpoint whose halt is ended while a report waits is lost (C74_halt_ended_loses_endpoint)."
  },
  {
   "property": "C75",
   "status": "proved",
   "theorems": [
    "C75_usb_keyboard",
    "C75_usb_consumer",
    "C75_usb_mouse",
    "C75_lengths",
    "C75_ble_keyboard",
    "C75_ble_mouse",
    "C75_ble_consumer",
    "C75_usb_host",
    "C75_usb_host_gets_there",
    "C75_all_codes_refuted",
    "C75_ble_two_consumer_keys_refuted",
    "C75_ble_only_pressed_refuted",
    "C75_mouse_refuted"
   ],
   "note": "The limits are real: C75_all_codes_refuted, C75_ble_two_consumer_keys_refuted, C75_ble_only_pressed_refuted and C75_mouse_refuted. Hosts that use the boot protocol ignore the descriptors and are outside."
  },
  {
   "property": "C76",
   "status": "proved",
   "theorems": [
    "C76_pressed",
    "C76_unique",
    "C76_on_time",
    "C76_one_outcome",
    "C76_settled",
    "C76_settles",
    "C76_order_refuted",
    "C76_keeps_running",
    "C76_not_hectic",
    "C76_quick_taps_refuted",
    "C76_many_inputs_refuted"
   ],
   "note": "What does not hold: C76_order_refuted (the release of the dance key is taken after the presses of others that came after it). C76_quick_taps_refuted and C76_many_inputs_refuted: the conditions for running on cannot be left out."
  },
  {
   "property": "C77",
   "status": "proved",
   "theorems": [
    "C77_pressed",
    "C77_one_at_a_time",
    "C77_settled",
    "C77_taps_are_released",
    "C77_settles",
    "C77_held_goes_on",
    "C77_none_held",
    "C77_while_pressed_refuted"
   ],
   "note": "Which of two things due at the same time happens first is left open, as it depends on the position in the schedule. What does not hold: C77_while_pressed_refuted (with macro keys at two places, a held key can stop playing)."
  },
  {
   "property": "C78",
   "status": "proved",
   "theorems": [
    "C78_which_texts",
    "C78_types_the_text",
    "C78_short_duration_refuted"
   ],
   "note": "The keyboard is one of C77 whose macros are for presses only. The binary search is assumed to find the element of a list of one element (finds_the_one), as Rust's does. What does not hold: with instructions no longer than a tick the first character can be lost (C78_short_duration_refuted)."
  },
  {
   "property": "C79",
   "status": "proved",
   "theorems": [
    "C79_remaps_iff",
    "C79_written",
    "C79_same_keys",
    "C79_same_reports",
    "C79_dropped_or_doubled_chord_key_refuted"
   ],
   "note": "The mapping function is given by the list of positions that it returns, as in the keymaps of tests/ncl. What does not hold: a chord of a key that is left out or doubled makes the remapping fail (C79_dropped_or_doubled_chord_key_refuted)."
  },
  {
   "property": "C80",
   "status": "proved",
   "theorems": [
    "C80_string_macro",
    "C80_keyboard_of_the_layout",
    "C80_types_what_is_written"
   ],
   "note": "The end-to-end theorem is for keymaps of which the macros are all for the press, as those of K.string_macro are, and for calls after the press that press no other key (as C78)."
  },
  {
   "property": "C81",
   "status": "proved",
   "theorems": [
    "C81_tapped",
    "C81_keyboard_of_the_layout",
    "C81_acts_as_written"
   ],
   "note": "For keys tapped alone (other keys may be held, none is pressed or released during the taps) and with a tick between any two inputs; C76 has the general case for the runtime. The choices are ordinary, callback and layer keys."
  },
  {
   "property": "C82",
   "status": "proved",
   "theorems": [
    "C82_host_sees",
    "C82_at_rest",
    "C82_tap_dances",
    "C82_tap_holds",
    "C82_chords",
    "C82_macros",
    "C82_one_shots"
   ],
   "note": "Interrupts come at harmless moments (C57 has what happens otherwise); tap-hold keys and chords if no input is dropped by the input queue; macro keys if no macro is started again and again by a key that is held. Mouse reports are not covered (C57)."
  },
  {
   "property": "C83",
   "status": "proved",
   "theorems": [
    "C83_host_sees",
    "C83_in_time",
    "C83_at_rest",
    "C83_typing",
    "C83_released_refuted"
   ],
   "note": "If no key is held the keyboard sleeps, and the host may keep seeing a released key: C83_released_refuted. Reports that fail to be sent are C60_failures_refuted."
  },
  {
   "property": "C84",
   "status": "proved",
   "theorems": [
    "C84_bluetooth_tap_holds",
    "C84_bluetooth_chords",
    "C84_tap_holds",
    "C84_chords",
    "C84_one_shots",
    "C84_bluetooth",
    "C84_tap_dances",
    "C84_macros",
    "C84_bluetooth_tap_dances",
    "C84_bluetooth_macros",
    "C84_press_macros",
    "C84_bluetooth_press_macros"
   ],
   "note": "Composed of C64, C69, C72, C73, C80, C81 (code generation) and C82, C83, C85 (firmware). For tap-dance and macro keys the run is that of the generated references, which are stated to be the keys of the layout. For macros, provided no macro that repeats while its key is pressed is held, as is so if the layout has macros for the press only (C84_press_macros)."
  },
  {
   "property": "C85",
   "status": "proved",
   "theorems": [
    "C85_tap_holds",
    "C85_chords",
    "C85_tap_dances",
    "C85_macros"
   ],
   "note": "For tap-hold keys and chords, provided no input was dropped. For macros, provided no macro that repeats while its key is pressed is held."
  }
 ]
}