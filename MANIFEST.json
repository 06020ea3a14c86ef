{
 "claims": [
  {
   "property": "C01",
   "status": "proved",
   "theorems": [
    "C01_match_terminates",
    "C01_none_key_refuted"
   ],
   "note": "Holds for every history without the key none; the second theorem shows the restriction is necessary."
  },
  {
   "property": "C02",
   "status": "proved",
   "theorems": [
    "C02_prefix_not_rejected"
   ],
   "note": "Matcher level, for expressions without NoMightMatch events."
  },
  {
   "property": "C03",
   "status": "proved",
   "theorems": [
    "C03_ordered_sequence",
    "C03_nested_sequence"
   ],
   "note": "Distinct real keys, histories of key presses and releases."
  },
  {
   "property": "C04",
   "status": "proved",
   "theorems": [
    "C04_group"
   ],
   "note": "Distinct real keys, alternating histories."
  },
  {
   "property": "C05",
   "status": "proved",
   "theorems": [
    "C05_held"
   ],
   "note": ""
  },
  {
   "property": "C06",
   "status": "proved",
   "theorems": [
    "C06_negated"
   ],
   "note": "Negation in front of the expression."
  },
  {
   "property": "C07",
   "status": "partial",
   "theorems": [
    "C07_any_press",
    "C07_any_release",
    "C07_any_reports_pressed_keyboard_keys",
    "C07_matched_partial",
    "C07_output_partial",
    "C07_typed",
    "C07_on_release_refuted",
    "C07_group_refuted"
   ],
   "note": "The output half holds for inputs without groups and without `?` and outputs without `^`; refuted for both others: after `^` the keys of the last attempt to match are put out, and in a group the key pressed for Any is not recorded."
  },
  {
   "property": "C08",
   "status": "proved",
   "theorems": [
    "C08_timeout"
   ],
   "note": ""
  },
  {
   "property": "C09",
   "status": "proved",
   "theorems": [
    "C09_terminates",
    "C09_rounds"
   ],
   "note": "For buffered events of actual keys (code other than 0)."
  },
  {
   "property": "C10",
   "status": "proved",
   "theorems": [
    "C10_no_undefined_behaviour",
    "C10_multi_stage",
    "C10_server",
    "C10_loop",
    "C10_server_no_values",
    "C10_unpaired_wheel_refuted",
    "C10_injected_wheel_refuted"
   ],
   "note": "Presses of wheel steps carry the value of their release, as the server inserts them; the second theorem shows that this is necessary."
  },
  {
   "property": "C11",
   "status": "proved",
   "theorems": [
    "C11_pass_through"
   ],
   "note": "For presses and releases of device keys; repeats come from the device pressed last."
  },
  {
   "property": "C12",
   "status": "proved",
   "theorems": [
    "C12_substitution",
    "C12_same_target_refuted"
   ],
   "note": "When no two of the typed keys have the same image; the second theorem shows that this is necessary."
  },
  {
   "property": "C13",
   "status": "partial",
   "theorems": [
    "C13_held_by_pressed_partial",
    "C13_no_stuck_calls_partial",
    "C13_no_stuck_keys_partial",
    "C13_stages_partial",
    "C13_server_partial",
    "C13_sent_partial",
    "C13_keyboard_partial",
    "C13_trivial_mapping_refuted",
    "C13_any_mapping_refuted",
    "C13_timeout_mapping_refuted"
   ],
   "note": "False of the code: three witnesses of keys which stay pressed (A >> A next to A B >> X; Any D >> X; A B 500ms >> B). Proved for configurations whose inputs contain no Any and no ?, are completed by a key rather than a timeout and are not mapped to just their completing event, for presses, releases, timeouts and context changes: whatever is pressed in the output was triggered by a key still pressed. The same through any number of stages, the queue of the server (delays, timeouts, virtual keys, injected keys, failing writes, new configurations and clients while keys are held) and up to the virtual keyboard: a key held there means that a key is held on the keyboards or a virtual key is on. Missing: the excluded inputs, mouse wheels, validate_state, configurations replaced while a virtual key waits in the queue to be toggled."
  },
  {
   "property": "C14",
   "status": "proved",
   "theorems": [
    "C14_held_covers_consumer",
    "C14_multi_stage",
    "C14_release_releases",
    "C14_validate_refuted"
   ],
   "note": "For histories without validate_state, which forgets held keys without releasing them (third theorem)."
  },
  {
   "property": "C15",
   "status": "proved",
   "theorems": [
    "C15_first_mapping_decides",
    "C15_candidates"
   ],
   "note": ""
  },
  {
   "property": "C16",
   "status": "proved",
   "theorems": [
    "C16_last_context_wins",
    "C16_unmapped_no_match"
   ],
   "note": "Command indices distinct per context, as the configuration produces them."
  },
  {
   "property": "C17",
   "status": "partial",
   "theorems": [
    "C17_held_back",
    "C17_repeats_ignored",
    "C17_only_release_takes",
    "C17_release_partial",
    "C17_leaving_cancels",
    "C17_two_pending_refuted"
   ],
   "note": "Holds while one output is pending per key; with two of them the release outputs only one (refuted)."
  },
  {
   "property": "C18",
   "status": "proved",
   "theorems": [
    "C18_exit_only_when_typed",
    "C18_exit_always_works",
    "C18_second_keyboard_refuted"
   ],
   "note": "The second direction needs that a press of a key already down is its repeat; the third theorem shows that it is necessary."
  },
  {
   "property": "C19",
   "status": "proved",
   "theorems": [
    "C19_forgets_exactly",
    "C19_idempotent"
   ],
   "note": ""
  },
  {
   "property": "C20",
   "status": "proved",
   "theorems": [
    "C20_history_well_formed",
    "C20_history_cleaned",
    "C20_second_stage_wheel_refuted"
   ],
   "note": "Behind another stage, wheel steps are never removed from the history (third theorem)."
  },
  {
   "property": "C21",
   "status": "proved",
   "theorems": [
    "C21_last_stage",
    "C21_no_stages",
    "C21_single_stage",
    "C21_server_events"
   ],
   "note": ""
  },
  {
   "property": "C22",
   "status": "proved",
   "theorems": [
    "C22_routed",
    "C22_partition"
   ],
   "note": ""
  },
  {
   "property": "C52",
   "status": "proved",
   "theorems": [
    "C52_output_shape",
    "C52_output_keys"
   ],
   "note": ""
  },
  {
   "property": "C23",
   "status": "proved",
   "theorems": [
    "C23_filter_evaluated",
    "C23_applied_accepts_device"
   ],
   "note": "Up to 64 devices."
  },
  {
   "property": "C24",
   "status": "partial",
   "theorems": [
    "C24_active_contexts",
    "C24_context_active_events",
    "C24_leaving_releases",
    "C24_released_key_refuted",
    "C24_validate_refuted"
   ],
   "note": "The filters follow the buffered keys; a key held back by another mapping counts as pressed after its release, and validation leaves contexts active (both refuted)."
  },
  {
   "property": "C51",
   "status": "partial",
   "theorems": [
    "C51_wheel_step_lingers_refuted"
   ],
   "note": "False of the code."
  },
  {
   "property": "C25",
   "status": "proved",
   "theorems": [
    "C25_order",
    "C25_order_loop",
    "C25_progress"
   ],
   "note": "For every history of inputs, messages, clock values and failing sends; with successful sends a flush empties the queue or schedules the next."
  },
  {
   "property": "C26",
   "status": "partial",
   "theorems": [
    "C26_reports_partial",
    "C26_same_state",
    "C26_reset_refuted"
   ],
   "note": "Holds until the configuration is replaced, which releases virtual keys without a report (refuted)."
  },
  {
   "property": "C27",
   "status": "proved",
   "theorems": [
    "C27_flush_ends",
    "C27_flush_limit"
   ],
   "note": ""
  },
  {
   "property": "C28",
   "status": "partial",
   "theorems": [
    "C28_releases_partial",
    "C28_releases_at_once_partial",
    "C28_virtual_refuted"
   ],
   "note": "While no virtual key waits in the queue to be toggled; otherwise keys stay pressed (refuted). Configurations with outputs which release only what they press, without the exit sequence."
  },
  {
   "property": "C29",
   "status": "partial",
   "theorems": [
    "C29_answered_once",
    "C29_ended",
    "C29_expired",
    "C29_short_refuted"
   ],
   "note": "48 of the 4096 timeouts are reported one millisecond short when they expire (exact list in C29_expired)."
  },
  {
   "property": "C30",
   "status": "proved",
   "theorems": [
    "C30_next_key"
   ],
   "note": "A press of the left mouse button does not answer; a wheel step counts as a press."
  },
  {
   "property": "C31",
   "status": "proved",
   "theorems": [
    "C31_translated"
   ],
   "note": "The press of a wheel step is fed as well and may end another timeout."
  },
  {
   "property": "C53",
   "status": "proved",
   "theorems": [
    "C25_delay",
    "C25_delay_over"
   ],
   "note": "For the Linux loop, with successful sends; virtual keys in front of the delay excluded."
  },
  {
   "property": "C54",
   "status": "partial",
   "theorems": [
    "expired_value",
    "C29_short_refuted"
   ],
   "note": "False for 48 durations, true for all others."
  },
  {
   "property": "C55",
   "status": "partial",
   "theorems": [
    "C31_wheel_refuted"
   ],
   "note": "False of the code."
  },
  {
   "property": "C32",
   "status": "proved",
   "theorems": [
    "C32_configuration",
    "C32_stages"
   ],
   "note": "Lists and strings shorter than 2^32, key codes of 16 bits, values of 12 bits, action indices of 32 bits."
  },
  {
   "property": "C33",
   "status": "proved",
   "theorems": [
    "C33_to_server",
    "C33_to_client",
    "C33_control_requests",
    "C33_control_answers",
    "C33_close_refuted"
   ],
   "note": "All four directions, while the connection is open; a message followed by the end of the stream in the same read is dropped (refuted)."
  },
  {
   "property": "C34",
   "status": "partial",
   "theorems": [
    "C34_inside",
    "C34_longer",
    "C34_shorter_partial",
    "C34_only_messages",
    "C34_truncated_refuted",
    "C34_effect_refuted",
    "C34_bool_refuted"
   ],
   "note": "A truncated message at the end of the received bytes can be accepted (refuted); all else is refused and no byte outside of the received ones is read."
  },
  {
   "property": "C38",
   "status": "proved",
   "theorems": [
    "C38_timeouts_saturate"
   ],
   "note": ""
  },
  {
   "property": "C43",
   "status": "proved",
   "theorems": [
    "C43_grab"
   ],
   "note": ""
  },
  {
   "property": "C44",
   "status": "partial",
   "theorems": [
    "C44_partial",
    "C44_refuted"
   ],
   "note": "False for the last of the 256 virtual keys, for which the table has no place; true for all others."
  },
  {
   "property": "C45",
   "status": "proved",
   "theorems": [
    "C45_instances",
    "C45_connections"
   ],
   "note": "Sockets of accepted connections identify them."
  },
  {
   "property": "C47",
   "status": "partial",
   "theorems": [
    "C47_partial",
    "C47_refuted"
   ],
   "note": "A failed switch back to another file takes its old configuration without sending it (refuted); holds in all histories without one."
  },
  {
   "property": "C48",
   "status": "partial",
   "theorems": [
    "C48_released",
    "C48_appended",
    "C48_devices_partial",
    "C48_not_refuted"
   ],
   "note": "keymapperctl --output \"!A\" presses A for good on the virtual keyboard (refuted); holds for keys which the sequence only presses and releases."
  },
  {
   "property": "C57",
   "status": "partial",
   "theorems": [
    "C57_partial",
    "C57_refuted"
   ],
   "note": "As C47."
  },
  {
   "property": "C60",
   "status": "partial",
   "theorems": [
    "C60_partial",
    "C60_refuted"
   ],
   "note": "Alt is not replaced (refuted); Shift, Control and Meta are."
  },
  {
   "property": "C61",
   "status": "proved",
   "theorems": [
    "C61_answers"
   ],
   "note": ""
  },
  {
   "property": "C49",
   "status": "partial",
   "theorems": [
    "C49_pressed_partial",
    "C49_released_partial",
    "C49_toggled_partial",
    "C49_refuted"
   ],
   "note": "Waiting for an unknown name succeeds at once (refuted). Holds for names which stand for the same virtual key during the operation, other than the last one (C44), when no earlier operation on the connection timed out and the server reports only changes."
  },
  {
   "property": "C56",
   "status": "partial",
   "theorems": [
    "C56_partial",
    "C56_next_partial",
    "C56_stdout",
    "C56_refuted"
   ],
   "note": "After an operation which timed out, its late answer is taken for the one to the next request (refuted); holds otherwise."
  },
  {
   "property": "C59",
   "status": "partial",
   "theorems": [
    "C59_partial",
    "C59_refuted"
   ],
   "note": "The timeout stays in effect for all operations which follow, and --wait changes it (refuted)."
  },
  {
   "property": "C62",
   "status": "partial",
   "theorems": [
    "C62_late",
    "C62_partial",
    "C62_refuted"
   ],
   "note": "A read which yields a part of a message ends the operation with timeout (refuted); holds when reads yield whole messages."
  },
  {
   "property": "C63",
   "status": "proved",
   "theorems": [
    "C63_answers"
   ],
   "note": ""
  },
  {
   "property": "C35",
   "status": "partial",
   "theorems": [
    "C35_terminates",
    "C35_partial",
    "C35_refuted"
   ],
   "note": "Numbers above 2147483647 overflow an int (refuted); every string without such a number gives an error or a sequence. Parsing terminates in any case."
  },
  {
   "property": "C36",
   "status": "proved",
   "theorems": [
    "C36_output",
    "C36_halves_partial",
    "C36_halves_refuted"
   ],
   "note": "The other two theorems are about the parts in front of and behind ^, each of which releases what it presses unless !Key and ^ are combined (refuted)."
  },
  {
   "property": "C37",
   "status": "partial",
   "theorems": [
    "C37_partial",
    "C37_configuration_partial",
    "C37_refuted"
   ],
   "note": "The only exception is what is left of ? ContextActive (refuted). Also for the inputs of every configuration as the server gets it."
  },
  {
   "property": "C39",
   "status": "proved",
   "theorems": [
    "C39_chained",
    "C39_stages"
   ],
   "note": ""
  },
  {
   "property": "C40",
   "status": "proved",
   "theorems": [
    "C40_same_meaning",
    "C40_loaded"
   ],
   "note": "A first stage without mappings is removed as a whole."
  },
  {
   "property": "C41",
   "status": "partial",
   "theorems": [
    "C41_written_out_partial",
    "C41_none_left",
    "C41_refuted"
   ],
   "note": "`modifier != \"Shift\"` is met unless both keys are held (refuted); holds for all other uses, with up to 3328 logical keys."
  },
  {
   "property": "C50",
   "status": "partial",
   "theorems": [
    "C50_forwarded",
    "C50_suppressed_partial",
    "C50_only_suppressed",
    "C50_refuted"
   ],
   "note": "All modifiers are forwarded; of a logical modifier of three and more keys only the last is suppressed in outputs (refuted)."
  },
  {
   "property": "C64",
   "status": "proved",
   "theorems": [
    "C64_fit",
    "C64_no_undefined_behaviour",
    "C64_output_shape"
   ],
   "note": "Up to 256 terminal commands and 3328 logical keys; the oracle for typed strings yields existing keys."
  },
  {
   "property": "C65",
   "status": "partial",
   "theorems": [
    "C65_shared_partial",
    "C65_refuted"
   ],
   "note": "Only the device filter of the last header is applied (refuted by the example in README.md); holds when the headers of a block do not differ in their devices."
  },
  {
   "property": "C66",
   "status": "partial",
   "theorems": [
    "C66_distinct_partial",
    "C66_refuted"
   ],
   "note": "The 257th command presses the left Shift key instead (refuted)."
  },
  {
   "property": "C42",
   "status": "partial",
   "theorems": [
    "C42_terminates_partial",
    "C42_plain_partial",
    "C42_recursive",
    "C42_refuted"
   ],
   "note": "Expansion always terminates, and macros using each other in a circle never expand; sums, products and parameter numbers which do not fit an int are undefined behaviour (refuted), which is excluded for texts without calls."
  },
  {
   "property": "C67",
   "status": "partial",
   "theorems": [
    "C67_partial",
    "C67_refuted"
   ],
   "note": "A line beginning with = defines a key without a name, after which a modifier list with an unexpected character loops forever (refuted); holds for all files without such a line."
  },
  {
   "property": "C68",
   "status": "partial",
   "theorems": [
    "C68_arguments_partial",
    "C68_parameters",
    "C68_call_partial",
    "C68_refuted"
   ],
   "note": "Strings directly following each other are read wrongly (refuted); holds for arguments in which something is between two strings."
  },
  {
   "property": "C69",
   "status": "partial",
   "theorems": [
    "C69_output_partial",
    "C69_input_partial",
    "C69_typed",
    "C69_matches_nested",
    "C69_matches_group",
    "C69_matches_wait",
    "C69_input_refuted",
    "C69_output_refuted"
   ],
   "note": "A second !A in an input and !B after a key of an output do not mean what they say (refuted); excluded are also outputs which press a key within itself."
  },
  {
   "property": "C70",
   "status": "partial",
   "theorems": [
    "C70_file_partial",
    "C70_unmapped",
    "C70_wrong_line"
   ],
   "note": "Not covered: files with @forward-modifiers (see C50), ContextActive, headers which exclude logical modifiers (C41_refuted), and invalid lines other than those named."
  },
  {
   "property": "C71",
   "status": "partial",
   "theorems": [
    "C71_expanded_partial",
    "C71_definition"
   ],
   "note": "Without lists of arguments which directly follow each other, calls which leave a parameter in their result, and strings which directly follow each other."
  },
  {
   "property": "C72",
   "status": "partial",
   "theorems": [
    "C72_passes_through_partial",
    "C72_immediately_partial",
    "C72_down_partial",
    "C72_file_partial",
    "C72_on_release_refuted"
   ],
   "note": "Two outputs which wait for the release of an unmentioned key swallow its next stroke (refuted); holds for every file which loads and has no ^ in outputs."
  },
  {
   "property": "C73",
   "status": "partial",
   "theorems": [
    "C73_held_back_partial",
    "C73_released_partial",
    "C73_timeout_refuted",
    "C73_virtual_refuted"
   ],
   "note": "Releasing the key of an elapsed timeout, or an event of a virtual key, marks all keys held back as handled (refuted); holds for histories of device keys and configurations without ^ in outputs, ? in inputs and Any."
  },
  {
   "property": "C74",
   "status": "partial",
   "theorems": [
    "C74_keys_partial",
    "C74_reported",
    "C74_server_partial",
    "C74_codes_refuted"
   ],
   "note": "Keys with codes from 0x200 on get lost (refuted); holds for keys below, while all writes succeed, for sequences which do not contain !Key."
  },
  {
   "property": "C75",
   "status": "partial",
   "theorems": [
    "C75_buttons_partial",
    "C75_first_click_refuted",
    "C75_plugged_refuted",
    "C75_missing_button_refuted"
   ],
   "note": "The first click of a mouse, and clicks while a device is plugged in, are released on another device (refuted); holds while the active mouse stays the same and has the button."
  },
  {
   "property": "C76",
   "status": "partial",
   "theorems": [
    "C76_high",
    "C76_low",
    "C76_steps",
    "C76_passed_partial",
    "C76_fast_refuted",
    "C76_tilt_refuted",
    "C76_missing_wheel_refuted",
    "C76_unwritten_refuted"
   ],
   "note": "Reports of 35 steps and more, tilt wheels without fine steps beside a wheel with them, wheels the active mouse does not have and motions which cannot be written go wrong (refuted)."
  },
  {
   "property": "C77",
   "status": "partial",
   "theorems": [
    "C77_positions_partial",
    "C77_mapped",
    "C77_forwarded_refuted",
    "C77_wide_refuted"
   ],
   "note": "Devices with a virtual device of their own announce another range than is written, and wide ranges overflow (refuted)."
  },
  {
   "property": "C46",
   "status": "partial",
   "theorems": [
    "C46_partial",
    "C46_delayed_refuted",
    "C46_race_refuted"
   ],
   "note": "A command which is delayed or on its way when the configuration is replaced runs another command (refuted); holds when nothing triggered waits meanwhile. A failed switch back (C47) also makes client and server differ."
  },
  {
   "property": "C58",
   "status": "partial",
   "theorems": [
    "C58_typed_partial",
    "C58_exactly_partial",
    "C58_generic_us",
    "C58_xkb_partial",
    "C58_quote_refuted",
    "C58_escape_refuted",
    "C58_untypable_refuted",
    "C58_modifier_refuted",
    "C58_number_refuted",
    "C58_second_layout_refuted",
    "C58_level_refuted",
    "C58_composed_partial",
    "C58_table_partial",
    "C58_reaches",
    "C58_ligature_refuted",
    "C58_same_refuted"
   ],
   "note": "Texts with a quotation mark or an escape, modifiers which are held, and characters which the active layout does not have are typed wrongly (refuted); holds otherwise for dictionaries which are right for the layout, as those made from keymaps with one layout and compose tables are, whose sequences give one character, do not begin with one and are no beginning of each other. A sequence giving two characters is recorded for the first of them, and of two symbols which are the same character one is not used in sequences (refuted)."
  },
  {
   "property": "C78",
   "status": "partial",
   "theorems": [
    "C78_partial",
    "C78_refuted"
   ],
   "note": "Bytes are counted: characters other than ASCII and escapes count more than once (refuted); holds for all other strings."
  },
  {
   "property": "C79",
   "status": "partial",
   "theorems": [
    "C79_passes_through_partial",
    "C79_reload_refuted",
    "C79_next_key_refuted"
   ],
   "note": "Replacing the configuration releases keys which are held, and asking for the next key takes its press away (refuted); holds otherwise for keyboard keys with codes below 0x200 in configurations without ^ in outputs, while all writes succeed and once the queue is empty."
  },
  {
   "property": "C80",
   "status": "partial",
   "theorems": [
    "C80_devices_partial",
    "C80_noticed",
    "C80_released",
    "C80_id_refuted",
    "C80_reuse_refuted"
   ],
   "note": "Names in /dev/input/by-id come too late to be considered, and a device which gets the number of an unplugged one before that was noticed is not grabbed (refuted); holds when devices do not change otherwise."
  },
  {
   "property": "C81",
   "status": "partial",
   "theorems": [
    "C81_own_partial",
    "C81_described",
    "C81_cascade_refuted",
    "C81_buttons_refuted"
   ],
   "note": "Forward devices lack the buttons with codes above 511 of their device (refuted). Names of forward devices are cut to 79 characters: for a mouse with a name of 69 characters the server grabs its own devices without end (refuted); holds for names of up to 68 characters."
  },
  {
   "property": "C82",
   "status": "partial",
   "theorems": [
    "C82_indices_partial"
   ],
   "note": "While the kernel has no change to report, under the conditions of C80; scaled axes and wheels are in C76 and C77."
  },
  {
   "property": "C83",
   "status": "partial",
   "theorems": [
    "C83_released_keys_partial",
    "C83_held_refuted"
   ],
   "note": "After five seconds the device is grabbed although a key is held (refuted); this and a failing request for the keys are the only exceptions."
  },
  {
   "property": "C84",
   "status": "partial",
   "theorems": [
    "C84_grabbed_partial",
    "C84_released",
    "C84_kept_partial",
    "C84_gap_refuted",
    "C84_restart_refuted"
   ],
   "note": "Assumes no malformed messages and that no configuration follows an empty one within one read; otherwise the mouse may stay ungrabbed (refuted). No needless restart when the first read brings one configuration and keys can be sent; two configurations in the first read end the session just started (refuted)."
  },
  {
   "property": "C85",
   "status": "partial",
   "theorems": [
    "C85_exits",
    "C85_accepts_none",
    "C85_waiting_refuted"
   ],
   "note": "Holds in main_loop; while read_initial_config waits for a configuration the emergency exit has no effect (refuted)."
  },
  {
   "property": "C86",
   "status": "partial",
   "theorems": [
    "C86_nothing_left_partial",
    "C86_typed_later_refuted",
    "C86_rest_later_refuted"
   ],
   "note": "A text injected while there is no configuration is typed when there is one, and what follows a second delay is put out in the next session (both refuted); holds when neither a delay nor a virtual key is queued and keys can be sent."
  },
  {
   "property": "C87",
   "status": "partial",
   "theorems": [
    "C87_wlroots_partial",
    "C87_x11_partial",
    "C87_bus_partial",
    "C87_scripts_partial",
    "C87_contexts_partial",
    "C87_unfocused_refuted",
    "C87_reused_refuted",
    "C87_untitled_refuted",
    "C87_path_refuted",
    "C87_gnome_refuted"
   ],
   "note": "Holds for each source of information alone while a window with a title and a class is focused. Refuted: the last window is kept when none is focused, a window stored at the address of a closed one is taken for focused, windows without title are not noticed on X11, a second source erases the path, the GNOME extension does not tell windows of one application apart."
  },
  {
   "property": "C88",
   "status": "partial",
   "theorems": [
    "C88_in_range_partial",
    "C88_out_of_range_refuted"
   ],
   "note": "Holds if the properties read as numbers have a value of the expected type; an empty _NET_WM_PID makes the client read beyond the buffer (refuted)."
  },
  {
   "property": "C89",
   "status": "partial",
   "theorems": [
    "C87_wlroots_partial",
    "C87_x11_partial",
    "C87_bus_partial",
    "C89_bus_behind",
    "C89_late_refuted"
   ],
   "note": "Holds with wlroots and X11; on the bus one call is handled per update at most, so that the client can be arbitrarily far behind (refuted)."
  },
  {
   "property": "C90",
   "status": "partial",
   "theorems": [
    "C90_shown_partial",
    "C90_executed_refuted",
    "C90_quote_refuted",
    "C90_backslash_refuted"
   ],
   "note": "Settled for messages without backslashes: shown as they are exactly when they contain no backquote and no expansion. Refuted: a window title can execute a command when information about the next key is shown; a backslash before a quote ends the argument; backslashes are doubled."
  },
  {
   "property": "C91",
   "status": "partial",
   "theorems": [
    "C91_commandline",
    "C91_options_partial",
    "C91_client",
    "C91_switch_refuted"
   ],
   "note": "Holds unless keymapperctl switches the configuration (refuted: its options are not applied)."
  },
  {
   "property": "C92",
   "status": "partial",
   "theorems": [
    "C92_place_partial",
    "C92_given",
    "C92_home_refuted",
    "C92_empty_refuted"
   ],
   "note": "Refuted when XDG_CONFIG_HOME is set and the file is in ~/.config (not found), and when it is set to the empty string."
  },
  {
   "property": "C93",
   "status": "partial",
   "theorems": [
    "C93_named_partial",
    "C93_blank_refuted",
    "C93_null_refuted"
   ],
   "note": "Holds for names without characters special to a shell. Refuted for blanks; brackets and the empty name read from a null pointer. Tilde, variables and patterns are not covered."
  },
  {
   "property": "C94",
   "status": "partial",
   "theorems": [
    "C94_follows_partial",
    "C94_second_refuted",
    "C94_included_refuted"
   ],
   "note": "Holds when every change has a newer time and errors are corrected in the file itself. Refuted: a second change within the same second, and a correction in a file which is included newly, are never seen."
  },
  {
   "property": "C95",
   "status": "partial",
   "theorems": [
    "C95_always_shown",
    "C95_no_notify_refuted"
   ],
   "note": "Refuted: the message box which is used instead is a notification as well; proved that notifications are shown whatever the options are."
  },
  {
   "property": "C96",
   "status": "proved",
   "theorems": [
    "C96_check",
    "C96_start"
   ],
   "note": "The file system answers the same while the program starts, the connection to the server works, and the time of the file is not before 1970."
  },
  {
   "property": "C97",
   "status": "partial",
   "theorems": [
    "C97_refuted",
    "C97_partial"
   ],
   "note": "Refuted by the filter \"/i\", by huge numbers and by overflowing sums. Proved for files without macro calls, numbers of ten digits, quoted regular expressions, variables in strings and macros for strings or regular expressions."
  },
  {
   "property": "C98",
   "status": "partial",
   "theorems": [
    "C98_order_partial",
    "C98_drains_partial",
    "C98_altgr",
    "C98_wheel_refuted",
    "C98_reset_refuted"
   ],
   "note": "A wheel step overtakes what the mappings held back, and a key overtakes a delayed release of Control when the configuration is replaced meanwhile (refuted); holds for runs in which wheels are unmapped and turned while nothing is held back, and configurations are replaced while nothing waits. Drains while no virtual key is queued."
  },
  {
   "property": "C99",
   "status": "partial",
   "theorems": [
    "C99_closed_partial",
    "C99_nothing_waits",
    "C99_unhooked",
    "C99_exit_refuted",
    "C99_held_refuted"
   ],
   "note": "Releases which wait are lost when the server exits, and a key held when the client connects stays pressed (refuted); on disconnect everything is released unless something waits."
  },
  {
   "property": "C100",
   "status": "proved",
   "theorems": [
    "C100_once",
    "C100_passed",
    "C100_next",
    "C100_depth"
   ],
   "note": "Wheel steps are given to the engine twice on purpose and not covered by C100_once."
  },
  {
   "property": "C101",
   "status": "partial",
   "theorems": [
    "C101_typed_partial",
    "C101_dictionary",
    "C101_chained_refuted",
    "C101_any_refuted",
    "C101_driver_refuted"
   ],
   "note": "False for layouts with chained dead keys and with the Interception driver, and a text presses a key which is not part of it (refuted); proved without the driver for every other layout and every text of valid characters, from a server in which nothing waits."
  },
  {
   "property": "C102",
   "status": "partial",
   "theorems": [
    "C102_hook_keys",
    "C102_injected",
    "C102_driver_keys",
    "C102_hook_mouse",
    "C102_driver_mouse",
    "C102_wheel_refuted",
    "C102_two_buttons_refuted",
    "C102_no_scan_code_refuted"
   ],
   "note": "Proved for every key with a scan code, every single button and wheel deltas below 4096; keys without a scan code are sent as others, large deltas and simultaneous buttons are lost (refuted)."
  },
  {
   "property": "C103",
   "status": "partial",
   "theorems": [
    "C103_devices",
    "C103_identifiers",
    "C103_attributed_partial",
    "C103_replugged_refuted",
    "C103_twins_refuted",
    "C103_no_end_refuted"
   ],
   "note": "Attribution holds when the hardware identifiers are those of one device only among all which were ever attached; false when a device is plugged in again or there are two of a type (refuted)."
  },
  {
   "property": "C104",
   "status": "partial",
   "theorems": [
    "C104_reports",
    "C104_keys",
    "C104_released",
    "C104_held",
    "C104_twice_refuted",
    "C104_arrows_refuted",
    "C104_shared_refuted",
    "C104_pages_refuted",
    "C104_buttons_refuted"
   ],
   "note": "Proved when no key is sent as pressed while it is; false otherwise, and two keys shown as the same usage release each other (refuted). Also refuted: arrow keys are shown as others without Fn, events of other pages are lost, mouse buttons are keyboard usages."
  },
  {
   "property": "C105",
   "status": "partial",
   "theorems": [
    "C105_safe",
    "C105_open",
    "C105_update",
    "C105_attributed_partial",
    "C105_unknown",
    "C105_swap",
    "C105_stale_refuted",
    "C105_gone_refuted"
   ],
   "note": "Attribution is proved for runs in which no devices come or go while more than one event waits; false otherwise (refuted)."
  },
  {
   "property": "C106",
   "status": "partial",
   "theorems": [
    "C106_typed_partial",
    "C106_one_stroke",
    "C106_dead_refuted",
    "C106_unknown_refuted"
   ],
   "note": "Proved for layouts in which every key gives at most one character and strings of characters the layout has; false otherwise (refuted). The strokes are typed one after the other; what the server makes of them is C58."
  },
  {
   "property": "C107",
   "status": "partial",
   "theorems": [
    "C107_named",
    "C107_unambiguous",
    "C107_only_partial",
    "C107_virtual_refuted"
   ],
   "note": "Complete for names which do not begin with Virtual; false for those (refuted): VirtualGames and Virtual4294967296 are Virtual0."
  },
  {
   "property": "C108",
   "status": "partial",
   "theorems": [
    "C108_direct_partial",
    "C108_terminal_partial",
    "C108_quoted_partial",
    "C108_quoted_refuted",
    "C108_builtin_refuted"
   ],
   "note": "Proved for commands of characters below 256 which do not begin with a quotation mark, and for those which do when no existing file is quoted or no special character occurs; false for the others (refuted). What the terminal does with the command is not modelled."
  },
  {
   "property": "C109",
   "status": "partial",
   "theorems": [
    "C109_focus_partial",
    "C109_reported",
    "C109_reused_refuted",
    "C109_none_refuted",
    "C109_validated",
    "C109_early_refuted"
   ],
   "note": "The focus is proved when a handle is not used again for another window; false otherwise, and when no window is focused (refuted). Validation is asked for too early when the session changes while an inaccessible window is focused (refuted)."
  },
  {
   "property": "C110",
   "status": "partial",
   "theorems": [
    "C110_accepted",
    "C110_stopped",
    "C110_served",
    "C110_ends",
    "C110_silent_refuted",
    "C110_inherits_refuted",
    "C110_stranger_refuted"
   ],
   "note": "Proved where accepted sockets are blocking (Linux) and every process sends a version; false when a process sends nothing, and where accepted sockets inherit the non-blocking mode (refuted)."
  },
  {
   "property": "C111",
   "status": "partial",
   "theorems": [
    "C111_contexts_partial",
    "C111_agree_partial",
    "C111_contexts_refuted",
    "C111_answers",
    "C111_answers_partial",
    "C111_answers_refuted",
    "C111_instances",
    "C111_connections"
   ],
   "note": "Contexts: unless a file which was used before fails to load (refuted: the menu's Reload after keymapperctl set another file). Virtual keys: keymapperctl is told what was reported last over any connection, which is the state in the running server only until the first restart (refuted)."
  },
  {
   "property": "C112",
   "status": "partial",
   "theorems": [
    "C112_typed_partial",
    "C112_parsed",
    "C112_not_early",
    "C112_typing_partial",
    "C112_other_modifier",
    "C112_overlap_refuted",
    "C112_modifiers_refuted"
   ],
   "note": "Proved for strings of any length which need at most one modifier, with any overlap of the keys but pressing the modifier for the first time while a key is held (refuted: \"aBc\" with Shift pressed before a is released). Strings which need two modifiers are not recognised (refuted). That nothing matches early holds for all strings and all keys."
  },
  {
   "property": "C113",
   "status": "partial",
   "theorems": [
    "C113_replaced_partial",
    "C113_string_partial",
    "C113_start",
    "C113_contexts",
    "C113_clear",
    "C113_again_partial"
   ],
   "note": "Proved from a stage at rest: initially, after contexts were set, and after any history of keys and contexts which left the stage clear (Stage::is_clear). Missing: contexts with modifiers, inputs with ? or timeouts, outputs with ^ or Any, or in which keys are not pressed and released by turns, and keys still held from a mapping before."
  },
  {
   "property": "C114",
   "status": "partial",
   "theorems": [
    "C114_active_partial",
    "C114_active_refuted",
    "C114_click",
    "C114_icon_partial",
    "C114_reload_partial",
    "C114_reload_refuted"
   ],
   "note": "Active: holds as long as the icon is not made anew while keymapper is inactive; refuted otherwise (deactivate, then the server is restarted: marked but inactive). Reload: holds while the option is not changed in the configuration; refuted otherwise (no-update added: neither updated nor an entry Reload). Icon: without switching the configuration with keymapperctl (see C91_switch_refuted)."
  },
  {
   "property": "C115",
   "status": "partial",
   "theorems": [
    "C115_front_partial",
    "C115_name",
    "C115_name_refuted",
    "C115_title"
   ],
   "note": "Proved for names in which not every character takes three bytes in UTF-8 (C115_name shows that this is exact); refuted for the others (a name of Chinese characters only): the class is empty, since the buffer has no room for the terminating NUL. Missing: processes whose name or path the system does not tell."
  },
  {
   "property": "C116",
   "status": "partial",
   "theorems": [
    "C116_told_partial",
    "C116_passed",
    "C116_told_refuted"
   ],
   "note": "Proved for names without line ends; refuted for the others (a title with a second line which looks like a class)."
  },
  {
   "property": "C117",
   "status": "partial",
   "theorems": [
    "C117_wait",
    "C117_expires",
    "C117_woken_partial",
    "C117_configuration_partial",
    "C117_woken_refuted"
   ],
   "note": "Proved while the configuration stays the same, and for one which arrives while nothing is queued; refuted for one which arrives while output is delayed: after a second delay the rest, with the releases of held keys, is only put out with the next event. Sends are taken to succeed; the truncation of the limit to microseconds is not modelled."
  },
  {
   "property": "C118",
   "status": "partial",
   "theorems": [
    "C118_told_partial",
    "C118_quiet_partial",
    "C118_left_refuted"
   ],
   "note": "Proved from any point at which no request is open; refuted for a client which connects after another one asked and left: the first key is swallowed and told to it."
  },
  {
   "property": "C119",
   "status": "partial",
   "theorems": [
    "C119_own_partial",
    "C119_stale_refuted"
   ],
   "note": "Proved for clients whose messages are well formed; refuted for a client which is rejected for a malformed message read together with its configuration: the next client is served by that configuration before it sent anything."
  },
  {
   "property": "C120",
   "status": "partial",
   "theorems": [
    "C120_text_partial",
    "C120_command",
    "C120_command_refuted"
   ],
   "note": "Proved for commands and for arguments which do not both begin and end like one; refuted for arguments such as $(time /t) (local), of which a part is run."
  },
  {
   "property": "C121",
   "status": "partial",
   "theorems": [
    "C121_listens",
    "C121_kept_partial",
    "C121_second_partial",
    "C121_free",
    "C121_gone",
    "C121_kept_refuted"
   ],
   "note": "Proved in full for Linux, where the name is abstract. Elsewhere the name is a file: proved as long as no other process listens, refuted otherwise: a second process takes the name, and when the first one stops nobody reaches the second."
  },
  {
   "property": "C122",
   "status": "partial",
   "theorems": [
    "C122_place_partial",
    "C122_shown_partial",
    "C122_continued_refuted",
    "C122_cut_refuted"
   ],
   "note": "Proved for lines which are not continued and do not begin with a byte order mark, with includes to any depth. Refuted for continued lines, of which the last one is named, and for errors which quote a long text, of which the place is cut off. What lines mean is arbitrary."
  },
  {
   "property": "C123",
   "status": "proved",
   "theorems": [
    "C123_known"
   ],
   "note": "Holds for every run of sessions. The devices are those of the last update; when they are watched and no change is pending, those of now. What the kernel does is an input."
  }
 ]
}