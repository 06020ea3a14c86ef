{"id": "C01", "title": "Matching always terminates with a verdict", "statement": "Comparing a held-back key sequence with an input expression always ends with one of match / might match / no match, for expressions and sequences of any length and content; it never loops and never reads past either end.", "quantifier": "every input expression, including malformed ones, and every sequence of events of actual keys (key code other than 0)", "why_tests_cant": "The loop advances two cursors independently and edits three scratch lists; tests only run a few dozen literal pairs.", "anchors": ["src/runtime/MatchKeySequence.cpp: MatchKeySequence::operator()"]}
{"id": "C02", "title": "A mapping is never missed by giving up early", "statement": "If the keys pressed so far followed by further keys match an input expression (one without a leading `?`), then the matcher does not answer `no match` for the keys pressed so far: it answers match or might match, so the keys are held back and the mapping can still fire.", "quantifier": "every `?`-free input expression, every sequence and every non-empty continuation of it", "why_tests_cant": "Quantifies over all continuations the user might still type.", "anchors": ["src/runtime/MatchKeySequence.cpp: MatchKeySequence::operator()", "src/runtime/Stage.cpp: Stage::apply_input"]}
{"id": "C03", "title": "Ordered sequences match exactly their key strokes in order", "statement": "An input expression `K1 K2 ... Kn` of distinct keys is matched by a history of key events exactly when the presses in it are K1..Kn in that order and every release in it releases a key of the sequence pressed before and not yet released.", "quantifier": "every list of distinct keys and every history of press/release events", "why_tests_cant": "Releases may be interleaved arbitrarily; the number of interleavings grows exponentially.", "anchors": ["src/runtime/MatchKeySequence.cpp: MatchKeySequence::operator()", "src/config/ParseKeySequence.cpp: ParseKeySequence"]}
{"id": "C04", "title": "A group (A B ..) matches in every press order", "statement": "An input expression `(K1 ... Kn)` of distinct keys is matched by pressing exactly the keys K1..Kn in any order (all n! of them) and by no press sequence that is not a permutation of them; every partial press order is held back.", "quantifier": "every list of distinct keys and every list of presses", "why_tests_cant": "n! orders for every n.", "anchors": ["src/runtime/MatchKeySequence.cpp: MatchKeySequence::operator()"]}
{"id": "C05", "title": "A{B} requires A to be held", "statement": "For distinct A, B, the input expression `A{B}` never matches a history in which A was released before B was pressed.", "quantifier": "all keys A≠B and all histories of key events", "why_tests_cant": "All histories.", "anchors": ["src/runtime/MatchKeySequence.cpp: MatchKeySequence::operator()"]}
{"id": "C06", "title": "!A never matches while A is down", "statement": "An input expression `!A B` never matches a sequence in which A is down, whether its press was already used by another mapping or not.", "quantifier": "all keys and all key sequences", "why_tests_cant": "All sequences.", "anchors": ["src/runtime/MatchKeySequence.cpp: MatchKeySequence::operator()"]}
{"id": "C07", "title": "Any only stands for keyboard keys", "statement": "`Any` in an input expression matches the press of every keyboard key and never a mouse button, wheel, virtual key or timeout; the output `Any` reproduces exactly the keys it matched.", "quantifier": "all keys (16 bit codes) and sequences", "why_tests_cant": "65536 key codes, all sequences.", "anchors": ["src/runtime/MatchKeySequence.cpp: MatchKeySequence::operator()", "src/runtime/Key.h: is_keyboard_key"]}
{"id": "C08", "title": "Hold timeouts fire only when the time was reached", "statement": "An input timeout `Nms` is satisfied by an elapsed time t iff t >= N, the inverted `!Nms` iff t < N, and at the end of the sequence both request exactly the timeout named in the expression.", "quantifier": "all durations representable in the event (0..4095) and all expressions", "why_tests_cant": "All pairs of durations.", "anchors": ["src/runtime/MatchKeySequence.cpp: MatchKeySequence::operator()", "src/runtime/Timeout.h"]}
{"id": "C09", "title": "Every input event is processed in finite time", "statement": "Feeding any key event to the mapping engine terminates, for every configuration, every reachable and unreachable internal state and every event; the number of matching rounds is bounded by twice the number of buffered events.", "quantifier": "every configuration, state, event and device index", "why_tests_cant": "The processing loop has no syntactic bound; a hang would freeze all input.", "anchors": ["src/runtime/Stage.cpp: Stage::apply_input"]}
{"id": "C10", "title": "No out-of-range access while processing input", "statement": "For every configuration whose context chain, output indices and inputs are well-formed, no history of key events, context switches and state validations makes the engine index outside its tables, dereference an empty expression or erase a missing element.", "quantifier": "every well-formed configuration and every history of calls", "why_tests_cant": "Memory safety over all histories.", "anchors": ["src/runtime/Stage.cpp: Stage::apply_input, fallthrough_context, find_output, clean_up_history"]}
{"id": "C11", "title": "Unmapped keyboard is passed through unchanged", "statement": "When no mapping is active, the output of the engine for any history of key events is the input itself (repeats included), except that releases of keys that are not down are dropped; nothing is added, reordered or delayed.", "quantifier": "every history of key events without active mappings", "why_tests_cant": "All histories.", "anchors": ["src/runtime/Stage.cpp: Stage::update, forward_from_sequence, release_triggered"]}
{"id": "C12", "title": "Simple remappings act as pure key substitution", "statement": "For a configuration made of direct key-to-key mappings (such as Z >> Y, Y >> Z), the output for every history of key events is the same history with each key replaced by its image; presses, repeats and releases stay paired and ordered.", "quantifier": "every finite table of simple key-to-key mappings and every history", "why_tests_cant": "All tables and histories.", "anchors": ["src/runtime/Stage.cpp: Stage::apply_input, apply_output, finish_sequence, release_triggered"]}
{"id": "C13", "title": "No stuck keys", "statement": "Once every physical key has been released again, no key remains pressed in the output.", "quantifier": "every configuration and every well-formed history ending with all keys up", "why_tests_cant": "Stuck keys depend on long interleavings; the project only fuzzes this (test5_Fuzz).", "anchors": ["src/runtime/Stage.cpp: Stage::release_triggered, finish_sequence, forward_from_sequence, keep_trivial_trigger"]}
{"id": "C14", "title": "The engine's idea of pressed output keys covers the consumer's", "statement": "At every moment each key that is down from the point of view of the consumer of the output is listed as held by the engine, so that releasing its trigger (or resetting the configuration) releases it.", "quantifier": "every configuration with balanced outputs and every history", "why_tests_cant": "Invariant over all histories.", "anchors": ["src/runtime/Stage.cpp: Stage::update_output, get_output_keys_down"]}
{"id": "C15", "title": "The first matching mapping in file order wins", "statement": "When the buffered keys match several mappings of active contexts, the one standing first decides; mappings of contexts that are inactive or whose device filter excludes the device are never applied.", "quantifier": "every configuration, set of active contexts, buffered sequence and device", "why_tests_cant": "All combinations of configurations.", "anchors": ["src/runtime/Stage.cpp: Stage::match_input"]}
{"id": "C16", "title": "The last active context overrides a command", "statement": "An abstract command outputs the mapping given in the last active context that maps it; when no active context maps it, the input is treated as if it did not match.", "quantifier": "every configuration, command and set of active contexts", "why_tests_cant": "All configurations.", "anchors": ["src/runtime/Stage.cpp: Stage::find_output, sort_command_outputs"]}
{"id": "C17", "title": "Output after ^ is sent exactly once, on release", "statement": "When a mapping with output `X ^ Y` is triggered by a key press, Y is not output before that key is released, repeats of the key output nothing, the release outputs Y exactly once, and leaving the context first cancels it.", "quantifier": "every configuration, state and pair of output halves", "why_tests_cant": "All states and halves.", "anchors": ["src/runtime/Stage.cpp: Stage::continue_output_on_release, cancel_inactive_output_on_release, apply_output"]}
{"id": "C18", "title": "The emergency exit always works", "statement": "Whatever configuration is loaded, the server asks to exit exactly when the last keyboard key events (ignoring mouse and virtual keys and repeats) were the presses of ShiftLeft, Escape, K in this order with no other keyboard event in between.", "quantifier": "every configuration, state and history of events", "why_tests_cant": "All configurations and histories.", "anchors": ["src/runtime/Stage.cpp: Stage::advance_exit_sequence, should_exit"]}
{"id": "C19", "title": "Validation forgets keys which are not down", "statement": "After validating the state against the set of really pressed keys, no device key that is up remains in the buffered sequence, no output is held by a trigger that is up, and the state of pressed keys is left unchanged.", "quantifier": "every state and every set of pressed keys", "why_tests_cant": "All states.", "anchors": ["src/runtime/Stage.cpp: Stage::validate_state"]}
{"id": "C20", "title": "The history for ?-mappings stays well-formed", "statement": "The recorded history never contains a release without its press, its first event is always a press, and it is empty again when every key has been released and no `?`-mapping is still possible.", "quantifier": "every configuration and history of events", "why_tests_cant": "All histories.", "anchors": ["src/runtime/Stage.cpp: Stage::apply_input, clean_up_history"]}
{"id": "C21", "title": "Stages compose", "statement": "With several stages, the output of each stage is the input of the next: processing by n stages equals feeding the output of the first n-1 stages into the last; zero stages pass events through; events for the server (virtual keys, actions, timeouts) produced by a stage are not consumed by later stages.", "quantifier": "every list of stages and every event", "why_tests_cant": "All stage lists.", "anchors": ["src/runtime/MultiStage.cpp: MultiStage::update"]}
{"id": "C22", "title": "Active contexts are routed to the right stage", "statement": "A set of active context indices of the whole configuration reaches each stage as exactly the indices belonging to that stage, in order and within its bounds.", "quantifier": "every list of stages and every index set", "why_tests_cant": "All splits.", "anchors": ["src/runtime/MultiStage.cpp: MultiStage::set_active_client_contexts"]}
{"id": "C23", "title": "Contexts with a device filter only see their devices", "statement": "A mapping in a context with a device filter is never applied to an event of a device the filter does not match.", "quantifier": "all filters, device lists (up to 64 devices) and events", "why_tests_cant": "All combinations.", "anchors": ["src/runtime/Stage.cpp: Stage::evaluate_device_filters, device_matches_filter"]}
{"id": "C24", "title": "Modifier filters follow the keys", "statement": "A context with a modifier filter is active exactly while all its keys are in the demanded state (respectively not, when inverted), and ContextActive outputs are triggered on exactly the changes of that.", "quantifier": "every configuration, state and context list", "why_tests_cant": "All states.", "anchors": ["src/runtime/Stage.cpp: Stage::update_active_contexts, match_context_modifier_filter"]}
{"id": "C25", "title": "The server sends output in order, without loss or duplication", "statement": "Every output event that is queued is delivered to the virtual device exactly once and in order, regardless of output delays, failing sends and when the queue is flushed.", "quantifier": "every queue content, every pattern of send failures and flush times", "why_tests_cant": "Depends on timing and failures.", "anchors": ["src/server/ServerState.cpp: ServerState::flush_send_buffer, send_key_sequence"]}
{"id": "C26", "title": "Virtual key state and notifications agree", "statement": "A virtual key's state changes only by toggling, every change is reported to the client exactly once with the new state, and setting a key to the state it already has changes and reports nothing.", "quantifier": "every history of toggles and set requests", "why_tests_cant": "All histories.", "anchors": ["src/server/ServerState.cpp: toggle_virtual_key, on_set_virtual_key_state_message, set_virtual_key_state"]}
{"id": "C27", "title": "Mapped virtual keys cannot hang the server", "statement": "A flush of the send queue always terminates even when virtual keys toggle each other in a cycle.", "quantifier": "every stage behaviour and every queue", "why_tests_cant": "Cyclic configurations diverge without the limit.", "anchors": ["src/server/ServerState.cpp: flush_send_buffer"]}
{"id": "C28", "title": "Resetting the configuration releases everything", "statement": "When the configuration is replaced or the client is lost, all keys held down at the virtual device are released.", "quantifier": "every server state and pending queue", "why_tests_cant": "All states incl. pending delays.", "anchors": ["src/server/ServerState.cpp: reset_configuration, release_all_keys"]}
{"id": "C29", "title": "At most one timeout is pending and it is answered with the elapsed time", "statement": "A requested input timeout leads to at most one injected timeout event whose value is the elapsed time when it was cancelled by a key, and the full time when it expired.", "quantifier": "all schedules of events and clock values", "why_tests_cant": "Timing.", "anchors": ["src/server/ServerState.cpp: translate_input, schedule_timeout, cancel_timeout"]}
{"id": "C30", "title": "Requesting the next key info swallows exactly one press", "statement": "After a request, the next device key press is reported once and not processed; all other events are processed as usual.", "quantifier": "every history", "why_tests_cant": "All histories.", "anchors": ["src/server/ServerState.cpp: translate_input"]}
{"id": "C31", "title": "Injected and translated events reach the stage at most once per event", "statement": "Translating an input event terminates and the events fed to the mapping engine are the event itself, preceded by at most one timeout.", "quantifier": "every stage behaviour and event", "why_tests_cant": "Recursive.", "anchors": ["src/server/ServerState.cpp: translate_input"]}
{"id": "C32", "title": "The server receives exactly the configuration the client sent", "statement": "Deserializing a serialized configuration yields the same stages, mappings, filters and directives.", "quantifier": "every configuration", "why_tests_cant": "All configurations.", "anchors": ["src/client/ServerPort.cpp: send_config", "src/server/ClientPort.cpp: read_stages"]}
{"id": "C33", "title": "Messages survive any fragmentation", "statement": "For every sequence of messages and every way the byte stream is split into reads, the receiver handles exactly the sent messages in order.", "quantifier": "every message list and every chunking of the byte stream", "why_tests_cant": "Schedules of the network.", "anchors": ["src/common/Connection.h: read_messages, send_message"]}
{"id": "C34", "title": "Malformed messages are rejected", "statement": "A message whose payload is shorter or longer than its content is reported as failure; reading never goes past the received bytes.", "quantifier": "every byte string", "why_tests_cant": "All byte strings.", "anchors": ["src/common/Connection.h: Deserializer"]}
{"id": "C35", "title": "Key sequence parsing always terminates", "statement": "Parsing any string as input or output expression ends with an error or a sequence.", "quantifier": "every string", "why_tests_cant": "All strings.", "anchors": ["src/config/ParseKeySequence.cpp"]}
{"id": "C36", "title": "Parsed outputs release what they press", "statement": "In every successfully parsed output expression each release is preceded by the press of the same key and contains no states reserved for inputs.", "quantifier": "every string accepted as output", "why_tests_cant": "All strings.", "anchors": ["src/config/ParseKeySequence.cpp: flush_key_buffer, up_any_keys_down"]}
{"id": "C37", "title": "Parsed inputs are usable", "statement": "Every accepted input expression is not empty, contains a press and only states allowed in inputs.", "quantifier": "every string accepted as input", "why_tests_cant": "All strings.", "anchors": ["src/config/ParseKeySequence.cpp"]}
{"id": "C38", "title": "Timeout arithmetic saturates", "statement": "Durations are clamped to 0..4095ms and merging consecutive timeouts saturates; no value wraps around.", "quantifier": "all integers", "why_tests_cant": "Integer ranges.", "anchors": ["src/runtime/Timeout.h: duration_to_timeout, sum_timeouts"]}
{"id": "C39", "title": "Context chains stay within their stage", "statement": "In every loaded configuration a context block without mappings of its own that shares the mappings of the next one is followed by such a block in the same stage.", "quantifier": "every configuration file", "why_tests_cant": "All files.", "anchors": ["src/config/ParseConfig.cpp: parse_line, optimize_contexts, replace_logical_key"]}
{"id": "C40", "title": "Removing contexts does not change the meaning", "statement": "Dropping contexts of other systems and empty contexts does not change which mappings are active for any window.", "quantifier": "every list of contexts and every window", "why_tests_cant": "All lists.", "anchors": ["src/config/ParseConfig.cpp: optimize_contexts"]}
{"id": "C41", "title": "Logical keys mean either physical key", "statement": "After replacing a logical key (such as Shift), a mapping fires for an assignment of left/right exactly as if the mapping had been written out for both physical keys, in place, and no logical key remains.", "quantifier": "every configuration and logical key", "why_tests_cant": "All configurations.", "anchors": ["src/config/ParseConfig.cpp: replace_logical_key"]}
{"id": "C42", "title": "Macro expansion terminates", "statement": "Preprocessing a line ends with an error or a text, also for self-referential macros.", "quantifier": "every set of macros and every line", "why_tests_cant": "Recursive definitions.", "anchors": ["src/config/ParseConfig.cpp: preprocess"]}
{"id": "C43", "title": "Grab filters: the last matching filter decides", "statement": "Whether a device is grabbed is decided by the last filter that matches it, or the default when none does.", "quantifier": "every list of filters and every device", "why_tests_cant": "All lists.", "anchors": ["src/common/Filter.h: evaluate_grab_filters"]}
{"id": "C44", "title": "Every virtual key can be queried", "statement": "Querying, pressing or awaiting any virtual key never accesses memory outside of the table of virtual keys.", "quantifier": "all 256 virtual keys", "why_tests_cant": "All keys.", "anchors": ["src/client/ControlPort.h: m_virtual_keys_down", "src/client/ControlPort.cpp: get_virtual_key_state"]}
{"id": "C45", "title": "At most one control connection per instance id", "statement": "No two connections carry the same non-trivial instance id at the same time.", "quantifier": "every history of connects, disconnects and id requests", "why_tests_cant": "All histories.", "anchors": ["src/client/ControlPort.cpp: on_set_instance_id_message"]}
{"id": "C46", "title": "A triggered terminal command is the one of its mapping", "statement": "The action executed by the client is the one the triggered mapping named.", "quantifier": "every history of configuration updates and triggered actions, every message delay", "why_tests_cant": "Races.", "anchors": ["src/client/ClientState.cpp: on_execute_action_message", "src/config/ParseConfig.cpp: add_terminal_command_action"]}
{"id": "C47", "title": "Client and server agree on the configuration", "statement": "The context indices sent by the client always refer to the configuration the server holds.", "quantifier": "every history of configuration loads (valid or not) and focus changes", "why_tests_cant": "All histories.", "anchors": ["src/client/ClientState.cpp: load_config, update_config"]}
{"id": "C48", "title": "Injected output sequences leave no key down", "statement": "A sequence injected by keymapperctl releases every key it presses.", "quantifier": "every injected sequence", "why_tests_cant": "All sequences.", "anchors": ["src/client/ClientState.cpp: ensure_all_keys_up"]}
{"id": "C49", "title": "Waiting for a virtual key is not fooled by races", "statement": "keymapperctl --wait-pressed returns successfully only after the key was observed down.", "quantifier": "every interleaving of client state changes and requests", "why_tests_cant": "Schedules.", "anchors": ["src/control/main.cpp", "src/client/ControlPort.cpp"]}
{"id": "C50", "title": "Forwarded modifiers stay available", "statement": "With @forward-modifiers each listed modifier is passed through by the first mapping of each stage and suppressed in the outputs of mappings using it.", "quantifier": "every configuration and modifier list", "why_tests_cant": "All configurations.", "anchors": ["src/config/ParseConfig.cpp: prepend_forward_modifier_mappings, suppress_forwarded_modifiers_in_outputs"]}
{"id": "C51", "title": "A wheel step is over once it was processed", "statement": "A wheel step which was forwarded because the following key did not continue a mapped sequence does not take part in matching later input.", "quantifier": "every configuration and input history", "why_tests_cant": "All histories.", "anchors": ["src/runtime/Stage.cpp: forward_from_sequence, finish_sequence", "src/server/ServerState.cpp: translate_input"]}
{"id": "C52", "title": "Output contains only presses and releases of received or configured keys", "statement": "Every event a stage pipeline puts out is a press or release of an actual key without a value, except requested timeouts (which carry their duration) and wheel presses (which carry their step); its key was received as input or is named in a configured output.", "quantifier": "every list of stages, every history of inputs, context changes, device changes and validations", "why_tests_cant": "All configurations and histories.", "anchors": ["src/runtime/Stage.cpp: apply_input, apply_output, update_output, forward_from_sequence", "src/runtime/MultiStage.cpp: MultiStage::update"]}
{"id": "C53", "title": "Delays in outputs are kept", "statement": "The events in front of a delay are sent at once; the events behind it are not sent before the delay has passed, whatever is typed in the meantime, and are sent by the first turn of the server's loop after it.", "quantifier": "every configuration, history, delay and clock", "why_tests_cant": "Depends on the interleaving of inputs, messages and time, and on floating point rounding of the delay.", "anchors": ["src/server/ServerState.cpp: flush_send_buffer, schedule_flush", "src/server/unix/main.cpp: main_loop"]}
{"id": "C54", "title": "Every configurable hold duration works", "statement": "A mapping which requires a key to be held for some milliseconds applies once the server's timeout for it expired.", "quantifier": "every duration from 0 to 4095 ms", "why_tests_cant": "The round trip of milliseconds through floating point seconds fails for 48 of 4096 values.", "anchors": ["src/runtime/Timeout.h: duration_to_timeout, make_input_timeout_event", "src/server/ServerState.cpp: schedule_timeout", "src/server/unix/main.cpp: main_loop"]}
{"id": "C55", "title": "No wheel step is lost", "statement": "Every step of the mouse wheel is given to the mapping engine, also when equal steps follow each other while an output is delayed or a timeout is pending.", "quantifier": "every history of inputs and pending delays", "why_tests_cant": "Depends on timing.", "anchors": ["src/server/ServerState.cpp: translate_input"]}
{"id": "C57", "title": "The active contexts are those of the focused window", "statement": "While the connection to the server works, the server holds the client's configuration and its active contexts are exactly those whose class, title and path filters accept the window the client saw last; none while the client is inactive.", "quantifier": "every history of focus changes, configuration updates and switches, activation toggles, requests of keymapperctl and reconnects", "why_tests_cant": "The client only sends what changed, so the claim depends on the whole history.", "anchors": ["src/client/ClientState.cpp: update_active_contexts, send_config, toggle_active, load_config", "src/config/Config.h: Context::matches"]}
{"id": "C60", "title": "Injected sequences consist of keys devices have", "statement": "A sequence injected with keymapperctl --input or --output contains no logical keys.", "quantifier": "every injected text", "why_tests_cant": "All texts and keyboard layouts.", "anchors": ["src/client/ClientState.cpp: replace_logical_keys"]}
{"id": "C61", "title": "keymapperctl is told the state of virtual keys the server reported last", "statement": "Every answer or notification about a virtual key (but the last one, see C44) tells the state which the server reported last over the current connection.", "quantifier": "every history of messages and connections", "why_tests_cant": "All interleavings of reports, requests, notifications and reconnects.", "anchors": ["src/client/ControlPort.cpp: on_virtual_key_state_changed, send_virtual_key_state, send_virtual_key_toggle_notification, reset"]}
{"id": "C56", "title": "The result of a keymapperctl operation is the answer to its own request", "statement": "When an operation of keymapperctl ends with a result other than timeout or failure, the client received the request of this operation and answered it between the beginning and the end of the operation, and the result code is the one this answer calls for: --is-pressed and --is-released tell the state of the named key at that moment, --press, --release and --toggle tell whether there is such a key, --next-key-info prints information about a key pressed since.", "quantifier": "every command line, every history of the client, every interleaving of both processes, every fragmentation of the messages", "why_tests_cant": "The connection outlives an operation, so a late answer may meet a later request; this depends on the schedule of two processes.", "anchors": ["src/control/main.cpp: make_request", "src/control/ClientPort.cpp: read_virtual_key_state", "src/client/ControlPort.cpp"]}
{"id": "C59", "title": "--timeout sets a timeout for the following operation", "statement": "An operation of keymapperctl has the timeout of the option --timeout which directly precedes it, and none otherwise.", "quantifier": "every command line", "why_tests_cant": "All sequences of options.", "anchors": ["src/control/Settings.cpp: interpret_commandline, print_help_message"]}
{"id": "C62", "title": "Operations time out only when a timeout was given and passed", "statement": "An operation without a timeout does not end with the result timeout.", "quantifier": "every command line, every history of the client, every interleaving and every fragmentation of the messages", "why_tests_cant": "The result depends on how the transport cuts messages.", "anchors": ["src/common/Connection.h: read_messages", "src/control/main.cpp: read_virtual_key_state"]}
{"id": "C63", "title": "Every request of keymapperctl is answered, and nothing else is sent", "statement": "On every connection the client answers each request before it does anything else, except that a request to wait for a virtual key or for the next key is answered as soon as the server reports the key; an answer carries the key which was asked for. There are no other answers and nothing is owed between two messages.", "quantifier": "every history of connections, requests, reports, configuration updates and reconnects", "why_tests_cant": "All interleavings of several connections and the server.", "anchors": ["src/client/ControlPort.cpp", "src/client/ClientState.cpp"]}
{"id": "C64", "title": "Every file which loads is safe to run", "statement": "Every configuration file which is read without an error leads to stages whose mappings have an expression and an existing output, whose outputs name keys, whose context chains end inside of the stage and whose commands are unambiguous; running it on any sequence of key events, context changes and device changes neither leads to undefined behaviour nor to an output which is not a press or release of a key.", "quantifier": "every file with up to 256 terminal commands and 3328 logical keys and every sequence of calls", "why_tests_cant": "All files and all event sequences.", "anchors": ["src/config/ParseConfig.cpp: parse_file", "src/runtime/Stage.cpp: Stage::update", "src/server/ClientPort.cpp: read_stages"]}
{"id": "C65", "title": "Consecutive context headers share the mappings", "statement": "When several context headers precede a block of mappings, a mapping is tried for an event when one of the headers is active and accepts the device of the event.", "quantifier": "every configuration, window, set of held keys and device", "why_tests_cant": "Combinations of headers, windows, modifiers and devices.", "anchors": ["README.md:126-127", "src/runtime/Stage.cpp: update_active_contexts, match_input"]}
{"id": "C66", "title": "Each mapping runs its own terminal command", "statement": "Every terminal command of a configuration has its own action key, which is not changed by the replacement of logical keys.", "quantifier": "every configuration file and every number of commands", "why_tests_cant": "Numbers of commands beyond any test file.", "anchors": ["src/config/ParseConfig.cpp: add_terminal_command_action", "src/runtime/Key.h: first_action, first_logical"]}
{"id": "C67", "title": "Loading a configuration ends", "statement": "Reading any configuration file ends: it is loaded or rejected, and the client never hangs in it.", "quantifier": "every text, every contents of included files, every keyboard layout", "why_tests_cant": "Unboundedly many texts; each of the parser's loops has to make progress on every one of them.", "anchors": ["src/config/ParseConfig.cpp: parse_file, preprocess, parse_modifier_list, parse_key_combination"]}
{"id": "C68", "title": "Macros get the texts between the commas", "statement": "The arguments of a macro call are the texts between the commas outside of strings and nested calls; $n in the macro's text stands for the n-th of them and $$ for their number.", "quantifier": "every macro text, every number of arguments, every nesting of strings and calls", "why_tests_cant": "Unbounded nesting and unboundedly many arguments.", "anchors": ["src/config/ParseConfig.cpp: get_argument_list, skip_arglist, substitute_arguments, preprocess"]}
{"id": "C69", "title": "Key expressions mean what they say", "statement": "An input or output expression written as documented (keys, groups, held keys, negations, time spans, texts, commands, ^ and ?) is read as the events it stands for; an input is matched by exactly the histories it describes, and a text is typed key by key with exactly the needed modifiers held.", "quantifier": "every expression of any nesting and length, every way of spacing it, every set of key names, every history of key events", "why_tests_cant": "Unboundedly many expressions and histories; the tests only compare single expressions.", "anchors": ["src/config/ParseKeySequence.cpp: KeySequenceParser", "src/runtime/MatchKeySequence.cpp: MatchKeySequence"]}
{"id": "C70", "title": "A configuration file means what its lines say", "statement": "A file of mappings, commands, contexts, stages, macros, logical keys and directives written as documented is loaded, and the resulting configuration has, for every focused window, device and held modifiers, exactly the mappings active which the lines say, with logical keys standing for either of their keys, and the terminal commands, device filters, options and names of virtual keys of the file and of the files it includes; a command without an output, a second output for a command in a context, an output for an unknown command, a line which is no mapping, an unknown directive and an include of a missing file are rejected.", "quantifier": "every file of any number and order of lines, every system, every focused window, device and set of held keys", "why_tests_cant": "Unboundedly many files; what a line means depends on all lines before it.", "anchors": ["src/config/ParseConfig.cpp: parse_file, parse_line, parse_context, parse_mapping, parse_command_mapping, parse_logical_key_definition, parse_macro, parse_directive, add_mapping, add_command_mapping, optimize_contexts, replace_logical_key"]}
{"id": "C71", "title": "A macro stands for its text", "statement": "Every name of a macro outside of strings, terminal commands, regular expressions and comments is replaced by what its text expands to; a call is replaced by the text with the expanded arguments in place of the parameters, expanded in turn; the builtin macros compute what the documentation says; $name and ${name} in strings, commands and regular expressions stand for the macro's value without its quotes; everything else stays unchanged.", "quantifier": "every set of macros, every line, every nesting of macros up to the documented limit", "why_tests_cant": "Unbounded texts and nestings.", "anchors": ["src/config/ParseConfig.cpp: preprocess, substitute_variables, substitute_arguments, apply_builtin_macro, contains_variable, get_formal_argument_count"]}
{"id": "C72", "title": "Keys no mapping mentions pass through", "statement": "A key which no mapping mentions, neither by name nor as Any, is output exactly as it is pressed and released, in the same call, whatever else is pressed, held back, timed or active at that time.", "quantifier": "every configuration, every key it does not mention, every history of events of any keys and devices, expired timeouts and changes of the active contexts", "why_tests_cant": "The key can come in between at any point of unboundedly many interleavings with every possible mapping.", "anchors": ["src/runtime/Stage.cpp: apply_input, forward_from_sequence, update_output, release_triggered, continue_output_on_release", "src/runtime/MatchKeySequence.cpp: MatchKeySequence"]}
{"id": "C73", "title": "Keys held back are not lost", "statement": "When a key is held back because it could begin a mapping, and the mapping does not come about because another key it needs is never pressed, the strokes of the key are output after all, at the latest when nothing is held back any more.", "quantifier": "every configuration, every such pair of keys, every history of strokes", "why_tests_cant": "Unboundedly many configurations and interleavings; tests only check single ones.", "anchors": ["src/runtime/Stage.cpp: apply_input, forward_from_sequence, find_longest_match"]}
{"id": "C74", "title": "Keys put out are pressed on the virtual keyboard", "statement": "A key is held on the virtual keyboard, and on no other virtual device, exactly while the last the server put out of it is a press, whatever else is put out and whichever devices come and go.", "quantifier": "every history of requests and inputs of the server, every interleaving with forwarded events and device changes, every key", "why_tests_cant": "Needs all histories; the kernel's part cannot be run in a unit test.", "anchors": ["src/server/unix/VirtualDevicesLinux.cpp: send_key_event, update_key_state, create_keyboard_device", "src/server/ServerState.cpp: flush_send_buffer"]}
{"id": "C75", "title": "Buttons are released where they were pressed", "statement": "A mouse button which was put out as pressed and then as released is not held on any virtual device.", "quantifier": "every history of buttons, motions, used mice and plugged devices", "why_tests_cant": "Depends on which mouse was used and when devices come and go.", "anchors": ["src/server/unix/VirtualDevicesLinux.cpp: send_key_event, forward_event, update_forward_devices"]}
{"id": "C76", "title": "Wheels turn as far as they were turned", "statement": "Every wheel motion is put out once, in order and exactly; on each device whole and fine steps never differ by a step or more; what a wheel reports arrives when no mapping mentions it.", "quantifier": "every sequence of motions of both wheels, of all devices", "why_tests_cant": "Accumulated over unbounded sequences.", "anchors": ["src/server/unix/VirtualDevicesLinux.cpp: send_key_event, update_lowres_wheel", "src/server/unix/GrabbedDevicesLinux.cpp: to_key_event, read_input_event"]}
{"id": "C77", "title": "Positions are within the announced range", "statement": "Positions of absolute axes which are put out lie within the range the virtual device announced, increase with the original and reach both ends.", "quantifier": "every range of a device, every position, every history of devices", "why_tests_cant": "All ranges and positions.", "anchors": ["src/server/unix/GrabbedDevicesLinux.cpp: map_to_range, read_input_event", "src/server/unix/VirtualDevicesLinux.cpp: create_keyboard_device, create_forward_device, forward_event"]}
{"id": "C58", "title": "keymapperctl --type types the text", "statement": "After keymapperctl --type s, applications read exactly the text s from the virtual keyboard, whatever the keyboard layout.", "quantifier": "every text of Unicode characters, every keyboard layout, every history of what was sent before", "why_tests_cant": "All texts and layouts, and it runs through three processes and the kernel.", "anchors": ["src/control/ClientPort.cpp: send_type_string", "src/client/unix/StringTyperImpl.cpp: type", "src/client/unix/StringTyperXKB.cpp: update_layout_xkbcommon", "src/client/unix/StringTyperGeneric.cpp", "src/config/ParseKeySequence.cpp: add_string_typing", "src/server/ServerState.cpp: on_inject_output_message", "src/server/unix/VirtualDevicesLinux.cpp"]}
{"id": "C78", "title": "length[] is the number of characters a string types", "statement": "length[s] expands to the number of characters which typing the string s gives, so that the macro substitute of README.md removes exactly what was typed.", "quantifier": "every string", "why_tests_cant": "All strings.", "anchors": ["src/config/ParseConfig.cpp: apply_builtin_macro", "README.md: substitute"]}
{"id": "C79", "title": "An unmapped key is held for the applications exactly while it is held on the keyboard", "statement": "With any number of stages and whatever else is mapped, typed, toggled, injected or timed meanwhile: a key which no mapping mentions is held on the virtual keyboard exactly when the last report of a grabbed keyboard about it is a press or a repetition, once everything queued was sent, and it is never held on another virtual device.", "quantifier": "every configuration, every history of reports of the grabbed devices and of requests, every clock", "why_tests_cant": "It spans reading of devices, all stages, the queue of the server, the virtual devices and the kernel, for all histories.", "anchors": ["src/server/unix/GrabbedDevicesLinux.cpp: to_key_event", "src/server/unix/main.cpp: main_loop", "src/server/ServerState.cpp: translate_input, flush_send_buffer", "src/runtime/MultiStage.cpp: update", "src/server/unix/VirtualDevicesLinux.cpp: send_key_event"]}
{"id": "C80", "title": "Exactly the devices which are wanted are grabbed", "statement": "Whenever the kernel has no change of devices left to report, the server has grabbed exactly the devices which the last applicable grab filter, or else the default (keyboards, mice when mapped, other devices with keys but without axes and switches) selects; devices plugged in or removed are noticed in the next turn, and all are released when the session ends.", "quantifier": "every set of devices, every history of plugging and unplugging, also while the server is scanning, every list of filters", "why_tests_cant": "Hot-plugging races and all combinations of device properties and filters.", "anchors": ["src/server/unix/GrabbedDevicesLinux.cpp: update_devices, grab, ungrab_all_devices", "src/server/unix/main.cpp: main_loop", "README.md: grab-device-filter"]}
{"id": "C81", "title": "The server never grabs its own virtual devices", "statement": "No device which the server itself created is ever grabbed, so no event it sends is read back.", "quantifier": "every set of devices with any names, every history", "why_tests_cant": "Depends on the names of all devices there may be.", "anchors": ["src/server/unix/GrabbedDevicesLinux.cpp: is_virtual_device, is_supported_device", "src/server/unix/VirtualDevicesLinux.cpp: get_forward_device_name"]}
{"id": "C82", "title": "Every event is attributed to the device it came from", "statement": "The device index handed to the server with an event is the one under which the server knows the name and id of the device which sent it, however devices were plugged and unplugged before; motions leave by the virtual device made for this device.", "quantifier": "every history of plugging and unplugging, every device, every event", "why_tests_cant": "Three parallel lists of devices have to agree after any history.", "anchors": ["src/server/unix/GrabbedDevicesLinux.cpp: read_input_event, grabbed_device_descs", "src/server/unix/VirtualDevicesLinux.cpp: update_forward_devices, forward_event", "src/server/unix/main.cpp: main_loop"]}
{"id": "C83", "title": "Devices are grabbed and released while none of their keys is held", "statement": "A device is grabbed, and released, at a moment when none of its keys is held, so that whoever has seen the press of a key also sees its release.", "quantifier": "every device, every history of keys held while the server waits", "why_tests_cant": "It is about the timing of kernel state.", "anchors": ["src/server/unix/GrabbedDevicesLinux.cpp: wait_until_keys_released, grab_device, ungrab_device"]}
{"id": "C84", "title": "The devices grabbed follow the configuration", "statement": "While a client is connected, and the kernel has no change of devices left to report, exactly the devices are grabbed which the configuration last read from this client asks for: mice if and only if it maps buttons or wheels, and its grab filters. While no client is connected or it has no configuration, nothing is grabbed. A new configuration which asks for the same devices does not interrupt the session.", "quantifier": "every sequence of clients, configurations and other messages in any grouping into reads, every history of devices, failures at any point", "why_tests_cant": "Client, devices and configuration change independently over any number of sessions; it depends on which messages are read together.", "anchors": ["src/server/unix/main.cpp: connection_loop, main_loop, on_configuration_message, on_grab_device_filters_message", "src/server/ServerState.cpp: has_mouse_mappings, has_configuration"]}
{"id": "C85", "title": "The server exits when asked to", "statement": "After a termination signal, or once the emergency exit was typed, the process ends with status 0 in the next turn at the latest, whatever else is going on; no device stays grabbed, and no further client is accepted.", "quantifier": "every history of clients, configurations and devices before, anything that happens after", "why_tests_cant": "It has to hold at any moment of any session.", "anchors": ["src/server/unix/main.cpp: main_loop, connection_loop, on_exit_requested, handle_shutdown_signal, read_initial_config"]}
{"id": "C86", "title": "Output is put out in the session in which it was asked for", "statement": "What is queued for output when a client goes, or was asked for when there was no device to put it out, is put out at once or never, not in a later session.", "quantifier": "every session, every queued output, every moment at which the client goes", "why_tests_cant": "It spans several connections, and depends on the moment of the disconnection.", "anchors": ["src/server/ServerState.cpp: reset_configuration, flush_send_buffer, on_inject_output_message", "src/server/unix/main.cpp: connection_loop, read_initial_config"]}
{"id": "C87", "title": "The client knows the focused window", "statement": "Whenever the client looks for the focused window, the class, title and path its contexts are compared with are those of the window which has the focus on the desktop at that time, so that the contexts active on the server are those which accept it. When no window has the focus no window is assumed.", "quantifier": "every history of windows being opened, closed, renamed and focused, every order in which a compositor announces it, every reconnect", "why_tests_cant": "The compositor announces windows and properties one by one in an order of its choice; which one counts depends on the whole history.", "anchors": ["src/client/unix/FocusedWindowWlroots.cpp", "src/client/unix/FocusedWindowX11.cpp: update", "src/client/unix/FocusedWindowDBus.cpp: update, handle_message", "src/client/unix/FocusedWindowImpl.cpp: update", "src/client/ClientState.cpp: update_active_contexts", "extra/share/gnome-shell/extensions/keymapper@houmain.github.com/extension.js"]}
{"id": "C88", "title": "Looking at the properties of a window is safe", "statement": "Whatever properties applications give their windows, the client does not read beyond what the X server returned.", "quantifier": "every content, length and type of the properties of windows", "why_tests_cant": "The properties are set by any program on the desktop; reading a few bytes too many goes unnoticed in a test.", "anchors": ["src/client/unix/FocusedWindowX11.cpp: get_focused_window, get_window_path"]}
{"id": "C89", "title": "Focus changes are seen at the next update", "statement": "When another window gets the focus, the client knows it after its next update, that is within 50 ms.", "quantifier": "every number of focus changes between two updates", "why_tests_cant": "It depends on how many messages pile up between updates, for instance while the client is inactive.", "anchors": ["src/client/unix/FocusedWindowDBus.cpp: update", "src/client/unix/FocusedWindowWlroots.cpp: update", "src/client/unix/main.cpp: main_loop"]}
{"id": "C90", "title": "Notifications show their text and nothing else", "statement": "Whatever a message contains (an error in the configuration, the title of the focused window, the name of a device), it is shown as it is, and nothing of it is executed by a shell.", "quantifier": "every message, every window title, every device name", "why_tests_cant": "The texts come from outside (any application chooses its window titles); quoting is right only if it is for every text.", "anchors": ["src/client/unix/main.cpp: show_notification", "src/common/output.cpp: vprint", "src/client/ClientState.cpp: on_next_key_info_message"]}
{"id": "C91", "title": "The options in effect are those of the command line and the configuration", "statement": "At every time the client behaves according to the command line overridden by the @options of the configuration which is in use; of update and no-update the last one counts. Exactly the documented arguments are accepted.", "quantifier": "every command line, every sequence of edits, reloads, reconnects and keymapperctl requests", "why_tests_cant": "The options are derived state which has to be refreshed on every path which replaces the configuration.", "anchors": ["src/client/Settings.cpp: interpret_commandline", "src/client/Settings.h: apply_config_options", "src/client/unix/main.cpp: update_options"]}
{"id": "C92", "title": "The configuration is found where the documentation says", "statement": "Without -c the first existing keymapper.conf in $XDG_CONFIG_HOME, $HOME/.config, /etc (each also in the subdirectory keymapper) and the working directory is used; with -c the given one.", "quantifier": "every environment and every set of existing files", "why_tests_cant": "Depends on combinations of environment variables and files which tests do not set up.", "anchors": ["src/client/unix/main.cpp: resolve_config_file_path", "README.md: Configuration"]}
{"id": "C93", "title": "The file which is named is the file which is used", "statement": "@include reads the file of the given name, relative to the configuration, and opening the configuration opens its file.", "quantifier": "every name of a file", "why_tests_cant": "Names pass through wordexp and a shell, which give a meaning to many characters.", "anchors": ["src/common/expand_path.h: expand_path", "src/config/ParseConfig.cpp: parse_directive", "src/client/unix/main.cpp: open"]}
{"id": "C94", "title": "With updates the configuration in use is the one in the file", "statement": "With -u, after each check the configuration in use is the one which the file and the files it includes define, unless there is an error in them.", "quantifier": "every sequence of changes of the file and of the files it includes, with every modification times", "why_tests_cant": "Depends on the interleaving of edits, modification times and checks over an unbounded time.", "anchors": ["src/client/ConfigFile.cpp: ConfigFile::update", "src/client/ConfigFile.cpp: get_latest_modify_time", "src/client/unix/main.cpp: main_loop"]}
{"id": "C95", "title": "--no-notify disables notifications", "statement": "With --no-notify or @options no-notify the client shows no notifications.", "quantifier": "every run with the option, every message", "why_tests_cant": "The option is read in one place and used in another one, through two function pointers.", "anchors": ["src/common/output.cpp: vprint", "src/client/unix/main.cpp: update_options", "src/client/Settings.cpp: print_help_message"]}
{"id": "C96", "title": "The exit status tells whether the configuration is valid, and the client starts with it", "statement": "With --check the client exits with status 0 exactly when the configuration file can be read and has no error. Otherwise it starts with the configuration of that file; when it has an error it starts without mappings, or ends with status 1 when there is no tray icon.", "quantifier": "every command line, environment and content of the file", "why_tests_cant": "The main function is not under test; it has to hold for every combination of arguments, environment and file.", "anchors": ["src/client/unix/main.cpp: main", "src/client/ClientState.cpp: load_config"]}
{"id": "C97", "title": "Loading a configuration is free of undefined behaviour", "statement": "Whatever the text of the configuration file and of the files it includes, loading it either gives a configuration or is rejected with an error: no arithmetic overflows and no character outside of a text is read or removed.", "quantifier": "every configuration text, every set of included files, keyboard layout, regular expression engine and system", "why_tests_cant": "The texts which lead there are combinations of macros, calls, filters and numbers; that there are none for ordinary files is a statement about all files.", "anchors": ["src/config/ParseConfig.cpp", "src/common/parse_regex.h: parse_regex", "src/config/string_iteration.h: try_read_number"]}
{"id": "C98", "title": "On Windows applications see the output in its order", "statement": "While a client is connected, the key strokes, clicks and wheel steps which applications receive (sent by the server or passed on by the hooks) are those the mappings put out, in the same order; what has to wait is sent by a timer.", "quantifier": "every sequence of events of the hooks, messages, timers and disconnects, every configuration and clock", "why_tests_cant": "The hooks are not under test. Two ways lead to the applications, sending and passing on, and whether one overtakes the other depends on what waits in the queue.", "anchors": ["src/server/ServerState.cpp: translate_input, flush_send_buffer", "src/server/windows/main.cpp: keyboard_hook_proc, mouse_hook_proc, window_proc"]}
{"id": "C99", "title": "On Windows nothing stays pressed", "statement": "When the client disconnects or the server exits, every key and button which applications saw pressed because of the server is released; and a key which is released while the server is connected is released for applications.", "quantifier": "every run of the server and every key", "why_tests_cant": "Depends on what waits in the queue at that moment and on what was held before the hooks were installed.", "anchors": ["src/server/ServerState.cpp: reset_configuration, flush_send_buffer", "src/server/windows/main.cpp: window_proc, hook_devices, prevent_button_repeat"]}
{"id": "C100", "title": "On Windows every key event is processed once", "statement": "Every event of a key or button which a hook sees is given to the mappings exactly once (NumLock following Pause as Pause), unless it is a repetition while something waits or the client asked for the next key; at most the event itself is passed on, after everything else; and translating an event ends after at most three nested calls.", "quantifier": "every state of the server, every event, every sequence of calls", "why_tests_cant": "translate_input calls itself in three situations which can coincide; tests run the variant for Linux only.", "anchors": ["src/server/ServerState.cpp: translate_input", "src/server/windows/main.cpp: translate_keyboard_input, translate_mouse_input"]}
{"id": "C101", "title": "On Windows a text is typed as it is written", "statement": "A string in the configuration, or one which is injected, arrives in the application which has the focus as that text (escapes replaced), whatever the keyboard layout has dead keys, AltGr characters or lacks; afterwards no modifier is held and no dead key is pending.", "quantifier": "every text, every keyboard layout, every state of the server in which nothing waits", "why_tests_cant": "The string typer of Windows and SendInput are not under test; which keys are pressed depends on the layout, of which there are hundreds.", "anchors": ["src/client/windows/StringTyper.cpp", "src/config/ParseKeySequence.cpp: add_string_typing_output", "src/server/windows/main.cpp: make_key_input, on_send_key", "src/server/windows/Devices.cpp: send_input"]}
{"id": "C102", "title": "What is read on Windows is sent as the same key", "statement": "A key, button or wheel step which is read from a hook or from the Interception driver and sent unchanged is the same key, button or wheel step for applications; different keys are never sent as the same.", "quantifier": "every scan code with and without prefix, every button, every wheel delta", "why_tests_cant": "The conversions in both directions are separate code with special cases and are not compiled into the tests.", "anchors": ["src/server/windows/main.cpp: get_key_event, make_key_input, get_button_event, make_button_input", "src/server/windows/Devices.cpp: get_key_event, get_mouse_event, get_interception_key_stroke, get_interception_mouse_stroke", "src/runtime/Key.h"]}
{"id": "C103", "title": "On Windows a key is attributed to its device", "statement": "With the Interception driver an event is processed with the index of the device it came from, whose description is at that index, if the device is attached and accepted by the grab filters; otherwise it is not processed. No list is accessed out of range and comparing hardware identifiers ends.", "quantifier": "every sequence of attached and removed devices, filters and events, every list of hardware identifiers", "why_tests_cant": "Needs devices which come and go in any order; four parallel lists and two caches have to stay consistent.", "anchors": ["src/server/windows/Devices.cpp: on_device_attached, on_device_removed, apply_device_filters, get_device_handle, match_hardware_ids", "src/server/windows/main.cpp: window_proc"]}
{"id": "C104", "title": "The virtual keyboard on macOS shows what is held", "statement": "A usage is in a report of the virtual keyboard exactly while something is held which was pressed as that usage: a key is released as what it was pressed, whatever happens to Fn or the directive meanwhile, and when everything is released all reports are empty.", "quantifier": "every sequence of output key events, forwarded events, presses of Fn and changes of the directive", "why_tests_cant": "Needs keys held across changes of Fn in any order; the code needs a virtual device of the system and is not compiled into the tests.", "anchors": ["src/server/unix/VirtualDevicesMacOS.cpp: send_key_event, send_event, toggle_key", "src/server/unix/main.cpp: on_directives_message"]}
{"id": "C105", "title": "The grabbed devices on macOS are the ones wanted", "statement": "After every update exactly the devices are seized which are present, named, not the server's own and wanted by the filters, each once; no list is accessed out of range, and every event is attributed to the description of the device it came from.", "quantifier": "every sequence of devices which come and go, failures to open them, and events", "why_tests_cant": "Needs devices which come and go between any two events; two parallel lists and a queue of indices have to stay consistent.", "anchors": ["src/server/unix/GrabbedDevicesMacOS.cpp: update, handle_input, read_input_event, update_devices", "src/server/unix/main.cpp: main_loop"]}
{"id": "C106", "title": "Strings are typed as they are on macOS", "statement": "The strokes which are output for a string make an application which reads them with the same keyboard layout receive exactly the characters of the string, where backslash n, r and t stand for return and tab; a character which has a key of its own is typed with a single stroke.", "quantifier": "every keyboard layout, every string", "why_tests_cant": "Quantifies over all keyboard layouts including dead keys; tests have one layout and no macOS.", "anchors": ["src/client/unix/StringTyperCarbon.cpp: update_layout", "src/client/unix/StringTyperImpl.cpp: StringTyperImpl::type"]}
{"id": "C107", "title": "Names of keys mean one key", "statement": "Every key has its documented name, the Key/Digit prefixes of letters and digits may be left out, a number of two or more digits is a decimal, octal (0) or hexadecimal (0x) scan code, VirtualN up to 255 is the N-th virtual key; no other text is a key, and no text is two keys.", "quantifier": "every text", "why_tests_cant": "Quantifies over all texts; tests look up a handful of names.", "anchors": ["src/config/get_key_name.cpp: get_key_by_name, try_parse_key_code", "src/config/get_key_name.h"]}
{"id": "C108", "title": "Commands on Windows are run directly or by the terminal as they need it", "statement": "A terminal command which begins with the name of an existing file and uses no characters of the terminal outside of quotes is run as it is, without a terminal; every other command is given to the terminal as it is.", "quantifier": "every command, every file system", "why_tests_cant": "Quantifies over all commands and file systems; the code is only compiled on Windows.", "anchors": ["src/client/windows/execute_terminal_command.cpp: get_filename, contains_terminal_control_characters, execute_terminal_command"]}
{"id": "C109", "title": "On Windows the client knows the focused window and asks for validation in time", "statement": "The contexts are evaluated with the title, class and path of the window which was focused last, a change is reported exactly when one of them changed, and the server is asked to validate the keyboard exactly when the session changed or an inaccessible window was left.", "quantifier": "every sequence of focused windows, timer ticks and session changes", "why_tests_cant": "Needs windows which come and go and handles which are used again; the code is only compiled on Windows.", "anchors": ["src/client/windows/FocusedWindow.cpp: FocusedWindowImpl::update, is_inaccessible", "src/client/windows/main.cpp: validate_state, update_window"]}
{"id": "C110", "title": "Processes of the same version get connected", "statement": "A process which connects gets a connection exactly when the host runs the same version, however many connect at the same time and wherever what they send is cut; whoever gets one was accepted by the host, and the bytes which follow the version are left for the messages.", "quantifier": "every number of processes, every interleaving of their system calls and of the host's, every cut of what is sent", "why_tests_cant": "Needs all interleavings of several processes; the tests do not open sockets.", "anchors": ["src/common/Host.cpp: Host::accept, Host::connect", "src/common/Connection.cpp: Connection::send, Connection::recv", "src/server/unix/main.cpp: connection_loop"]}
{"id": "C111", "title": "The Windows client keeps server and keymapperctl informed", "statement": "On Windows, too, the contexts the client sends refer to the configuration the server has got, the active ones are those which accept the focused window, and keymapperctl is told the state of virtual keys in the running server, also after the server was restarted; no two connections of keymapperctl carry the same instance id.", "quantifier": "every sequence of window messages: data and loss of the server, requests of keymapperctl, timers, choices in the menu, session changes; every file content and every failing send", "why_tests_cant": "The window procedure is only compiled on Windows and needs a server, a window and keymapperctl; the claim is about all their interleavings.", "anchors": ["src/client/windows/main.cpp: window_proc, connect, validate_state", "src/client/ClientState.cpp: load_config, send_config, on_server_disconnected", "src/client/ControlPort.cpp: reset, on_virtual_key_state_changed"]}
{"id": "C112", "title": "A string in an input triggers when it is typed", "statement": "A string literal in an input matches when its characters are typed, exactly with the last of them, however the keys overlap and however Shift or another modifier is pressed and released between them; until then the keys are held back; it does not match with fewer keys, nor while a modifier it does not ask for is held.", "quantifier": "every string, every layout which types it, every order of presses and releases, either Shift and Control key", "why_tests_cant": "The claim is about all strings, all layouts and all ways to overlap the keys; the tests check a handful of them on one layout.", "anchors": ["src/config/ParseKeySequence.cpp: add_string_typing_input", "src/config/ParseConfig.cpp: replace_logical_key", "src/runtime/MatchKeySequence.cpp: operator()", "README.md: Input expressions"]}
{"id": "C113", "title": "Keys which might complete a mapping are held back and replaced by its output", "statement": "When keys are typed which the first mapping that does not reject them might still match, nothing is put out; the press with which that mapping matches puts out exactly its output, in its order, and none of the keys typed. A string in the input of the first mapping is likewise never put out while it is typed, and replaced by the output of the mapping at its last character.", "quantifier": "every configuration, every sequence of presses and releases, every output", "why_tests_cant": "The claim is about all configurations and all ways to type the keys of a mapping; the tests feed some sequences to some configurations.", "anchors": ["src/runtime/Stage.cpp: Stage::update", "src/runtime/Stage.cpp: Stage::process_input", "src/runtime/Stage.cpp: Stage::match_input", "src/runtime/Stage.cpp: Stage::apply_output", "README.md: Mapping"]}
{"id": "C114", "title": "The menu of the tray icon tells the truth", "statement": "While the client runs, the entry Active of the tray icon's menu is marked exactly when keymapper is active, which only clicks on that entry change; the menu has an entry Reload exactly when the configuration is not reloaded automatically; and there is an icon exactly when neither the command line nor the configuration in use asks for none.", "quantifier": "every command line, configuration, sequence of turns of the main loop, of lost connections, changed files and clicks", "why_tests_cant": "The claim is about all interleavings of clicks, file changes and lost connections; there are no tests of the client's main loop and its tray icon.", "anchors": ["src/client/unix/main.cpp: update_options", "src/client/unix/main.cpp: connection_loop", "src/client/unix/TrayIcon.cpp: TrayIcon::initialize", "src/client/unix/TrayIconGtk.cpp: TrayIconGtk::initialize", "src/client/unix/TrayIconCocoa.mm: TrayIconCocoa::initialize"]}
{"id": "C115", "title": "On macOS class and path are those of the application in front", "statement": "Once the events of the system have been handled, the class the client knows is the name of the application in front and the path is the path of its process; the title is empty, so that no context which asks for a title by a text gets active.", "quantifier": "every sequence of connections, switches between applications and updates, every name of an application", "why_tests_cant": "The claim is about all names and all orders of events; the tests do not contain the code for macOS.", "anchors": ["src/client/unix/FocusedWindowCarbon.cpp: to_string", "src/client/unix/FocusedWindowCarbon.cpp: FocusedWindowCarbon::update", "src/client/unix/FocusedWindowCarbon.cpp: FocusedWindowCarbon::handle_front_app_changed", "README.md: Context awareness"]}
{"id": "C116", "title": "The information about the next key tells the truth", "statement": "When the server reports the next key, each keymapperctl which asked for it is told at once, or the user when none did; what is told says under key_name, scan_code, system, title, class, path, device and device-id exactly the name and number of that key, the system, the window which has the focus and the device the key came from, leaving out only what is empty.", "quantifier": "every configuration, sequence of turns, messages and windows", "why_tests_cant": "The claim is about all keys, windows and devices and about every point in the life of a client; there are no tests of the client.", "anchors": ["src/client/ClientState.cpp: ClientState::on_next_key_info_message", "src/client/ControlPort.cpp: ControlPort::reply_next_key_info", "README.md: keymapperctl"]}
{"id": "C117", "title": "Queued output does not wait for the next key", "statement": "Whenever the server waits for input, everything which was to be put out has been put out, or the wait is limited by the time at which the rest is due; the wait ends no later than any pending delay or hold timeout.", "quantifier": "every configuration, sequence of inputs, timeouts, device changes and client messages, and every clock", "why_tests_cant": "The claim is about every point at which the loop may wait, after any interleaving of delays, context changes, injected sequences, virtual keys and reloads; the tests drive ServerState without the loop.", "anchors": ["src/server/unix/main.cpp: main_loop", "src/server/ServerState.cpp: ServerState::flush_send_buffer, schedule_flush, set_active_contexts, reset_configuration"]}
{"id": "C118", "title": "Clients are told keys they asked for", "statement": "A client is told the next key which is pressed only after it asked for it, and at most once per request; a client which does not ask is not told anything, and no key is kept from the applications for it.", "quantifier": "every sequence of clients which connect, send messages and disconnect, of keys and of device changes", "why_tests_cant": "The claim is about requests which outlive the connection they came from, over any number of sessions of the server; the tests only cover one ServerState with one client.", "anchors": ["src/server/ServerState.cpp: ServerState::translate_input, on_request_next_key_info_message, reset_configuration", "src/server/unix/main.cpp: connection_loop"]}
{"id": "C119", "title": "Devices are grabbed for the client which is connected", "statement": "The server grabs devices and maps keys only while a client is connected which sent a configuration that is not empty; what an earlier client sent has no part in it.", "quantifier": "every sequence of clients which connect, send messages, well formed or not, and disconnect, of keys and of device changes", "why_tests_cant": "The claim is about what one connection leaves behind for the next, over any number of sessions; the tests only cover one ServerState with one configuration.", "anchors": ["src/server/unix/main.cpp: read_initial_config, connection_loop", "src/common/Connection.h: Connection::read_messages"]}
{"id": "C120", "title": "On Windows --type runs only what is a command", "statement": "keymapperctl --type \"$(command)\" on Windows types everything the command puts out; any other argument is typed as it is and nothing is run.", "quantifier": "every argument, every command and every way in which its output arrives in parts", "why_tests_cant": "The claim is about every argument and every partition of the output; the expansion runs processes on Windows and no test calls it.", "anchors": ["src/control/windows/expand_command.cpp: expand_command, get_process_output", "src/control/Settings.cpp: interpret_commandline"]}
{"id": "C121", "title": "Who listens is reached", "statement": "When Host::listen succeeded, whoever connects under the name reaches that process until it shuts down or ends itself, whatever other processes start, stop or die; a second one is told that it cannot listen. When all of them ended, in whichever way, the next one can listen.", "quantifier": "every number of processes, every order in which they listen, shut down or are killed, every failure of the calls", "why_tests_cant": "The claim is about every interleaving of processes which use the name; no test starts two of them.", "anchors": ["src/common/Host.cpp: listen, shutdown, set_unix_domain_socket_path"]}
{"id": "C122", "title": "Errors in the configuration name their place", "statement": "When a configuration cannot be loaded because of a line, the error which is shown names the number of the first such line and, if it is in an included file, that file.", "quantifier": "every configuration, every tree of included files up to the allowed depth, whatever a line means", "why_tests_cant": "The claim is about every file and every nesting of includes; the tests compare no message.", "anchors": ["src/config/ParseConfig.cpp: parse_file, error, parse_directive", "src/client/ConfigFile.cpp: update", "src/common/output.cpp: vprint"]}
{"id": "C123", "title": "The server knows the devices it reads from", "statement": "While the server forwards keys, the list of devices by which it evaluates device filters has an entry for each device which is open, in the order in which keys are reported: with the name of the device and the identifier of what has its number. When no change of the devices is left to be read, names and identifiers are those of now.", "quantifier": "every sequence of clients, messages, keys and devices which come and go, also during an update; every outcome of each system call", "why_tests_cant": "The tests run no server and no device; the claim is about every order in which devices change and sessions begin.", "anchors": ["src/server/unix/main.cpp: main_loop, connection_loop", "src/server/unix/GrabbedDevicesLinux.cpp: update, read_input_event", "src/server/ServerState.cpp: set_device_descs"]}
