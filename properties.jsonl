{"id": "C01", "title": "Boot keyboard report layout", "statement": "For any set of pressed outputs, KeymapOutput::as_hid_boot_keyboard_report returns 8 bytes: byte 0 has bit k set exactly when some pressed output carries modifier k, byte 1 is 0, and bytes 2..7 are the first six non-zero keyboard usage codes in press order, padded with zeros. Consumer, custom and mouse outputs never appear in bytes 2..7.", "quantifier": "every list of at most 16 key outputs, every usage byte, every modifier byte", "why_tests_cant": "The list and byte space is unbounded for tests; unit tests show a handful of literals and cannot show no 7th key or other usage leaks into a slot.", "anchors": ["src/keymap.rs: KeymapOutput::as_hid_boot_keyboard_report", "src/key.rs: KeyboardModifiers::as_byte, KeyboardModifiers::union"]}
{"id": "C02", "title": "Modifier codes and modifier bits agree", "statement": "KeyOutput::from_key_code(0xE0+k) is the pure modifier k and has no keyboard usage; every other code stays a plain usage without modifiers. KeyboardModifiers round-trips through bytes and key codes, and union is set union. Hence a modifier key code can never occupy one of the six key slots of a report.", "quantifier": "every byte, every pair of modifier sets, every key code with every modifier byte", "why_tests_cant": "Needs all 256 x 256 combinations and the derived report-level consequence for every list of outputs built by the constructors.", "anchors": ["src/key.rs: KeyOutput::from_key_code, KeyOutput::from_key_code_with_modifiers, KeyboardModifiers::from_key_code, KeyboardModifiers::as_key_codes, KeyboardModifiers::as_byte, KeyboardModifiers::union"]}
{"id": "C03", "title": "pressed_key_codes / consumer / custom codes are complete and never overflow", "statement": "KeymapOutput::pressed_key_codes lists exactly the modifier key codes of the union (ascending) followed by every keyboard usage in press order, and its 24-entry buffer can never overflow (no panic) for up to 16 pressed outputs; pressed_consumer_codes and pressed_custom_codes list exactly the consumer/custom usages in order.", "quantifier": "every list of at most 16 key outputs", "why_tests_cant": "Overflow of a fixed-capacity buffer depends on the worst case over all lists; tests only try short ones.", "anchors": ["src/keymap.rs: KeymapOutput::pressed_key_codes, pressed_consumer_codes, pressed_custom_codes"]}
{"id": "C04", "title": "has_modifiers includes all modifiers (documented)", "statement": "KeyboardModifiers::has_modifiers(a,b) is documented as 'includes all the other modifiers'. The property: a.has_modifiers(b) holds iff every modifier of b is in a.", "quantifier": "every pair of modifier bytes", "why_tests_cant": "A doc/behaviour mismatch that only shows up on pairs with partial overlap or an empty argument; needs the quantifier over all pairs to be settled (it is refuted, and the true meaning proved).", "anchors": ["src/key.rs: KeyboardModifiers::has_modifiers"]}
{"id": "C05", "title": "Mouse output combination", "statement": "pressed_mouse_output is the bitwise union of pressed buttons and, per axis, the saturated sum of movements; combine is commutative with NO_OUTPUT as identity. For outputs of the mouse keys (each axis in {-5,0,5}, at most 16 of them) nothing saturates, so the result is the exact sum and independent of press order. (Full order independence for arbitrary outputs is refuted.)", "quantifier": "every list of mouse outputs; every permutation of pressed keys", "why_tests_cant": "Saturating arithmetic is order-dependent only near the limits; tests do not explore permutations.", "anchors": ["src/key.rs: MouseOutput::combine", "src/keymap.rs: KeymapOutput::pressed_mouse_output", "src/key/mouse.rs: key_output"]}
{"id": "C06", "title": "Reported outputs are always a prefix of the pressed outputs", "statement": "Whatever the history of key presses/releases and sent reports, the HID reporter's reportable outputs are a prefix of the currently pressed outputs: nothing that is not pressed is ever reported, order is preserved, and when something is pressed at least the first output is reported.", "quantifier": "every history of update / report_sent / init calls on the reporter, every pressed list", "why_tests_cant": "A statement over all histories of a stateful counter.", "anchors": ["src/keymap/hid_keyboard_reporter.rs: update, report_sent, reportable_key_outputs"]}
{"id": "C07", "title": "One new key per report, and every key eventually reported", "statement": "Documented: output is limited to one new pressed key per sent report, so the host cannot confuse the order of simultaneous presses. Also liveness: if the pressed outputs stay unchanged, after finitely many reports (the number of pressed outputs suffices) all of them are reported.", "quantifier": "every history of pressed lists and reports", "why_tests_cant": "Needs the exact relationship of consecutive reports over every history; from an empty report two keys can in fact appear at once (refuted in full, proved as 'the number of reported keys grows by at most one per report beyond the first').", "anchors": ["src/keymap/hid_keyboard_reporter.rs", "src/keymap.rs: Keymap::report_output"]}
{"id": "C08", "title": "DistinctReports records exactly the changes", "statement": "After any sequence of reports, DistinctReports holds the all-zero report followed by the sequence with consecutive duplicates removed: adjacent entries always differ, the last entry is the latest report, and every report fed in is present in order. Its equality is reflexive.", "quantifier": "every sequence of 8-byte reports", "why_tests_cant": "Sequences are unbounded.", "anchors": ["src/keymap/distinct_reports.rs: DistinctReports::update, PartialEq::eq"]}
{"id": "C09", "title": "Scheduled events never fire early", "statement": "An event scheduled with delay d (in ms) is not delivered before the scheduler's clock has advanced by at least d, whatever other events are scheduled, cancelled or delivered in between.", "quantifier": "every history of scheduler operations, every delay, every choice of insertion position allowed by slice binary search among equal times", "why_tests_cant": "Depends on all interleavings of scheduling operations and on the unspecified tie-breaking of binary_search.", "anchors": ["src/keymap/event_scheduler.rs: schedule_after, tick"]}
{"id": "C10", "title": "Scheduled events fire in due-time order, exactly once, none lost", "statement": "The scheduler keeps its queue ordered; each tick delivers at most one due event and it is the one with the earliest due time; every scheduled event is delivered exactly once unless cancelled (conservation). An event with k earlier-or-equal events ahead of it is delivered at most k ticks after the first tick at which it is due.", "quantifier": "every history of scheduler operations and ticks", "why_tests_cant": "Ordering, conservation and bounded lateness over unbounded histories.", "anchors": ["src/keymap/event_scheduler.rs: schedule_after, tick, dequeue"]}
{"id": "C11", "title": "Cancelling the events of one key never touches the others", "statement": "After cancelling the events of keymap index i, no scheduled key event of index i is ever delivered, and every other scheduled event is still delivered at its time.", "quantifier": "every scheduler state reachable by any history, every index", "why_tests_cant": "Quantifies over all histories and later ticks.", "anchors": ["src/keymap/event_scheduler.rs: cancel_events_for_keymap_index, tick, dequeue"]}
{"id": "C12", "title": "No immediate event is left undelivered between API calls", "statement": "After every call of handle_input / tick / init that returns, the queue of immediate events is empty: whatever events keys and contexts emit for an input are all handled within that same call; hence requires_polling() is true exactly when inputs are waiting.", "quantifier": "every key system, every history of API calls", "why_tests_cant": "The event loop is re-entrant; a test cannot exclude an interleaving that strands an event (the loop stops on a cancelled placeholder).", "anchors": ["src/keymap.rs: handle_pending_events, process_input, tick", "src/keymap/event_scheduler.rs: dequeue, init"]}
{"id": "C13", "title": "Time-until-next-event contract", "statement": "Documented for handle_input_after_time / tick_to_next_scheduled_event: the returned time until the next event, if any, is > 0 so 0 can mean 'no events'. (Refuted: two events due at the same ms make it 0, three make the subtraction underflow.) Proved part: when no event is overdue the value is exactly the distance to the earliest scheduled event and positive.", "quantifier": "every history of API calls", "why_tests_cant": "Requires reasoning about all sets of scheduled times; tests use one timer at a time.", "anchors": ["src/keymap.rs: handle_input_after_time, tick_to_next_scheduled_event", "src/keymap/event_scheduler.rs: next_event_time"]}
{"id": "C14", "title": "Input queue: FIFO, one input per call, dropped only when full", "statement": "For every key system: each call takes at most one input from the front of the queue, waiting inputs keep their order, and an input is discarded only if 31 inputs are waiting, and then nothing but the idle timer changes. On keymaps of keys that are never undecided, the physical inputs handled are exactly those of an abstract FIFO queue: processed in arrival order, immediately if the keymap is idle, and n waiting inputs are drained after n+1 ticks.", "quantifier": "every key system, every history of inputs and ticks", "why_tests_cant": "Ordering and latency over all schedules of inputs versus ticks.", "anchors": ["src/keymap.rs: handle_input, tick, process_input"]}
{"id": "C15", "title": "A physical key is never pressed twice", "statement": "At every point the pressed inputs contain at most one entry per keymap index, and the key that is still undecided (pending) is not at the same time pressed; pressing an already pressed index does not add another press.", "quantifier": "every key system, every history of API calls, including nested event handling", "why_tests_cant": "Invariant of a re-entrant state machine for arbitrary key systems.", "anchors": ["src/keymap.rs: process_input, has_pressed_input_with_keymap_index, resolve_pending_key_state"]}
{"id": "C16", "title": "No stuck keys", "statement": "After a key's release has been accepted and all queued input has been processed with no key left pending, that key is no longer pressed. (Refuted in full when a pending key resolves to another pending key, since queued inputs are re-queued in reverse; proved when that does not occur.)", "quantifier": "every key system, every history of inputs and ticks", "why_tests_cant": "Requires tracking every queued, re-queued and dropped event over unbounded histories.", "anchors": ["src/keymap.rs: process_input, resolve_pending_key_state, update_pending_state"]}
{"id": "C17", "title": "Capacity limits: bounded state, and where the firmware panics", "statement": "In every state reached without panic: at most 16 pressed inputs, at most 16 events queued behind a pending key, at most 31 queued inputs, at most 31 immediate and 32 scheduled events. The limits are hard: there are input histories of ordinary key presses (e.g. 17 inputs while a tap-hold key is undecided, or 17 keys held) on which handle_input/tick panic instead of discarding input.", "quantifier": "every key system, every history", "why_tests_cant": "Panics need specific long histories; boundedness needs an invariant.", "anchors": ["src/keymap.rs: MAX_PRESSED_KEYS, process_input", "src/keymap/event_scheduler.rs: MAX_PENDING_EVENTS, MAX_SCHEDULED_EVENTS"]}
{"id": "C18", "title": "Callbacks", "statement": "In each call, the functions invoked are exactly those registered for the callback events handled in that call, each once (and in the order of the events on keymaps whose keys are never undecided); no unregistered callback is ever invoked; registering again for the same id replaces the function. Registering a third distinct callback id panics (capacity 2).", "quantifier": "every history of registrations, inputs and ticks, every key system", "why_tests_cant": "Exactly-once over all histories.", "anchors": ["src/keymap.rs: set_callback, set_callback_extern, handle_event", "src/key/callback.rs: new_pressed_key"]}
{"id": "C19", "title": "init() restores the initial state", "statement": "After init() the keymap behaves as newly constructed: nothing pressed, nothing pending, nothing queued or scheduled, clocks at zero, empty report. (Refuted in full: key-system context such as active layers, caps word, sticky modifiers and running macros survives init(); the rest is proved.)", "quantifier": "every history before init()", "why_tests_cant": "Requires comparing all reachable states with the initial state.", "anchors": ["src/keymap.rs: init", "src/keymap/event_scheduler.rs: init", "src/keymap/hid_keyboard_reporter.rs: init"]}
{"id": "C20", "title": "Clock and idle time", "statement": "After any sequence of calls the scheduler clock equals the sum over ticks of the ms-per-tick then in force, and the idle time equals the same sum since the last handle_input; both as long as no u32 overflow (about 49.7 days) occurs.", "quantifier": "every history of handle_input, tick and set_ms_per_tick calls, every key system", "why_tests_cant": "Sum over unbounded histories; overflow cannot be waited for in a test.", "anchors": ["src/keymap.rs: tick, handle_input, set_ms_per_tick", "src/keymap/event_scheduler.rs: tick"]}
{"id": "C21", "title": "Tap-hold decision", "statement": "A pending tap-hold key resolves at the first deciding event: its own release decides tap; the timeout decides hold; with HoldOnKeyPress the first press decides hold; with HoldOnKeyTap a release of the most recently pressed other key decides hold; nothing else decides. With Ignore, other keys never influence the decision.", "quantifier": "every sequence of events, every config, every key index", "why_tests_cant": "Sequences of interleaved presses/releases are unbounded.", "anchors": ["src/key/tap_hold.rs: hold_resolution, handle_event, update_pending_state"]}
{"id": "C22", "title": "Tap-hold end to end in time", "statement": "In an otherwise idle keymap, a tap-hold key pressed and held resolves to hold exactly when the configured timeout has elapsed, and released any time before resolves to tap: for every timeout and every release time, the reported key is the tap key before and the hold key from the timeout on.", "quantifier": "every timeout value, every hold duration, every tap/hold keyboard code", "why_tests_cant": "Tests try one duration on each side of one timeout.", "anchors": ["src/key/tap_hold.rs", "src/keymap.rs: tick, handle_input"]}
{"id": "C23", "title": "Tap-hold and chord required idle time", "statement": "With required_idle_time = r a tap-hold key pressed when the keymap has been idle for less than r ms immediately acts as its tap key and schedules nothing; otherwise it becomes pending with its timeout scheduled. Likewise a chorded key becomes its passthrough key.", "quantifier": "every idle time and every r", "why_tests_cant": "Boundary condition over all values.", "anchors": ["src/key/tap_hold.rs: new_pressed_key", "src/key/chorded.rs: sufficient_idle_time, new_pressed_key"]}
{"id": "C24", "title": "Tap-dance decision", "statement": "A tap-dance key with n definitions resolves to definition k when the timeout of its k-th re-press is the first to elapse without another press, and to the last definition as soon as it has been re-pressed n-1 times; stale timeouts of earlier presses are ignored; it never selects an undefined entry for 1..n definitions. (With zero definitions it panics.)", "quantifier": "every sequence of events, every number of definitions", "why_tests_cant": "Unbounded event sequences.", "anchors": ["src/key/tap_dance.rs: handle_event, update_pending_state"]}
{"id": "C25", "title": "Layered key lookup", "statement": "A layered key acts as its definition on the highest active layer that defines it, else on the default layer if set and defined there, else its base key.", "quantifier": "every layer state, every layered key, every default layer", "why_tests_cant": "All combinations of active layers and definitions.", "anchors": ["src/key/layered.rs: highest_active_key, LayeredKey::new_pressed_key, active_layers"]}
{"id": "C26", "title": "Layer modifier semantics over histories", "statement": "Hold activates a layer on press and deactivates it on release; toggle flips it; set-active-layers makes exactly the given layers active; default sets the default layer: after any sequence of layer events the set of active layers equals the abstract set semantics, and each event only affects the layers it names.", "quantifier": "every sequence of layer events on every number of layers", "why_tests_cant": "Histories are unbounded.", "anchors": ["src/key/layered.rs: handle_layer_event, ModifierKeyState::handle_event, set_active_layers"]}
{"id": "C27", "title": "Sticky modifiers are pressed and released in balance", "statement": "Tapping sticky modifier keys presses their virtual modifiers and all of them are released when the modified key is released (or on the next press, if so configured). Up to four modifiers this balance is exact. (A fifth is pressed but never released: refuted in full.)", "quantifier": "every sequence of events at the sticky context, every config", "why_tests_cant": "Needs balance over all histories; the four-entry limit is never reached by tests.", "anchors": ["src/key/sticky.rs: Context::handle_event, KeyState::update_state"]}
{"id": "C28", "title": "Caps word", "statement": "While caps word is active the virtual left shift is held exactly: enabling presses it once, disabling or typing any key other than letters, unshifted digits, minus, backspace, delete, the shift keys or a key without a key code releases it; word keys never end it; toggling twice returns to inactive.", "quantifier": "every sequence of events, every key code and modifier byte", "why_tests_cant": "All 65536 code/modifier combinations and unbounded histories.", "anchors": ["src/key/caps_word.rs: Context::handle_event, Key::new_pressed_key"]}
{"id": "C29", "title": "Chord resolution", "statement": "A pending chorded key resolves to a chord only if that chord is one of the configured chords containing the key and all of its indices have been pressed while pending; with unambiguous completion it resolves immediately; pressing a key outside every possible chord, releasing the key, or the timeout resolves to an already satisfied chord or else to the passthrough key.", "quantifier": "every chord configuration and every sequence of events", "why_tests_cant": "Configurations and event orders are unbounded.", "anchors": ["src/key/chorded.rs: PendingKeyState::handle_event, check_resolution, chords_for_keymap_index"]}
{"id": "C30", "title": "Chord members: only the primary key acts", "statement": "When a chord resolves, the key whose index is first in the chord acts as the chord's key and every other member does nothing; a chord once resolved stays active until one of its keys is released and chords overlapping an active chord are not offered.", "quantifier": "every configuration and history of chord events", "why_tests_cant": "Histories and configurations unbounded.", "anchors": ["src/key/chorded.rs: Key::new_pressed_key, Key::update_pending_state, AuxiliaryKey, Context::handle_event"]}
{"id": "C31", "title": "Macros run in order, exactly once", "statement": "The automation context executes every accepted execution's instructions in order, each exactly once, executions in FIFO order, one instruction per step; empty executions are ignored and an execution is dropped only if 8 are queued.", "quantifier": "every sequence of enqueue / next-instruction events, every instruction array", "why_tests_cant": "Unbounded histories of overlapping macros.", "anchors": ["src/key/automation.rs: enqueue, execute_head, handle_event, key_events_for"]}
{"id": "C32", "title": "A running macro always finishes", "statement": "Property: once started, a macro's remaining instructions are eventually executed. (Refuted: resolving a pending key cancels the scheduled continuation of a macro started from the same keymap index, after which no macro ever runs again.)", "quantifier": "every history", "why_tests_cant": "Needs a specific interaction of cancellation with macros.", "anchors": ["src/keymap.rs: resolve_pending_key_state", "src/keymap/event_scheduler.rs: cancel_events_for_keymap_index", "src/key/automation.rs"]}
{"id": "C33", "title": "Key event buffers never overflow", "statement": "The events emitted by one call into the composite context or any key system always fit the four-entry KeyEvents buffer, so that buffer never causes a panic.", "quantifier": "every context state reachable, every event", "why_tests_cant": "Fixed-capacity buffer over the sum of several subsystems' outputs.", "anchors": ["src/key.rs: KeyEvents", "src/key/composite.rs: Context::handle_event", "src/key/sticky.rs", "src/key/automation.rs: execute_head"]}
{"id": "C34", "title": "Split keyboard messages round-trip", "statement": "Every physical press/release with index < 128 serialises to a frame of at most 4 bytes that deserialises to the same event; receiving the bytes of any sequence of messages through a rolling buffer whose last byte is zero (as at start-up and after every frame) yields exactly those events; from any other buffer contents at most three wrong events come before the first message and everything after is exact. (Refuted for indices >= 128 and virtual keys: serialisation panics.)", "quantifier": "every event, every sequence of messages, every prior buffer content", "why_tests_cant": "All indices and all stream interleavings.", "anchors": ["src/split.rs: Message::serialize, deserialize, receive_byte"]}
{"id": "C35", "title": "Slice keeps its contents", "statement": "Slice::from_slice(xs) of any xs within capacity gives back exactly xs from as_slice/iteration and panics beyond capacity.", "quantifier": "every list and every capacity", "why_tests_cant": "All lengths.", "anchors": ["src/slice.rs"]}
{"id": "C36", "title": "C API event and report conversion", "statement": "Keymap input events convert to Rust events and back without change for physical keys; the C HID report carries the boot report, up to the first four consumer codes, first six custom codes and the mouse output, zero-filled.", "quantifier": "every event, every list of outputs", "why_tests_cant": "All inputs.", "anchors": ["smart_keymap/src/lib.rs"]}
{"id": "C37", "title": "Composite dispatch: events reach only their own subsystem", "statement": "An event of one key kind (e.g. a layer event) never changes the context of another kind, and keys of one kind ignore other kinds' events.", "quantifier": "every context state, every event", "why_tests_cant": "All context states.", "anchors": ["src/key/composite.rs: Context::handle_event, update_state, update_pending_state, TryFrom impls"]}
{"id": "C38", "title": "Plain keys: report follows what is held", "statement": "On a keymap of plain (keyboard/consumer/custom/mouse) keys, after processing any sequence of presses and releases of at most 16 distinct keys, the pressed outputs are exactly the outputs of the keys whose last event was a press, in order of press.", "quantifier": "every keymap of plain keys, every sequence of inputs and ticks", "why_tests_cant": "Unbounded sequences.", "anchors": ["src/keymap.rs: handle_input, tick, pressed_keys", "src/key/keyboard.rs", "src/key/composite.rs"]}
{"id": "C39", "title": "Key release drops output", "statement": "While no key is pending, processing the release of a key removes exactly that key's entry and leaves every other pressed key and virtual key in place and in order, except for the effects of the virtual key presses and releases emitted meanwhile, which add one virtual key at the end or remove one matching virtual key; virtual key inputs have exactly that effect.", "quantifier": "every state, every key system", "why_tests_cant": "All states.", "anchors": ["src/keymap.rs: process_input"]}
{"id": "C40", "title": "Deterministic result independent of recursion depth", "statement": "Every API call has at most one outcome: the model's recursion bound never changes a result once it suffices, so the outcomes stated by the other properties are those of the real (unbounded) recursion.", "quantifier": "every key system, state and call", "why_tests_cant": "Meta-property of the model for all bounds.", "anchors": ["src/keymap.rs: handle_event, process_input, handle_pending_events"]}
{"id": "C41", "title": "Holding several keys never crashes the chord context", "statement": "Holding any number of keys the keymap supports (16) must not panic. (Refuted: the generated firmware sizes the chord context's array of pressed keys as twice the largest chord of the keymap, and a press whose index is larger than all held ones indexes out of bounds when that array is full: with two-key chords, holding five ordinary keys panics.) Proved: the exact condition under which a press panics there; it cannot happen while fewer keys are held than the array has entries.", "quantifier": "every set of held keys, every array size, every press order", "why_tests_cant": "The crash needs more held keys than twice the largest chord, in an order where the new key has the largest index; the unit tests use a 16-key chord limit.", "anchors": ["src/key/chorded.rs: insert_pressed_index, press_index, Context::handle_event", "src/key/composite.rs: CHORDED_MAX_PRESSED_INDICES", "ncl/keymap-codegen.ncl: max_chord_size"]}
{"id": "C42", "title": "Calls that advance time are ticks", "statement": "handle_input_after_time and tick_to_next_scheduled_event leave the keymap in exactly the state that the corresponding number of single ticks (and then the input) leaves it in, so every history of API calls has the same effect as one made of single ticks and inputs.", "quantifier": "every key system, state, duration and history", "why_tests_cant": "Tests use the time-advancing calls and single ticks separately; the equivalence is over all states.", "anchors": ["src/keymap.rs: handle_input_after_time, tick_by, tick_to_next_scheduled_event, tick"]}
{"id": "C43", "title": "A held key stays pressed", "statement": "A key that is reported as pressed stays pressed, as the same key, through any further inputs, ticks, macros and undecided keys, until its own release is processed.", "quantifier": "every key system that emits no physical inputs (the composite one in particular), every history before and after", "why_tests_cant": "Histories unbounded; includes queueing and re-queueing behind undecided keys.", "anchors": ["src/keymap.rs: process_input, update_pending_state, resolve_pending_key_state, tick"]}
{"id": "C44", "title": "No stuck layers", "statement": "A layer that only hold keys activate is active only while one of them is pressed, and (if they are all at one position and nothing else deactivates the layer) as long as one is pressed; with no key pressed, layered keys act as on the base or default layer. This includes hold keys reached through tap-hold, tap-dance, layered and chorded keys. (Without the one-position condition the second half is refuted: releasing one of two hold keys switches the layer off under the other; after init the first half is refuted.)", "quantifier": "every keymap, layer and history of inputs and ticks", "why_tests_cant": "Layer state and pressed keys evolve through queued inputs, undecided keys, macros and recursion; the agreement must hold after every history.", "anchors": ["src/key/layered.rs: ModifierKey, Context::handle_event", "src/keymap.rs: process_input, handle_event, tick"]}
{"id": "C45", "title": "The report is the outputs of the pressed keys, in order", "statement": "At any time the reported outputs are, in the order pressed, the outputs of the pressed keys and virtual keys. Each pressed key acts as one of the keys configured at its index (directly, or through tap-hold, tap-dance, layered and chorded keys) and contributes exactly that key's own output: its key code and modifiers, consumer code, custom code, or mouse button or movement; a sticky key its modifiers or nothing; layer, macro, callback and caps word keys nothing. A key that is still undecided is a tap-hold, tap-dance or chorded key.", "quantifier": "every composite keymap, configuration and history of API calls", "why_tests_cant": "Which key an index acts as and in which state depends on the whole history; tests check single scenarios.", "anchors": ["src/keymap.rs: pressed_keys, process_input, update_pending_state, resolve_pending_key_state", "src/key/composite.rs: new_pressed_key, update_pending_state, update_state, key_output", "src/key/keyboard.rs, consumer.rs, custom.rs, mouse.rs, sticky.rs: key_output"]}
{"id": "C46", "title": "Nothing is typed that is not configured", "statement": "Every output ever reported is the output of a key some index of the keymap can act as, or of a virtual key; and a virtual key is only ever pressed by the caller, or is left shift when the keymap has a caps word key, or the modifiers of one of its sticky keys, or in a press or tap instruction inside one of the macros of its macro keys.", "quantifier": "every composite keymap, configuration and history of API calls", "why_tests_cant": "An absence statement over all histories, including events waiting in queues and the scheduler.", "anchors": ["src/keymap.rs: pressed_keys, handle_event", "src/key/automation.rs: execute_head, key_events_for", "src/key/sticky.rs: update_state", "src/key/caps_word.rs: handle_event"]}
{"id": "C47", "title": "The wrappers around the keymap do what they say", "statement": "Driving a keymap through the observing wrapper or through the keyboard back end is the same as making the documented sequence of plain calls: the same keymap results, and the list of reports the observer collects is the list of the outputs at each reported step, with successive repetitions removed where the wrapper says so. Asking for a report does not change how the keymap behaves afterwards. Ticking until the keymap has no scheduled event stops as soon as there is none. The back end maps a matrix position to the configured index, and ignores positions without one.", "quantifier": "every key system, keymap and sequence of wrapper calls", "why_tests_cant": "Equivalence of two interfaces for all call sequences; tests compare a few.", "anchors": ["src/keymap/observed_keymap.rs: ObservedKeymap", "src/keymap/observed_eb_keymap.rs", "keyberon-smart-keyboard/src/input/smart_keymap.rs: KeyboardBackend, keymap_index_of"]}
{"id": "C48", "title": "The firmware delivers every report once, in order", "statement": "Whatever key events arrive and whichever USB writes fail, the keyboard reports received by the host are the reports the keymap computed, each exactly once and in order (the RTIC loop may leave out a report equal to its predecessor); only the latest can be outstanding. After a tick with successful writes the host's keyboard, mouse and consumer state is that of the current output. The loop does not crash where the keymap does not.", "quantifier": "every key system and every sequence of key events, ticks and write outcomes", "why_tests_cant": "Write failures interleave arbitrarily with events; there are no firmware tests with failing endpoints.", "anchors": ["stm32-embassy-smart-keyboard/src/main.rs: keymap loop", "rp2040-rtic-smart-keyboard/src/main.rs, stm32f4-rtic-smart-keyboard/src/main.rs: tick and USB tasks", "keyberon-smart-keyboard/src/input/smart_keymap.rs: KeyboardBackend"]}
{"id": "C49", "title": "A matrix scan reports exactly the closed switches", "statement": "A scan that meets no pin error reports at each position whether that switch is closed and leaves every row unselected; a new matrix has every row unselected; the boot key is the switch at row 0, column 0; after a scan that failed anywhere, one complete scan restores the rows. All debounced events of a scan are handed on in order and mapped to key indices, then a tick.", "quantifier": "every matrix size, set of closed switches, pattern of pin failures and list of events", "why_tests_cant": "Pin failures at every point of a scan cannot be produced on hardware in tests.", "anchors": ["keyberon-smart-keyboard/src/matrix.rs: Matrix, DirectPins", "keyberon-smart-keyboard/src/input.rs: Keyboard::events", "keyberon-smart-keyboard/src/split.rs"]}
{"id": "C50", "title": "Caps word holds left shift exactly while it is on", "statement": "Between any two calls the virtual left shift is pressed exactly once while caps word is on and not at all while it is off: caps word never leaves shift stuck and never types a lower-case word. Hence while it is on, left shift is among the reported outputs, and while it is off a left shift is reported only for a pressed key configured to report it. The same virtual key must not be pressed by the caller, by a macro or by a sticky left shift, and the keymap must not have been re-initialised (init forgets the pressed shift but not that caps word is on).", "quantifier": "every composite keymap, configuration and history of inputs, ticks, reports and other calls except init, with any other keys undecided, held or running macros meanwhile", "why_tests_cant": "The shift is pressed and released by events travelling through the scheduler and the queues of undecided keys; tests try a few words.", "anchors": ["src/key/caps_word.rs: Context::handle_event", "src/keymap.rs: handle_event, process_input, pressed_inputs"]}
{"id": "C51", "title": "Sticky modifiers are pressed as long as they are in force, and no longer", "statement": "Between any two calls a modifier is pressed at least once for every sticky modifier still in force, for caps word if it is that modifier, and for every release of it still waiting in a queue. If never more than three sticky modifiers are in force before a call it is pressed exactly that often, so once nothing needs it it is not pressed. (A fifth tap with four in force presses a modifier that nothing ever releases.)", "quantifier": "every composite keymap, configuration, modifier and history without init in which neither the caller nor a macro presses or releases the same virtual key", "why_tests_cant": "Depends on the interleaving of sticky keys, undecided keys and queued releases; tests use one or two sticky keys.", "anchors": ["src/key/sticky.rs: Context::handle_event, KeyState::update_state", "src/keymap.rs: handle_event, process_input, pressed_inputs"]}
{"id": "C52", "title": "No key stays undecided", "statement": "A tap-hold, tap-dance or chord key whose meaning is still open is decided by its timeout at the latest: by the clock of the keymap, between any two calls, an undecided key was pressed at most one timeout ago (a tap-dance key: one timeout per tap so far), plus one tick, plus 32 ticks per timeout because only one due event is handled per tick. So for every configuration there is one bound on how long any key can stay undecided. While a key is undecided the keymap says so to its caller: it has scheduled events, and a next event time.", "quantifier": "every composite keymap, configuration, binary search, tick length up to a bound and history of every kind of call, including init, with other keys held or undecided meanwhile", "why_tests_cant": "The timeout travels as an event that could be cancelled, overtaken or lost to another key's decision; tests wait for one key at a time.", "anchors": ["src/key/tap_hold.rs: new_pressed_key, update_pending_state", "src/key/tap_dance.rs: new_pressed_key, update_pending_state", "src/key/chorded.rs: new_pressed_key, update_pending_state", "src/keymap.rs: Keymap::tick, process_input, handle_event", "src/keymap/event_scheduler.rs: schedule_after, cancel_events_for_keymap_index, tick"]}
{"id": "C53", "title": "A scan of the matrix reads every key off its own switch", "statement": "The C firmware's matrix scan gives every key index exactly the state of the switch wired to it, whichever other switches are closed, for diodes in either direction and for every keymap from matrix positions to indices that uses an index at most once. Indices without a switch are left alone. Every driven line is high again afterwards, so the next scan starts from the same state, also after the check for the bootloader key at start, which looks at row 0 and column 0 only.", "quantifier": "every matrix size, wiring, set of closed switches and raw buffer, for a start state with at most the first line low", "why_tests_cant": "Ghost keys come from combinations of closed switches with a line left low; there are exponentially many combinations.", "anchors": ["firmware/ch32x035-usb-device-compositekm-c/keyboard/matrix/col_to_row.c: keyboard_matrix_scan_raw", "firmware/ch32x035-usb-device-compositekm-c/keyboard/matrix/row_to_col.c: keyboard_matrix_scan_raw", "firmware/ch32x035-usb-device-compositekm-c/keyboard/matrix/col_to_row.c: keyboard_matrix_init, keyboard_matrix_is_sw_1_1_pressed", "firmware/ch32x035-usb-device-compositekm-c/keyboard/keyboard.c: keyboard_init"]}
{"id": "C54", "title": "Debouncing makes an event exactly when a key has settled", "statement": "Whatever a switch does from scan to scan, the C firmware makes an event for its key exactly when what the key counts as changes, and that is determined by its readings: a key counts as pressed (released) after six equal readings in a row until six opposite ones. Glitches of five scans or fewer make no event. Presses and releases of each key alternate, beginning with a press. Within a scan the events come in the order of the keys. Keys do not influence each other.", "quantifier": "every number of keys up to 65536, every wiring and every sequence of switch states of any length", "why_tests_cant": "The counter's behaviour depends on the whole history of readings; tests play a few bounce patterns.", "anchors": ["firmware/ch32x035-usb-device-compositekm-c/keyboard/keyboard_matrix.c: key_state_changed, keyboard_matrix_scan"]}
{"id": "C55", "title": "A split half sends every accepted event once, in order", "statement": "However the calls that queue events, the DMA's byte transfers and the transfer-complete interrupt interleave, the bytes a half of a split C keyboard sends are exactly the messages of the events for which keyboard_split_write returned 0, in the order of the calls: no event is skipped, doubled or torn. Nothing is left behind: once the DMA is done and no interrupt waits, everything accepted has been sent, and it gets there in a bounded number of steps without further calls. An event is refused only when at least fifteen earlier ones have not left. For the first 128 keys nothing panics.", "quantifier": "every interleaving of calls (in their four steps), byte transfers and interrupts, of any length, and every queue position", "why_tests_cant": "The lost-wakeup race between the call's check of the busy flag and the interrupt that clears it appears in few of the interleavings; tests on the target cannot enumerate them.", "anchors": ["firmware/ch32x035-usb-device-compositekm-c/keyboard/keyboard_split_tx_dma.c: keyboard_split_write, KEYBOARD_SPLIT_TX_DMA_IRQ_HANDLER"]}
{"id": "C56", "title": "The other half registers exactly the events sent, if its interrupts are served in time", "statement": "The receiving half registers the events of the bytes that arrive, decoded in order across its two DMA buffers, whichever of the idle-line and buffer-full interrupts come when; at most 31 bytes wait, and serving the interrupts once leaves none. End to end, the events registered are always a beginning of the events sent, and exactly the accepted ones once both sides are at rest. This needs that no byte arrives between the idle-line handler's reading of the DMA counter and its switch of buffers: such a byte is lost with its event, and if it fills the buffer, old events are registered again.", "quantifier": "every interleaving of arriving bytes, idle-line detection and the steps of both handlers, of any length, and every sender history", "why_tests_cant": "The buffers are switched by two interrupts racing the DMA; the failures need a byte within a few instructions.", "anchors": ["firmware/ch32x035-usb-device-compositekm-c/keyboard/keyboard_split_rx_dma.c: keymap_split_receive_bytes, KEYBOARD_SPLIT_USART_IRQ_HANDLER, KEYBOARD_SPLIT_RX_DMA_IRQ_HANDLER"]}
{"id": "C57", "title": "The USB host receives every changed report of the C firmware once, in order", "statement": "In the C keyboard firmware the timer interrupt makes reports and the main loop hands them to the USB endpoints. Whatever the order of timer interrupts, main-loop steps and host polls, as long as they avoid a few harmful moments, the keyboard and consumer packets the host receives are exactly the reports that differ from the one before, in order and without repetition, the last possibly still on its way; the keymap is not ticked before the host has everything, and the loop never gets stuck. The reports are those of the keymap alone given the scanned events in order, and the firmware panics only where the keymap would. The harmful moments are real: a timer interrupt while the loop remembers a report as sent loses the next one; a poll between enabling the endpoint and marking it busy silences the keyboard for good; a bus reset with a packet on its way loses it. For the mouse it is false even at harmless moments: a released button can stay down.", "quantifier": "every schedule of timer interrupts with any scanned events, main-loop steps (down to single bytes copied), host polls, enumerations and bus resets, of any length, and every keymap", "why_tests_cant": "The races are between interrupts and single instructions of the main loop on the target; tests on a host never run them.", "anchors": ["firmware/ch32x035-usb-device-compositekm-c/app/main.c: main", "firmware/ch32x035-usb-device-compositekm-c/app/usbd_composite_km.c: TIM3_IRQHandler", "firmware/ch32x035-usb-device-compositekm-c/app/ch32x035_usbfs_device.c: USBFS_Endp_DataUp, USBFS_IRQHandler"]}
{"id": "C58", "title": "The Bluetooth keyboard tells the keymap of exactly the changes between scans", "statement": "In the Bluetooth keyboard firmware every scan of a square switch matrix reads each switch; on a matrix that is not square the scan reads out of bounds. Whatever the schedule of interrupts, timers and events, the input events given to the keymap are exactly the changes from each scan to the next, in order, without debouncing; the number of pressed keys it keeps is right (up to 255 keys); and the reports it makes are those of the keymap alone called in the same way.", "quantifier": "every matrix size and wiring, every schedule of interrupts, units of time and handled events, every keymap", "why_tests_cant": "The firmware runs on a microcontroller with a vendor task system; there are no tests of it, and the claim ranges over schedules.", "anchors": ["firmware/ch58x-ble-hid-keyboard-c/keyboard/matrix/col_to_row.c: keyboard_matrix_scan_raw", "firmware/ch58x-ble-hid-keyboard-c/keyboard/keyboard_matrix.c: keyboard_matrix_scan", "firmware/ch58x-ble-hid-keyboard-c/APP/hidkbd.c: HidEmu_ProcessEvent"]}
{"id": "C59", "title": "The Bluetooth keyboard never stops scanning while it is needed", "statement": "At any time the Bluetooth keyboard either waits for the interrupt of a key press, or has a scan of the keys coming, never both and never neither. It waits only when no key was down in the last scan, and goes to sleep only right after a scan when the keymap has no event waiting. Awake, it scans at least every 13 units of 0.625 ms; woken by an interrupt, within 2.", "quantifier": "every schedule of interrupts, units of time and handled events of any length, every keymap", "why_tests_cant": "A missed re-arm would only show on the device, after some particular sequence of interrupts and timers.", "anchors": ["firmware/ch58x-ble-hid-keyboard-c/APP/hidkbd.c: HidEmu_ProcessEvent", "firmware/ch58x-ble-hid-keyboard-c/keyboard/keyboard.c: keyboard_await_interrupt, keyboard_start_scanning, GPIOA_IRQHandler_impl"]}
{"id": "C60", "title": "The Bluetooth host ends up with the latest report", "statement": "Each report the Bluetooth keyboard sends is the latest of the keymap at that time. As long as no report fails, whenever none is due the host has the latest report of each kind, which is the case at the latest one unit of time after the keymap made it and once the events set have been handled. If reports may fail this is false: a failed report is not tried again until the next change, so a released key can stay down at the host.", "quantifier": "every schedule, every pattern of failing reports, every keymap, each of the keyboard, consumer and mouse reports", "why_tests_cant": "It depends on the interleaving of timers, events and failures of the radio.", "anchors": ["firmware/ch58x-ble-hid-keyboard-c/APP/hidkbd.c: HidEmu_ProcessEvent"]}
{"id": "C61", "title": "The keymap's clock on the Bluetooth keyboard", "statement": "As long as no keymap timeout is handled, the keymap's clock on the Bluetooth keyboard runs at most 2/3 ms per unit of 0.625 ms, plus 8 ms per input event. With timeouts this is false: a timeout started for one key moves the clock to the timeout of another, so a tap-hold key can turn to hold long before its time. Asleep with no timeout started the keymap is not called until a key is pressed, although it can have events scheduled: a tap-dance key can stay undecided, and a released key down, for ever. Asleep with less than one tick (8 ms) to go, the next event never comes, however many timeouts are handled.", "quantifier": "every schedule of interrupts, units of time and handled events, every keymap", "why_tests_cant": "Time on the device is the interplay of two timers, sleep and the keymap's own clock; no test covers it.", "anchors": ["firmware/ch58x-ble-hid-keyboard-c/APP/hidkbd.c: HidEmu_ProcessEvent", "src/keymap.rs: tick_by, tick_to_next_scheduled_event"]}
{"id": "C62", "title": "A keyboard with layers is exactly what its layers say", "statement": "Take a keymap of ordinary keys, callback keys, layer keys (hold, toggle, default, set layers) and layered keys of these, nested to any depth. Then at any time the keyboard reports, in the order they were pressed, the outputs of the keys that are down, each with the meaning it had when it was pressed: what it is on the highest layer then active that defines it, or else on the default layer, or else on the base layer. The active layers and the default layer are those given by the presses and releases of the layer keys. Inputs accepted count 32 ticks later at the latest. Each press of a callback key calls the function registered for it once, in the order of the presses. Nothing panics while the inputs name keys of the keymap, at most 16 things are down and the clock has not run out. The default layer is not always that of the default-layer key pressed last: such a key sets it again at its release.", "quantifier": "every such keymap with any number of layers and keys, every sequence of inputs, ticks and reports at any pace, every configuration", "why_tests_cant": "The meaning of a key depends on the whole history of layer keys; tests check single combinations of layers.", "anchors": ["src/key/layered.rs: Context::handle_event, new_pressed_key, ModifierKeyState::handle_event", "src/keymap.rs: Keymap::handle_input, process_input, tick, report_output", "src/key/composite.rs: System"]}
{"id": "C63", "title": "The firmware has the keys that keymap.ncl writes", "statement": "If the build of a keymap.ncl succeeds, the generated keymap has one key for each position of the base layer, and that key is the one written there: the key of the base layer, with the keys that the layers above write at the same position as its layers, under the chords it leads or is part of. This holds for every key kind, keys made of keys to any depth, layers written as arrays or as strings of names separated by any white space, and records with their fields in any order. Macros become instructions of the generated configuration. The build succeeds if the layout meets the stated conditions and no index or number outgrows its bits. Four things that can be written fail or change meaning: a macro nested two levels deep, a caps word key under another layer's key, an upper layer shorter than the base layer (all rejected), and a set of layers that names one twice (another layer is activated).", "quantifier": "every keymap.ncl with any keys, any number of layers, names and chords, and any options", "why_tests_cant": "The generator shares, numbers and lowers keys through several tables; tests build a few dozen sample keymaps.", "anchors": ["ncl/keymap-ncl-to-json.ncl", "ncl/validators.ncl", "ncl/chording.ncl", "ncl/layered-key.ncl", "ncl/smart_keys/*/keymap-ncl-to-json.ncl", "ncl/keymap-codegen.ncl", "ncl/smart_keys/*/keymap-codegen.ncl"]}
{"id": "C64", "title": "The generated configuration is the one keymap.ncl asks for, with sizes that fit", "statement": "Each option of keymap.ncl (timeouts, required idle times, interrupt response, sticky release, instruction duration) has its value in the generated configuration, or the documented default if it is left out. The chords are listed in the order written, so that a chord's number means the same in the keys and in the configuration. The generated sizes are large enough for all chords, for each chord, and for two held at once. Every generated key with layers has exactly as many entries as the keyboard has layers, and that is the number of layers of the key with most of them.", "quantifier": "every keymap.ncl whose build succeeds", "why_tests_cant": "Sizes are computed from the whole keymap and checked by no test; one too small panics or loses keys only when the keys concerned are pressed.", "anchors": ["ncl/keymap-codegen.ncl: config, layer_count", "ncl/smart_keys/chorded/keymap-codegen.ncl", "ncl/smart_keys/layered/keymap-codegen.ncl", "ncl/smart_keys/automation/keymap-codegen.ncl"]}
{"id": "C65", "title": "From keymap.ncl to the report", "statement": "Write a keymap.ncl of ordinary keys, callback keys and layer keys on any number of layers, build the firmware and use it: press and release keys in any order and at any pace, at most 16 at a time. Nothing panics, and 32 ticks after the last input the report is exactly the keys that are down, in the order pressed, each as written on the highest layer that was active and not transparent at its position when it was pressed; the functions registered for the callback keys pressed have been called, once per press and in order. What is down is determined by the layout and the inputs alone. A keyboard whose upper layers are transparent everywhere is an exception: it is generated with no layers and a layer key panics.", "quantifier": "every such keymap.ncl, every sequence of inputs, ticks and reports", "why_tests_cant": "Crosses the configuration language, the code generator and the run-time engine; no test runs all three on more than fixed samples.", "anchors": ["ncl/keymap-ncl-to-json.ncl", "ncl/keymap-codegen.ncl", "src/key/layered.rs", "src/keymap.rs: Keymap::handle_input, tick, boot_keyboard_report"]}
{"id": "C66", "title": "A program of C calls does what the Rust interface says", "statement": "Every call of the C interface stands for fixed calls of the Rust interface: a press, a release or another event for that input; a tick for a tick followed by a report; a timed input or a wait for the next event likewise followed by a report; initialising, setting the tick length and registering callbacks (0: reset, 1: bootloader, any other number: nothing, custom callbacks by their two numbers, the eleven Bluetooth commands in order) for the same. A program of C calls leaves the keymap exactly as these do, hands back the reports and times they return (0 if nothing is scheduled) and whether the keymap needs polling, and panics only where they do, or at an assertion of debug builds. On a keyboard with layers driven from C by presses, releases and ticks, after 47 ticks without input the report shows exactly the keys, custom codes, consumer codes and mouse state that its layers say are down.", "quantifier": "every keymap and system of keys, every sequence of C calls", "why_tests_cant": "The C tests call a few functions in fixed orders; a mapping that is wrong for one command or one order of calls goes unnoticed.", "anchors": ["smart_keymap/src/lib.rs: keymap_init, keymap_set_ms_per_tick, keymap_register_input_event, keymap_register_input_keypress, keymap_register_input_keyrelease, keymap_tick, keymap_register_input_after_ms, keymap_next_event_timeout, keymap_requires_polling, keymap_register_callback, keymap_register_custom_callback, keymap_register_bluetooth_callback"]}
{"id": "C67", "title": "From the switches to the USB host", "statement": "A keyboard with the CH32X C firmware whose keys are ordinary keys, callback keys and layer keys: hold the switches still for six scans and then until 48 reports were made, and if no input was dropped, the keys that are down are those whose switches are closed, and the last packets the USB host received say exactly what these keys send on the layers that the history of presses selected; with all switches open nothing remains pressed. Once the device is enumerated, a bounded number of loop steps, polls and scans gets there from any state. The inputs passed to the keymap are exactly the debounced changes of the switches, in order. The firmware only stops when more keys are down than the keymap has room for or the clock overflows: never, before 2^32 scans, with at most 16 keys. The same holds from a keymap.ncl of such keys. If inputs may be dropped, a key can stay pressed at the host for good.", "quantifier": "every keymap of such keys and keymap.ncl describing one, every wiring of a matrix, every sequence of switch states, every interleaving of timer interrupts, loop steps, host polls, enumeration and bus resets at harmless moments", "why_tests_cant": "Needs the matrix, debouncer, queue, keymap, report buffer and USB endpoints together under all interleavings; no test links them.", "anchors": ["firmware/ch32x035-usb-device-compositekm-c/app/main.c: main", "firmware/ch32x035-usb-device-compositekm-c/app/usbd_composite_km.c: KB_Scan, KB_Scan_Init", "firmware/ch32x035-usb-device-compositekm-c/keyboard/keyboard.c: keyboard_init", "smart_keymap/src/lib.rs: keymap_tick", "src/keymap.rs: Keymap::handle_input"]}
{"id": "C68", "title": "Layers and tap-hold keys together", "statement": "On a keyboard whose keys are ordinary keys, callback keys, layer keys, tap-hold keys of these and layered keys of all of these, after any calls the outputs, the active layers and the callbacks made are those of an ideal keyboard that took the inputs in order, where each press of a tap-hold key stood, from its press to its release, for its tap key or its hold key: for the tap key only if it was pressed too soon after other input or was released before it was made a hold, and for the hold key only if it was interrupted as configured or its time passed first. What a later key means already depends on what the tap-hold key was decided to be: a key tapped during a layer-tap is looked up on the layer. The inputs not yet taken are waiting in order, headed by the undecided key if there is one; once nothing is scheduled all have been taken, and that happens after a bounded number of ticks without input; up to 31 inputs are never dropped. The keymap keeps running as long as the pressed keys fit, the clock does not overflow, at most 16 inputs wait behind an undecided key and there are not 32 presses of tap-hold keys within one timeout.", "quantifier": "every keymap of such keys, every sequence of inputs where a key that is down is not pressed again, and ticks, every tap-hold configuration", "why_tests_cant": "The decision is taken after later inputs have arrived, which must then be played back as if it had been known; needs all interleavings of inputs, ticks and decisions.", "anchors": ["src/keymap.rs: Keymap::process_input, Keymap::handle_pending_events, Keymap::tick", "src/key/tap_hold.rs: System::new_pressed_key, PendingKeyState::update_pending_state", "src/key/layered.rs: System::new_pressed_key", "src/key/composite.rs: Context::handle_event"]}
{"id": "C69", "title": "Tap-hold keys of a keymap.ncl, end to end", "statement": "If the firmware is built from a keymap.ncl whose layers have ordinary keys, callback keys, layer keys and tap-hold keys of these, then after any presses and releases (within the room of C68) and a bounded wait the keyboard reports exactly what the layers of the file say is down, each press of a tap-hold key counting as the key or as its hold modifier as the order of the inputs, the time and the tap-hold options of the file (timeout 200 ms and ignored interruptions by default) say; a layer-tap key switches the layer for the keys pressed after it. The inputs and the decisions leave no choice what is down.", "quantifier": "every keymap.ncl of such keys, every sequence of inputs and ticks within the room of C68", "why_tests_cant": "The way from the file through the generated tables to the report must hold for all layouts together with all orders of inputs and all decision times.", "anchors": ["ncl/keymap-codegen.ncl", "ncl/keymap-ncl-to-json.ncl", "src/keymap.rs: Keymap::tick, Keymap::process_input", "src/key/tap_hold.rs: System::new_pressed_key"]}
{"id": "C70", "title": "One-shot modifiers, one-shot layers and caps word on a whole keyboard", "statement": "On a keymap of ordinary keys, callback keys, layer keys of every kind (hold, toggle, one-shot, default layer, set of layers), one-shot (sticky) modifiers, caps word and layered keys of these, in any mixture, the keys reported after any sequence of inputs and ticks are those of one simple keyboard after the inputs taken so far, and 32 ticks later those after all inputs accepted; layers, caps word, latched modifiers and callback invocations are that keyboard's too. In particular, on a keyboard at rest: a tapped one-shot modifier goes with the next key and no further; held together with a key it is an ordinary modifier; a tapped one-shot layer holds for the next key; caps word shifts letters until a key outside words. Nothing panics while there is room for what is down; room is there for any history of at most eight presses, but not for sixteen taps of a one-shot modifier with nothing typed in between.", "quantifier": "every such keymap, configuration, sequence of inputs, ticks and other API calls", "why_tests_cant": "The three features share the virtual keys, the event queue and the press events of other keys; that they do not disturb each other must hold for all interleavings.", "anchors": ["src/keymap.rs: Keymap::tick, Keymap::process_input, Keymap::handle_event", "src/key/sticky.rs: Context::handle_event, update_pressed_state", "src/key/caps_word.rs: Context::handle_event", "src/key/layered.rs: Context::handle_event, update_pressed_state", "src/key/callback.rs"]}
{"id": "C71", "title": "Chords on a whole keyboard", "statement": "On a keymap of ordinary keys, layer keys, callback keys, keys that belong to chords (of such keys), and layered keys of all of these, in any mixture, the outputs, layers, and callback invocations at any time are those of one simple keyboard after the inputs taken so far, where each press of a chord key has one of these outcomes, and the outcomes fit the inputs and the time: it joins a chord that is down and it belongs to; it acts on its own at once, because no chord is on offer or the keyboard was not idle for long enough and the key is not of the chord that went down last; a chord goes down, because all its keys were pressed before the waiting key was released, before the timeout, and with no other key in between; or it acts on its own because that did not happen. The first key of a chord acts as the chord, the others do nothing. A chord is down until one of its keys is released. Inputs that come while a key waits are taken in order afterwards; once nothing is scheduled, all inputs let in have been taken, and up to 31 are always let in. Left alone, the keymap reaches a state in which nothing is scheduled, within 96 times the chord timeout plus 96 ticks.", "quantifier": "every such keymap, configuration with at most 256 chords, sequence of inputs, ticks and other API calls that does not panic, in which no key is pressed twice without a release", "why_tests_cant": "Which key a press becomes depends on the order and timing of all other presses, on overlapping chords and on active layers; tests try a handful of orders for one or two chords.", "anchors": ["src/keymap.rs: Keymap::tick, Keymap::process_input, Keymap::handle_event", "src/key/chorded.rs: Context::handle_event, PendingKeyState::handle_event, Key::new_pressed_key, AuxiliaryKey::new_pressed_key", "src/key/layered.rs: LayeredKey::new_pressed_key"]}
{"id": "C72", "title": "Chords of keymap.ncl layouts, end to end", "statement": "Build the firmware's keymap from a keymap.ncl whose layers hold ordinary keys, modifier keys, consumer, custom and mouse keys, layer keys and callbacks, with chords of such keys. Press and release keys in any order and at any pace. Whenever the keymap has nothing left to do, the HID report is that of the keys the layout says are down: a key that came to be part of a chord is the key of that chord if it is the chord's first key and nothing if it is another; every other key is what the highest active layer of keymap.ncl shows at its position. Which presses form a chord follows from the inputs, and from chord timeout and required idle time as set in keymap.ncl or else the documented defaults. At any time before that the outputs are those of the layout after some of the inputs, in order, with the rest waiting behind a key that belongs to a chord.", "quantifier": "every keymap.ncl of such keys that builds, with at most 256 chords, every sequence of inputs, ticks and other API calls that does not panic and presses no key twice without a release", "why_tests_cant": "Combines all layouts with all input schedules; a wrong chord number, a first key confused with another, or chords above layers instead of below shows only for particular layouts and orders of presses.", "anchors": ["ncl/keymap-ncl-to-json.ncl: chorded_keys", "ncl/keymap-codegen.ncl: chorded", "src/keymap.rs: Keymap::tick, Keymap::process_input", "src/key/chorded.rs: Key::new_pressed_key, AuxiliaryKey::new_pressed_key, PendingKeyState::handle_event"]}
{"id": "C73", "title": "One-shot and caps word keys of keymap.ncl layouts, end to end", "statement": "Build the firmware's keymap from a keymap.ncl whose layers hold ordinary keys, modifier keys, consumer, custom and mouse keys, layer keys of every kind (one-shot ones included), callbacks, one-shot modifier keys and the caps word key. Press and release keys in any order and at any pace, as long as there is room for the keys that are down (up to eight presses always fit). Nothing panics, and 32 ticks after the last input the HID report is that of the keys the layout says are down, and the callbacks that were asked for have been called. In particular one-shot modifiers tapped from rest modify the next key and no other, held they are plain modifiers, a tapped one-shot layer key shows the layer's key for one key, and caps word shifts letters until a key that ends the word.", "quantifier": "every keymap.ncl of such keys that builds, every sequence of inputs, ticks and other API calls within the room", "why_tests_cant": "Combines all layouts with all input schedules; a one-shot key that reads the wrong modifiers, layer or release option, or that is lost on an upper layer, shows only for particular layouts and orders of presses.", "anchors": ["ncl/keymap-ncl-to-json.ncl: serialize_key, sticky options", "ncl/keymap-codegen.ncl: sticky, caps_word, layered", "src/keymap.rs: Keymap::tick, Keymap::process_input", "src/key/sticky.rs: Context::handle_event, KeyState::handle_event", "src/key/caps_word.rs: Context::handle_event", "src/key/layered.rs: Context::handle_event"]}
{"id": "C74", "title": "Control transfers of the USB firmware in C", "statement": "A host that reads a descriptor, the configuration, a status, an idle rate or a protocol from the keyboard gets exactly those bytes, cut to the length it asked for, whatever acknowledgements are lost and whatever reports and suspends happen in between; a transfer begun can always be finished. What it sets (address, configuration, remote wake-up, idle rate, protocol, LEDs) is set when the transfer has ended, and nothing else; the address changes only then. Halting an endpoint and ending it concern that endpoint only. Requests that are not served are answered with STALL until the next request and change nothing. A bus reset brings address, configuration, remote wake-up and all report endpoints back. No history of requests, data, reports and resets makes the firmware copy outside its arrays.", "quantifier": "every history of well-formed requests, data packets, reports, suspends and resets; every request; every pattern of lost acknowledgements", "why_tests_cant": "A transfer is a schedule of packets, lost acknowledgements and interruptions by other endpoints, after any history; a wrong toggle, a stale pointer or a remaining length that is off by one shows only for certain lengths and orders.", "anchors": ["firmware/ch32x035-usb-device-compositekm-c/app/ch32x035_usbfs_device.c: USBFS_IRQHandler, USBFS_Endp_DataUp", "firmware/ch32x035-usb-device-compositekm-c/app/usb_desc.c: MyDevDescr, MyCfgDescr, KeyRepDesc, MouseRepDesc, ConsumerRepDesc", "firmware/ch32x035-usb-device-compositekm-c/app/usb_desc.h"]}
{"id": "C75", "title": "What a host makes of the reports, going by the report descriptors", "statement": "A host that reads the reports as the keyboard's report descriptors say sees down exactly the first six key codes pressed and the modifiers held; the consumer keys pressed; the first three mouse buttons; and the movements and scrolling of the mouse. Reports have the lengths the descriptors promise. Over USB, once the host has taken what is due to it, it sees the keys of the keymap's latest outputs. Over USB that holds of key codes up to 145, over Bluetooth up to 101 and of one consumer key at a time.", "quantifier": "every list of pressed outputs; every run of the firmware and every schedule of its interrupts; every usage of every page", "why_tests_cant": "Whether a report means what the keymap meant depends on two tables of bytes, the descriptor and the report, agreeing for every combination of keys; tests compare the bytes with expected bytes and never decode them by the descriptor.", "anchors": ["firmware/ch32x035-usb-device-compositekm-c/app/usb_desc.c: KeyRepDesc, MouseRepDesc, ConsumerRepDesc", "firmware/ch58x-ble-hid-keyboard-c/Profile/hidkbdservice.c: hidReportMap", "smart_keymap/src/lib.rs: KeymapHidReport", "src/keymap.rs: as_hid_boot_keyboard_report"]}
{"id": "C76", "title": "Keyboards with layers and tap-dance keys", "statement": "On a keyboard of letters, layers, callbacks and tap-dance keys, driven by any inputs, ticks and reports, the reports, the layers and the callbacks are at every moment those of an ideal keyboard: a tap-dance key that goes down keeps the inputs after it waiting; pressed again, its time starts anew; when the time is up, or there is no further choice, it becomes the choice for the number of times it was tapped, as the layers are then; the inputs about other keys are then taken in the order they came, and after them the last one about the key. If the tick length is set before the first tick, no dance goes on after its time, so the calls alone determine the reports. Left alone, the keymap settles, and then no dance and no input is left over. The keymap keeps running (does not panic) as long as the clock does not overflow, the keyboard has room for each next call (at most 16 keys are down, and no more than the chord tracker holds, and at most 16 inputs wait behind a dance) and presses are not taken at 32 different times within the timeout.", "quantifier": "every keymap of such keys at every nesting of layered keys, every configuration and timeout, every finite sequence of inputs, ticks, reports and tick lengths", "why_tests_cant": "Inputs may come at any tick of a dance, about any key, with the queue in any state, and each later press depends on how the dance ended; tests try a few sequences of one key.", "anchors": ["src/key/tap_dance.rs: System, PendingKeyState, Event", "src/key/layered.rs: Context, ModifierKey, LayeredKey", "src/keymap.rs: Keymap::handle_input, Keymap::tick, Keymap::handle_pending_events, Keymap::pressed_keys"]}
{"id": "C77", "title": "Keyboards with layers and macro keys", "statement": "On a keyboard of letters, layers, callbacks and macro keys, driven by any inputs, ticks and reports, the reports, the layers, the callbacks and whether anything is scheduled are at every moment those of an ideal keyboard: a macro key starts the macro for its press, that for its release, and, when a macro of its own is over and it is still down, that for being held; macros are played one instruction at a time and one macro after another, at most eight waiting; a tapped key goes up after the duration of an instruction. As long as a macro has instructions left exactly one next step is due. Once nothing is scheduled all macros are over, and if macros only tap keys, no key of a macro is down. Left alone, with no macro for being held, the keymap settles within a bound that the instruction table gives. If all macro keys are at one place, a held key goes on playing.", "quantifier": "every keymap of such keys at every nesting of layered keys, every instruction table and duration, every finite sequence of inputs, ticks, reports and tick lengths", "why_tests_cant": "Macros overlap with each other, with keys typed by hand and with layer changes at any tick; tests play one macro of one key.", "anchors": ["src/key/automation.rs: System, Context, Execution, Instruction, Event", "src/key/layered.rs: Context, ModifierKey, LayeredKey", "src/keymap.rs: Keymap::handle_input, Keymap::tick, Keymap::handle_pending_events, Keymap::pressed_keys"]}
{"id": "C78", "title": "A string macro types its text", "statement": "K.string_macro accepts exactly the texts of the 95 printable ASCII characters. When a key with the macro of a text is pressed while nothing is scheduled and no key is reported, and no other key is pressed after it, then a computer with the US layout that gets the keyboard report after every call has at every moment typed a beginning of that text and nothing else, in order, with repeated letters and shifted characters, however the ticks, releases and reports come; and after (length * (duration + 2) + 2) ticks it has typed the whole text and no key is left in the report.", "quantifier": "every text, every keymap of letters, layers, callbacks and macro keys, every history before the press, every sequence of ticks, releases and reports after it, every instruction duration longer than a tick", "why_tests_cant": "A text may have any length and any of 95 characters in any order; the release of a character and the press of the next are due at the same time, and the macro competes with the input queue in every tick.", "anchors": ["ncl/smart_keys/automation/lib.ncl: string_to_instructions", "ncl/smart_keys/keyboard/key-extensions.ncl: characters and shifted characters", "ncl/hid-usage-keyboard.ncl", "ncl/keys.ncl: K.string_macro", "src/key/automation.rs: System, Context, Instruction::Tap", "src/keymap.rs: Keymap::tick, Keymap::handle_input, KeymapOutput::as_hid_boot_keyboard_report"]}
{"id": "C79", "title": "A keymap remapped to another keyboard is the same keymap", "statement": "Remapping a keymap.ncl (ncl/layouts/remap.ncl) to another keyboard succeeds exactly if every layer has the number of keys that the mapping takes apart and every key of a chord goes to exactly one key of the other keyboard. The result has the same options, and the firmware built from it has, at each key of the other keyboard, the key that the original has at the position it takes, with the same layers and chords, or a key without a function. Playing the same keys on both keyboards in the same order, each at any pace and with keys without a function pressed in between, gives the same reports and the same callbacks.", "quantifier": "every keymap.ncl that writes a layout, every mapping of positions, every history of inputs on both keyboards (for the reports: layouts of ordinary, callback and layer keys)", "why_tests_cant": "The mapping, the layout, the chords and the histories are unbounded; tests only compare one 36-key layout on two keyboards.", "anchors": ["ncl/layouts/remap.ncl: into_layout, remapped_indices, remap_index, remap_chords", "ncl/layouts/remap-36keys.ncl", "ncl/keymap-ncl-to-json.ncl", "ncl/keymap-codegen.ncl", "tests/ncl/keymap-42key-rgoulter/keymap.ncl: from_3x5_3"]}
{"id": "C80", "title": "Macro keys of a keymap.ncl type what is written", "statement": "Writing K.string_macro of a text in keymap.ncl gives a macro key that taps the keys of the characters of the text, for exactly the texts of printable ASCII. The firmware built from a layout with macro keys on any layers runs, at each position and under any active layers, exactly the macros (on press, while pressed, on release) that the layout has there, with the instruction duration of the keymap's options or else 10 ms. Pressing a key that is on the active layers the string macro of a text types that text on a computer with the US layout, and nothing else.", "quantifier": "every keymap.ncl that writes a layout of ordinary, callback, layer and macro keys without chords; every text; every set of active layers; every setup, history and sequence of calls after the press", "why_tests_cant": "The layouts, macros, texts and histories are unbounded; tests only use a few fixed keymaps.", "anchors": ["ncl/smart_keys/automation/lib.ncl: string_to_instructions, string_macro", "ncl/smart_keys/automation/key-extensions.ncl", "ncl/smart_keys/automation/keymap-ncl-to-json.ncl", "ncl/smart_keys/automation/keymap-codegen.ncl", "ncl/keymap-codegen.ncl", "src/key/automation.rs", "src/keymap.rs"]}
{"id": "C81", "title": "A tap-dance key of a keymap.ncl acts as the key written for the number of taps", "statement": "The firmware built from a layout with tap-dance keys has, at each position and under any active layers, a tap-dance key exactly if the layout has one there, and its choices mean what the keys written in tap_dances mean; its timeout is that of the options or else 200 ms. When the keyboard is settled, whatever else is held, tapping such a key some number of times, each press less than the timeout after the one before, and then holding it, adds nothing to the report, activates no layer and calls nothing before the last press is as old as the timeout; from then on, or at once if there is no further choice, exactly the key for that number of taps is added (its layer is activated, its callback is called once).", "quantifier": "every keymap.ncl that writes a layout of ordinary, callback, layer and tap-dance keys without chords; every number of taps and pace within the timeout; every history before; every set of active layers and held keys", "why_tests_cant": "The layouts, the number of choices, the paces and the histories before are unbounded; tests tap one or two keys once or twice.", "anchors": ["src/key/tap_dance.rs: Key, PendingKeyState, handle_event, Config.timeout", "src/keymap.rs: handle_pending_events, resolve_pending_key_state", "ncl/smart_keys/tap_dance/*.ncl", "ncl/keymap-ncl-to-json.ncl", "ncl/keymap-codegen.ncl"]}
{"id": "C82", "title": "Whatever the keys are, the USB host ends up seeing what the keymap puts out", "statement": "With the CH32X firmware and any keymap: when the switches are held still for six scans and the keymap, ticked without further inputs, comes to put out some list of outputs within some number of ticks, then 16 reports after that the last keyboard packet and the last consumer packet that the host received show exactly these outputs. Instances: keyboards with layers and tap-hold keys, chords, tap-dance keys, macro keys, or one-shot modifiers, one-shot layers and caps word: the switches amount to presses and releases, the host sees what that keyboard sends after them, and the bootloader was called once for each press of its key.", "quantifier": "every key system and keymap; every matrix, wiring and sequence of scans; every schedule of timer interrupts, main-loop steps and host polls at harmless moments; every history before; for the instances every keymap of the kind", "why_tests_cant": "The keymaps, scans, schedules and histories are unbounded, and what the host has received depends on how the interrupts and the main loop are interleaved.", "anchors": ["firmware/ch32x035-usb-device-compositekm-c/app/main.c: main", "firmware/ch32x035-usb-device-compositekm-c/app/usbd_composite_km.c: KB_Scan, KB_Scan_Init", "firmware/ch32x035-usb-device-compositekm-c/keyboard/keyboard.c: keyboard_init", "src/keymap.rs: tick, report_output", "smart_keymap/src/lib.rs: keymap_tick"]}
{"id": "C83", "title": "Over Bluetooth the host ends up seeing what the keymap puts out", "statement": "Whatever the keys are: if the keymap, left alone with the switches as they are, comes to put out some keys after some number of ticks, then once the firmware has ticked it that often and 16 times more, with the switches held still, the host sees by the report map exactly these keys, mouse buttons and movements, and the consumer key if there are not two, as soon as no report of that kind is due. While a key is held and events are handled before time passes the firmware ticks every 12 units of 0.625 ms, so that time is enough. For keyboards of ordinary, layer, one-shot and caps-word keys what the host sees is what such a keyboard sends after the changes of the switches.", "quantifier": "every keymap and configuration, every schedule of timers, events and interrupts, every sequence of switch states before, provided no report fails to be sent", "why_tests_cant": "The keymaps, the schedules and the histories before are unbounded; no test runs the Bluetooth firmware against a host that reads its report map.", "anchors": ["firmware/ch58x-ble-hid-keyboard-c/APP/hidkbd.c: HidEmu_ProcessEvent", "firmware/ch58x-ble-hid-keyboard-c/Profile/hidkbdservice.c: hidReportMap", "firmware/ch58x-ble-hid-keyboard-c/keyboard/keyboard_matrix.c: keyboard_matrix_scan", "smart_keymap/src/lib.rs: keymap_tick, keymap_register_input_after_ms, keymap_next_event_timeout", "src/keymap/hid_keyboard_reporter.rs", "src/keymap.rs: tick, report_output"]}
{"id": "C84", "title": "From keymap.ncl and the switches to what the host sees", "statement": "Build the firmware from a keymap.ncl, flash it, type, and then hold the switches still long enough: the host sees exactly the keys that the layers of keymap.ncl say are down. Each tap-hold key is a tap or a hold as the options of keymap.ncl say; keys that came to form a chord are the key of that chord; one-shot modifiers, one-shot layers and caps word act as the layout says; a tap-dance key is the key written for the number of taps; macro keys have played the macros that are written. Over Bluetooth the same holds.", "quantifier": "every keymap.ncl whose keys are of these kinds, every matrix wiring, every schedule of scans, USB polls and main-loop steps that avoids the harmful moments of C57, every way to type for which no input is dropped", "why_tests_cant": "No test goes from keymap.ncl to the host; the keymaps, the wirings, the schedules and the ways to type are unbounded.", "anchors": ["ncl/keymap-codegen.ncl", "src/keymap.rs", "src/key/composite.rs", "firmware/ch32x035-usb-device-compositekm-c/app/main.c: main", "firmware/ch32x035-usb-device-compositekm-c/app/usbd_composite_km.c: TIM3_IRQHandler", "firmware/ch58x-ble-hid-keyboard-c/APP/hidkbd.c: HidEmu_ProcessEvent"]}
{"id": "C85", "title": "Over Bluetooth the host sees tap-hold keys, chords, tap dances and macros as decided", "statement": "On the Bluetooth keyboard, once the switches have been held still long enough, the host sees what a keyboard with tap-hold keys, chords, tap-dance keys or macro keys sends after the changes of the switches: the calls the firmware makes have exactly these changes as inputs, in order, each key decided as inputs and time say, at a tick of 8 ms; nothing is left undecided or waiting, and played macros leave only keys of the keyboard down. With at most 31 changes no input is dropped.", "quantifier": "every keyboard of such keys and configuration, every schedule of timers, events and interrupts, every sequence of switch states before, provided no report fails to be sent", "why_tests_cant": "The keymaps, the schedules and the histories before are unbounded; no test runs the Bluetooth firmware.", "anchors": ["firmware/ch58x-ble-hid-keyboard-c/APP/hidkbd.c: HidEmu_ProcessEvent", "smart_keymap/src/lib.rs: keymap_tick, keymap_register_input_after_ms, keymap_next_event_timeout", "src/key/tap_hold.rs", "src/key/chorded.rs", "src/key/tap_dance.rs", "src/key/automation.rs", "src/keymap.rs"]}
