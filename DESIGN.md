# A Rocq model of smart-keymap

This document says what is modelled, how each property of
`properties.jsonl` is stated and proved, and what the trusted base is.

## 1. Approach

`rocq/theories` holds an executable Gallina model of the `smart-keymap`
crate, function by function, plus the theorems.

* Every `fn foo(&mut self)` becomes a function returning the new value.
* A Rust panic (`unwrap` on a full heapless vector, index out of bounds,
  `panic!`, `todo!`, failed arithmetic check) is the explicit value `Panic`
  of the result type `res`.  `Result`/`Option` stay data.
* Loops without a structural bound (the event loop, key-reference chasing)
  take fuel.  Running out of fuel is the separate value `NoFuel`;
  theorems speak about runs ending in `Ok` (or `Panic`), never about `NoFuel`,
  and C40 shows the fuel has no influence on a finished run.
* `u8`/`u16`/`u32` are `N`.  Arithmetic that could wrap (`u32` clock, idle
  time, schedule time) is checked: overflow is `Panic`, as in a build with
  overflow checks.  An `Ok` run is therefore also a run of a release build.
* `slice::binary_search_by` does not specify which of several equal elements
  it finds.  The scheduler model takes the insertion position as a parameter
  and the theorems quantify over *every* position function that satisfies the
  documented contract.  A concrete instance transcribing the standard library
  algorithm is used for examples and witnesses.
* The keymap is modelled for an arbitrary key system (a record of functions
  mirroring `key::System`, `key::Context`, `keymap::SetKeymapContext`), and
  instantiated with the composite system.
* Registered callbacks are opaque functions; the model records the sequence
  of invocations in a ghost log.

Files in `rocq/theories`, in build order:

* The model: `Base` (result monad, checked arithmetic), `Output` (key outputs,
  HID reports), `Types` (events), `Scheduler`, `Reporter`, `DistinctReports`,
  `Keymap` (the keymap over an abstract key system), one file per key kind
  (`SimpleKeys` for keyboard, consumer, custom, mouse and callback keys,
  `TapHold`, `TapDance`, `Sticky`, `CapsWord`, `Layered`, `Automation`,
  `Chorded`), `Composite`, `Split`, `Slice`, `CApi`, `Observed` (wrappers),
  `Firmware` (matrix and firmware loops).  No proofs.
* The vocabulary of the theorems: `Spec*`.  Definitions only: bits of a byte,
  reference queues, clocks, sets of layers, the macro player, chord rules and
  so on.  They do not use the model's helper functions, only its data types.
* Proofs: `*Facts`, `Keymap*` and the other files not named here.
* `Properties*`: the theorems `Cnn_...` of MANIFEST.json, each with its English
  reading, `Print Assumptions`, and an example meeting its hypotheses.
* `Samples`: concrete keymaps for examples and witnesses.

Naming: `Cnn_..._partial` proves part of a property, `Cnn_..._refuted` is a
theorem saying that the full property is false of the code, with a witness.

## 2. Per property: what is modelled, how it is proved

| id | modelled | proof |
|----|----------|-------|
| C01 | key outputs, boot report | case analysis, list induction |
| C02 | modifiers | finite sweep over bytes lifted with `forallb_forall`; bit lemmas |
| C03 | pressed code lists | length bounds by induction |
| C04 | `has_modifiers` | refuted by witness; its true meaning proved |
| C05 | mouse outputs | list induction with a no-saturation invariant, permutation |
| C06 | reporter | invariant over operation lists; lifted to keymap histories |
| C07 | reporter | per-step bound; liveness by induction; full form refuted |
| C08 | distinct reports | induction over report lists |
| C09-C11 | scheduler | invariants over operation lists, for every insertion position function |
| C12 | keymap event loop | invariant over the recursion (`exec_contract`) and over calls |
| C13 | next event time | proved when no event is overdue, refuted in general |
| C14 | input queue | per call lemmas; refinement to an abstract queue by induction over calls |
| C15 | pressed inputs | invariant over recursion and calls, for any key system |
| C16 | stuck keys | refuted by witness; invariant relating accepted, queued and handled inputs |
| C17 | capacities | invariant; panic witnesses |
| C18 | callbacks | invariant relating call log and handled events |
| C19 | init | equality with `new` except context; refuted by witness |
| C20 | clocks | induction over calls |
| C21 | tap-hold | fold over any event list equals a rule for the first deciding event |
| C22 | tap-hold in a keymap | induction on ticks from any keymap at rest |
| C23 | required idle time | context invariant over histories, then one step |
| C24 | tap-dance | fold over any event list against a counting rule |
| C25-C26 | layered keys | lookup specification; refinement to finite sets over histories |
| C27 | sticky keys | balance invariant over event lists |
| C28 | caps word | finite sweep over codes, invariant over histories |
| C29-C30 | chorded keys | specification of satisfied chords; invariant of the undecided state |
| C31 | macros | refinement of the context to a queue of instruction lists |
| C32 | macros in a keymap | token-counting invariant over recursion and calls, then a ranking argument on the schedule; general form refuted by an invariant that holds for ever |
| C33 | KeyEvents capacity | case analysis, invariant over histories |
| C34 | postcard and COBS encoding of messages | byte-level model, all indices, streams by induction |
| C35 | slice | list lemmas |
| C36 | C API conversions | case analysis |
| C37 | composite dispatch | case analysis for all contexts |
| C38 | keymap of plain keys | refinement to "what is down", with absence of panics |
| C39 | release processing | direct, for any key system |
| C40 | recursion bound | induction on the bound |
| C41 | chord context | exact panic condition; invariant; witness |
| C42 | calls that advance time | induction on ticks |
| C43 | held keys | invariant over recursion and calls |
| C44 | layers and hold keys | agreement of context and pressed keys, through events on their way |
| C45 | outputs of pressed keys of the composite system | invariant: which key each index acts as, and in which state |
| C46 | sources of virtual keys | invariant over context, queues and scheduled events |
| C47 | observing wrapper, keyboard back end | equality with the plain calls, by induction over calls |
| C48 | firmware loops with failing USB writes | simulation by plain calls; sent reports as a prefix; two refutations |
| C49 | matrix scanning with failing pins | induction over rows; refutation of the scan after an error |
| C50 | virtual left shift of caps word | ledger: pressed + about to be pressed = owed, through the recursion and every queue |
| C51 | virtual keys of sticky modifiers | the same ledger, as an inequality and, with room for a fifth modifier, as an equation |
| C52 | undecided keys in time | key systems that note when a key became undecided, a simulation showing that this changes nothing, and an invariant: the timeout event is waiting, due within the limit, and survives cancellation and other decisions |
| C53 | C firmware: matrix scan | a raw scan over any wiring; induction over driven lines with "only this line is low" as invariant |
| C54 | C firmware: debouncing | the counter state characterised by the readings since the key last settled; induction over scans |
| C55 | C firmware: split sender | step function for the call, DMA and interrupt; ring invariant over all schedules; a measure for coming to rest |
| C56 | C firmware: split receiver | step function with both handlers in two steps; invariant: processed and waiting bytes are all that arrived; composition with C34 and C55; refutation outside the timing condition |
| C57 | C firmware: reports to USB | step function for the main loop, one byte at a time, with timer, host and reset as interrupts; invariant per channel: due is received and at most one waiting; a measure for the main loop; refutations for the races |
| C58 | Bluetooth keyboard: scans and events | model of the scan loops as written (bounds swapped) and of the task as a step function; equality with the scan of C53 on square matrices; invariant relating calls, scans and reports |
| C59 | Bluetooth keyboard: never stops scanning | invariant: exactly one of waiting, a scan event set, a scan timer running; a measure for the time to the next scan |
| C60 | Bluetooth keyboard: reports | invariant: the last sent report is the last one delivered, and equal to the latest or an event is due; refutation with a failing report |
| C61 | Bluetooth keyboard: the keymap's clock | invariant relating the clock, the time of the last update and the tick timer; refutations by concrete runs |
| C62 | keyboards with layers, end to end | a small specification of the keyboard (what is down with its meaning, the layers) as a relation on inputs; simulation by the whole keymap step for step, totality by bounding what is down |
| C63 | keymap.ncl to generated key tables | Nickel values as data; validators, lowering to keymap.json and table generation as total functions; a specification of what a value writes and what a reference into tables means; induction over keys |
| C64 | generated configuration and sizes | the same pipeline; maxima over all keys |
| C65 | keymap.ncl to reports | the keyboard of C62 with the generated tables is the keyboard of the layout; composition |
| C66 | programs of C calls | the calls as a datatype, run on the model of the C interface; a relation saying what each stands for; induction over programs, with the bound on pressed keys for the fixed-size reports; composition with C62 and C07 |
| C67 | switches to host | the C firmware's matrix, debouncer, keymap and report loop as one state machine (`CKeyboard.v`); C53/C54 give the inputs, C62/C66 the report after 48 ticks, C57 that the host receives it; a schedule is constructed for progress; stopping reduces to a stopping sequence of calls, excluded by C62 |
| C68 | layers with tap-hold keys | the ideal keyboard of C62 with a list of decisions (`SpecTapBoard.v`); simulation invariant: either no key is pending and the board is that of the inputs taken, or one key is pending, the inputs seen after it are in its queue and do not decide it; a decision requeues them in front of the waiting inputs, so the order is kept; `C68_tapped`, `C68_interrupted`, `C68_timed_out` spell out what a decision says of the inputs. How late a timer can be is C52. `C68_settles`: a measure (two per waiting input, one for the undecided key, then the time to the last timer) falls at every tick; an undecided key has a timer by C52. `C68_keeps_running`: every call is total under the stated room, because the timers in the scheduler are at least a tick apart and none is older than the timeout, so a full scheduler means 32 presses within the timeout |
| C69 | keymap.ncl with tap-hold keys | the ideal keyboard of the layout (`SpecNclTap.v`: what a position shows, and what a tap-hold key turns out to be); the generated tables mean the same by C63, so the keyboard of C68 is that of the layout; C64 gives the options; C68_keeps_running, C68_settles and C68_settled give the report |
| C70 | one-shot keys and caps word together | `SpecTyping.v` describes a keyboard with things down, layer modes, latched modifiers and effects carried out after each input; `TypingFacts.v` proves the keymap simulates it: each input schedules at most a few events, all carried out before the next (drain_all); user-level sequences are computed on the ideal keyboard for arbitrary keymaps; `trun_length` bounds what is down |
| C71 | chords end to end | `SpecChordBoard.v` extends the keyboard of C62 by the set of chords that are down and an outcome for each press; `ChordBoardFacts.v` carries an invariant through every call: either no key is undecided and the keyboard is that of the inputs taken, or one chord key is, with the state `chord_rule` gives it (C29); `chord_run_fun` shows that inputs and outcomes determine everything; that the keymap settles (`ChordBoardLive.v`) is a measure (inputs waiting, key undecided) that decreases within each timeout, with all scheduled times within one timeout of the clock |
| C72 | keymap.ncl with chords | the ideal keyboard of the layout (`SpecNclChord.v`: a position is the key its layers show, or the key of a chord, or nothing); the generated tables mean the same by C63, with chords numbered as in the layout (`led_by_in`), so the keyboard of C71 is that of the layout (`chord_board_layout`); C64 gives the options; C71_settled and C71_pressed give the outputs |
| C73 | keymap.ncl with one-shot and caps word keys | the ideal keyboard of the layout (`SpecNclTyping.v`); the generated tables mean the same by C63 (`trun_layout`, `tfits_layout`); C64 gives the release option and that no chord is waited for; C70 gives the outputs and the behaviours |
| C74 | USB control endpoint in C | `USBFS_IRQHandler` with the controller's answer to each token (`CUsb.v`); specification of requests and of a host that reads packets with toggles and lost acknowledgements (`SpecUsb.v`); an invariant of the device for memory safety (`fine`), and one of device and host together while a descriptor is read (`reading_ok`) |
| C75 | Report descriptors | a parser of report descriptors and a host that decodes reports by them, written from the HID specification (`SpecHid.v`); the Bluetooth report map (`CBleMap.v`; the USB descriptors are in `CUsb.v`); each report decoded bit by bit, joined with C57 |
| C76 | Tap-dance keyboards | an ideal keyboard with dances as a relation on calls (`SpecDanceBoard.v`); a simulation over all calls, with the timers of a dance in the schedule (`DanceBoardFacts.v`), uniqueness, punctuality and settling by a measure (`DanceBoardLive.v`); the room it needs (`SpecDanceRoom.v`), by induction over the calls with the timers as times of presses taken (`DanceBoardTotal.v`, `PropertiesDanceRoom.v`) |
| C77 | Macro keyboards | an ideal keyboard with a macro player and alarms as a relation on calls (`SpecMacroBoard.v`); a simulation over all calls that succeed, with the schedule a permutation of the alarms (`MacroBoardFacts.v`); invariants of the ideal keyboard and settling by a potential (`MacroBoardLive.v`) |
| C78 | String macros | the tables of Nickel names and characters and `string_to_instructions` as functions (`StringMacro.v`); the US layout and what a computer types from a sequence of reports (`SpecText.v`); the runs of C77 refined by the order of two things due at once, and an invariant of the phases of a tapped text (`StringFacts.v`) |
| C79 | Remapping to another keyboard | `into_layout` of `remap.ncl` as a function on keymap.ncl (`NclRemap.v`); the layout on the other keyboard (`SpecRemap.v`); composed with C63 (keys) and with C65 (reports) by a simulation between the two keyboards (`RemapFacts.v`) |
| C80 | Macro keys of keymap.ncl | `K.string_macro` as the value that it is in keymap.ncl (`NclString.v`); layouts with macro keys (`SpecNclKeys.v`); every generated reference resolved under any layers to the key that the layout shows (`NclKeyFacts.v`, `NclMacroKeyFacts.v`); composed with C63, C77 and C78 |
| C81 | Tap-dance keys of keymap.ncl | layouts with tap-dance keys (`SpecNclKeys.v`), a key that is tapped and held (`SpecTapping.v`); every generated reference resolved under any layers (`NclDanceFacts.v`); the run of the keyboard of C76 for such taps by induction over the taps (`TappingFacts.v`); composed with C63 and C76 |
| C82 | Any keymap, switches to host | the firmware of C67 with an arbitrary key system, keymaps left alone (`SpecHost.v`); a keymap at rest stays as it is, output that stays is reported after 15 ticks (`HostFacts.v`); instances from C68, C70, C71, C76 and C77 (`PropertiesHostBoards.v`) |
| C83 | Bluetooth from switches to host | keymaps that come to put out some keys (`SpecHost.v`), what the host sees by `hidReportMap` (`SpecBleHost.v`); calls without inputs as ticks and reports, ticks every 12 units while awake (`BleHostFacts.v`); composed with C07, C58, C59, C60, C70, C75 |
| C84 | keymap.ncl to host | nothing new is modelled; the layouts of C69, C72, C73, C80, C81, their generated keymaps, and the firmwares of C82, C83, C85; proved by composing these. Tap-dance and macro keys are in `PropertiesNclKeysHost.v`; the example of `C84_tap_dances` meets all its hypotheses but the length of the run, which takes minutes to compute |
| C85 | Bluetooth host, keys of each kind | nothing new is modelled; the calls of the firmware as inputs, ticks and reports (`comes_from` of `SpecBleHost.v`), whose inputs alternate for each key; proved by composing C68, C71, C76, C77 with C83. `C84_bluetooth_tap_holds` and `C84_bluetooth_chords` are here too |

## 3. Trusted base

* Coq 8.16.1's kernel (and `coqchk`'s, which rechecks the compiled files).
  `vm_compute` is used in examples and witnesses.
* Axioms: none.  `Print Assumptions` after each theorem of `Properties*.v`
  prints "Closed under the global context".  Only the Coq standard library is
  imported.  A checker that lists the axioms of all *loaded* library modules also
  shows seven constants of `Coq.ssr.ssrunder.Under_rel` (fields of a module type
  in the standard library); no theorem here depends on them.
* The reading of the Rust code in the model files.  Each definition cites the
  lines it models.
* What the model takes from outside the repository, transcribed from
  documentation: `heapless` vectors (push fails when full), `slice`
  `binary_search_by` (by contract, see above), `postcard` varints and `cobs`
  framing (`Split.v`), `u8`/`i8` saturating arithmetic.

### Modelled

`src/input.rs`, `src/key.rs` (outputs, events, contexts, results),
`src/keymap.rs` (all of `Keymap` and `KeymapOutput`), `src/keymap/*.rs`,
`src/key/*.rs` (every key kind and `composite.rs`, runtime behaviour),
`src/split.rs`, `src/slice.rs`, `smart_keymap/src/lib.rs` (the C API),
`keyberon-smart-keyboard/src/input/smart_keymap.rs`, `input.rs`, `matrix.rs`,
`split.rs`, and of the firmware crates `stm32-embassy-`, `rp2040-rtic-` and
`stm32f4-rtic-smart-keyboard` the loop that carries events to the keymap and
reports to the USB endpoints.
Of the C firmware `ch32x035-usb-device-compositekm-c`: `keyboard/keyboard.c`,
`keyboard_matrix.c`, `matrix/col_to_row.c`, `matrix/row_to_col.c` (`CFirmware.v`),
`keyboard_split_tx_dma.c`, `keyboard_split_rx_dma.c` (`CSplit.v`; the DMA and the
interrupt controller are modelled as far as the two files use them), and in `app/` the
main loop of `main.c`, the timer interrupt of `usbd_composite_km.c` and, as far as they
touch the report endpoints, `USBFS_Endp_DataUp` and the interrupts of
`ch32x035_usbfs_device.c` (`CReport.v`), the rest of the interrupt handler in that file
with the descriptors of `usb_desc.c` (`CUsb.v`; the controller as far as its answers to
the host go), and in
`ch58x-ble-hid-keyboard-c` the matrix scan, `keyboard_matrix.c`, `keyboard.c` and
`HidEmu_ProcessEvent` of `APP/hidkbd.c` (`CBle.v`; the vendor's task system as far as it
is used) and the report map of `Profile/hidkbdservice.c` (`CBleMap.v`).

Of the configuration language: `ncl/validators.ncl`, `ncl/keymap-ncl-to-json.ncl`,
`ncl/smart_keys/*/keymap-ncl-to-json.ncl` (`Ncl.v`), `ncl/keymap-codegen.ncl` and
`ncl/smart_keys/*/keymap-codegen.ncl` (`NclCodegen.v`), as functions on Nickel values
and, instead of the text of the generated Rust, on the tables it defines;
`ncl/layouts/remap.ncl` (`NclRemap.v`); `string_macro` of `ncl/smart_keys/automation/key-extensions.ncl`
(`StringMacro.v`, `NclString.v`).

### Not modelled

* The Nickel interpreter, the library of key names (`ncl/keys.ncl` and others: C63 holds
  for any names; of them only the names of characters are modelled, for C78), `build.rs`, `smart-keymap-macros`,
  `smart-keymap-nickel-helper`, and the printing of Rust text.  C01-C62 do not depend on
  the generator: they quantify over all key data.
* `serde` deserialisation of key configuration, `Debug` output, `src/bin`.
* `src/tuples.rs`: an index into a tuple of keys; the keymap's keys are a list.
* The rest of the firmware crates and of the C firmware.  In the Rust firmware USB is
  abstract (a write succeeds, is refused as a duplicate, or blocks, in any pattern),
  and so is keyberon's debouncer (the list of debounced events is arbitrary); calls
  into the keymap are sequential, in the order of the channel between the tasks.
  Pin timing, clocks and power management are left out everywhere, and so is the
  Bluetooth stack (a report succeeds or fails, in any pattern).
* Callbacks are opaque: they do not call back into the keymap.
* Release builds whose `u32` clock wraps: the model panics there (49.7 days).
* Stack depth: the code recurses without bound where the model needs fuel.

### Simplifications

Each is stated at the definition concerned.  The main ones: key data arrays are
lists; `Option<fn>` callbacks are numbers; generic array capacities are
parameters of the context; the order of struct fields, `Copy` and lifetimes have
no counterpart.

## 4. What the proofs showed about the code

Behaviours established on the model that differ from the documentation or are
surprising.  Those with a `_refuted` theorem are machine-checked; the others were
found while modelling.

1. `has_modifiers` is documented as "all", and is "any" (C04).
2. `init` leaves the key context: active layers, caps word, sticky modifiers and
   macros survive it (C19).
3. Two events due at the same millisecond make the reported time to the next event
   0, which the C API defines as "none"; three make the subtraction underflow (C13).
4. Only one scheduled event is delivered per tick; cancelled events take a tick too.
5. An undecided key that becomes another undecided key has the inputs queued behind
   it put back in reverse order; a release can overtake its press, and the key is
   stuck (C16).
6. Full buffers panic: 17 keys held, 17 inputs behind an undecided key, a third
   callback (C17, C18).
7. The 32nd waiting input is dropped silently, so a release can be lost (C14).
8. The chord context of generated firmware has two entries per chord key; holding one
   more key panics (C41).
9. A fifth sticky modifier is never released (C27).
10. Deciding a key cancels the continuation of a macro started by the same key, after
    which no macro runs again (C32).
11. After releases, one report can show two new keys (C07).
12. Combining mouse outputs saturates, so it depends on order (C05).
13. Split messages exist only for indices below 128 and physical keys; a buffer with
    stale bytes gives up to three wrong events (C34).
14. Equality of distinct reports is not symmetric (C08).
15. A tap-dance key without definitions panics (C24).
16. The release of either of two hold keys for one layer switches the layer off while the
    other is still held (C44).
17. Virtual key events emitted by keys reach the context twice.
18. With a tick length of 0 ms, `handle_input_after_time` divides by zero; the
    remainder of a time that is not a multiple of the tick length is lost.
19. While the host does not take the keyboard report the keymap's time stands still, and
    inputs beyond the queue are dropped: a key released then is stuck (C48).  Mouse
    movement is sent again on every attempt meanwhile.
20. A matrix scan that fails half way leaves its row selected; the next scan reports its
    pressed keys in other rows too (C49).  More than eight events in a scan panic.
21. A fifth tap of a sticky key with four in force leaves the modifier pressed for good
    (C51).  After `init` caps word is on without its shift (C50).
22. A sticky modifier ends with the release of the key typed *last*, not of the key it
    was used with.
23. Caps word is not ended by modifier keys: they report key code 0.
24. The timeout event of one tap-hold key decides any tap-hold key that is undecided.
25. A chord of a single key is never completed, and key index 65535 cannot be part of one.
26. The idle time seen by keys is that of the tick before.
27. Timeouts can come up to one tick per other due event late: one scheduled event is
    handled per tick (C52).
28. In the C firmware's split receiver a byte that the DMA stores after the idle-line
    handler has read the counter and before it switches buffers is lost; if it is the
    sixteenth of the buffer, the transfer-complete handler then registers the stale
    contents of the other buffer (C56).
29. In the C firmware a timer interrupt while `main` copies a report to `PREV_...` can
    make the next report count as sent without being sent (C57).
30. `USBFS_Endp_DataUp` enables the endpoint before marking it busy. If the host's poll
    falls in between, the busy flag stays set for ever, no report is sent and the keymap
    is never ticked again, until a bus reset (C57).
31. A bus reset clears the endpoint with the packet in it; `main` takes it for sent (C57).
32. `main` sends a non-zero mouse report again and again. A report that arrives meanwhile
    is copied to `PREV_MOUSE_Data_Pack` when the re-sent one is done, without being
    sent, so the release of a mouse button is usually lost (C57).
33. The C firmware's mouse report has no field for horizontal scrolling: the wheel-left
    and wheel-right keys have no effect there.
34. In the Bluetooth firmware `keyboard_matrix_scan_raw` loops over the columns up to the
    number of rows and the other way round. The only board has 8 of each; any other
    matrix is read out of bounds (C58).
35. The Bluetooth firmware does not debounce: the scan compares the raw states, and the
    counter kept beside them has no effect (C58).
36. A Bluetooth report that fails is not tried again; if it was the last before sleep,
    the key stays down at the host (C60).
37. `event_pending` lets a timeout started for one key stand for that of another: when it
    fires the clock jumps to the other's timeout. A tap-hold key pressed just before
    turns to hold at once (C61).
38. Keys that change while the firmware ticks start no timeout, and sleep looks only at
    waiting events, not scheduled ones: a tap-dance key tapped while another key is held
    stays undecided, and the other key down, until the next key press (C61).
39. `tick_by` drops the rest below one tick, so a timeout that is not a multiple of 8 ms is
    never reached asleep: the firmware wakes every few milliseconds for ever (C61).
40. A default-layer key sets the default layer again when it is released, so with two of
    them held the one released last decides (C62).
41. A macro nested two levels deep in `keymap.ncl` (a tap-hold key with a macro as its
    hold, under another layer's key) is not expanded, and the build fails (C63).
42. A caps word key on the base layer cannot have a key of another layer above it: the
    merge needs a record and the caps word key is a string (C63).
43. An upper layer shorter than the base layer fails the build with an index error; the
    keys of a longer one are dropped without a word (C63).
44. `set_active_layers_to` adds powers of two, so a layer listed twice activates the next
    one instead; an empty list and an empty keymap fail the build (C63).
45. With upper layers that are transparent everywhere the generated layer count is 0, and
    pressing a layer key panics (C65).
46. In `validators.ncl` a key kind with two failing validators reports only the first; an
    empty record passes as automation instructions; the layer number of a `default_` layer
    key is not checked by the JSON validator.
47. The tables of the generator have `u8` indices: a keymap with more than 256 keys of one
    kind fails in rustc, not in Nickel (C63).
48. Before the device is enumerated the C firmware stops ticking the keymap after the
    first change of its report, so its queue fills; what is released later is dropped,
    and the key stays pressed at the host until it is used again (C67).
49. The timer of a tap-hold key that was tapped stays in the scheduler, cancelled, until it
    is due; so with the default timeout the keymap panics at the 33rd tap of tap-hold keys
    within 200 ms (`C68_quick_taps_refuted`).
50. Each tap of a one-shot modifier with nothing typed in between leaves another virtual key
    down, also when the four places for latched modifiers are taken (finding 9): after
    sixteen taps the next press of any key panics (`C70_taps_alone_panic_refuted`).
51. While a chord key is undecided every press of another key is kept, also of one pressed
    before, in a list with room for one chord, contrary to the comment beside it: with a
    chord of three keys, holding one and pressing another three times within the timeout
    panics (`C71_repeated_press_refuted`).
52. The keys of a chord that waited behind its first key are looked up after the chord has
    taken effect: if the chord turns on a layer, the others act as keys of that layer
    instead of doing nothing (`C71_example`).
53. C firmware, USB: CLEAR_FEATURE(ENDPOINT_HALT) makes the endpoint answer NAK but does
    not clear the flag that says a report is waiting.  If one was, it is lost and the
    endpoint sends nothing more until a bus reset: the keyboard is dead
    (`C74_halt_ended_loses_endpoint`).
54. C firmware, USB: GET_DESCRIPTOR with the direction bit clear leaves a remaining length
    that was already copied, and the next IN token copies beyond the end of the descriptor
    (`C74_unrestricted_histories_refuted`).
55. C firmware, USB: vendor requests are not refused but answered with what lies in the
    buffer, and GET_IDLE and GET_PROTOCOL of more than one byte return such bytes too
    (`C74_vendor_requests_refuted`, `C74_get_idle_length_refuted`).  GET_STATUS of an
    interface and GET_REPORT, which every HID device is to serve, are refused.
56. C firmware, USB: a halted endpoint is no longer halted after the firmware's next report
    (`C74_halt_lasts_refuted`).
57. C firmware, USB: the toggle of the packet after the last one is fixed, so a descriptor
    whose length is a multiple of 64 could be read only by a host that asks for no more
    than that; none has such a length (`find_descriptor_spec`).
58. C firmware, USB: the keyboard's report descriptor ends at usage 145 (0x91), so a host
    ignores the key codes 146 to 223, though the configuration accepts them
    (`C75_all_codes_refuted`).  Over Bluetooth the report map ends at 101 (0x65): F13 to F24
    and all international keys have no effect.
59. C firmware, Bluetooth: the report map declares two consumer codes of 16 bits, the
    firmware sends four of 8.  Two consumer keys held together are lost or read as a third
    usage, e.g. 233 and 1 as 489 (`C75_ble_two_consumer_keys_refuted`,
    `C75_ble_only_pressed_refuted`).
60. C firmware: the mouse descriptors have three buttons, so buttons 4 to 8 have no effect,
    and a movement of -128, the saturated sum, is outside the logical range and ignored
    (`C75_mouse_refuted`).
61. When a tap dance ends, the last input about its key is put back behind the inputs about
    other keys.  So a key pressed after the dance key was released goes down while the
    choice is still down: a tapped modifier applies to it (`C76_order_refuted`).
62. A macro that waits behind the macro of another key is played under that key: when it is
    over, the other key is told.  So the key pressed second does not start its macro for
    being held although it is held (`C77_while_pressed_refuted`).
63. With an instruction duration of no more than one tick, a macro whose press comes out of
    the input queue loses its first character: it is pressed and released within the same
    tick, between two reports (`C78_short_duration_refuted`).  The default is 10 ms.
64. `ncl/layouts/remap.ncl` means to leave out the positions that the other keyboard does not
    have: it filters `remapped_indices` by `target_index != false`.  The target index is never
    `false` (the source index is), so the filter keeps everything, and a chord with a key that
    is left out gets the index `false` and fails the contract `Array Number`
    (`C79_dropped_or_doubled_chord_key_refuted`).
65. `ncl/inputs-to-json.ncl` writes `'ReleaseKeymapIndex` as a press.  It is only used for
    tests (not modelled).
66. With the documented timeout of 200 ms, the 33rd quick press of a tap-dance key within
    the timeout makes the keymap panic: the timers of earlier presses stay in the scheduler
    (`C76_quick_taps_refuted`).  So does the 17th input while a tap-dance key is undecided
    (`C76_many_inputs_refuted`).
67. The Bluetooth keyboard falls asleep while a tap-dance key is undecided, and then the
    host keeps seeing a key that was released (`C83_released_refuted`; the state is that of
    `C61_asleep_with_events_refuted`).
