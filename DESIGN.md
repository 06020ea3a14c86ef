# Design of the formal model of keymapper

Source: `/repo` (houmain/keymapper, pinned commit). The C++ is read as text only.
The model lives in `rocq/theories` (logical name `Verif`), Coq 8.16.1, standard library only.

## Approach

* Every modelled C++ function becomes a small total Gallina function; each definition cites the file and
  lines it models and says where it simplifies.
* Loops without a syntactic bound get explicit fuel and an out-of-fuel result; theorems exclude that result.
* C++ undefined behaviour (index out of range, `front()` of an empty vector, `erase(end())`, shifts by >= 64)
  is a sticky flag in the state (`ub`); theorems show it stays false under stated preconditions.
* External behaviour (regular expressions, the sockets, the clock, the virtual device) enters as universally
  quantified arguments / oracles, never as axioms.
* Specifications are written separately from the model (`*Spec.v`) over plain lists of events.
* When the faithful model falsifies a property the theorem is named `..._refuted` and carries a computed
  witness; the provable part is proved with suffix `_partial` and says what is missing.

## Files

Models (no proofs; each definition cites its source lines):

| file | models |
|---|---|
| `Base.v` | list helpers (standard algorithms) |
| `Key.v` | `runtime/Key.h`, `runtime/KeyEvent.h`, `runtime/Timeout.h` |
| `Match.v` | `runtime/MatchKeySequence.cpp` |
| `Stage.v` | `runtime/Stage.cpp`, `runtime/Stage.h` |
| `MultiStage.v` | `runtime/MultiStage.cpp` |
| `Server.v` | `server/ServerState.cpp` as compiled for Linux, the float conversions of `Timeout.h` (binary64, `SpecFloat`) |
| `WinServer.v` | `server/ServerState.cpp` as compiled for Windows, hooks, timers and window procedure of `server/windows/main.cpp` (without the Interception driver) |
| `WinInput.v` | what the hooks of `server/windows/main.cpp` report and what is sent (`SendInput`), `client/windows/StringTyper.cpp` |
| `WinDevices.v` | `server/windows/Devices.cpp`: strokes of the Interception driver, the lists of devices, hardware identifiers |
| `WinClient.v` | window procedure of `client/windows/main.cpp` (with the functions of `Client.v` and `WinCommand.v`) |
| `WinCommand.v` | `client/windows/execute_terminal_command.cpp`, `client/windows/FocusedWindow.cpp`, `validate_state` of `client/windows/main.cpp` |
| `TypeCommand.v` | `control/windows/expand_command.cpp` |
| `HostName.v` | `listen`, `shutdown` and `set_unix_domain_socket_path` of `common/Host.cpp`, the name of the socket among processes |
| `Mac.v` | `server/unix/VirtualDevicesMacOS.cpp` (reports of the virtual keyboard, Fn), `server/unix/GrabbedDevicesMacOS.cpp` (devices, queue of events) |
| `MacTyper.v` | `client/unix/StringTyperCarbon.cpp`, and `StringTyperImpl.cpp` as compiled for macOS |
| `Host.v` | `common/Host.cpp`: `accept` and `connect`, any number of processes interleaved |
| `ServerLoop.v` | one turn of `main_loop` in `server/unix/main.cpp` |
| `ServerWait.v` | how long `main_loop` in `server/unix/main.cpp` waits |
| `Serial.v` | `common/Connection.*` (framing, partial sends and reads), all messages: `client/ServerPort.cpp`, `server/ClientPort.cpp`, `control/ClientPort.cpp`, `client/ControlPort.cpp` |
| `Client.v` | `client/ClientState.cpp`, `client/ConfigFile.cpp`, `client/ControlPort.cpp`, `common/Filter.h`, `Config::Context::matches`, the loop of `client/unix/main.cpp` |
| `ClientMain.v` | `client/Settings.cpp`, `client/Settings.h`, the rest of `client/unix/main.cpp` (options, notifications, finding the configuration), `common/output.cpp`, `common/expand_path.h` |
| `MacFocus.v` | `client/unix/FocusedWindowCarbon.cpp` |
| `Tray.v` | `client/unix/TrayIcon.cpp`, `TrayIconGtk.cpp`, `TrayIconCocoa.mm` and their uses in `client/unix/main.cpp` |
| `Ctl.v` | `control/main.cpp`, `control/Settings.cpp`, `control/ClientPort.cpp` (keymapperctl) |
| `KeyNames.v`, `Text.v`, `ParseSeq.v` | `config/get_key_name.cpp`, `config/string_iteration.h`, `config/ParseKeySequence.cpp` |
| `Config.v` | `config/ParseConfig.cpp` |
| `ErrorPlace.v` | the texts of errors in `config/ParseConfig.cpp`: `error`, `m_filename` and `m_line_no` in `parse_file` |
| `Device.v` | `server/unix/VirtualDevicesLinux.cpp`, the conversions of events in `server/unix/GrabbedDevicesLinux.cpp` |
| `Grab.v` | finding, opening, grabbing and reading devices in `server/unix/GrabbedDevicesLinux.cpp`, and what `main_loop` of `server/unix/main.cpp` does with devices |
| `Session.v` | the life of the server in `server/unix/main.cpp`: accepting clients, the initial configuration, `main_loop`, exit; on top of `Server.v` and `Grab.v` |
| `Focus.v` | `client/unix/FocusedWindowImpl.cpp`, `FocusedWindowX11.cpp`, `FocusedWindowDBus.cpp`, `FocusedWindowWlroots.cpp`, the scripts for GNOME and KDE in `extra/share` |
| `Typer.v` | `client/unix/StringTyperImpl.cpp`, `StringTyperGeneric.cpp`, `StringTyperXKB.cpp` (what xkbcommon says is data) |

Faithfulness: `Replay.v`, `TestConfig.v`, `TestStage.v`, `TestServer.v` replay the project's own test cases
(`src/test/test0..test4`) on the model by computation. They are tests of the reading, not proofs.

Specifications: `MatchSpec.v`, `StageSpec.v`, `PassSpec.v`, `MultiSpec.v`, `ServerSpec.v`, `SerialSpec.v`,
`ClientSpec.v`, `TextSpec.v`, `ParseSpec.v`, `ConfigSpec.v`, `MacroSpec.v`, `ExprSpec.v`, `ExpandSpec.v`, `FileSpec.v`, `CtlSpec.v` (also what sockets
between the two processes do), `StuckSpec.v`, `UntouchedSpec.v`, `DeviceSpec.v` (also what the kernel does with the
events written to a uinput device), `GrabSpec.v` (devices, which are wanted, what the
kernel was told to grab), `SessionSpec.v` (the configuration of the client, what clients
send), `AnySpec.v` (what `Any` stands for), `ClientMainSpec.v` (options, places of the configuration, the shell), `FocusSpec.v` (desktops and what
they announce), `TyperSpec.v` (keyboard layouts and how applications read key strokes), `TyperComposeSpec.v` (the same with dead keys, the compose key and compose tables), `CommandSpec.v`
(the client, the server and the messages between them, as far as terminal commands are concerned), `WinSpec.v` (what
applications see on Windows), `WinInputSpec.v` (keys and layouts of Windows, applications which read text),
`WinDevicesSpec.v` (devices which come and go), `MacSpec.v` (what is held and shown, devices which come and go on macOS),
`MacTyperSpec.v` (what applications receive on macOS), `HostSpec.v` (processes which connect), `KeyNameSpec.v` (names of keys), `TriggerSpec.v` (which mapping decides), `TraySpec.v` (when the icon is made anew), `KeyInfoSpec.v` (what a text says about a key), `StringInputSpec.v` (how a string is typed), `WinClientSpec.v` (what keymapperctl is told on Windows), `WinCommandSpec.v` (commands, windows and
validation on Windows).

Proofs: `Match{Proofs,Lang,Group,More}.v`, `Stage{Frame,Term,Safe,Out,Shape,Round,Rel,Route,Pass,Stuck,Untouched,Held}.v`, `StuckMatch.v`,
`MultiProofs.v`, `Server{Proofs,Queue,Flush,Virtual,Lift,Input,Safe,Reset,Time,Strokes,Pass}.v`,
`Serial{Proofs,Stream,Local}.v`, `Client{Proofs,Contexts,Control,Inject}.v`,
`Ctl{Link,System,Exchange,Results,Timeout,Line,Check}.v`, `TextProofs.v`, `Parse{Proofs,Output,Input}.v`,
`Config{Shape,Parse,Proofs,Logical,Forward,Load,Term}.v`, `Macro{Tokens,Proofs,Calls}.v`, `ExprProofs.v`, `ExpandProofs.v`,
`File{Store,Header,Lines,Proofs}.v`, `Device{Proofs,Wheel}.v`, `Grab{Proofs,Run,Align}.v`, `Session{Proofs,Run}.v`, `Focus{Proofs,Client,Run}.v`, `AnyProofs.v`, `ClientMainProofs.v`, `Typer{Proofs,Server,Xkb}.v`, `TyperComposeProofs.v`, `CommandProofs.v`, `Win{Proofs,Keeps,Closed}.v`, `WinInputProofs.v`, `WinTyped.v`, `WinDevicesProofs.v`, `MacProofs.v`, `MacTyperProofs.v`.

The theorems claimed in `MANIFEST.json`, each with `Print Assumptions` and an instance beside it:
`Properties.v`, `StageProperties.v`, `RouteProperties.v`, `PassProperties.v`, `MultiProperties.v`,
`ServerProperties.v`, `SerialProperties.v`, `ClientProperties.v`, `CtlProperties.v`, `ParseProperties.v`, `ConfigProperties.v`,
`MacroProperties.v`, `ExprProperties.v`, `FileProperties.v`, `StuckProperties.v`, `UntouchedProperties.v`, `DeviceProperties.v`,
`ThroughProperties.v`, `StuckServerProperties.v`, `GrabProperties.v`, `SessionProperties.v`, `FocusProperties.v`, `AnyProperties.v`, `ClientMainProperties.v`, `TyperProperties.v`, `TyperComposeProperties.v`, `CommandProperties.v`, `LoadProperties.v`, `WinProperties.v`, `WinInputProperties.v`, `MacProperties.v`, `KeyNameProperties.v`, `WinCommandProperties.v`, `HostProperties.v`, `WinClientProperties.v`, `StringInputProperties.v`, `TriggerProperties.v`, `TrayProperties.v`, `MacFocusProperties.v`, `KeyInfoProperties.v`, `WaitProperties.v`, `AskedProperties.v`, `StaleProperties.v`, `TypeCommandProperties.v`, `RestProperties.v`, `HostNameProperties.v`, `ErrorPlaceProperties.v`, `KnownProperties.v`.

## Trusted base

* Coq 8.16.1's kernel (including the VM used by `vm_compute`).
* What `Print Assumptions` prints for each theorem of the Properties files: all are
  `Closed under the global context`. `coqchk -o` additionally lists the axioms of standard library
  modules which are merely loaded (`Coq.ssr.ssrunder.Under_rel.*`, through `lia`/`ssreflect`); no theorem
  depends on them.
* The correspondence between the C++ text and the model, which is by reading (see the replayed tests).
* Oracles are universally quantified: the regular expression engine, the keyboard layout lookup
  (`StringTyper`), file contents, the clock (a function of the number of calls), which sends succeed, how
  `::send`/`::recv` cut the bytes, device filters.

## Not modelled

* Platform code (of Windows all but the server, its devices, the string typer, running commands, the focused window and the client's window procedure, without its menu, icon and options; of macOS all but the devices, the string typer and the focused window; drawing the tray icon and its entries Configuration, Help, About and Exit). On macOS the connection to the virtual device is there, a report has room for all keys, `UCKeyTranslate` is a function of the pending dead key, the key and the modifiers, and devices have addresses which are not null. On Windows a hook procedure is taken to run to its end before the next one; `SendInput`, `ToUnicodeEx`, the driver and what Windows tells about devices are what `WinInputSpec.v` and `WinDevicesSpec.v` say, and the thread of the driver is not interleaved with the window procedure. Of `wordexp` and the shell only what `ClientMainSpec.v` says: quoting, blanks and
  special characters; tilde, variables and patterns are not covered. In `Config.v` the name of an included file is taken as it is (see C93). Which sources of the focused window can be initialized is a choice of the environment. What devices report about themselves
  (names, ids, keys, axes, keys held), which calls succeed and when devices come and go is arbitrary data; `poll`
  reports the first readable device. Of uinput only that a device drops events of codes it did not announce and presses/releases of keys which are
  already so (`DeviceSpec.v`); `std::regex`, the file
  system, process spawning, threads (the server and client are single threaded apart from signal handlers).
* Of the string typer: asking X11 and Wayland for the keymap, which virtual key code is which key on macOS; on Windows the replacement characters for what is no UTF-8. While parsing, the typer is an oracle
  (a total function; a text which is no UTF-8 is an error in the code); C58 instantiates it with `Typer.v`.
* `std::vector` growth/allocation failure, integer widths other than where noted (timeout values, device
  bits, message fields).
* Waiting for sockets (`poll`); of their names only to whom they lead (`HostName.v`), not which they are nor that they may be cut off. In `Session.v` a client just connects; how it does is
  `Host.v`.

## Findings

Behaviour which contradicts what a user expects, each with a computed witness (`..._refuted`):

* Undefined behaviour by a wheel event of a second stage or injected without value (C10).
* Two keys with the same target: releasing one releases the other (C12).
* Keys which stay pressed: trivial mappings, mappings of `Any`, mappings completed by a timeout which output
  their last key (C13); validation forgets held keys without
  releasing them (C14); resetting while a virtual key toggle waits in the queue (C28).
* Two outputs pending for the release of one key: only one is sent (C17).
* The emergency exit fails when a second keyboard repeats one of its keys (C18).
* Wheel steps remain in the history of a second stage (C20), and as contexts' modifiers (C51).
* Context modifiers follow the buffered keys, not the physical ones (C24).
* Replacing the configuration releases virtual keys without telling the client (C26).
* 48 of 4096 timeouts are reported one millisecond short: `500ms` may not match exactly 500ms (C29, C54).
* A wheel step which ends a pending timeout is lost (C31, C55).
* A message followed by the end of the connection in the same read is dropped (C33).
* A truncated message at the end of the received bytes is accepted, a refused message has already had its
  effect, a byte other than 0 and 1 becomes a bool (C34).
* Asking for the last virtual key reads behind the table of virtual keys (C44).
* A failed switch back to a file used before leaves the client with that file's old configuration while the
  server keeps the other one (C47, C57).
* The logical key `Alt` is injected as such, which no device has (C60).

* `keymapperctl --wait-pressed` of an unknown name succeeds at once (C49).
* The late answer to an operation which timed out is taken for the answer to the next one (C56).
* `--timeout` and `--wait` set the timeout of all operations which follow (C59).
* An operation without timeout ends with timeout when a part of the answer arrives first (C62).
* A number above 2147483647 in a key expression overflows an `int` (C35).
* `A !B ^ C D` as output releases A only after the release of the triggering key, so the part before `^` is
  not balanced (C36).
* `? ContextActive` is accepted as an input, but nothing of it is left (C37).
* `modifier != "Shift"` is met unless both Shift keys are held (C41).
* `@forward-modifiers` of a logical key with three keys suppresses only the last one in outputs (C50).
* Of consecutive context headers only the device filter of the last one is applied, also in the example of
  README.md (C65).
* The 257th terminal command of a configuration presses the left Shift key instead (C66).
* Results of the arithmetic macros and numbers of parameters overflow an `int` (C42).
* A line `= A | B` defines a key without a name; `[modifier="+"]` then makes the client loop forever (C67).
* In `name["a""b",""]` the comma is taken for a part of a string (C68).
* `!A B !A` as input does not say twice that A must not be pressed, it waits for a release of A; `A !B C` as
  output presses C while A is held, while `A C` releases A first (C69).
* With `A A A B >> X` and `A >> Z ^ W`, two outputs wait for the release of the next key, and its following
  stroke is swallowed, even if no mapping mentions it (C72).
* With `A{500ms} >> X` and `B C >> Y`, a stroke of B which begins after the timeout and before the release of A
  is lost, and X is output twice (C73).
* An event of a virtual key which completes no mapping marks everything which is held back as handled: with
  `B C >> Y`, pressing B and then a virtual key loses the stroke of B (C73).
* `keymapperctl --output "!A"` does not release A but presses it for good: `Not` is written to the virtual device
  as value 2 (C48).
* Key codes from 0x200 on are written to the virtual keyboard, which did not announce them (C74).
* The first click of a mouse which was not used before is released on another device than it was pressed on, so
  the button stays down; likewise when a device is plugged in while a button is held; a button which the mouse
  used last does not have is lost (C75).
* 35 wheel steps at once are cut to 12 bits and turn backwards; a tilt wheel without fine steps is dropped when the
  other wheel has them; motions the mouse used last did not announce are lost (C76).
* Positions of a device with a virtual device of its own are mapped to 0..1023 although its range was announced;
  the mapping overflows for ranges of more than 21 bits (C77).
* A terminal command which is delayed (`B >> X 500ms $(pwd)`) when the configuration is replaced stays in the queue as
  a number, and runs the command with this number in the new configuration (C46); likewise when it is triggered
  before the server received the new configuration.
* `keymapperctl --type` of a text with a quotation mark reads the rest as key names; `C:\new` contains an Enter, and no
  text types a backslash followed by n; a Shift key which is held applies to the text, as the `!Any` in front
  of it is a key no device knows; on layouts like Dvorak, where U and A to F are elsewhere, characters which
  the layout lacks become garbage; characters of a second layout or of a level with Mod3 are typed as those
  of the first level (C58). A compose sequence which gives two characters is taken for the first of them, and of two
  symbols which are the same character only one is used to compose (C58).
* `length["Käse"]` is 5, so the macro `substitute` of README.md removes a character too many (C78).
* The name of a device in `/dev/input/by-id` is made after the device was reported and is not watched, so filters by id
  miss devices which are plugged in; a device which gets the number of an unplugged one before the server noticed is
  not grabbed and ends the session (C80).
* Buttons with codes above 511 (BTN_TRIGGER_HAPPY) are not among the keys read from a device, so its forward device does not
  have them (C81).
* The names of forward devices are cut to 79 characters: with a mouse whose name has 69, the server grabs the device it
  made for it, makes another one for that, and so on without end (C81).
* A key held for five seconds does not keep the server from grabbing the keyboard, nor from releasing it (C83).
* An empty configuration followed by another one within one read hides that the mouse is needed now; two configurations
  in the first read end the session which was just started (C84).  The flag also survives a failing read.
* While the server waits for the initial configuration the emergency exit is ignored (C85).
* A text which is to be typed while there is no configuration is typed once there is one, and an output with two delays
  goes on in the session of the next client (C86).
* The client keeps taking the last window for focused when none is; on wlroots also a new window whose object is
  allocated where that of the last focused one was; on X11 it does not notice windows without a title; a second source
  (wlroots or D-Bus beside X11) erases the path; the GNOME extension tells only changes between applications (C87).
* An empty `_NET_WM_PID` (or one of another type) makes the client read beyond a buffer (C88).
* One D-Bus message is handled per update, the client can be arbitrarily far behind (C89).
* The state `fullscreen` (3) of the wlroots protocol would count as activated (`3 & 2`); it is not sent to clients
  which bind version 1, as this one does (assumed in `FocusSpec.proper_states`).
* `Any` after `^` puts out the keys of the last attempt to match; in a group the key pressed for `Any` is lost or
  replaced by another one (C07).
* A window title like `$(...)` is executed when information about the next key is shown; a backslash before a quote
  ends the argument of the notification; backslashes are doubled (C90).
* Options of a configuration which keymapperctl switches to are not applied (C91).
* With XDG_CONFIG_HOME set, `~/.config` is not searched; an empty XDG_CONFIG_HOME means the working directory (C92).
* Names with blanks name another file in `@include` and when opening the configuration; brackets or an empty name in
  `@include` read from a null pointer (C93).
* A second change within one second, and a correction in a newly included file, are never reloaded (C94).
* `--no-notify` has no effect on Linux (C95).
* On Windows, with `Control{B} >> X` Control and the wheel scrolls instead of zooming: the wheel step is passed on while
  the press of Control stays in the queue; a configuration which arrives while the release of Control is delayed lets
  the next key overtake it (C98).
* On Windows, two Control keys held when the server exits: the release of the second and all which follow are lost; a
  key held when the client connects (Enter in a terminal) stays pressed, as its release is swallowed (C99).
* On Windows, the string typer records wrong keys for layouts with chained dead keys; a text begins with the press of a
  key with the scan code 0xF000, which is never released; with the Interception driver characters which are on no key
  are not typed (C101).
* On Windows, `Find` is sent as `BrightnessUp`, `Open` as `WLAN`, `Props` as `DisplayToggleIntExt`; a wheel which is turned
  by 4096 is sent as one step; of two buttons in one stroke of the driver the second is lost (C102).
* With the Interception driver a keyboard which is unplugged and plugged in again is not mapped any more, and of two
  keyboards of the same type all keys are attributed to the first (C103).
* On macOS, when two keys which are mapped to F1 are pressed at the same time, F1 pressed later with Fn stays pressed
  forever; without Fn and without the directive the arrow keys are sent as End, Home, Page Down and Page Up and Backspace
  as Delete; keys of the generic desktop page are lost, mouse buttons as output are keyboard usages (C104).
* On macOS, when a keyboard is attached or removed while several events wait, all but the first are attributed to
  another keyboard or to none (C105).
* On macOS, a character which is only on a dead key is typed followed by a letter; characters the layout does not have
  are typed as `?` (C106).
* `VirtualGames` and `Virtual4294967296` are names of `Virtual0`; `7` is the digit key, not the scan code (C107).
* On Windows, after a file name in quotes the closing quote is taken for an opening one, so `"C:\a b\x.exe" a > b` is run
  without a terminal; `<` is not looked for, and `U+0126` is taken for `&`; a file named `e` in the current directory
  keeps `echo hi` from working (C108).
* A process which connects to the server or the client and sends nothing keeps everybody else from connecting; one
  which sends eight other bytes ends the server; on macOS and Windows, where an accepted socket is non-blocking, a client
  which is accepted before it sent its version is refused (C110).
* A string in an input which begins without modifier is not recognised when Shift is pressed before the key before it is
  released, as fast typists do; a string whose characters need two different modifiers (say Shift and AltGr) is never
  recognised (C112).
* On Windows, the state of virtual keys is kept when the server is restarted, so `keymapperctl --is-pressed` is told that
  keys are pressed which are not; choosing Reload while another file is set and the first one has an error makes the client
  send contexts of a configuration the server does not have (C111).
* On Windows, a window whose handle is used again with the same title is not noticed, and when no window is focused the
  contexts of the last one stay active (C109).
* The mark Active in the menu of the tray icon is on after a reconnect although keymapper was deactivated; when no-update is
  added to the configuration the menu has no way left to reload it (C114).
* On macOS an application whose name consists of characters of three bytes has an empty class (C115).
* A window title with a line end can forge the entries after it in the information about the next key (C116).
* Replacing the configuration while output is delayed leaves keys pressed until the next event (C117).
* A request for the next key survives the client which asked; the next client is told a key it did not ask for (C118).
* The configuration of a client which was rejected is in effect for the next one (C119).
* On Windows `keymapperctl --type "$(time /t) (local)"` runs a part of the text (C120).
* On macOS and Windows a second server takes the name of the first one, and when the first one stops nobody reaches the
  second (C121).
* Of a line which is continued the number of its last part is named in errors; of an error which quotes a text of two thousand
  characters the number of the line is cut off (C122).

Not stated as a property, seen while reading: buttons of tablets (BTN_TOUCH, BTN_TOOL_*) go out on the virtual
keyboard instead of the forwarding device; BTN_GEAR_DOWN and the three codes after it coincide with the wheel
keys; a forwarding device is reused by its number even when the device changed; a high-resolution motion of 4096
becomes one whole step; `keymapperctl --wait 100` alone exits with 3; a negative
`--wait` makes all later reads fail; `--instance` has no timeout; the client blocks while a process which
connected does not send its version.

## Plan per property

* **C01 Matching always terminates with a verdict** — Match.v; fuel is |expr|+|seq|+1; theorem: never out of fuel, for all inputs.
* **C02 A mapping is never missed by giving up early** — Match.v; simulation between the run on a sequence and on its extension.
* **C03 Ordered sequences match exactly their key strokes in order** — Match.v + separate inductive/boolean spec of ordered strokes; induction over the history with an invariant on the async list.
* **C04 A group (A B ..) matches in every press order** — Match.v; invariant: async list = expression keys with marks = pressed set; Permutation.
* **C05 A{B} requires A to be held** — Match.v; from a characterisation of the run on [+A +B ~B ~A].
* **C06 !A never matches while A is down** — Match.v; invariant on the not-keys list.
* **C07 Any only stands for keyboard keys** — Match.v; case analysis over key ranges, invariant any_matches subset of consumed presses.
  AnyProofs.v: the presses laid beside the keys asked for (`fits`), outputs with the keys written out (`written`), and `Any >> ...` from
  the first key stroke on.
* **C08 Hold timeouts fire only when the time was reached** — Key.v/Match.v; arithmetic on N.
* **C09 Every input event is processed in finite time** — Stage.v; loop measure Down/Up=2, others=1; theorem: fuel never runs out.
* **C10 No out-of-range access while processing input** — Stage.v; wf predicate on contexts; ub flag invariant over all call histories.
* **C11 Unmapped keyboard is passed through unchanged** — Stage.v; invariant relating sequence, output_down and a reference set of pressed keys.
* **C12 Simple remappings act as pure key substitution** — Stage.v; same invariant with substitution; spec is `map` over the history.
* **C13 No stuck keys** — Stage.v; three refutation witnesses. Partial theorems (StuckSpec.v, StuckMatch.v,
  StageStuck.v, StuckProperties.v): every key pressed in the output was triggered by a key which is still pressed or by
  an active context, so with all keys up nothing is pressed. The invariant: each press in the buffered sequence whose
  key is up is followed by its release (`closed`), presses of one key are separated by releases (`separated`), and a
  match consumes releases only together with their presses (`follows`). Missing: inputs with Any or `?`, inputs
  completed by a timeout (`A{500ms}`), mappings outputting just their completing event, wheels, validate_state.
  Several stages, the server and the virtual keyboard: StuckStagesSpec.v (the same conditions per stage, where a stage is
  fed the keys of the one before it), StuckStages.v (one invariant per stage, linked by what a stage passes on),
  StuckServerSpec.v (histories `runs` of a server and the keys which were input), ServerStuck.v (the keys the stages
  believe to be pressed are among those which were input or virtual keys which are on; the queue leaves nothing pressed
  which the last stage does not know) and StuckServerProperties.v.
* **C14 The engine's idea of pressed output keys covers the consumer's** — Stage.v; invariant folding the output history into a consumer state.
* **C15 The first matching mapping in file order wins** — Stage.v match_input; spec: first element of the filtered flattened mapping list.
* **C16 The last active context overrides a command** — Stage.v find_output; spec: last active context containing the command.
* **C17 Output after ^ is sent exactly once, on release** — Stage.v apply_output / continue_output_on_release; per-call theorem for all states plus history theorem.
* **C18 The emergency exit always works** — Stage.v exit automaton; spec over filtered history.
* **C19 Validation forgets keys which are not down** — Stage.v validate_state; filter characterisation.
* **C20 The history for ?-mappings stays well-formed** — Stage.v history invariant (per-key alternation).
* **C21 Stages compose** — MultiStage.v; structural induction over stages.
* **C22 Active contexts are routed to the right stage** — MultiStage.v; list arithmetic.
* **C23 Contexts with a device filter only see their devices** — Stage.v evaluate_device_filters bits; N.testbit.
* **C24 Modifier filters follow the keys** — Stage.v update_active_contexts.
* **C25 The server sends output in order, without loss or duplication** — Server.v over an abstract stage; conservation law sent ++ queue.
* **C26 Virtual key state and notifications agree** — Server.v; history invariant.
* **C27 Mapped virtual keys cannot hang the server** — Server.v; fuel measure with toggle counter.
* **C28 Resetting the configuration releases everything** — Server.v; refutation with a pending delay, partial theorem without.
* **C29 At most one timeout is pending and it is answered with the elapsed time** — Server.v; transition invariant.
* **C30 Requesting the next key info swallows exactly one press** — Server.v; one-shot flag.
* **C31 Injected and translated events reach the stage at most once per event** — Server.v; recursion depth <= 1.
* **C32 The server receives exactly the configuration the client sent** — Serial.v; encoder/decoder round trip by induction.
* **C33 Messages survive any fragmentation** — Serial.v; byte-stream parser, chunking induction.
* **C34 Malformed messages are rejected** — Serial.v; decoder bounds.
* **C35 Key sequence parsing always terminates** — ParseSeq.v; fuel = length, never exhausted.
* **C36 Parsed outputs release what they press** — ParseSeq.v; parser state invariant.
* **C37 Parsed inputs are usable** — ParseSeq.v; parser state invariant. C37_configuration_partial carries it through
  adding forwarded modifiers, optimising and replacing logical keys (ConfigShape.v fit_input), to the inputs the server
  gets; C72_file_partial concludes from it that C72 holds for every file which loads and has no `^`.
* **C38 Timeout arithmetic saturates** — Key.v; Z arithmetic.
* **C39 Context chains stay within their stage** — ConfigShape.v, ConfigParse.v: invariant of the parser's state; ConfigProperties.v.
* **C40 Removing contexts does not change the meaning** — ConfigSpec.v: active mappings of a stage for any filter; ConfigProofs.v.
* **C41 Logical keys mean either physical key** — ConfigLogical.v: mappings written out, states of keys; ConfigProperties.v.
* **C42 Macro expansion terminates** — Config.v; MacroProofs.v: each loop makes progress, nesting is limited to 30.
* **C43 Grab filters: the last matching filter decides** — Serial.v/Filter; fold_left = last match.
* **C44 Every virtual key can be queried** — Control.v; refutation at Virtual255, partial below.
* **C45 At most one control connection per instance id** — Control.v; invariant.
* **C46 A triggered terminal command is the one of its mapping** — Control.v; refutation by interleaving, partial when no update is in flight.
* **C47 Client and server agree on the configuration** — Control.v; refutation by failing reload, partial otherwise.
* **C48 Injected output sequences leave no key down** — Control.v; fold over injected sequence.
* **C49 Waiting for a virtual key is not fooled by races** — Control.v; refutation by interleaving.
* **C50 Forwarded modifiers stay available** — ConfigForward.v: first mappings of each stage, exact change of each output.
* **C64 Every file which loads is safe to run** — ConfigParse.v, ConfigLoad.v: well-formedness of each stage,
  then C10 and C52.
* **C65 Consecutive context headers share the mappings** — ConfigProperties.v, from C15 and C24.
* **C66 Each mapping runs its own terminal command** — ConfigProperties.v.
* **C67 Loading a configuration ends** — ConfigTerm.v: no loop runs out of fuel while all logical keys have names;
  refutation by a key without a name.
* **C68 Macros get the texts between the commas** — MacroSpec.v: grammar of arguments and macro texts;
  MacroTokens.v, MacroCalls.v.
* **C69 Key expressions mean what they say** — ExprSpec.v: expressions, how they are written and the events
  they stand for; ExprProofs.v: the parser yields these, by induction over how they are written. With the
  theorems about the matcher this gives what is matched by a text.
* **C70 A configuration file means what its lines say** — FileSpec.v: what each kind of line says about the
  document (blocks with conditions, mappings, commands, logical keys, macros, directives), independently of
  how `ParseConfig` stores it. C70_file_partial: a file whose lines say a document is loaded, and the active
  mappings of each stage are those of the document, as are device filters, options, included files (to a
  depth of ten) and names of virtual keys. Composes C40, C41, C69 and C71. Not covered: `@forward-modifiers`
  (see C50), ContextActive inputs, headers which exclude logical modifiers. C70_unmapped and
  C70_wrong_line: what is rejected.
* **C71 A macro stands for its text** — ExpandSpec.v: names, calls, builtin macros, variables in strings;
  ExpandBuiltin.v, ExpandProofs.v; C71_expanded_partial, C71_definition.
* **C72 Keys no mapping mentions pass through** — UntouchedSpec.v, StageUntouched.v: the matcher rejects every sequence
  with an unmatched press of the key, so a press is forwarded at once; an invariant relates the entry of the key in the
  list of held keys with its events in the sequence. C72_passes_through_partial (strokes), C72_immediately_partial (per
  call), C72_down_partial (also repeats); refuted for outputs with `^`. Inputs with `?` look
  at the history, in which presses and releases of the key take turns: none of them matches in the call which gets a new
  press, as what it matches has to end with the history.
* **C73 Keys held back are not lost** — refuted by a timeout which elapsed and by virtual keys: C73_timeout_refuted,
  C73_virtual_refuted. Without these (StageHeld.v): what was pressed of the key is what was output followed by what
  still waits in the sequence, an invariant of every round (C73_held_back_partial); pressing a key which no mapping
  mentions leaves nothing waiting (C73_released_partial).
* **C74 Keys put out are pressed on the virtual keyboard** — DeviceSpec.v: what the kernel does with what is written;
  DeviceProofs.v: invariant over all calls of the main loop; C74_server_partial composes it with the server
  (ServerStrokes.v: what is delivered are presses and releases).
* **C75 Buttons are released where they were pressed** — invariant while the active mouse stays the same; refuted else.
* **C76 Wheels turn as far as they were turned** — DeviceWheel.v: sums of fine and whole steps per device.
* **C77 Positions are within the announced range** — DeviceWheel.v: bounds and monotonicity of the mapping.
* **C46 A triggered terminal command is the one of its mapping** — CommandSpec.v: a server with a client and messages in
  both directions; invariant: what was named is what was run, is on its way or is in the queue (from the order of the
  queue, C25). Refuted when a configuration is on its way meanwhile.
* **C58 keymapperctl --type types the text** — TyperSpec.v: UTF-8, layouts, entering characters by number, how key strokes
  are read. C58_typed_partial goes from the request through the parser of the client, the queue of the server, the
  virtual keyboard and the kernel to the text which is read; it needs a dictionary which is right for the layout, which
  C58_generic_us and C58_xkb_partial show of the two typers. C58_composed_partial is the same for applications which
  compose symbols (a table of sequences, as libxkbcommon has it), C58_table_partial shows that dictionaries made from a
  keymap and a table are right for them, C58_reaches which characters they have.
* **C78 length[] is the number of characters a string types** — from C71's specification of the builtin macros.
* **C79 Keys no mapping mentions are held exactly while they are held on the keyboard** — composes how device events are
  read, all stages (StageUntouched.v's invariant with one common state of the key in every stage), the server (ServerPass.v:
  what was queued of the key leaves it as its last input did) and C74's virtual keyboard. Refuted while a configuration is
  replaced and after a request for the next key.
* **C80 Exactly the devices which are wanted are grabbed** — GrabRun.v: invariant over all turns of the main loop with
  devices coming and going at any time: what is open is what the kernel was told to grab, and if nothing is left to be
  reported the last scan saw the present devices.
* **C81 The server never grabs its own virtual devices** — GrabAlign.v: no call ever grabs a device named like one of
  the server's; refuted by an endless run for long names.
* **C82 Every event is attributed to the device it came from** — GrabAlign.v: the devices read, the descriptions the
  server has and the forward devices stay aligned.
* **C83 Devices are grabbed and released while none of their keys is held** — GrabAlign.v: every call is preceded by an
  answer without keys, unless none came in 1000 tries.
* **C84 The devices grabbed follow the configuration** — SessionRun.v: invariant over all events in all phases of the
  server: devices are settled for the filters and the use of the mouse in effect, which are those of the last
  configuration read, or the flag is set and the session ends with the turn.
* **C85 The server exits when asked to** — SessionProperties.v: the next turn ends the process, from any state in
  `main_loop`; clients are accepted only when no exit was asked for.
* **C86 Output is put out in the session in which it was asked for** — SessionProperties.v: the queue is empty after a
  session which ended without delays queued; refuted otherwise.
* **C87 The client knows the focused window** — FocusProofs.v: invariant between the desktop (what is still to be
  announced) and the objects of the client, for announcements in any order; FocusClient.v: the window of the client is the
  one reported last; combined with C57 for the contexts of the server.  Assumed of the environment: libwayland does not
  deliver events of destroyed handles, `malloc` does not give an address in use, the class and process of an X window do
  not change, libdbus dispatches one message per call or reads (its documented behaviour).
* **C88 Looking at the properties of a window is safe** — FocusRun.v; refuted by an empty property.
* **C89 Focus changes are seen at the next update** — FocusRun.v: bounds on the number of messages dispatched.
* **C90 Notifications show their text and nothing else** — ClientMain.v against the quoting rules of the shell (ClientMainSpec.v).
* **C91 The options in effect** — invariant of the program around the client (ClientMain.v), which refines Client.v.
* **C92 Where the configuration is looked for** — list of places against the search.
* **C93 The file which is named is the file which is used** — every wordexp which obeys POSIX on plain names.
* **C94 With updates the configuration in use is the one in the file** — invariant over the checks, given a clock.
* **C95 --no-notify disables notifications** — refuted.
* **C96 The exit status tells whether the configuration is valid** — case analysis of `app_main` with the real `load_config`.
* **C97 Loading a configuration is free of undefined behaviour** — refuted by a filter "/i" (parse_regex.h removes a
  character from an empty string view), by a number beyond INT_MAX and by a sum beyond INT_MAX.  LoadDefined.v:
  invariant over the lines for files which keep away from a few neighbouring characters (LoadSpec.v): expanding macros
  keeps digits, quotes, slashes and brackets apart.
* **C98 On Windows applications see the output in its order** — WinProofs.v: invariant over all calls of the hooks, the
  timers and the window procedure: what was put out is what was seen followed by what is queued, and the timer is set
  unless the queue is empty.  WinKeeps.v: every expiry of the timer shortens the queue.  Refuted for wheel steps (the
  result of the inserted press is ignored) and for configurations replaced while something waits (the timer is forgotten).
* **C99 On Windows nothing stays pressed** — WinClosed.v on top of C98; refuted at exit and for keys held before.
* **C100 On Windows every key event is processed once** — WinKeeps.v.
* **C101 On Windows a text is typed as it is written** — WinInputProofs.v: induction over the strokes of the typer against
  an application which reads with the same layout; WinTyped.v: through the server, and the dictionary made of a layout.
* **C102 What is read on Windows is sent as the same key** — WinDevicesProofs.v, over all scan codes, buttons and deltas.
* **C103 On Windows a key is attributed to its device** — WinDevicesProofs.v: invariant over attaching, removing and
  filtering (the lists are the devices which are attached, divided by the filters), and the cache of handles; induction
  over lists of hardware identifiers.
* **C104 The virtual keyboard on macOS shows what is held** — MacProofs.v: the reports refine the history (newest event of
  a usage), with the list of function keys as an invariant; refuted for keys pressed twice, shared usages, arrow keys.
* **C105 The grabbed devices on macOS are the ones wanted** — MacProofs.v: invariant over events, devices and updates;
  attribution by induction over calm runs, refuted otherwise.
* **C106 Strings are typed as they are on macOS** — MacTyperProofs.v: induction over the strokes from which the
  dictionary is made.
* **C107 Names of keys mean one key** — KeyNameProperties.v: an inductive relation of names and keys against the lookup;
  numbers by induction over digits, tables by computation over all their entries.
* **C108 Commands on Windows are run directly or by the terminal** — WinCommandProperties.v: induction over the command,
  quotes counted.
* **C109 Focus and validation on Windows** — WinCommandProperties.v: induction over the windows which were focused and
  the ticks of the timer.
* **C110 Processes of the same version get connected** — HostProperties.v: invariant over all interleavings of any number of
  processes; at rest everybody has their answer; a weight which decreases with every move.
* **C111 The Windows client keeps server and keymapperctl informed** — WinClientProofs.v: the invariants of C47, C57, C44 and
  C45 over the messages of the window; those about keymapperctl for the trace without the losses of the connection.
* **C112 A string in an input triggers when it is typed** — StringInputProofs.v: the expression of a string is a normal form
  over one modifier key; induction over the ways to type it with an invariant about the keys which may be released at any
  time.  Not early: every press of a key which is no modifier has to be matched by one.
* **C113 Keys which might complete a mapping are held back and replaced by its output** — TriggerProofs.v: from a stage at
  rest the loop over the sequence stops at the first candidate which does not reject it; while it might match the state only
  collects events, and with the match the output is applied to an empty list of pressed outputs.
  RestProperties.v: a stage which is clear (`Stage::is_clear`) after any history of keys and contexts is at rest.
* **C114 The menu of the tray icon tells the truth** — Tray.v puts the icon on top of the program of ClientMain.v. TrayProofs.v:
  no function of the client besides `toggle_active` changes whether it is active or adds such an event to the trace (`mood`);
  the invariant relates the mark to it. Two findings: the mark is on after a reconnect although keymapper was deactivated
  (`C114_active_refuted`), and when no-update is added to the configuration there is no way left to reload it but to restart
  (`C114_reload_refuted`).
* **C115 On macOS class and path are those of the application in front** — MacFocusProperties.v: invariant over the waiting
  events; the bytes of a name compared with three per UTF-16 unit. Finding: an application whose name consists of characters
  of three bytes only has an empty class (`C115_name_refuted`); `CFStringGetCString` is given a buffer without room for the NUL.
* **C116 The information about the next key tells the truth** — KeyInfoProofs.v: the lines of the text are the entries it was
  joined from, entries determine label and value; an invariant over the trace relates every information to the message of the
  server before it. Finding: a window title with a line end can forge the entries after it (`C116_told_refuted`).
* **C117 Queued output does not wait for the next key** — WaitProperties.v: an invariant of turns (queue empty or a flush
  scheduled), from `flush_progress`; the limit of the wait is one of the deadlines and none is before it. Finding: replacing the
  configuration while output is delayed clears `m_flush_scheduled_at` after the flush of the old output may have set it again;
  keys stay pressed until the next event (`C117_woken_refuted`).
* **C118 Clients are told keys they asked for** — AskedProperties.v: keys told and the open request are a bound which only requests
  raise (`lifts` of ServerLift.v, then the steps of Session.v). Finding: `m_next_key_info_requested` survives the client which
  asked (`C118_left_refuted`).
* **C119 Devices are grabbed for the client which is connected** — StaleProperties.v, from the invariant of SessionRun.v. Finding:
  `connection_loop` resets the configuration only after `main_loop`, not when `read_initial_config` fails, so that the configuration
  of a rejected client is in effect for the next one (`C119_stale_refuted`).
* **C120 On Windows --type runs only what is a command** — TypeCommand.v (expand_command.cpp; `find`, `back` and `substr` with their
  undefined cases, the process and the code page as parameters), TypeCommandProperties.v. Finding: only the first two characters and
  the last one decide (`C120_command_refuted`).
* **C121 Who listens is reached** — HostName.v, HostNameProperties.v: invariant that every process has its own sockets and an abstract
  name leads to an open one. Finding: where names are files they are removed without looking whose they are (`C121_kept_refuted`).
* **C122 Errors in the configuration name their place** — ErrorPlace.v, ErrorPlaceProperties.v: the place is specified by the lines
  read before, without counters; induction over the depth of includes. Findings: `C122_continued_refuted`, `C122_cut_refuted`.
* **C123 The server knows the devices it reads from** — KnownProperties.v: no step of the server but `SDevices` changes the devices;
  the descriptions are those of the open devices in the world of the last update. Stated with nodes and bytes, without `describe`.
