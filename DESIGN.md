# postcard-rpc: formal model and proofs (Rocq / Coq 8.16.1)

The code under study is `/repo/source/postcard-rpc/src` (citations below and in the
Coq comments are relative to that directory).  The properties are in
`properties.jsonl`; `MANIFEST.json` maps each to the theorems that settle it.

## Layout

Every area has up to three kinds of file under `rocq/theories/`:

* `*Model.v`  – definitions transcribed from the Rust source, function by function,
  each with a comment citing file and lines and saying what was simplified.
  No proofs.
* `*Spec.v` / the head of `*Thm.v` – small independent specifications.
* `*Proof.v`  – lemmas.
* `*Thm.v`  – the property theorems, each closed by `exact lemma`, each followed by
  `Print Assumptions`, each with an `Example` showing its hypotheses are met by a
  concrete, non-trivial case.

Naming: a theorem named `..._partial` proves part of a property and says what is
missing; `..._refuted` proves that the property as stated is false of the modelled
code and exhibits a witness.

## General modelling decisions

* Bytes, integers: `N`, with well-formedness predicates (`< 256`, `< 2^16`, ...)
  and explicit truncation where the Rust code truncates. Lengths: `nat`.
* Panics (slice out of range, length mismatch, arithmetic overflow in checked code)
  are explicit `Panic` results wherever the code can reach them.
* `async` code: every `.await` that talks to a transport is a step whose outcome is
  chosen by an arbitrary schedule; cancellation may strike at each of those points.
  Locks (`Mutex`) are modelled by making the critical section atomic with respect to
  other users of that lock, but still interruptible.
* Concurrency on the host: a labelled transition system, one label per atomic action
  of a caller, worker, or the environment; theorems quantify over all label sequences.
* Code of other crates is represented by its documented behaviour; see "Trusted base".

## Properties and how each is approached

| id | files | model and proof idea |
|----|-------|-----------|
| C01–C03, C07 | `HeaderModel`, `HeaderSpec`, `KeyHeaderThm` | `write_to_vec`, `write_to_slice`, `take_from_slice` byte by byte; case analysis on the 12 layouts |
| C04–C06 | `KeyModel`, `KeySpec`, `KeyHeaderThm` | Key1/2/4/8, VarKey, all conversions, `PartialEq`, `shrink_to`; specification: XOR of equal groups |
| C08 | `MinKeyModel`, `MinKeyThm` | the `keycheck!` loops and `min_key_needed`; loop = decision of `NoDup` |
| C09–C12, C42 | `DispatchModel`, `DispatchThm` | generated `handle`, arms, `Sender`; handlers, deserializers and transmission outcomes universally quantified |
| C13, C14 | `ServerModel`, `ServerThm` | `Server::run`; induction over receive results |
| C15–C19, C52, C54 | `UsbModel`, `UsbSpec`, `UsbThm` | `send_all` with interruption points, `receive`, nusb `send_inner`; invariant relating the pending flag to the transfer on the wire |
| C48, C55 | `NusbRxModel`, `NusbRxThm`, `UsbStallThm` | nusb receive queue and stall recovery; when the client of the whole system gives up the connection |
| C61, C62 | `WebUsbModel`, `WebUsbThm` | WebUSB send and receive |
| C20 | `CobsModel`, `CobsProof`, `AccThm` | COBS codec (published algorithm of the `cobs` crate) |
| C21–C24, C56 | `AccModel`, `AccThm` | accumulator and serial transport; feeding chunks refines a byte-at-a-time machine |
| C25–C29 | `SchemaModel`, `MacroModel`, `SchemaThm` | schema trees, `uniques.rs`, tables made by the macros |
| C30–C36, C41, C59 | `ClientModel`, `ClientHist`, `ClientOut`, `ClientThm*` | transition system of the host client; invariants by induction on label sequences |
| C36–C41, C58 | `SubModel`, `SubSpec`, `SubThm*` | subscription lists, bounded queue, broadcast ring; simulation by a single-queue specification |
| C43, C44, C60 | `ReportModel`, `ReportThm*` | the host's schema report; loss = arbitrary sublist |
| C45–C47, C57 | `LogModel`, `LogThm` | message building in the transmit buffer, `SliceWriter`, varints |
| C49–C51 | `SystemModel`, `SystemThm*` | client × lossy reordering links (which may also cut short what the device sends) × server, with any background tasks that publish through clones of its `Sender`; global invariant linking pending requests, frames in flight and replies |
| C63–C65 | `CodecModel`, `CodecStdModel`, `CodecSpec`, `CodecThm`, `VarintThm` | postcard's wire format: serialization by value, deserialization by schema; mutual induction over schemas; exactly which bytes are read as an integer |
| C66 | `TypedSpec`, `TypedThm*` | the system of C49–C51 with the wire format of C63–C65: what the caller of a typed endpoint sees |
| C67–C69 | `FlowSpec`, `SubFlow`, `FlowProof`, `FlowThm*`, `FlowPub`, `FlowTyped` | what flows through that system: from calls to handler runs, from transmissions to subscribers; subsequence and permutation invariants |
| C70 | `LiveSpec`, `LiveProof`, `LiveThm*` | the same system: the program's own steps are well-founded (lexicographic measure), and an invariant says where every unanswered request is on its way |
| C71, C72 | `UsbSysModel`, `UsbSysSpec`, `UsbLink`, `UsbSysProof`, `UsbSysLive`, `UsbSysThm*` | client × nusb × packets × embassy-usb × server, await by await; simulated by the system of C73 (forward simulation that tracks which frames are lost, so C73 carries over, and each wait is traced to a frame that was too long or not sent completely) |
| C73 | `AsyncModel`, `AsyncSpec`, `AsyncProof`, `AsyncThm*` | the system of C49–C51 with the server stopping at every transmission while tasks go on; simulated by that system (the whole dispatch is placed where it began, with the results that its transmissions will have), so C49, C66–C70 carry over |
| C74 | `SessionModel`, `SessionSpec`, `SessionProof`, `SessionThm*` | the system of C73 with one client after another on a device that goes on running; with a settled device (no frame in the link, nothing being dispatched, no task that answers) bisimilar to a new one whose network starts where the old one's is |
| C75 | `MissSpec`, `MissProof`, `MissThm*` | conservation law over the system of C73: messages on the way + transmitted = given + held + on the way, from the reference queues of C38/C39 applied to the client's part of any history; `C75_impatient_misses` and `C75_behind_misses` show that the conditions on the user are needed |
| C76 | `DiscoverSpec`, `DiscoverProof`, `DiscoverThm*` | invariant over the system of C73: what was transmitted under the schema keys is, up to what the current handler is still to send, one whole answer per request served; joined with C73 (what is given was sent), C65 (decoding), C44 (counts), C75 (nothing missed) and C43 (a complete stream gives a complete report) |
| C77 | `ThreadsSpec`, `ThreadsProof`, `ThreadsThm*` | invariant over the system of C73 that assigns every event to a thread; the dispatcher's part is replayed with an oracle read off the history, so that `C73_dispatcher` applies; joined with C75 for what a subscriber hears |
| C78 | `ChanSysModel`, `ChanSysSpec`, `ChanSysProof`, `ChanSysLive`, `ChanSysThm*` | the system of C73 with its two queues bounded by the channels of C53; simulation by the unbounded system (the outcome of every transmission is read off the history), a well-founded measure for the program's own steps, and an invariant that tells why `run` returned |
| C79 | `ServedSpec`, `ServedProof`, `ServedThm*` | an account, kept along every history, of where the frame of each accepted call is: in the client, on the link, lost, or handled; each piece of the server's trace belongs to one frame that was taken off the link, and a frame whose call has a handler leaves exactly one run; carried over to interleaved dispatch, to the channels and to USB by the simulations of C73, C78 and C71 |
| C80 | `HandleModel`, `HandleSpec`, `HandleProof`, `HandleCalls`, `HandleChan`, `HandleServe`, `HandleThm*` | a layer of handles on top of any model that contains a client; invariants about who borrows which handle and why the client is closed; over the channels of C78, with its measure extended, and the account of C79 |
| C81 | `ConnectModel`, `ConnectSpec`, `ConnectThm*` | an invariant of the loop over endpoints; USB descriptors as data |
| C82 | `FakeModel`, `FakeSpec`, `FakeProof`, `FakeLive`, `FakeThm*` | the client's transition system joined to the fake server's channels; C30, C31, C36 and C59 applied to its histories; a measure for termination |
| C83, C84, C85 | `WorkbookModel`, `WorkbookSpec`, `WorkbookThm`, `WorkbookThm2` | the example firmware's stateful handlers as a transition system between awaits; one invariant relating the stop flag, the lock and the task to what was seen |
| C86 | `OmitThm`, `OmitThm2` | devices whose tables leave the standard endpoints out: the theorems about whole systems ask of a device only `dispatcher_for` (DispatchSpec), which holds of what the macro makes (`C09_made_for`) and of such devices if the standard keys stand apart |
| C87 | `UsbMissThm`, `UsbMissThm2` | C75, C76 and C77 (subscribers, discovery, tasks) over the packets of USB, through the simulation of C71 |
| C88 | `SoleProof`, `LogSysModel`, `LogSysSpec`, `LogSysThm`, `LogSysThm2` | a task that logs, over the packets of USB, to the printing loop of the host's logging example; the topic with a single publisher; the logging firmware's calls. A task's log calls are given with the numbers that the shared counter gave them; calls that are refused or panic (C45) are excluded |
| C89 | `WebSysModel`, `WebSysSpec`, `WebSysProof`, `WebSysLive`, `WebSysThm*` | client × WebUSB × packets × embassy-usb × server; simulated by the system of C71 for all frames that WebUSB keeps apart |
| C90 | `StateSpec`, `StateProof`, `StateThm*`, `StateTyped` | the device as one sequential object: a path of turns through the handlers' context that explains every reply; any link, USB, WebUSB |
| C91 | `WbSysModel`, `WbSysSpec`, `WbSysProof`, `WbSysThm*` | the workbook example as a whole: the interface's tables and types, the client's methods, the firmware's table of handlers; C90 and the codec (C63) applied to it, with the lights of C85 as the context |
| C92 | `CauseSpec`, `CauseProof`, `CauseThm*` | what came before what on the two sides of a link that keeps the order: moments of the host matched with moments of the device; any link, USB, WebUSB |
| C93 | `AccSysSpec`, `AccSysProof`, `AccSysThm*` | the accelerometer of C83 inside the whole workbook system (C91), seen from the host by C92: stops, readings; USB, WebUSB |
| C94 | `TimeModel`, `TimeThm` | how long a send of the embassy-usb server may take: the timer of `send_all` against the time that each write to the endpoint takes. Time passes only in those writes, in whole milliseconds; a write that is complete when the timer runs out counts as complete |
| C95 | `RestartThm`, `RestartThm2`, `RestartSys`, `RestartThm3` (no new model) | a host program that is started after another one ended at any packet of a frame or message: the models of C15–C19 and C54 of the two ends of the pipes, begun with what was left. Assumes that claiming the interface anew does not reset the endpoints or what the controller holds (raw_nusb.rs:236 only claims) |
| C96 | `StripModel`, `StripSpec`, `StripProof`, `StripThm` | the driver of the workbook's lights: the words, the PIO program instruction by instruction, FIFO and DMA word by word, against a strip of WS2812 lights as in the data sheet. Time in cycles of 125 ns; taking a word from the FIFO and the DMA transfer take no time |
| C97 | `ReplModel`, `ReplSpec`, `ReplProof`, `ReplThm`, `ReplSysModel`, `ReplSysThm` | the prompt of `workbook-host/src/bin/comms-02.rs`: words, numbers, commands, the loop and its `unwrap`s as a state machine over lines, answers, samples and times. `split_whitespace`, `u32::from_str` and `u8::from_str` are modelled after the documentation of the standard library; what is printed is kept as a value, not as text |
| C98 | `TurnModel`, `TurnSpec`, `TurnProof`, `TurnThm` | the tasks that share `EUsbWireTx`: waiting for the mutex (served in any order), the timer of each turn in whole milliseconds, single packets, `set_timeout_ms_per_frame`. A timer that has run out is seen before more time passes; what the CPU does takes no time |
| C99 | `PingModel`, `PingSpec`, `PingThm`, `PingThm2` | `workbook-host/src/bin/comms-01.rs`: the loop of ten pings, its `unwrap` and `assert_eq!`, and the `select!` with `wait_closed`, as a state machine beside the client and the device of C91. Either branch of `select!` may come first; that the client is closed may be noticed at any time, which allows more than the code does; the period of the ticker is not modelled |
| C47, C53 | `ChanModel`, `ChanThm` | in-memory channel transport |

## Properties found to be false of the code

Each has a `_refuted` theorem with a witness, and `_partial` theorems with the
strongest true variant we found; `MANIFEST.json` says per property what is missing.
For C12, C14, C18, C23, C24, C40, C55, C58 and C60 the files `AccExact`,
`DispatchExact`, `UsbExact`, `SubExact`, `SubExact2` and `ReportThm2` moreover say exactly when the general claim fails, or
what then happens instead.

| id | what happens | where |
|----|--------------|-------|
| C12 | an unknown 8-byte key that agrees with a handled one after compaction runs that handler | `dispatch_macro.rs` (compaction of the incoming key) |
| C14 | a timed-out reply does not stop the loop if the error frame sent in its place gets out | `dispatch_macro.rs` (result of the error frame replaces the timeout) |
| C18 | with a receive buffer that is not a multiple of 64 bytes, the tail of an oversized frame is delivered | `embassy_usb_v0_4.rs:591-625` |
| C19 | a frame of a multiple of 64 bytes that exactly fills the buffer is refused | same |
| C23 | an overflow inside a frame makes the frame's tail look like a frame | `accumulator.rs` |
| C24 | valid frames shorter than nine bytes are discarded by the serial transport | `serial.rs` |
| C28 | types below the payload of a newtype variant are not collected | `uniques.rs` |
| C35 | the configured sequence number width is never applied | `host_client/mod.rs` |
| C40 | cleaning up a dropped exclusive subscription removes every one with the same key at wire length | `host_client/util.rs` |
| C44 | lost nested types go unnoticed (`types_sent` is not compared); concurrent reports mix | `host_client/mod.rs:251-321` |
| C45 | formatted logging panics instead of truncating; also panics for some texts that fit | `embassy_usb_v0_4.rs:371-456` |
| C50 | the error key takes no part in the key length computation, so an error frame may be taken for a reply | `server/mod.rs`, `dispatch_macro.rs` |
| C69 | for the same reason an error frame may be given to a subscriber as a message of its topic | `server/mod.rs`, `dispatch_macro.rs` |
| C70 | ... and the request that was refused then never returns | `host_client/util.rs`, `host_client/mod.rs` |
| C71 | an IN transfer that fails amid a message makes the rest of the message look like a message: a caller may get a reply that no handler gave | `raw_nusb.rs`, `embassy_usb_v0_4.rs` |
| C71 | a message whose sending was interrupted is delivered as if complete | `embassy_usb_v0_4.rs` (`pending_frame`) |
| C72 | a request longer than the device's buffer is dropped without an error, its caller waits for ever | `server/mod.rs` (`ReceivedMessageTooLarge`) |
| C51 | the error answering a publication can fail a request with the same sequence number | `server/mod.rs`, `host_client/mod.rs` |
| C74 | sequence numbers start from 0 with each client, so an answer owed to the last client is taken for the answer to a request of the next | `host_client/mod.rs:199, 335`, firmware main loops |
| C76 | two discoveries at once through one client: each hears the items sent for the other, so both are told that data was lost although none was | `host_client/mod.rs:250-300` (one shared topic, rows only counted) |
| C78 | a server that was stopped but not dropped leaves calls waiting for ever; a frame longer than its buffer is dropped without a word | `server/impls/test_channels.rs` (`receive`), `server/mod.rs:420-454` |
| C80 | after the last client is dropped, the answer to a request whose caller gave up cannot be delivered; `run` returns, and publications behind it that had arrived are not handled | `server/mod.rs:420-454`, `host_client/util.rs:153-185` |
| C81 | the interface is searched by its position in the list but claimed by number; endpoints of alternate settings that are not active may be chosen | `host_client/raw_nusb.rs:95-98, 167-170, 228-258` |
| C84 | a start whose reply fails after a stop leaves `STOP` set, so the next stream ends before its first sample; the range asked for is ignored; a start right after a stop is refused | `example/firmware/src/bin/comms-02.rs:253-258, 285-292` |
| C86 | with `omit_std` the standard keys take no part in the key length computation, but are compared first: an endpoint of the device whose key looks like that of ping is never reached | `dispatch_macro.rs` (`sizer`, `handle`) |
| C55 | data completing during stall recovery is dropped | `raw_nusb.rs:477-480` |
| C56 | at end of file the serial receiver spins | `serial.rs` |
| C58 | a later broadcast subscriber gets the depth of the first | `host_client/mod.rs` |
| C60 | `usize`/`isize` payloads make every report fail | `host_client/mod.rs` (`SchemaReport::default`) |
| C61 | WebUSB sends no empty packet after a multiple of 64 bytes, so frames merge | `webusb.rs:150-163` |
| C07 | the documentation of `VarSeq` says that sequence numbers of different lengths are not equal; the code compares their values | `header.rs:231-234, 293-297` |
| C88 | a host program that prints the device's log and falls behind by 65 messages ends although the device is connected | `example/workbook-host/src/bin/logging.rs` |
| C89 | over WebUSB frames of whole packets merge with the next (C61), and a message longer than the transfer ends the connection | `webusb.rs` |
| C92 | on a link that does not keep the order of messages, an answer says nothing about what the device did before it | any `WireRx` that reorders |
| C93 | a stop that is handled before the start's task has the sensor answers `false` and stops nothing | `comms-02.rs:248, 285-292` |
| C94 | empty packets are not paid for in the time a send may take; after one delay all later sends of 64 bytes may time out | `embassy_usb_v0_4.rs` (`send_all`) |
| C95 | what a host program that ended amid a frame has left behind can make a request out of the next program's first frame, so that its first call never returns, and the end of an old message can pass for an answer; even between messages, a call of the next program returns the answer to the old program's call of the same sequence number, if that answer waits in the endpoint or is sent later by a spawned task | `raw_nusb.rs:236` (nothing is flushed) |
| C96 | a write to the lights that follows another one at once is lost | `ws2812.rs:107-110` (`dma_push` returns while nine words are under way) |
| C97 | `rgb` with a number that is no colour, or for a light that does not exist, panics instead of complaining; falling behind in `accel listen` panics and leaves the accelerometer running; at the end of the input the program loops | `workbook-host/src/bin/comms-02.rs:41, 43, 47, 77, 23` |

## Trusted base

1. The Coq 8.16.1 kernel, including `vm_compute`.  No kernel check is switched off.
2. Axioms: **none**.  Every theorem in `MANIFEST.json` is followed by
   `Print Assumptions`, and each prints `Closed under the global context`.
   (A tool that lists the axioms of all *loaded libraries* also shows seven
   constants of `Coq.ssr.ssrunder`; they come with `Lia`/`ssreflect` loading and no theorem
   depends on them.)
3. The fidelity of the model to the source, per the citations in the comments.
4. The behaviour of external code, modelled from its documentation since the
   sources are not available here:
   * `cobs` (`encode_vec`, `decode_in_place`): the published algorithm;
   * `postcard`: the published wire format (`CodecModel`; `usize` is 64 bits wide);
     the dispatcher, client and system theorems C09–C51 hold for an arbitrary encoder
     and decoder;
   * `postcard_schema`: the schema tree and its derived serialization (the numbers of
     the variants are an assumption no theorem depends on); the key hash is an
     arbitrary function; user payloads containing a schema as a value are not covered
     by C63;
   * `maitake_sync::WaitMap`: `enqueue` refuses a key that is present, `wake` wakes
     and removes the entry, closing wakes all; equality of keys is `PartialEq` of the
     key type, tried in an arbitrary order;
   * `tokio::sync::{mpsc, broadcast, RwLock, Mutex}`: bounded FIFO, ring of
     `next_power_of_two(depth)` with lag counting, mutual exclusion;
     `select!` takes any ready branch;
   * embassy-usb endpoints and nusb queues; USB bulk transfer rules (64-byte packets,
     delivered in order and unmodified, a transfer ends at a short packet);
   * WebUSB `transferOut`/`transferIn` as in the standard;
   * the RP2040's PIO, FIFO and DMA, and WS2812 lights, as in their data sheets (C96 only).

### Modelled code

All citations are relative to `/repo/source/postcard-rpc/src`.

| source | modelled | not modelled |
|--------|----------|--------------|
| `lib.rs` | Key1/2/4/8, conversions, `TryFrom<&VarKey>` | traits without code |
| `header.rs` | all of `VarKey`, `VarSeq`, `VarHeader` | doc tests |
| `accumulator.rs` | all | |
| `uniques.rs` | all const functions used by the macros | |
| `macros.rs` | tables made by `endpoints!`, `topics!` | `cfg` attributes (absent rows) |
| `standard_icd.rs` | keys, schema messages, wire errors and their derived serialization | |
| `server/mod.rs` | `Sender`, `Server::run`, `Server::sender` (as background tasks of the system), running `Server::run` again when the next client connects, `min_key_needed`, `keycheck!` | |
| `server/dispatch_macro.rs` | the generated dispatcher | Rust type checking of the arms |
| `server/impls/embassy_usb_v0_4.rs` | 280-287, 297-627: all of transmit and receive | of the USB set-up (103-230) only the interface and endpoints it declares; poststation string handler, `fake` module |
| `server/impls/embassy_usb_v0_3.rs` | same text, but for a fixed 2 ms timeout per packet | same |
| `server/impls/test_channels.rs`, `host_client/test_channels.rs` | all | |
| `host_client/mod.rs` | requests, publications, subscriptions, closing, cloning and dropping, schema report | a call of `subscribe*` that waits for the lock is modelled at the moment it gets it |
| `host_client/util.rs` | both workers, `Stopper`, subscription clean-up | |
| `host_client/raw_nusb.rs` | all | `FnMut` predicates are functions |
| `host_client/serial.rs` | send and receive | opening the port |
| `host_client/webusb.rs` | choice of the device, send and receive | opening |
| `example/firmware/src/bin/comms-02.rs` (relative to `/repo`), 50-66, 94-122, 158-163, 196-292 | the handlers, their context, the table of handlers | set-up of the hardware, driver of the sensor; in the whole system (C91) the sensor's readings, and whether it is in use when a stop is handled, are arbitrary functions of the request's header (C83 and C84 say what decides on them; C93 assumes that they are as the model of the accelerometer says, `accel_as_modelled`) |
| `example/firmware/src/ws2812.rs` | words, PIO program, shift and FIFO configuration, `write` | pin and clock set-up |
| `example/workbook-icd/src/lib.rs` | tables and types | hashes of the paths: `for_path` is an arbitrary function |
| `example/workbook-host/src/bin/comms-02.rs` | `main`, as a state machine | the text of what is printed |
| `example/workbook-host/src/client.rs` | 32-128: the methods that call the device | opening the device |
| `test_utils.rs` | all | clones of the public `to_client` sender and `Receiver::close` on `from_client` |

### User code

A handler is an arbitrary program that transmits any frames, sees the result of each
transmission and finally returns a value (`HProg`); a spawned handler or a background
task the same.  What user code reads besides (sensors, time, shared flags) is not an
explicit input: the theorems hold for every choice of the programs, and the context of a
handler (`Ctx`, and `SCtx` for a spawned one) is an arbitrary type that can carry what it
will read.  Programs are finite; one that never ends is covered, in every finite history,
by its beginnings, but theorems about coming to rest suppose that user code ends.
A handler that panics ends the history.

### Not modelled at all

Operating system, real time (time-outs are arbitrary interruption points), USB
enumeration, memory allocation failure, and the Rust type system.

## Checking the theorems against wrong programs

`seeded/LOG.jsonl` records edits of the model, each a realistic bug, made in a
scratch copy, with the theorems that no longer prove and, where one should have
failed and did not, the theorem that was added or tightened.

## Checking the model against the code's own tests

The code cannot be run here.  `TestsEx.v` replays the project's unit tests
(`server/mod.rs`, `macros.rs`, `header.rs`, `uniques.rs`) and its integration tests
(`postcard-rpc-test/tests/basic.rs`, `subscrobble.rs`) on the model; every assertion that
concerns modelled code is an equation proved by computation with the value that the test
expects.  These are tests of the model, not claims about the code.  `Key::for_path`, which
is external, is replaced by a stand-in hash.
