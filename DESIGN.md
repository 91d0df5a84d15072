# Formal model of Trivernis/bromine in Rocq (Coq 8.16.1)

Everything is in `rocq/theories/` (logical name `Verif`). The code in /repo is read as text; nothing of it was built or run.

## Layout

Three kinds of files: the **model** (every definition cites the file and lines it models, simplifications are said there),
the **specifications** `Spec*.v` (vocabulary of the theorem statements, written without looking at how the code works) and
the **proofs**. The theorems the manifest lists are in the files `Props*.v` only; each is a statement closed by `exact`, with
`Print Assumptions` and an `Example`/`_case` beside it showing a concrete case that meets its hypotheses.

| model | of | content |
|---|---|---|
| `Base.v` | | bytes (`Coq.Init.Byte.byte`), big-endian integers, outcomes (`Ok`/`Err`/`Crash`), errors (`error.rs`), finite maps |
| `Utf8.v` | core | the table driven check of `String::from_utf8` |
| `Reader.v` | tokio, byteorder | slice readers; reading programs (`read_uN`, `read_exact`, allocation) run over byte strings, and poll by poll over scripted transports |
| `Codec.v` | `events/event.rs` | `Event`, `EventHeader`, constructors, `into_bytes`, `from_async_read` |
| `Ids.v` | `events/mod.rs` | `generate_event_id` |
| `Payload.v` | `events/payload.rs`, `error_event.rs`, `payload_serializer/*` | `BytePayload`, `()`, `TandemPayload`, `ErrorEventData`, `SerdePayload`, `DynamicSerializer` |
| `Crypt.v` | `protocol/encrypted/*`, `server.rs` accept loop | nonces, `CipherBox`, `EncryptedPackage`, poll machines of the encrypted halves, key exchange on both sides |
| `Builder.v` | `ipc/builder.rs`, `namespaces/*`, `events/event_handler.rs` | registration, namespaces, `build_*` |
| `Pool.v` | `ipc/context.rs:163-275` | `PooledContext`, `PoolGuard` with the single atomic counter operations as steps |
| `Emit.v` | `ipc/stream_emitter/*` | the futures of emit / await_reply / stream_replies poll by poll, tasks sharing the write half through the mutex |
| `Ipc.v` | `ipc/mod.rs`, `context.rs`, `client.rs`, `server.rs`, `stream_emitter/*` | labelled transition system of an endpoint: receive loops, dispatch, handler tasks, reply listeners, channels, streams, stop |
| `Timed.v` | `stream_emitter/emit_metadata_with_response*.rs` | the same futures with their timers, times counted in ticks; `with_timeout`, the timeout captured by the stream |
| `Wire.v` | `stream_emitter/emit_metadata.rs` over `protocol/tcp.rs`, `unix_socket.rs`, `encrypted/io_impl.rs` | the emit futures with an actual socket or encrypted write half behind the mutex |
| `Proc.v` | `ipc/server.rs`, `client.rs` | a process with any number of endpoints sharing the event counter |
| `Bounded.v` | `emit_metadata.rs:77-90`, `tcp.rs`, `unix_socket.rs` | `Pair` where sending needs room on the connection |
| `BytePair.v` | `emit_metadata.rs:76-101`, `event.rs:136-175`, `ipc/mod.rs:24` | two endpoints joined by byte streams of finite capacity |
| `Life.v` | `ipc/client.rs`, `server.rs`, `context.rs`, `stream_emitter/*` | who owns the halves of a connection and the stop sender: reference counts, futures, handlers, loops; no event contents |
| `Link.v` | `emit_metadata.rs:76-101`, `encrypted/io_impl.rs`, `ipc/mod.rs:24` | two endpoints joined by an encrypted connection: emit futures of `Wire.v` on the write half of `Crypt.v`, the receive loop on its read half |
| `Shared.v` | `context.rs:39-40`, `builder.rs:107-123`, `:218`, `:248`, `server.rs:43` | the data shared by the contexts of a build: tokio's fair `RwLock` (permits, queue, cancellation) around the type map, any number of tasks, connections and builds |
| `Attack.v` | `emit_metadata.rs:71-101`, `ipc/mod.rs:24-60`, `io_impl.rs:49-183` | two endpoints on an encrypted connection whose bytes an attacker supplies |
| `Net.v` | `ipc/server.rs:48-76`, `client.rs:45-80`, `builder.rs:215-285` | any number of endpoints of `Ipc.v` joined by connections that can break |
| `Fair.v` | `stream_emitter/mod.rs:32`, `emit_metadata.rs:76-101` | the emit futures of `Emit.v` with the queue of the mutex around the write half |
| `Pair.v` | | two endpoints joined by a loss-free connection |

| specification | used for | proofs | theorems |
|---|---|---|---|
| `Spec.v` | C01-C13 | `BaseFacts`, `Utf8Facts`, `CodecFacts`, `DecodeFacts`, `ReaderFacts`, `EventProofs`, `IdsFacts` | `PropsEvent.v` |
| `SpecPayload.v` | C14-C19 | `PayloadFacts` | `PropsPayload.v` |
| `SpecCrypt.v` | C20-C32, C53-C57 | `CryptWriteFacts`, `CryptReadFacts`, `CryptFacts`, `CryptAttackFacts`, `CryptExchangeFacts`, `CryptClaims` | `PropsCrypt.v` |
| `SpecBuilder.v`, `SpecPool.v` | C35, C49, C50, C62 | `BuilderFacts`, `PoolFacts`, `SettingsFacts` | `PropsBuild.v`, `PropsSettings.v` |
| `SpecEmit.v` | C47, C48 | `EmitFacts`, `EmitPollFacts` | `PropsEmit.v` |
| `SpecIpc.v` | C33, C34, C36-C45, C51 | `IpcFacts`, `IpcChanFacts`, `IpcUsers`, `IpcLoops`, `IpcIds`, `IpcTasks`, `IpcReplies`, `IpcStreams`, `IpcClaims`, `IpcMore`, `IpcFlow`, `IpcLimits`, `IpcRemoved`, `IpcSenders`, `IpcFate` | `PropsDispatch.v`, `PropsReplies.v` |
| `SpecTimed.v` | C63 | `TimedFacts` | `PropsTimed.v` |
| `SpecWire.v` | C64 | `WireFacts`, `WireClaims`, `WireLock` | `PropsWire.v` |
| `SpecMore.v` | C58-C61 | `IpcLost` | `PropsMore.v` |
| `SpecProc.v` | C65 | `ProcFacts` | `PropsProc.v` |
| `SpecBounded.v` | C66 | `BoundedFacts`, `JamFacts` | `PropsBounded.v` |
| `SpecBytes.v` | C67 | `BytePairFacts`, `ByteRest`, `ByteAll` | `PropsBytes.v` |
| `SpecRest.v` | C68 | `Multi` (multiset order), `RestFacts`, `EchoFacts` | `PropsRest.v` |
| `SpecLink.v` | C71 | `LinkFacts`, `LinkSim`, `LinkRest`, `LinkAll` | `PropsLink.v` |
| `SpecOrder.v` | C72 | `OrderFacts` | `PropsOrder.v` |
| `SpecShared.v` | C73 | `SharedFacts`, `SharedRuns`, `SharedClaims` | `PropsShared.v` |
| `SpecConc.v` | C74 | `IpcConc` | `PropsConc.v` |
| `SpecAttack.v` | C76 | `AttackFacts` | `PropsAttack.v` |
| `SpecMiddle.v` | C77 | `AttackFacts` | `PropsMiddle.v` |
| `SpecCode.v` | C78 | `IpcCode` | `PropsCode.v` |
| `SpecNet.v` | C79 | `NetServer`, `NetFacts`, `NetEnd`, `NetRest` | `PropsNet.v` |
| `SpecFair.v` | C80 | `FairFacts`, `FairLive` | `PropsFair.v` |
| `SpecLive.v` | C81 | `PairLive`, `PairLiveMore` | `PropsLive.v` |
| `SpecPeers.v` | C82 | `PeersFacts`, `PeersRest`, `PeersFresh` | `PropsPeers.v`, `PropsPeersEx.v` |
| `SpecNested.v` (with `SpecLive.v`, `SpecPeers.v`) | C83 | `PeersLive`, `BoundLive` | `PropsNested.v` |
| `SpecByteLive.v` (with `SpecBytes.v`, `SpecNested.v`) | C84 | `ByteLive` | `PropsByteLive.v` |
| `SpecNetLive.v` (with `SpecNet.v`, `SpecLive.v`) | C85 | `NetLive`, `NetLiveMore`, `NetLiveRuns` | `PropsNetLive.v` |
| `SpecNested.v` (with `Bounded.v`, `SpecLive.v`) | C86 | `RoomLive` (with `PairLive`, `PairLiveMore`, `BoundLive`) | `PropsRoom.v` |
| `SpecByteLive.v` (with `BytePair.v`, `SpecBytes.v`, `SpecLive.v`) | C87 | `ByteLive`, `ByteRoom` (with `RoomLive`) | `PropsByteRoom.v` |
| `SpecNested.v` (with `SpecLive.v`, `SpecByteLive.v`) | C88 | `ProgLive` (with `PairLive`, `RoomLive`, `ByteRoom`) | `PropsProg.v` |
| `SpecStop.v` | C75 | `ByteStop`, `LinkStop` | `PropsStop.v`, `PropsStopLink.v` |
| `SpecLife.v` | C69 | `LifeFacts` | `PropsLife.v` |
| `SpecPair.v` | C46, C52, C70 | `PairFacts`, `PairServer`, `PairEnd`, `PairRest`, `PairQuiet`, `PairForever`, `PairStops`, `PairStream` | `PropsPair.v`, `PropsStreams.v` |

Others: `tools/manifest.py` writes `MANIFEST.json` from the theorem names; `tools/seed.py` runs the wrong-program experiments
whose results are in `seeded/LOG.jsonl`.

## Conventions

* A `&mut` function returns the new value. `Result` is `Ok`/`Err`; a panic or allocation failure is `Crash`.
* Bytes are the 256-constructor type `byte`; `u16/u32/u64` are `N`; casts `as u16/u32` are `mod 2^k`.
* The target has 64 bit `usize`. `vec![0; n]` crashes if `n > isize::MAX` or above a memory limit parameter (`env`).
* `overflow-checks` (debug/release) is a parameter of the decoder.
* External code is a parameter with its assumed behaviour as a premise of the theorem: the AEAD cipher, X25519,
  the serde format libraries, the wall clock, the scheduler, the transport.
* Timers are nondeterministic: a timer may fire at any moment while it is being waited for. Only `Timed.v` (C63) counts time.
* Claims of the documentation that the code does not keep are theorems with suffix `_refuted` giving a witness (for all
  parameters where that makes sense); the true condition stands beside them.

## Plan per property

* C01-C03, C05-C11: `Codec.v` is a total function on byte lists; algebraic proofs. C01 is an equivalence.
* C04: `Reader.v` interprets the same reading program over a scripted transport (bytes, cuts, Pending, errors, EOF);
  simulation with the pure interpreter.
* C12, C13: bit arithmetic on `N`; arbitrary sequences of clock readings.
* C14-C19: payload codecs as pairs of functions; the inner payload and serde libraries are parameters.
* C20, C21, C24, C53: arithmetic of nonces and the key/counter state after the handshake.
* C22, C25-C29, C56: poll level state machines of the two encrypted halves over scripted transports; invariants over all
  scripts and all sequences of calls.
* C23: induction over the adversarial package sequence; the cipher is a parameter with correctness and unforgeability premises.
* C30-C32, C54, C55, C57: key exchange as two programs over the transports; accept loop as a function of the list of attempts.
* C33-C34, C36-C45, C51: invariants over all label sequences of the endpoint LTS, with adversarial input. Everything in the
  statements is read off the trace of observations (event received, handler called, event sent, listener registered, ...).
  User code is a coinductive program that can react to every result and to arbitrary outside influence.
* C58-C61: more consequences of the same invariants: after all receive loops have ended no queue grows, so what requests and
  streams can still answer follows from what was queued; positions of sends in the trace; freshness of ids.
* C35, C49, C50, C62: histories of operations.
* C63: traces of timed polls of one future, with any times, any channel contents and any other activity in between.
* C64: an invariant of the futures over an abstract write half (idle, writing, written, flushing), instantiated with sockets and
  with encrypted streams; what the peer reads follows from C03/C04 and C22. The cancelled emit is followed through the polls of
  one later call.
* C65: projection of runs of the product onto one endpoint; ids of different endpoints kept apart by an invariant.
* C66: invariant (without streams a channel receives at most what its requester has asked for, after the request went out), then case analysis on a state without steps; for streams an execution with the capacity as parameter.
* C67: simulation relation between bytes on the way and events on the way (proper prefix of the next event read, rest in transit, prefix of the event being written), by induction over byte steps; then transfer of C52, C66.
* C68: well-founded multiset order on what is left to do (tasks with their remaining code, events on the way, events held by receive loops, stop signals, undropped streams): each step replaces one item by finitely many smaller ones. Accessibility, not numbers, because answers of the environment branch infinitely.
* C69: invariant of `Life.v`: each count is the sum of the references held by what is alive, the write half exists iff its count is positive; the stop sender wakes the abort task only after stop() or when no loop is left; an end without loop and owners can do nothing, so the order client first, server second follows by induction on histories.
* C70: C42's history of a stream composed with the invariant that what a client reads for a request is a prefix of what the handler's task sent; transferred to bytes by C67's simulation.
* C71: as C67, with the sealed packages of the events in place of their bytes: simulation from steps of the encrypted streams to `Pair.v`; the starting states are those the key exchange of `Crypt.v` leaves (`established`). C52, C66 and C70 transferred. Conversely every run of `Pair.v` whose events fit a package is run over the encrypted streams, each event written and read at once (`LinkAll`).
* C72: invariant of the receive loop of each connection (events read = events processed ++ what the loop holds), joined with the wire invariant of `PairFacts`; carried to bytes and to encrypted streams by the simulations of C67 and C71; ids from C61.
* C73: histories of lock calls, drops and accesses by any number of tasks; invariant of the permits (free + held + collected by the first waiter = MAX_READS, queue sorted by arrival, nobody holds who came after a waiter); the specification (`latest`, `excludes`, first come first served) speaks of the history alone. That all contexts of one build use one store is C62_sharing.
* C74: on the endpoint model of `Ipc.v`: induction on the list of events to be received (each dispatch leaves loop and listeners as they were); a monotonicity invariant of task steps (channels only get emptier or closed, loops unchanged) shows that no task step disables a loop step; the ownership invariant of channels (`users`) shows that a panic disables nothing outside its task.
* C75: on the byte pair of `BytePair.v`: an ended loop stays ended (`down_done`), so the byte queue towards it only grows; an accounting invariant (bytes begun of the event being written ++ bytes added = bytes of events sent ++ bytes begun now) bounds what is sent by the room; a full queue disables every write, so sending tasks keep their state by induction over the run. The same over encrypted streams, counting package bytes (`LinkStop`).
* C76: invariant of the reader (between packages; the bytes given so far are the packages read plus a rest that is no whole package, numbered by the events read) and of the writer (bytes written = sealed packages of the events sent plus the beginning of the one in flight) over runs in which the attacker's bytes arrive; unforgeability hypothesised about the packages actually given.
* C77: composition of `server_exchange` and `client_exchange` of `Crypt.v` with the attacker's own computation between them; then the reader and writer invariants of C76 with the attacker's events in place of the peer's.
* C78: `SpecCode.v` gives user code a sequential semantics (`operation`, `executes`): what each operation shows and with which results the program goes on. Invariant over `Ipc.v`: what a task has done so far is such an execution, up to the operation under way; a table of the code each task was started with covers spawned tasks.
* C79: projection of a run of the network onto each endpoint (a run of `Ipc.v`); per connection the invariant events sent = events read ++ events on the way; the server invariants of C52 without its assumption that nothing is closed; ids requested at one endpoint are distinct whatever connection they use, so an answer delivered for an id belongs to the connection the id was sent over.
* C80: the invariant of C47 on the view in which a future that was handed the mutex counts as writing, with (pieces so far ++ queue) a sublist of the order of asking; starvation: the number of bytes still to be written by those up to `i` in the line decreases
* C81: endless runs as functions from time to labels, states and observations over `Pair.v`; "leads to" by weak fairness (`within`, `lead`), stage by stage: the send completes, the wire drains (each event has finitely many before it), the handler speaks (induction on `speaks`), the client's loop never stays blocked (rank of the channel's user: sending, waiting, taking), the waiting task takes its reply. Existence of fair runs: a schedule that tries everything again and again (Cantor pairing).
* C82: `polite` user code on both sides of `Pair.v`; a call of a handler is tied to the asking event sent before it, an event with a reference to the handler that was called for it, so nothing with reference x is read before the request x listens; replies are then the queue of the request (flow). At rest: what a waiting task waits for was processed by the other end (C72), so it was read as a reply, or its handler panicked or waits itself (a handler that ends has sent a reply); the asking events of such a chain lie ever earlier in the trace, so the chain ends (induction on positions). Bounded, bytes, encryption by the refinements of C66, C67, C71.
* C83: endless runs of `Pair.v` with `plain_code` at both ends, as in C81. A request that waits is sent, then processed at the other end (loops are fair), then its handler is called or the request is read as a reply. The handler's code is a finite tree (`finishes`), gone through by induction; at each of its own requests an id is made, so an induction over the ids not yet made (at most 2^33) closes the circle between "requests get results" and "handlers answer". What is left is `blocked`, as in C82. Bounded capacity: runs of `Bounded.v` are runs of `Pair.v`; that senders have their turns is proved from strong fairness: the other loop reads even while all senders wait (nothing is queued for a request not yet sent), so room comes again and again.
* C84: an endless run of `BytePair.v` is simulated step by step by an endless run of `Pair.v` (`one`, from the proof of C67): the last byte of an event written is its send, the last byte read its delivery, other bytes are nothing. Fairness is carried over: a loop that reads bytes reads whole events (induction on the bytes missing); every byte is read even if all senders wait (as in C83); so a sender holding the writer finishes (induction on what is left), so the writer becomes free, so any sender gets it. Then C83 applies.
* C85: the argument of C81, at two endpoints of an endless run of `Net.v`; what the endpoints do at other times, and all other endpoints, leave the tasks, channels and queues concerned as they are. Only the client's task loop, its loop of the connection, the server's tasks and its loop are assumed to be fair; a reply read waits in the loop until its channel has room, which the user makes. That a reply belongs to the request is C79. Fair runs are built for every network by trying everything in turn (the fair run breaks nothing, so no write is refused).
* C86: the server always reads (its dispatch never waits: replies are the only thing it sends), so the client's sends complete. The client reads unless a reply waits for a channel the user has not drained, which he drains; a channel whose request has not been sent yet is empty, so a task that waits to send never holds up the loop that would make room. So the server's sends complete too, and the arguments of C81, which only need every task to get its turns, apply as they are.
* C87: the simulation of C84 turns the run over bytes into a run on events. The argument that every byte is read and every send completes needs only that the loops are not aborted and that a reply read is placed at some time; both hold for the client and the server of C86, so the same lemma gives every task its turns, and the rest is C81 at the events.
* C88: induction on the finite tree of the code (`finishes`). A task about to do something does it at some time; a request is answered by C81 (C86, C87), which needs that its channel feeds no stream: a task whose code opens none never does, and a channel just made had no stream. While the task waits there is no reply for it in the trace (its listener's channel is open), so a reply means that it has gone on with a smaller tree.
* C46, C52: product of two endpoints; a measure for termination, an invariant linking both traces for end to end requests.
* C47, C48: interleaving model of emit tasks over a mutex protected writer, every poll a step, writes of any length,
  failures, dropped futures.

## Trusted base

* Coq's kernel (8.16.1, `coqc`), with no checks switched off, no axioms, no plugins, no functors.
* `Print Assumptions` under every theorem of the manifest prints *Closed under the global context*: no axiom is used.
  vcheck lists seven constants `Coq.ssr.ssrunder.Under_rel.*`: a module type instance of the standard library's ssreflect
  that gets loaded with `Lia`/`Zify`; no theorem depends on them.
* The model is written by hand from the text of the code; that it is faithful is not machine-checked. Citations in the
  comments make it reviewable, `seeded/LOG.jsonl` records that wrong versions of it break the theorems.

### Modelled from documentation, not from source (part of the trusted base)

* tokio: `AsyncReadExt::read_u8/u16/u32/u64/read_exact`, `write_all`, `flush`, `mpsc::channel(8)`, `oneshot`, `Mutex`
  (a fair queue is modelled and used in C80 only; no other property needs it), `select!`, `spawn`, `JoinHandle::abort` (takes effect at an await point).
* `dashmap`/`HashMap`/`TypeMap` as finite maps with atomic single operations.
* `byteorder`, `num_enum`, `String::from_utf8` (the last proved equivalent to the Unicode definition).

### Not modelled

* `protocol/tcp.rs`, `protocol/unix_socket.rs`: thin delegations to tokio sockets; they are the "transport" of the model,
  whose behaviour is arbitrary (any chunking, Pending, errors, end of stream).
* Tracing output, `Display` texts of errors (`ErrorEventData`'s own texts are modelled where they reach the wire: `cf_debug`).
* Weak memory: counters and maps are sequentially consistent. The only shared atomics are counters (`Ordering::SeqCst` /
  `Relaxed` `fetch_add`, for which atomicity is all that is used) and mutex protected values.
* Real time outside `Timed.v`: in the endpoint model durations do not exist, a timer may fire whenever it is awaited. In
  `Timed.v` a `sleep(d)` made at tick `n` is ready in polls from tick `n + d` on; that tokio rounds to its ticks, wakes the task and
  caps absurdly long durations is not modelled.
* Cryptographic strength: secrecy and computational assumptions are not expressible in this model. What is proved is
  functional (agreement, delivery, detection under an explicit `unforged` premise) or an attack.
* The session secret (SHA-256 of random bytes, `crypt_handling.rs` `generate_secret`) is a parameter of the exchange; `utils.rs`
  (`generate_secret` for static keys) is not modelled.
* The bytes inside serde formats.
* `benches/`, `tests/`, `lib.rs` (re-exports), `macros.rs` (`callback!` wraps a function, `events!` is a sequence of `on` calls,
  `namespace!` calls `from_provider`: abbreviations for calls that are modelled).
* A task that polls several futures of the crate concurrently (`join!`, `select!`) is represented by several tasks; a future
  of the crate may be dropped at any await point.
