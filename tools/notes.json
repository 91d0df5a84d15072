{
 "C08": {
  "note": "the claim 'no input crashes the reader' is refuted by the two _refuted theorems; C08_when_reading_crashes is the exact condition"
 },
 "C09": {
  "note": "'bounded by received bytes' is refuted"
 },
 "C10": {
  "note": "the documented header table is refuted"
 },
 "C11": {
  "note": "Event::end is refuted to produce an End event"
 },
 "C42": {
  "note": "'exactly the events received' holds for one connection (C42_stream_yields_received_in_order, _everything); with several connections sharing the listener table only per connection"
 },
 "C39": {
  "note": "premise 'no received event carries an id created locally' appears as never_handled (no event with that id was passed to a handler)"
 },
 "C46": {
  "note": "The bound of two further events per event and coming to rest are for pairs whose user handlers emit nothing; rest additionally needs the handlers to end. The debug text of an error must survive its own encoding (debug_fits), as Rust's UTF-8 strings do."
 },
 "C52": {
  "note": "One client, one server connection; server handlers emit anything but do not themselves wait for replies. Hypotheses: no id clash (few_events, never_handled), loops not stopped, no reply stream of the client is full (room). A handler that panics before emitting answers nothing, which the theorem says."
 },
 "C13": {
  "note": "negative finding: 'ids are globally unique' does not hold; the theorems give the exact coincidence condition and a witness"
 },
 "C21": {
  "note": "negative finding: nonce reuse between directions, for every key and every count"
 },
 "C24": {
  "note": "negative finding: reflection is accepted"
 },
 "C26": {
  "note": "negative finding: data loss after a cancelled write"
 },
 "C32": {
  "note": "negative finding: one failed handshake ends the server"
 },
 "C34": {
  "note": "the promise of SPECIFICATON.md is refuted by C34_ignored_refuted; the other theorem says what happens instead"
 },
 "C40": {
  "note": "negative finding about ids chosen by the peer"
 },
 "C64": {
  "note": "'a cancelled emit does no harm' is refuted for encrypted connections; on plain ones a cancelled partial write corrupts the stream (C47)"
 },
 "C65": {
  "note": "projection of every run of the process onto each endpoint (so C33-C45, C51, C58-C61 hold for each), indifference to the steps of others, ids unique over the process (fewer than 2^32 events, SystemTime-like clock)"
 },
 "C66": {
  "note": "no_jam: progress theorem for every positive capacity (counted in events) and user code without reply streams, stop and forged contexts; streams_can_jam: for every capacity a reachable state with no step but dropping futures/streams"
 },
 "C67": {
  "note": "forward simulation from the byte-level pair to Pair.v (and back, for a large enough capacity); C52 and C66 transferred, for every positive capacity in bytes; loss-free connection: no failing write, no dropped send"
 },
 "C68": {
  "note": "accessibility of every reachable state in the step relation of Pair.v (all steps except creation of unrelated events), proved with a multiset order; server handlers do not wait for replies themselves; loss-free connection. The last clause is the refuted version without the condition on client handlers."
 },
 "C69": {
  "note": "reference counts of the shared write half and the stop sender modelled next to a ledger of owners; transport: dropping the write half is end of file for the peer after what was written; a receive loop blocked on a full reply stream (C44) reads on only when the stream is read or dropped"
 },
 "C70": {
  "note": "loss-free connection, server handlers do not wait for replies themselves; C70_streams_over_bytes is the same over byte streams of any positive capacity. The statement about rest asks that other streams of the client do not block its receive loop (C44) and that it was not stopped."
 },
 "C71": {
  "note": "the connection starts in a state the modelled key exchange leaves at both ends; loss-free transport, no failing write, no dropped send; forward simulation to Pair.v, then C52, C66, C70 transferred for every positive capacity in bytes"
 },
 "C72": {
  "note": "Event level (Pair), byte level (BytePair) and encrypted (Link). The order is that in which sends complete; ids distinct needs fewer than 2^32 events per process and real clocks, as in C61. 'Everything processed' needs handlers and programs without reply streams (C66 shows why)."
 },
 "C73": {
  "note": "The lock is tokio's RwLock, modelled from its batch semaphore (a dependency: trusted to be as modelled); 'in vain' excludes 2^29-1 simultaneous calls; a task waiting for a lock does nothing else, and only dropping the waiting future or the whole task ends that. Which contexts share the data: C62_sharing."
 },
 "C74": {
  "note": "Over the endpoint model: the loop's own waits are reading and handing a reply to a full listener queue (C44, C66); a blocking (non-async) handler that keeps a tokio worker thread busy is outside the model, as is panic=abort."
 },
 "C75": {
  "note": "over the byte pair of BytePair.v (plain sockets) and over the encrypted link of Link.v (events that fit one package). The connection stays open as long as anything at the stopped end owns its write half (C69). Dropping the future of a send (as a select in user code might) is not a step of that model."
 },
 "C76": {
  "note": "after the key exchange (`connected` says that it was not tampered with; see C77). Unforgeability of the cipher is a hypothesis on the run (which packages given were accepted), not on the cipher; good_cipher only says that decryption inverts encryption. Every event made fits one package. No write fails and no future of a send is dropped. The two refutations say what the code does not guarantee (same key and counters in both directions)."
 },
 "C77": {
  "note": "a limit of the protocol (the theorems named _refuted state what is not guaranteed); positive half: C77_only_with_an_accepted_key. The attacker's own computation is the function `middle` (and `spied` for reading), from what he sees and his secret key only."
 },
 "C78": {
  "note": "over the endpoint model (Ipc.v), where user code is the coinductive type prog; results of operations are any the library can give (C38, C42, C63 say which)."
 },
 "C79": {
  "note": "over Net.v: wires carry events (C47, C02, C22, C67, C71 carry events to bytes). A client is joined to accepted server connections whose handlers reply, emit and do anything but wait for replies; the event counter is per endpoint (C65 for a shared one). After a failed write nothing more is completely written to that connection; futures of sends are not dropped half way (C64)."
 },
 "C80": {
  "note": "over Fair.v, which adds the FIFO queue of tokio::sync::Mutex (batch_semaphore: hand-over to the first waiter, removal on drop, coop budget) to the emit futures of Emit.v; that tokio's mutex works this way is trusted. Emits of one kind (send); requests wait for the connection through the same future. C47 (which does not rely on the queue) holds for any mutex."
 },
 "C81": {
  "note": "over Pair.v; weak fairness (a task or loop that could always go on gets a turn); the user reads his streams or drops them (without that a full stream blocks the loop: C66). The client's loop is not stopped. If the client's process ever creates more than 2^32 events, ids may repeat and nothing is claimed from then on. Items are claimed to be handed to the stream's queue; that a call of next() yields them in order is C42."
 },
 "C82": {
  "note": "over Pair.v, both ends with any polite code (anything but contexts of other events), also from within handlers; at rest without reply streams (with them: C66). The results of requests given up are part of the trace as None."
 },
 "C83": {
  "note": "over Pair.v, both ends with plain_code (no streams: a stream nobody reads blocks the loop, C66); weak fairness. Handlers end once their own requests have results (`finishes`); tasks and spawned tasks need not. If an end makes more than 2^32 events, ids may repeat and nothing is claimed from then on; handlers that ask each other in circles without end get there. Over bounded capacity a sender must not be passed over for ever (eager_tasks); the crate locks the writer with a fair mutex, C80."
 },
 "C84": {
  "note": "over BytePair.v; plain_code at both ends as in C83. Assumed: all events sent can be carried (all_deliverable: C67), no sender that could write again and again is passed over for ever (the writer's mutex is fair, C80), loops read weakly fairly. Nothing is claimed once an end has made 2^32 events."
 },
 "C85": {
  "note": "over Net.v, as C79: the servers are accepted connections with only_replies handlers, any client, any other endpoints. Assumed: weak fairness of the tasks of the two ends and of their loops of this connection (nothing of the others), the user reads or drops the streams fed by the connection. Nothing is claimed once the client has made 2^32 events."
 },
 "C86": {
  "note": "over Bounded.v (buffers counted in events). Server: only_replies handlers, no tasks of its own. Assumed: a task that can act again and again is not passed over for ever (senders wait in line for the writer's mutex, C80), loops read weakly fairly, every reply stream opened is read or dropped. A request answered in the case of a panic or after 2^32 events is not claimed. C66_streams_can_jam shows that reading is needed."
 },
 "C87": {
  "note": "over BytePair.v, as C84. Server: only_replies handlers, no tasks of its own. Assumed: every event can be carried (all_deliverable: C67), no sender that could write again and again is passed over for ever (the writer's mutex is fair, C80), loops read weakly fairly, every reply stream opened is read or dropped. Nothing is claimed once the client has made 2^32 events."
 },
 "C88": {
  "note": "over Pair.v, Bounded.v and BytePair.v, with the hypotheses of C81, C86 and C87. The program: a finite tree (finishes) of emits, awaited requests, environment reads and spawns; it opens no streams and stops no connections. Assumed: no event with the id of one of the client's requests is handled by the client (ids of the two processes differ). The server's handlers must not panic before sending: otherwise the request waits for good (no timeout is assumed to fire)."
 }
}
